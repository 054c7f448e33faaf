(** Images: addressing, conversions, generators. *)
From Coq Require Import ZArith List Bool Lia Psatz Reals Lra.
From Verif Require Import Base Num MNurbs MStream MImage SImage LBase.
Import ListNotations.
Open Scope Z_scope.

Lemma vget_byte l i : 0 <= i < vsize l -> vget l i = Ok (byte l i).
Proof.
  intros H. destruct (vget_in_range l i H) as [x E]. rewrite E. f_equal. unfold byte. apply vget_Ok in E. destruct E as [_ E]. symmetry. apply nth_error_nth. exact E.
Qed.
Lemma byte_of l i x : vget l i = Ok x -> byte l i = x.
Proof. intros E. pose proof (vget_range _ _ _ E). rewrite (vget_byte l i) in E by assumption. injection E. auto. Qed.
Lemma vset_byte l i x : 0 <= i < vsize l -> exists l', vset l i x = Ok l' /\ vsize l' = vsize l /\ forall j, 0 <= j -> byte l' j = if j =? i then x else byte l j.
Proof.
  intros H. pose proof (vset_in_range l i x H) as E. eexists. split; [exact E|]. pose proof (vset_size _ _ _ _ E) as S. split; [exact S|]. intros j Hj.
  destruct (Z_lt_dec j (vsize l)) as [L|G].
  - apply byte_of. rewrite (vget_vset _ _ _ _ j E). destruct (j =? i); [reflexivity|apply vget_byte; lia].
  - destruct (Z.eqb_spec j i); [lia|]. unfold byte. rewrite !nth_overflow; [reflexivity| |]; unfold vsize in *; lia.
Qed.
Lemma byte_app_l u v i : 0 <= i < vsize u -> byte (u ++ v) i = byte u i.
Proof. intros H. unfold byte. apply app_nth1. unfold vsize in H. lia. Qed.
Lemma byte_app_r u v i : vsize u <= i -> byte (u ++ v) i = byte v (i - vsize u).
Proof. intros H. unfold byte. rewrite app_nth2 by (unfold vsize in H; lia). f_equal. unfold vsize in *. lia. Qed.
Lemma byte_firstn l n i : 0 <= i < n -> byte (firstn (Z.to_nat n) l) i = byte l i.
Proof.
  intros H. unfold byte. destruct (Nat.lt_ge_cases (Z.to_nat i) (length l)) as [L|G].
  - rewrite <- (firstn_skipn (Z.to_nat n) l) at 2. rewrite app_nth1; [reflexivity|]. rewrite firstn_length. lia.
  - rewrite !nth_overflow; [reflexivity|exact G|rewrite firstn_length; lia].
Qed.
Lemma byte_skipn l n i : 0 <= i -> 0 <= n -> byte (skipn (Z.to_nat n) l) i = byte l (n + i).
Proof.
  intros H Hn. unfold byte. replace (Z.to_nat (n + i)) with (Z.to_nat n + Z.to_nat i)%nat by lia. generalize (Z.to_nat n) (Z.to_nat i). clear.
  intros n i. revert l. induction n as [|n IH]; intros [|x l]; cbn; auto. destruct i; reflexivity.
Qed.
Lemma byte_over l i : vsize l <= i -> byte l i = 0.
Proof. intros H. unfold byte. apply nth_overflow. unfold vsize in H. lia. Qed.
Lemma byte_ok l i : bytes_ok l -> 0 <= byte l i < 256.
Proof.
  intros H. unfold byte. destruct (Nat.lt_ge_cases (Z.to_nat i) (length l)) as [L|G].
  - apply (Forall_nth (fun b => 0 <= b < 256)); assumption.
  - rewrite nth_overflow by exact G. lia.
Qed.
Lemma bytes_ok_nth l : (forall i, 0 <= i < vsize l -> 0 <= byte l i < 256) -> bytes_ok l.
Proof.
  intros H. apply Forall_forall. intros b Hb. apply In_vget in Hb. destruct Hb as [i [Hi E]]. rewrite <- (byte_of _ _ _ E). auto.
Qed.
Lemma vsize_firstn {A} (l : list A) n : 0 <= n -> vsize (firstn (Z.to_nat n) l) = Z.min n (vsize l).
Proof. intros H. unfold vsize. rewrite firstn_length. lia. Qed.
Lemma vsize_skipn {A} (l : list A) n : 0 <= n -> vsize (skipn (Z.to_nat n) l) = Z.max 0 (vsize l - n).
Proof. intros H. unfold vsize. rewrite skipn_length. lia. Qed.

Lemma put_bytes_size buf a l : 0 <= a -> a + vsize l <= vsize buf -> vsize (put_bytes buf a l) = vsize buf.
Proof. intros H1 H2. unfold put_bytes, vsize in *. rewrite !app_length, firstn_length, skipn_length. lia. Qed.
Lemma put_bytes_byte buf a l j : 0 <= a -> a + vsize l <= vsize buf -> 0 <= j ->
  byte (put_bytes buf a l) j = if (a <=? j) && (j <? a + vsize l) then byte l (j - a) else byte buf j.
Proof.
  intros H1 H2 Hj. unfold put_bytes. pose proof (vsize_nonneg l) as NL. assert (vsize (firstn (Z.to_nat a) buf) = a) as S1 by (rewrite vsize_firstn by lia; lia).
  destruct (Z.leb_spec a j); cbn [andb].
  - rewrite byte_app_r by lia. rewrite S1. destruct (Z.ltb_spec j (a + vsize l)).
    + apply byte_app_l. lia.
    + rewrite byte_app_r by lia. replace (Z.to_nat a + length l)%nat with (Z.to_nat (a + vsize l)) by (unfold vsize in *; lia). rewrite byte_skipn by lia. f_equal. lia.
  - rewrite byte_app_l by lia. apply byte_firstn. lia.
Qed.

(** ** Addressing *)
Lemma im_addr_asserts im x y p : inside im x y p -> im_addr im x y p = do a <- iint (im_p im * im_w im); do a <- iint (a * y); do c <- iint (x * im_p im); Ok (p + a + c).
Proof. intros [X [Y P]]. unfold im_addr. rewrite !bind_massert_true; [reflexivity| | | | | |]; try apply Z.leb_le; try apply Z.ltb_lt; lia. Qed.
Lemma mul_le_trans a b c m : 0 <= a -> b <= c -> a * c <= m -> a * b <= m.
Proof. nia. Qed.
Lemma im_addr_ok im x y p : addressable (im_w im) (im_h im) (im_p im) -> inside im x y p -> im_addr im x y p = Ok (p + im_p im * im_w im * y + x * im_p im).
Proof.
  intros [A1 A2] I. rewrite im_addr_asserts by exact I. destruct I as [X [Y P]]. assert (0 <= im_p im * im_w im) by (apply Z.mul_nonneg_nonneg; lia).
  rewrite (iint_ok (im_p im * im_w im)) by (unfold int_min; lia). cbn [bind].
  rewrite (iint_ok (im_p im * im_w im * y)). 2: { split; [unfold int_min; assert (0 <= im_p im * im_w im * y) by (apply Z.mul_nonneg_nonneg; lia); lia|]. apply (mul_le_trans _ y (im_h im - 1)); lia. }
  cbn [bind]. rewrite (iint_ok (x * im_p im)). 2: { split; [unfold int_min; assert (0 <= x * im_p im) by (apply Z.mul_nonneg_nonneg; lia); lia|]. rewrite Z.mul_comm. apply (mul_le_trans _ x (im_w im)); lia. }
  reflexivity.
Qed.
Lemma im_addr_big im x y p : inside im x y p -> int_max < im_p im * im_w im * y -> im_addr im x y p = Err FOverflow.
Proof.
  intros I H. rewrite im_addr_asserts by exact I. destruct I as [X [Y P]]. assert (0 <= im_p im * im_w im) by (apply Z.mul_nonneg_nonneg; lia).
  destruct (Z_le_gt_dec (im_p im * im_w im) int_max).
  - rewrite (iint_ok (im_p im * im_w im)) by (unfold int_min; lia). cbn [bind]. rewrite iint_big by exact H. reflexivity.
  - rewrite iint_big by lia. reflexivity.
Qed.
Lemma im_addr_inside im x y p a : im_addr im x y p = Ok a -> inside im x y p /\ a = p + im_p im * im_w im * y + x * im_p im.
Proof.
  unfold im_addr. intros E. repeat (apply bind_Ok in E; let H := fresh "H" in destruct E as [? [H E]]; first [apply massert_Ok in H | apply iint_Ok in H]). injection E as <-.
  repeat match goal with H : (_ <=? _) = true |- _ => apply Z.leb_le in H | H : (_ <? _) = true |- _ => apply Z.ltb_lt in H end. unfold inside. repeat split; lia.
Qed.
Lemma im_addr_outside im x y p : ~ inside im x y p -> im_addr im x y p = Err FAssert.
Proof.
  intros H. unfold im_addr, massert. destruct (Z.leb_spec 0 x), (Z.leb_spec 0 y), (Z.leb_spec 0 p), (Z.ltb_spec x (im_w im)), (Z.ltb_spec y (im_h im)), (Z.ltb_spec p (im_p im)); cbn; try reflexivity.
  exfalso. apply H. unfold inside. lia.
Qed.
Lemma addr_range w h P x y p : 0 <= x < w -> 0 <= y < h -> 0 <= p < P -> 0 <= p + P * w * y + x * P < w * h * P.
Proof.
  intros X Y Q. assert (0 <= P * w * y) by (repeat apply Z.mul_nonneg_nonneg; lia). assert (P * w * (y + 1) <= P * w * h) by (apply Z.mul_le_mono_nonneg_l; [apply Z.mul_nonneg_nonneg|]; lia). assert (0 <= x * P) by (apply Z.mul_nonneg_nonneg; lia). assert ((x + 1) * P <= w * P) by (apply Z.mul_le_mono_nonneg_r; lia). lia.
Qed.
Lemma addr_inj w P x y p x' y' p' : 0 <= x < w -> 0 <= p < P -> 0 <= x' < w -> 0 <= p' < P -> 0 <= y -> 0 <= y' ->
  p + P * w * y + x * P = p' + P * w * y' + x' * P -> x = x' /\ y = y' /\ p = p'.
Proof.
  intros X Q X' Q' Y Y' E. assert (0 <= p + x * P < P * w) by nia. assert (0 <= p' + x' * P < P * w) by nia.
  assert (y = y') as ->.
  { apply (Z.div_mod_unique (P * w) y y' (p + x * P) (p' + x' * P)); [left|left|]; lia. }
  split; [|split; [reflexivity|]]; apply (Z.div_mod_unique P x x' p p'); (left + idtac); lia.
Qed.
Lemma addr_in_bounds im x y p : wfi im -> inside im x y p -> exists a, im_addr im x y p = Ok a /\ 0 <= a < vsize (im_data im).
Proof.
  intros [_ [_ [_ [S [_ A]]]]] H. rewrite (im_addr_ok im x y p A H). eexists. split; [reflexivity|]. rewrite S. destruct H as [X [Y P]]. apply addr_range; assumption.
Qed.
Lemma wf_addr im : wfi im -> addressable (im_w im) (im_h im) (im_p im). Proof. intros W. apply W. Qed.
Lemma addr_disjoint im x y p x' y' p' a : im_addr im x y p = Ok a -> im_addr im x' y' p' = Ok a -> x = x' /\ y = y' /\ p = p'.
Proof.
  intros E E'. apply im_addr_inside in E. apply im_addr_inside in E'. destruct E as [[X [Y P]] E], E' as [[X' [Y' P']] E']. apply (addr_inj (im_w im) (im_p im)); try lia.
Qed.
Lemma im_get_ok im x y p : wfi im -> inside im x y p -> im_get im x y p = Ok (byte (im_data im) (p + im_p im * im_w im * y + x * im_p im)).
Proof.
  intros W H. unfold im_get. rewrite (im_addr_ok im x y p (wf_addr im W) H). cbn [bind]. apply vget_byte. destruct (addr_in_bounds im x y p W H) as [a [E B]]. rewrite (im_addr_ok im x y p (wf_addr im W) H) in E. injection E as <-. exact B.
Qed.
Lemma im_get_byte im x y p : wfi im -> inside im x y p -> exists v, im_get im x y p = Ok v /\ 0 <= v < 256.
Proof. intros W H. eexists. split; [apply im_get_ok; assumption|]. apply byte_ok. apply W. Qed.
Lemma im_put_ok im x y p v : wfi im -> inside im x y p -> 0 <= v < 256 ->
  exists im', im_put im x y p v = Ok im' /\ wfi im' /\ same_size im im' /\
    forall x' y' p', inside im x' y' p' -> im_get im' x' y' p' = if (x' =? x) && (y' =? y) && (p' =? p) then Ok v else im_get im x' y' p'.
Proof.
  intros W H V. unfold im_put. destruct (addr_in_bounds im x y p W H) as [a [E B]]. rewrite E. cbn [bind].
  destruct (vset_byte (im_data im) a v B) as [d [Ed [Sd Bd]]]. rewrite Ed. cbn [bind]. eexists. split; [reflexivity|].
  pose proof W as [W1 [W2 [W3 [W4 W5]]]].
  assert (wfi (mkImg (im_w im) (im_h im) (im_p im) d)) as W'.
  { unfold wfi. cbn. repeat (split; [assumption|]). split; [lia|]. destruct W5 as [W5 W6]. split; [|exact W6]. apply bytes_ok_nth. intros i Hi. rewrite Bd by lia. destruct (i =? a); [exact V|]. apply byte_ok, W5. }
  split; [exact W'|]. split; [repeat split|]. intros x' y' p' H'. rewrite (im_get_ok _ x' y' p' W' H'), (im_get_ok _ x' y' p' W H'). cbn [im_data im_w im_p].
  rewrite (im_addr_ok im x y p (wf_addr im W) H) in E. injection E as E.
  rewrite Bd. 2: { destruct H' as [X' [Y' P']]. pose proof (addr_range _ _ _ _ _ _ X' Y' P'). lia. }
  destruct (Z.eqb_spec (p' + im_p im * im_w im * y' + x' * im_p im) a) as [Q|Q].
  - rewrite <- E in Q. destruct H' as [X' [Y' P']], H as [X [Y P]]. apply (addr_inj (im_w im) (im_p im)) in Q; try lia. destruct Q as [-> [-> ->]]. rewrite !Z.eqb_refl. reflexivity.
  - destruct (Z.eqb_spec x' x) as [->|]; [|reflexivity]. destruct (Z.eqb_spec y' y) as [->|]; [|reflexivity]. destruct (Z.eqb_spec p' p) as [->|]; [|reflexivity]. exfalso. apply Q. exact E.
Qed.
Lemma addressable_size w h p : 0 <= w -> 0 <= h -> 0 <= p -> addressable w h p -> 0 <= w * h * p < 2 ^ 64.
Proof.
  intros W H P [A B]. unfold int_max in *. assert (0 <= p * w) by (apply Z.mul_nonneg_nonneg; assumption). replace (w * h * p) with (p * w * (h - 1) + p * w) by ring.
  split; [|lia]. destruct (Z.eq_dec h 0) as [->|]; [lia|]. assert (0 <= p * w * (h - 1)) by (apply Z.mul_nonneg_nonneg; lia). lia.
Qed.
Lemma addressable_mono w h p q : 0 <= w -> 0 <= p <= q -> addressable w h q -> addressable w h p.
Proof.
  intros W P [A B]. assert (p * w <= q * w) by (apply Z.mul_le_mono_nonneg_r; lia). split; [lia|]. assert (0 <= p * w) by (apply Z.mul_nonneg_nonneg; lia).
  destruct (Z_le_gt_dec 0 (h - 1)) as [L|G].
  - apply (Z.le_trans _ (q * w * (h - 1))); [apply Z.mul_le_mono_nonneg_r; assumption|exact B].
  - assert (p * w * (h - 1) <= 0) by (apply Z.mul_nonneg_nonpos; lia). unfold int_max. lia.
Qed.
Lemma im_resize_total im w h p : 0 <= w -> 0 <= h -> 0 <= p -> exists im', im_resize im w h p = Ok im' /\ im_w im' = w /\ im_h im' = h /\ im_p im' = p.
Proof.
  intros W H P. unfold im_resize. rewrite !bind_massert_true by (apply Z.leb_le; assumption). unfold vresize.
  pose proof (Z.mod_pos_bound (w * h * p) (2 ^ 64) ltac:(lia)). destruct (Z.ltb_spec ((w * h * p) mod 2 ^ 64) 0); [lia|]. cbn [bind]. eexists. repeat split.
Qed.
Lemma im_resize_ok im w h p : 0 <= w -> 0 <= h -> 0 <= p -> w * h * p < 2 ^ 64 -> exists im', im_resize im w h p = Ok im' /\ im_w im' = w /\ im_h im' = h /\ im_p im' = p /\
  vsize (im_data im') = w * h * p /\ (forall i, 0 <= i < w * h * p -> byte (im_data im') i = byte (im_data im) i) /\ (bytes_ok (im_data im) -> addressable w h p -> wfi im').
Proof.
  intros W H P L. unfold im_resize. rewrite !bind_massert_true by (apply Z.leb_le; assumption). unfold vresize.
  assert (0 <= w * h * p) as N by (repeat apply Z.mul_nonneg_nonneg; assumption). rewrite (Z.mod_small (w * h * p)) by lia. destruct (Z.ltb_spec (w * h * p) 0); [lia|]. cbn [bind]. eexists. split; [reflexivity|]. cbn.
  set (d := firstn (Z.to_nat (w * h * p)) (im_data im) ++ repeat 0 (Z.to_nat (w * h * p) - length (im_data im))).
  assert (vsize d = w * h * p) as S. { unfold d. rewrite vsize_app, vsize_firstn, vsize_repeat by lia. unfold vsize. lia. }
  repeat (split; [reflexivity|]). split; [exact S|].
  assert (forall i, 0 <= i < w * h * p -> byte d i = byte (im_data im) i) as B.
  { intros i Hi. unfold d. destruct (Z_lt_dec i (vsize (im_data im))).
    - rewrite byte_app_l by (rewrite vsize_firstn; lia). apply byte_firstn. lia.
    - rewrite byte_app_r by (rewrite vsize_firstn; lia). rewrite (byte_over (im_data im)) by lia. unfold byte. apply nth_repeat. }
  split; [exact B|]. intros OK AD. unfold wfi. cbn. do 3 (split; [assumption|]). split; [exact S|]. split; [|exact AD]. apply bytes_ok_nth. intros i Hi. rewrite B by lia. apply byte_ok, OK.
Qed.
Lemma resize_wf im w h p : 0 <= w -> 0 <= h -> 0 <= p -> addressable w h p -> bytes_ok (im_data im) -> exists im', im_resize im w h p = Ok im' /\ im_w im' = w /\ im_h im' = h /\ im_p im' = p /\
  vsize (im_data im') = w * h * p /\ (forall i, 0 <= i < w * h * p -> byte (im_data im') i = byte (im_data im) i) /\ wfi im'.
Proof.
  intros W H P A OK. destruct (im_resize_ok im w h p W H P ltac:(apply (addressable_size w h p); assumption)) as [r [E [D1 [D2 [D3 [D4 [D5 D6]]]]]]].
  exists r. do 6 (split; [assumption|]). apply D6; assumption.
Qed.
Lemma im_resize_bad im w h p : w < 0 \/ h < 0 \/ p < 0 -> im_resize im w h p = Err FAssert.
Proof. intros H. unfold im_resize, massert. destruct (Z.leb_spec 0 w), (Z.leb_spec 0 h), (Z.leb_spec 0 p); try reflexivity. lia. Qed.

(** ** Loops over all pixels *)
Lemma pixels_loop (im0 : Image) (g : Z -> Z -> Z -> Z) (body : Z -> Z -> Image -> res Image) : wfi im0 ->
  (forall x y im, 0 <= x < im_w im0 -> 0 <= y < im_h im0 -> wfi im -> same_size im0 im -> (forall p, inside im0 x y p -> im_get im x y p = im_get im0 x y p) ->
    exists im', body x y im = Ok im' /\ wfi im' /\ same_size im0 im' /\ (forall p, inside im0 x y p -> im_get im' x y p = Ok (g x y p)) /\
      forall x' y' p', inside im0 x' y' p' -> (x', y') <> (x, y) -> im_get im' x' y' p' = im_get im x' y' p') ->
  exists im', for_ 0 (im_w im0) (fun x im => for_ 0 (im_h im0) (fun y im => body x y im) im) im0 = Ok im' /\ wfi im' /\ same_size im0 im' /\
    forall x y p, inside im0 x y p -> im_get im' x y p = Ok (g x y p).
Proof.
  intros W B. pose proof W as [W1 [W2 _]].
  edestruct (for_inv (fun x im => wfi im /\ same_size im0 im /\ forall x' y p, inside im0 x' y p -> im_get im x' y p = if x' <? x then Ok (g x' y p) else im_get im0 x' y p) 0 (im_w im0)
    (fun x im => for_ 0 (im_h im0) (fun y im => body x y im) im) im0) as [im' [E [K1 [K2 K3]]]].
  - exact W1.
  - split; [exact W|]. split; [repeat split|]. intros x' y p [X _]. destruct (Z.ltb_spec x' 0); [lia|reflexivity].
  - intros x im Hx [K1 [K2 K3]].
    edestruct (for_inv (fun y im => wfi im /\ same_size im0 im /\ forall x' y' p, inside im0 x' y' p -> im_get im x' y' p = if (x' <? x) || ((x' =? x) && (y' <? y)) then Ok (g x' y' p) else im_get im0 x' y' p) 0 (im_h im0)
      (fun y im => body x y im) im) as [im' [E [M1 [M2 M3]]]].
    + exact W2.
    + split; [exact K1|]. split; [exact K2|]. intros x' y' p H'. rewrite (K3 x' y' p H'). destruct H' as [_ [Y' _]]. destruct (Z.ltb_spec y' 0); [lia|]. rewrite andb_false_r, orb_false_r. reflexivity.
    + intros y imy Hy [M1 [M2 M3]]. destruct (B x y imy Hx Hy M1 M2) as [im' [E [N1 [N2 [N3 N4]]]]].
      { intros p Hp. rewrite (M3 x y p Hp), !Z.ltb_irrefl, andb_false_r. reflexivity. }
      exists im'. split; [exact E|]. split; [exact N1|]. split; [exact N2|]. intros x' y' p H'.
      destruct (Z.eqb_spec x' x) as [->|NX]; [destruct (Z.eqb_spec y' y) as [->|NY]|].
      * rewrite (N3 p H'). destruct (Z.ltb_spec y (y + 1)); [|lia]. rewrite orb_true_r. reflexivity.
      * rewrite N4, M3 by (auto; congruence). rewrite Z.eqb_refl, Z.ltb_irrefl. cbn. destruct (Z.ltb_spec y' y), (Z.ltb_spec y' (y + 1)); try reflexivity; lia.
      * rewrite N4, M3 by (auto; congruence). destruct (Z.eqb_spec x' x); [lia|]. reflexivity.
    + exists im'. split; [exact E|]. split; [exact M1|]. split; [exact M2|]. intros x' y' p H'. rewrite (M3 x' y' p H'). destruct H' as [X' [Y' P']].
      destruct (Z.ltb_spec y' (im_h im0)); [|lia]. rewrite andb_true_r. destruct (Z.ltb_spec x' x), (Z.eqb_spec x' x), (Z.ltb_spec x' (x + 1)); try reflexivity; lia.
  - exists im'. split; [exact E|]. split; [exact K1|]. split; [exact K2|]. intros x y p H. rewrite (K3 x y p H). destruct H as [X _]. destruct (Z.ltb_spec x (im_w im0)); [reflexivity|lia].
Qed.
