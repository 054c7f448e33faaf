(** Image conversions and generators. *)
From Coq Require Import ZArith List Bool Lia Psatz Reals Lra.
From Verif Require Import Base Num MNurbs MStream MImage SImage LBase LImage.
Import ListNotations.
Open Scope Z_scope.

Lemma ok_inj {A} (a b : A) : Ok a = Ok b -> a = b. Proof. intros E. injection E. auto. Qed.
Lemma for_err {S} (I : Z -> S -> Prop) (f : fault) a b (body : Z -> S -> res S) s : a <= b -> I a s ->
  (forall i s, a <= i < b -> I i s -> body i s = Err f \/ exists s', body i s = Ok s' /\ I (i + 1) s') ->
  for_ a b body s = Err f \/ exists s', for_ a b body s = Ok s' /\ I b s'.
Proof.
  intros L H0 HB. unfold for_. remember (Z.to_nat (b - a)) as n eqn:En. revert a s L H0 HB En. induction n as [|n IH]; intros a s L H0 HB En.
  - right. exists s. split; [reflexivity|]. replace b with a by lia. exact H0.
  - cbn [loop]. destruct (HB a s ltac:(lia) H0) as [-> | [s' [-> H']]]; [left; reflexivity|]. cbn [bind]. apply IH; [lia|exact H'| |lia]. intros i t Hi. apply HB. lia.
Qed.

(** ** Grey levels *)
Lemma bw_ok im imBW : wfi im -> 3 <= im_p im -> bytes_ok (im_data imBW) ->
  exists r, convert_to_bw im imBW = Ok r /\ wfi r /\ im_w r = im_w im /\ im_h r = im_h im /\ im_p r = 1 /\
    forall x y, 0 <= x < im_w im -> 0 <= y < im_h im -> exists a b c, im_get im x y 0 = Ok a /\ im_get im x y 1 = Ok b /\ im_get im x y 2 = Ok c /\ im_get r x y 0 = Ok ((a + b + c) / 3).
Proof.
  intros W P OK. pose proof W as [W1 [W2 _]]. unfold convert_to_bw. destruct (resize_wf imBW (im_w im) (im_h im) 1 W1 W2 ltac:(lia) (addressable_mono _ _ 1 (im_p im) W1 ltac:(lia) (wf_addr im W)) OK) as [r0 [E [D1 [D2 [D3 [_ [_ WR]]]]]]]. rewrite E. cbn [bind].
  rewrite <- D1, <- D2.
  set (g := fun x y (p : Z) => (byte (im_data im) (0 + im_p im * im_w im * y + x * im_p im) + byte (im_data im) (1 + im_p im * im_w im * y + x * im_p im) + byte (im_data im) (2 + im_p im * im_w im * y + x * im_p im)) / 3).
  assert (forall x y p, inside r0 x y p -> forall q, 0 <= q < 3 -> inside im x y q) as IN. { intros x y p H q Hq. unfold inside in *. rewrite D1, D2, D3 in H. lia. }
  destruct (pixels_loop r0 (fun x y _ => g x y 0) (fun i j imBW => do a <- im_get im i j 0; do b <- im_get im i j 1; do c <- im_get im i j 2; im_put imBW i j 0 ((a + b + c) / 3)) WR) as [r [Er [Wr [Sr Gr]]]].
  - intros x y imx Hx Hy Wx Sx _. assert (forall q, 0 <= q < 3 -> inside im x y q) as IQ by (intros q Hq; apply (IN x y 0); [unfold inside; lia|exact Hq]).
    rewrite !(im_get_ok im) by (auto; apply IQ; lia). cbn [bind].
    assert (forall i, 0 <= byte (im_data im) i < 256) as BB by (intros; apply byte_ok; apply W).
    destruct (im_put_ok imx x y 0 (g x y 0)) as [im' [Ep [Wp [Sp Gp]]]]; [exact Wx| | |].
    + destruct Sx as [S1 [S2 S3]]. unfold inside. lia.
    + unfold g. pose proof (BB (0 + im_p im * im_w im * y + x * im_p im)). pose proof (BB (1 + im_p im * im_w im * y + x * im_p im)). pose proof (BB (2 + im_p im * im_w im * y + x * im_p im)).
      split; [apply Z.div_pos; lia|apply Z.div_lt_upper_bound; lia].
    + exists im'. split; [exact Ep|]. split; [exact Wp|]. destruct Sx as [S1 [S2 S3]], Sp as [P1 [P2 P3]]. split; [unfold same_size; lia|]. split.
      * intros p Hp. rewrite Gp by (unfold inside in *; lia). rewrite !Z.eqb_refl. assert (p = 0) as -> by (unfold inside in Hp; lia). reflexivity.
      * intros x' y' p' H' NE. rewrite Gp by (unfold inside in *; lia). destruct (Z.eqb_spec x' x) as [->|]; [|reflexivity]. destruct (Z.eqb_spec y' y) as [->|]; [|reflexivity]. congruence.
  - exists r. split; [exact Er|]. split; [exact Wr|]. destruct Sr as [S1 [S2 S3]]. split; [lia|]. split; [lia|]. split; [lia|]. intros x y Hx Hy.
    assert (inside r0 x y 0) as I0 by (unfold inside; lia). do 3 eexists. do 3 (split; [apply im_get_ok; [exact W|apply (IN x y 0 I0); lia]|]). exact (Gr x y 0 I0).
Qed.
Lemma bw_few im imBW : wfi im -> im_p im < 3 -> 0 < im_w im -> 0 < im_h im -> convert_to_bw im imBW = Err FAssert.
Proof.
  intros W P HW HH. unfold convert_to_bw. destruct (im_resize_total imBW (im_w im) (im_h im) 1 ltac:(lia) ltac:(lia) ltac:(lia)) as [r0 [E _]]. rewrite E. cbn [bind].
  rewrite (for_step 0 (im_w im)) by lia. rewrite (for_step 0 (im_h im)) by lia. cbn [bind].
  assert (forall p, (exists v, im_get im 0 0 p = Ok v) \/ im_get im 0 0 p = Err FAssert) as G.
  { intros p. destruct (Z_lt_dec p (im_p im)); [destruct (Z_le_dec 0 p)|].
    - left. eexists. apply im_get_ok; [exact W|unfold inside; lia].
    - right. unfold im_get. rewrite im_addr_outside; [reflexivity|unfold inside; lia].
    - right. unfold im_get. rewrite im_addr_outside; [reflexivity|unfold inside; lia]. }
  destruct (G 0) as [[a ->]| ->]; cbn [bind]; [|reflexivity]. destruct (G 1) as [[b ->]| ->]; cbn [bind]; [|reflexivity].
  unfold im_get at 1. rewrite im_addr_outside; [reflexivity|unfold inside; lia].
Qed.
Lemma bw_self im : wfi im -> 1 <= im_p im -> 0 < im_w im -> 0 < im_h im -> convert_to_bw_self im = Err FAssert.
Proof.
  intros W HP HW HH. unfold convert_to_bw_self. destruct (resize_wf im (im_w im) (im_h im) 1 ltac:(lia) ltac:(lia) ltac:(lia) (addressable_mono _ _ 1 (im_p im) (Z.lt_le_incl _ _ HW) ltac:(lia) (wf_addr im W)) ltac:(apply W)) as [r0 [E [D1 [D2 [D3 [_ [_ WR]]]]]]]. rewrite E. cbn [bind].
  rewrite (for_step 0 (im_w r0)) by lia. rewrite (for_step 0 (im_h r0)) by lia. rewrite (im_get_ok r0 0 0 0 WR) by (unfold inside; lia). cbn [bind].
  unfold im_get at 1. rewrite im_addr_outside; [reflexivity|unfold inside; lia].
Qed.

(** ** Vectors of doubles *)
Lemma im_size_ok im : wfi im -> im_p im = 1 -> im_w im * im_h im <= int_max -> im_size im = Ok (im_w im * im_h im).
Proof.
  intros [W1 [W2 _]] P L. unfold im_size. assert (0 <= im_w im * im_h im) by (apply Z.mul_nonneg_nonneg; assumption). rewrite (iint_ok (im_h im * im_w im)) by (unfold int_min; lia). cbn [bind]. rewrite P, Z.mul_1_r.
  rewrite iint_ok by (unfold int_min; lia). f_equal. ring.
Qed.
Lemma to_double_big im img : 0 <= im_h im -> 1 <= im_p im -> int_max < im_w im * im_h im -> im_to_double im img = Err FOverflow.
Proof. intros H P L. unfold im_to_double, im_size. rewrite iint_big by lia. reflexivity. Qed.
Lemma to_double_oob im img : wfi im -> im_w im * im_h im <= int_max -> im_p im = 1 -> 1 <= im_h im -> im_h im < im_w im -> im_to_double im img = Err FOob.
Proof.
  intros W SM P HH HW. unfold im_to_double, vresize. rewrite (im_size_ok im W P SM). cbn [bind]. assert (0 <= im_w im * im_h im) as NS by nia. destruct (Z.ltb_spec (im_w im * im_h im) 0); [lia|]. cbn [bind].
  set (v0 := firstn (Z.to_nat (im_w im * im_h im)) img ++ repeat 0 (Z.to_nat (im_w im * im_h im) - length img)).
  assert (vsize v0 = im_w im * im_h im) as S0. { unfold v0. rewrite vsize_app, vsize_firstn, vsize_repeat by lia. unfold vsize in *. lia. }
  assert (forall l v, 0 <= l < im_w im -> vsize v = im_w im * im_h im ->
    let r := for_ 0 (im_h im) (fun colonne img => do v <- im_get im l colonne 0; vset img (colonne + l * im_w im) v) v in
    r = Err FOob \/ (exists v', r = Ok v' /\ vsize v' = im_w im * im_h im /\ (l = im_w im - 1 -> False))) as IN.
  { intros l v Hl Sv. cbv zeta. destruct (for_err (fun c (v : list Z) => vsize v = im_w im * im_h im /\ (0 < c -> c - 1 + l * im_w im < im_w im * im_h im)) FOob 0 (im_h im) (fun colonne img => do v <- im_get im l colonne 0; vset img (colonne + l * im_w im) v) v) as [E|[v' [E [S' K]]]].
    - lia.
    - split; [exact Sv|lia].
    - intros c u Hc [Su _]. rewrite (im_get_ok im l c 0 W) by (unfold inside; lia). cbn [bind]. destruct (Z_lt_dec (c + l * im_w im) (im_w im * im_h im)) as [L|G].
      + right. eexists. split; [apply vset_in_range; nia|]. split; [|intros _; lia]. rewrite <- Su. unfold vsize. rewrite list_set_length. reflexivity.
      + left. unfold vset. destruct (Z.ltb_spec (c + l * im_w im) 0); [reflexivity|]. destruct (Z.leb_spec (vsize u) (c + l * im_w im)); [reflexivity|lia].
    - left. exact E.
    - right. exists v'. split; [exact E|]. split; [exact S'|]. intros ->. specialize (K ltac:(lia)). nia. }
  edestruct (for_err (fun l (v : list Z) => vsize v = im_w im * im_h im /\ l < im_w im) FOob 0 (im_w im) (fun ligne img => for_ 0 (im_h im) (fun colonne img => do v <- im_get im ligne colonne 0; vset img (colonne + ligne * im_w im) v) img) v0) as [E|[v' [E [S' K]]]]; [| | |exact E|lia].
  - lia.
  - split; [exact S0|lia].
  - intros l v Hl [Sv _]. cbv beta. destruct (IN l v Hl Sv) as [E|[v' [E [S' K]]]]; [left; exact E|]. right. exists v'. split; [exact E|]. split; [exact S'|]. destruct (Z.eq_dec l (im_w im - 1)); [tauto|lia].
Qed.
Lemma to_double_square im img : wfi im -> im_w im * im_h im <= int_max -> im_p im = 1 -> im_w im = im_h im ->
  exists r, im_to_double im img = Ok r /\ vsize r = im_w im * im_h im /\
    forall x y, 0 <= x < im_w im -> 0 <= y < im_h im -> exists v, im_get im x y 0 = Ok v /\ vget r (y + x * im_w im) = Ok v.
Proof.
  intros W SM P Q. assert (im_size im = Ok (im_w im * im_w im)) as NS by (rewrite (im_size_ok im W P SM), <- Q; reflexivity). set (n := im_w im) in *. assert (0 <= n) as Hn by apply W. unfold im_to_double, vresize.
  rewrite NS. cbn [bind]. destruct (Z.ltb_spec (n * n) 0); [nia|]. cbn [bind]. rewrite <- Q. fold n.
  set (v0 := firstn (Z.to_nat (n * n)) img ++ repeat 0 (Z.to_nat (n * n) - length img)).
  assert (vsize v0 = n * n) as S0. { unfold v0. rewrite vsize_app, vsize_firstn, vsize_repeat by lia. unfold vsize in *. lia. }
  set (px := fun x y => byte (im_data im) (0 + im_p im * im_w im * y + x * im_p im)).
  assert (forall x y, 0 <= x < n -> 0 <= y < n -> im_get im x y 0 = Ok (px x y)) as GX. { intros. apply im_get_ok; [exact W|unfold inside; fold n; lia]. }
  edestruct (for_inv (fun l (v : list Z) => vsize v = n * n /\ forall x y, 0 <= x < l -> 0 <= y < n -> vget v (y + x * n) = Ok (px x y)) 0 n (fun l img => for_ 0 n (fun colonne img => do v <- im_get im l colonne 0; vset img (colonne + l * n) v) img) v0) as [r [E [S R]]].
  - exact Hn.
  - split; [exact S0|]. intros; lia.
  - intros l v Hl [Sv Kv]. cbv beta.
    edestruct (for_inv (fun c (v : list Z) => vsize v = n * n /\ forall x y, 0 <= y < n -> (0 <= x < l \/ (x = l /\ y < c)) -> vget v (y + x * n) = Ok (px x y)) 0 n (fun colonne img => do v <- im_get im l colonne 0; vset img (colonne + l * n) v) v) as [r [E [S R]]].
    + exact Hn.
    + split; [exact Sv|]. intros x y Hy [Hx|Hx]; [apply Kv; lia|lia].
    + intros c u Hc [Su Ku]. cbv beta. rewrite (GX l c Hl Hc). cbn [bind]. eexists. split; [apply vset_in_range; nia|]. split; [rewrite <- Su; unfold vsize; rewrite list_set_length; reflexivity|].
      intros x y Hy Hx. rewrite (vget_vset u (c + l * n) (px l c) _ (y + x * n) (vset_in_range u (c + l * n) (px l c) ltac:(nia))).
      destruct (Z.eqb_spec (y + x * n) (c + l * n)) as [EQ|NE].
      * assert (x = l /\ y = c) as [-> ->]; [|reflexivity]. apply (Z.div_mod_unique n x l y c); try lia.
      * apply Ku; [exact Hy|]. destruct Hx as [Hx|[-> Hx]]; [left; exact Hx|]. right. split; [reflexivity|]. destruct (Z.eq_dec y c) as [->|]; [congruence|lia].
    + exists r. split; [exact E|]. split; [exact S|]. intros x y Hx Hy. apply R; [exact Hy|]. destruct (Z.eq_dec x l); [right; lia|left; lia].
  - exists r. split; [exact E|]. split; [exact S|]. intros x y Hx Hy. exists (px x y). split; [apply GX; lia|apply R; lia].
Qed.

(** ** Scaling *)
Lemma to_uchar_ok (v : R) : (0 <= v < 256)%R -> exists k, to_uchar v = Ok k /\ 0 <= k < 256 /\ (IZR k <= v < IZR k + 1)%R.
Proof.
  intros H. unfold to_uchar. cbn. unfold Rtrunc. destruct (Rlt_dec v 0); [lra|]. destruct (base_Int_part v) as [B1 B2]. set (k := Int_part v) in *.
  assert (0 <= k < 256) as K. { split; [apply Z.lt_succ_r; apply lt_IZR; unfold Z.succ; rewrite plus_IZR; lra|apply lt_IZR; lra]. }
  unfold int_min, int_max. destruct (Z.leb_spec (-2147483648) k); [|lia]. destruct (Z.leb_spec k 2147483647); [|lia]. cbn. destruct (Z.leb_spec 0 k); [|lia]. destruct (Z.ltb_spec k 256); [|lia]. exists k. split; [reflexivity|]. split; [exact K|lra].
Qed.
Lemma to_uchar_big (v : R) : (256 <= v)%R -> to_uchar v = Err FBadConv.
Proof.
  intros H. unfold to_uchar. cbn. unfold Rtrunc. destruct (Rlt_dec v 0); [lra|]. destruct (base_Int_part v) as [B1 B2]. set (k := Int_part v) in *.
  assert (256 <= k) as K. { apply Z.lt_succ_r. apply lt_IZR. unfold Z.succ. rewrite plus_IZR. lra. }
  destruct ((int_min <=? k) && (k <=? int_max)); [|reflexivity]. cbn [bind]. destruct (Z.leb_spec 0 k); [|lia]. destruct (Z.ltb_spec k 256); [lia|reflexivity].
Qed.
Lemma scale_ok im (d : R) : wfi im -> (0 <= d)%R -> (forall x y p v, inside im x y p -> im_get im x y p = Ok v -> IZR v * d + 1 / 2 < 256)%R ->
  exists r, im_scale im d = Ok r /\ wfi r /\ same_size im r /\
    forall x y p, inside im x y p -> exists v k, im_get im x y p = Ok v /\ im_get r x y p = Ok k /\ (IZR k <= IZR v * d + 1 / 2 < IZR k + 1)%R.
Proof.
  intros W D H. set (px := fun x y p => byte (im_data im) (p + im_p im * im_w im * y + x * im_p im)).
  assert (forall x y p, inside im x y p -> im_get im x y p = Ok (px x y p)) as GX by (intros; apply im_get_ok; assumption).
  assert (forall x y p, inside im x y p -> exists k, to_uchar (nadd (nmul (nofZ (px x y p)) d) (nlit 1 2)) = Ok k /\ 0 <= k < 256 /\ (IZR k <= IZR (px x y p) * d + 1 / 2 < IZR k + 1)%R) as TU.
  { intros x y p I. apply (to_uchar_ok (IZR (px x y p) * d + 1 / 2)). split; [|exact (H x y p _ I (GX x y p I))].
    assert (0 <= px x y p) as B by (apply byte_ok; apply W). apply IZR_le in B. pose proof (Rmult_le_pos _ _ B D). lra. }
  set (g := fun x y p => match to_uchar (nadd (nmul (nofZ (px x y p)) d) (nlit 1 2)) with Ok k => k | Err _ => 0 end).
  unfold im_scale. cbv zeta.
  destruct (pixels_loop im g (fun i j im0 => for_ 0 (im_p im) (fun p im => do a <- im_get im i j p; do b <- to_uchar (nadd (nmul (nofZ a) d) (nlit 1 2)); im_put im i j p b) im0) W) as [r [E [Wr [Sr Gr]]]].
  - intros x y imx Hx Hy Wx Sx Gx.
    edestruct (for_inv (fun p i => wfi i /\ same_size im i /\ (forall q, inside im x y q -> im_get i x y q = if q <? p then Ok (g x y q) else Ok (px x y q)) /\
      forall x' y' p', inside im x' y' p' -> (x', y') <> (x, y) -> im_get i x' y' p' = im_get imx x' y' p') 0 (im_p im)
      (fun p im => do a <- im_get im x y p; do b <- to_uchar (nadd (nmul (nofZ a) d) (nlit 1 2)); im_put im x y p b) imx) as [r [E [K1 [K2 [K3 K4]]]]].
    + apply W.
    + split; [exact Wx|]. split; [exact Sx|]. split; [|reflexivity]. intros q Hq. rewrite (Gx q Hq), (GX x y q Hq). destruct Hq as [_ [_ Hq]]. destruct (Z.ltb_spec q 0); [lia|reflexivity].
    + intros p i Hp [K1 [K2 [K3 K4]]]. cbv beta. assert (inside im x y p) as IP by (unfold inside; lia). rewrite (K3 p IP), Z.ltb_irrefl. cbn [bind].
      destruct (TU x y p IP) as [k [Ek [Bk _]]]. rewrite Ek. cbn [bind].
      destruct (im_put_ok i x y p k K1) as [r [Er [R1 [R2 R3]]]]; [destruct K2 as [Q1 [Q2 Q3]]; unfold inside in *; lia|exact Bk|].
      exists r. split; [exact Er|]. split; [exact R1|]. destruct K2 as [Q1 [Q2 Q3]], R2 as [P1 [P2 P3]]. split; [unfold same_size; lia|]. split.
      * intros q Hq. rewrite R3 by (unfold inside in *; lia). rewrite !Z.eqb_refl. cbn [andb]. destruct (Z.eqb_spec q p) as [->|NE].
        -- destruct (Z.ltb_spec p (p + 1)); [|lia]. unfold g. rewrite Ek. reflexivity.
        -- rewrite (K3 q Hq). destruct (Z.ltb_spec q p), (Z.ltb_spec q (p + 1)); try reflexivity; lia.
      * intros x' y' p' H' NE. rewrite R3 by (unfold inside in *; lia). destruct (Z.eqb_spec x' x) as [->|]; [destruct (Z.eqb_spec y' y) as [->|]; [congruence|]|]; cbn [andb]; apply K4; auto.
    + exists r. split; [exact E|]. split; [exact K1|]. split; [exact K2|]. split; [|exact K4]. intros q Hq. rewrite (K3 q Hq). destruct Hq as [_ [_ Hq]]. destruct (Z.ltb_spec q (im_p im)); [reflexivity|lia].
  - exists r. split; [exact E|]. split; [exact Wr|]. split; [exact Sr|]. intros x y p I. destruct (TU x y p I) as [k [Ek [_ Bk]]]. exists (px x y p), k. split; [apply GX, I|]. split; [|exact Bk]. rewrite (Gr x y p I). unfold g. rewrite Ek. reflexivity.
Qed.
