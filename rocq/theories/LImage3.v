(** Image generators. *)
From Coq Require Import ZArith List Bool Lia Psatz Reals Lra.
From Verif Require Import Base Num MNurbs MStream MImage SImage LBase LImage LImage2.
Import ListNotations.
Open Scope Z_scope.

Lemma vsize_le n v : vsize (le n v) = Z.of_nat n.
Proof. revert v. induction n as [|n IH]; intros v; [reflexivity|]. cbn [le]. rewrite vsize_cons, IH. lia. Qed.
Lemma byte_le n v i : 0 <= i < Z.of_nat n -> byte (le n v) i = (v / 256 ^ i) mod 256.
Proof.
  revert v i. induction n as [|n IH]; intros v i H; [lia|]. cbn [le]. destruct (Z.eq_dec i 0) as [->|NE].
  - cbn. rewrite Z.div_1_r. reflexivity.
  - change (v mod 256 :: le n (v / 256)) with ([v mod 256] ++ le n (v / 256)). rewrite byte_app_r by (cbn; lia). change (vsize [v mod 256]) with 1. rewrite IH by lia.
    rewrite Z.div_div; [|lia|apply Z.pow_pos_nonneg; lia]. f_equal. f_equal. rewrite <- (Z.pow_succ_r 256 (i - 1)) by lia. f_equal. lia.
Qed.
Lemma le_ok n v : bytes_ok (le n v).
Proof. revert v. induction n as [|n IH]; intros v; constructor; [apply Z.mod_pos_bound; lia|apply IH]. Qed.

Lemma put_int_ok im x y v : wfi im -> im_p im = 4 -> 0 <= x < im_w im -> 0 <= y < im_h im ->
  exists im', im_put_int im x y v = Ok im' /\ wfi im' /\ same_size im im' /\
    forall x' y' p, inside im x' y' p -> im_get im' x' y' p = if (x' =? x) && (y' =? y) then Ok ((v / 256 ^ p) mod 256) else im_get im x' y' p.
Proof.
  intros W P X Y. assert (inside im x y 0) as I by (unfold inside; lia). unfold im_put_int. rewrite (im_addr_ok im x y 0 (wf_addr im W) I). cbn [bind]. set (a := 0 + im_p im * im_w im * y + x * im_p im).
  pose proof W as [W1 [W2 [W3 [W4 W5]]]].
  assert (0 <= a /\ a + 4 <= vsize (im_data im)) as [A0 A1].
  { assert (0 <= 0 < im_p im) as Q0 by lia. pose proof (addr_range _ _ _ _ _ _ X Y Q0). pose proof (addr_range (im_w im) (im_h im) (im_p im) x y 3 X Y ltac:(lia)). unfold a. lia. }
  destruct (Z.ltb_spec (vsize (im_data im)) (a + 4)); [lia|]. cbn [bind]. eexists. split; [reflexivity|].
  assert (a + vsize (le 4 v) <= vsize (im_data im)) as A2 by (rewrite vsize_le; lia).
  assert (wfi (mkImg (im_w im) (im_h im) (im_p im) (put_bytes (im_data im) a (le 4 v)))) as W'.
  { unfold wfi. cbn [im_w im_h im_p im_data]. do 3 (split; [assumption|]). rewrite put_bytes_size by assumption. split; [exact W4|]. destruct W5 as [W5 W6]. split; [|exact W6]. apply bytes_ok_nth. intros i Hi. rewrite put_bytes_byte by (try assumption; lia).
    destruct ((a <=? i) && (i <? a + vsize (le 4 v))); apply byte_ok; [apply le_ok|exact W5]. }
  split; [exact W'|]. split; [repeat split|]. intros x' y' p H'. rewrite (im_get_ok _ x' y' p W' H'), (im_get_ok im x' y' p W H'). cbn [im_w im_p im_data]. destruct H' as [X' [Y' P']].
  pose proof (addr_range _ _ _ _ _ _ X' Y' P') as R'. rewrite put_bytes_byte by (try assumption; lia). rewrite vsize_le.
  destruct (Z.eqb_spec x' x) as [->|NX]; [destruct (Z.eqb_spec y' y) as [->|NY]|]; cbn [andb].
  - destruct (Z.leb_spec a (p + im_p im * im_w im * y + x * im_p im)); [|lia]. destruct (Z.ltb_spec (p + im_p im * im_w im * y + x * im_p im) (a + Z.of_nat 4)); [|lia]. cbn [andb].
    replace (p + im_p im * im_w im * y + x * im_p im - a) with p by lia. f_equal. apply byte_le. lia.
  - destruct (Z.leb_spec a (p + im_p im * im_w im * y' + x * im_p im)) as [L1|]; [|reflexivity]. destruct (Z.ltb_spec (p + im_p im * im_w im * y' + x * im_p im) (a + Z.of_nat 4)) as [L2|]; [|reflexivity]. exfalso. apply NY.
    apply (addr_inj (im_w im) (im_p im) x y' p x y (p + im_p im * im_w im * y' + x * im_p im - a)); lia.
  - destruct (Z.leb_spec a (p + im_p im * im_w im * y' + x' * im_p im)) as [L1|]; [|reflexivity]. destruct (Z.ltb_spec (p + im_p im * im_w im * y' + x' * im_p im) (a + Z.of_nat 4)) as [L2|]; [|reflexivity]. exfalso. apply NX.
    apply (addr_inj (im_w im) (im_p im) x' y' p x y (p + im_p im * im_w im * y' + x' * im_p im - a)); lia.
Qed.

Lemma generator_ok im w h (v : Z -> Z -> Z) (body : Z -> Z -> Image -> res Image) : bytes_ok (im_data im) -> 0 <= w -> 0 <= h -> addressable w h 4 ->
  (forall x y i, 0 <= x < w -> 0 <= y < h -> body x y i = im_put_int i x y (v x y)) ->
  exists r, (do im <- im_resize im w h 4; for_ 0 w (fun x im => for_ 0 h (fun y im => body x y im) im) im) = Ok r /\ wfi r /\ im_w r = w /\ im_h r = h /\ im_p r = 4 /\
    forall x y p, 0 <= x < w -> 0 <= y < h -> 0 <= p < 4 -> im_get r x y p = Ok ((v x y / 256 ^ p) mod 256).
Proof.
  intros OK HW HH AD B. destruct (resize_wf im w h 4 HW HH ltac:(lia) AD OK) as [r0 [E [D1 [D2 [D3 [_ [_ WR]]]]]]]. rewrite E. cbn [bind]. rewrite <- D1, <- D2 in *.
  destruct (pixels_loop r0 (fun x y p => (v x y / 256 ^ p) mod 256) body WR) as [r [Er [Wr [Sr Gr]]]].
  - intros x y i Hx Hy Wi Si _. rewrite B by assumption. destruct Si as [S1 [S2 S3]]. destruct (put_int_ok i x y (v x y) Wi ltac:(lia) ltac:(lia) ltac:(lia)) as [i' [E' [W' [S' G']]]]. exists i'. split; [exact E'|]. split; [exact W'|].
    destruct S' as [T1 [T2 T3]]. split; [unfold same_size; lia|]. split.
    + intros p Hp. rewrite G' by (unfold inside in *; lia). rewrite !Z.eqb_refl. reflexivity.
    + intros x' y' p' H' NE. rewrite G' by (unfold inside in *; lia). destruct (Z.eqb_spec x' x) as [->|]; [|reflexivity]. destruct (Z.eqb_spec y' y) as [->|]; [congruence|reflexivity].
  - exists r. split; [exact Er|]. split; [exact Wr|]. destruct Sr as [S1 [S2 S3]]. repeat (split; [lia|]). intros x y p Hx Hy Hp. apply Gr. unfold inside. lia.
Qed.
Lemma shierpinsky_ok im w h : bytes_ok (im_data im) -> 0 <= w -> 0 <= h -> addressable w h 4 -> exists r, shierpinsky im w h = Ok r /\ wfi r /\ im_w r = w /\ im_h r = h /\ im_p r = 4 /\
  forall x y, 0 <= x < w -> 0 <= y < h -> let c := if Z.land x y =? 0 then 255 else 0 in
    im_get r x y 0 = Ok c /\ im_get r x y 1 = Ok c /\ im_get r x y 2 = Ok c.
Proof.
  intros OK HW HH AD. destruct (generator_ok im w h (fun x y => (if Z.land x y =? 0 then 1 else 0) * (2 ^ 25 - 1)) (fun x y im => im_put_int im x y ((if Z.land x y =? 0 then 1 else 0) * (2 ^ 25 - 1))) OK HW HH AD ltac:(reflexivity)) as [r [E [W [D1 [D2 [D3 G]]]]]].
  exists r. split; [exact E|]. do 4 (split; [assumption|]). intros x y Hx Hy. cbv zeta. rewrite !G by lia. destruct (Z.land x y =? 0); repeat split.
Qed.
Lemma mandel_le {T} {N : Num T} n (cx cy fx fy : T) : (mandel n cx cy fx fy <= n)%nat.
Proof.
  revert fx fy. induction n as [|n IH]; intros fx fy; cbn; destruct (nltb _ _); try lia. specialize (IH (nadd (nmul (nadd fx fy) (nsub fx fy)) cx) (nadd (nadd (nmul fx fy) (nmul fx fy)) cy)). lia.
Qed.
(** Every pixel is grey, whatever the arithmetic: at most 255 iterations give a level below 256 in each of the three planes. *)
Lemma mandelbrot_ok im w h iter : bytes_ok (im_data im) -> 0 <= w -> 0 <= h -> addressable w h 4 -> 0 <= iter <= 255 ->
  exists r, mandelbrot (T := R) im w h iter = Ok r /\ wfi r /\ im_w r = w /\ im_h r = h /\ im_p r = 4 /\
  forall x y, 0 <= x < w -> 0 <= y < h -> exists k, 0 <= k <= iter /\ im_get r x y 0 = Ok k /\ im_get r x y 1 = Ok k /\ im_get r x y 2 = Ok k /\ im_get r x y 3 = Ok 0.
Proof.
  intros OK HW HH AD HI.
  set (cx := fun x => (- (21 / 10) + IZR (w - x) / IZR w * (9 / 10 - - (21 / 10)))%R). set (cy := fun y => (- (3 / 2) + IZR (h - y) / IZR h * (3 / 2 - - (3 / 2)))%R).
  set (lv := fun x y => iter - Z.of_nat (mandel (Z.to_nat iter) (cx x) (cy y) (cx x) (cy y))).
  unfold mandelbrot. cbv zeta.
  match goal with |- context [for_ 0 w (fun x im => for_ 0 h (fun y im => @?b x im y) im)] =>
    destruct (generator_ok im w h (fun x y => lv x y * 65793) (fun x y i => b x i y) OK HW HH AD) as [r [E [W [D1 [D2 [D3 G]]]]]] end.
  - intros x y i Hx Hy. cbn -[iint]. destruct (Req_EM_T (IZR w) 0) as [Q|_]; [apply eq_IZR in Q; lia|]. destruct (Req_EM_T (IZR h) 0) as [Q|_]; [apply eq_IZR in Q; lia|].
    cbn [bind].
    change (- (21 / 10) + IZR (w - x) / IZR w * (9 / 10 - - (21 / 10)))%R with (cx x). change (- (3 / 2) + IZR (h - y) / IZR h * (3 / 2 - - (3 / 2)))%R with (cy y). fold (lv x y).
    assert (0 <= lv x y <= iter) as L. { unfold lv. pose proof (mandel_le (Z.to_nat iter) (cx x) (cy y) (cx x) (cy y)). lia. }
    rewrite iint_ok by (unfold int_min, int_max; lia). reflexivity.
  - exists r. split; [exact E|]. do 4 (split; [assumption|]). intros x y Hx Hy. exists (lv x y).
    assert (0 <= lv x y <= iter) as L. { unfold lv. pose proof (mandel_le (Z.to_nat iter) (cx x) (cy y) (cx x) (cy y)). lia. }
    split; [exact L|]. rewrite !G by lia. set (k := lv x y) in *. clearbody k. repeat split; f_equal.
    + change (256 ^ 0) with 1. rewrite Z.div_1_r. replace (k * 65793) with (k + (k * 257) * 256) by ring. rewrite Z.mod_add by lia. apply Z.mod_small. lia.
    + change (256 ^ 1) with 256. replace (k * 65793) with (k + (k * 257) * 256) by ring. rewrite Z.div_add by lia. rewrite (Z.div_small k) by lia. replace (0 + k * 257) with (k + k * 256) by ring. rewrite Z.mod_add by lia. apply Z.mod_small. lia.
    + change (256 ^ 2) with 65536. replace (k * 65793) with (k * 257 + k * 65536) by ring. rewrite Z.div_add by lia. rewrite (Z.div_small (k * 257)) by lia. apply Z.mod_small. lia.
    + change (256 ^ 3) with 16777216. rewrite Z.div_small by lia. reflexivity.
Qed.
