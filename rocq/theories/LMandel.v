(** The levels of the Mandelbrot picture. *)
From Coq Require Import ZArith List Bool Reals Lra Lia Psatz.
From Verif Require Import Base Num MStream MImage SImage SMandel LBase LGeom LImage LImage2 LImage3.
Import ListNotations.
Open Scope Z_scope.

Local Notation mand := (mandel (T := R)).
(** One round of the loop. *)
Lemma mand_step n a b x y : mand n a b x y = if Rltb (x * x + y * y) 4 then match n with O => O | S n' => mand n' a b ((x + y) * (x - y) + a)%R (x * y + x * y + b)%R end else n.
Proof. destruct n; reflexivity. Qed.
(** The loop from the point [i] of the orbit on, [n] rounds left. *)
Lemma mandel_level c : forall n i, let m := mand n (fst c) (snd c) (fst (orbit c i)) (snd (orbit c i)) in
  (m <= n)%nat /\ (forall j, (i <= j < i + (n - m))%nat -> in_disc (orbit c j)) /\ ((0 < m)%nat -> ~ in_disc (orbit c (i + (n - m)))).
Proof.
  induction n as [|n IH]; intros i m; subst m; rewrite mand_step.
  - destruct (Rltb _ _); repeat split; intros; lia.
  - destruct (Rltb (fst (orbit c i) * fst (orbit c i) + snd (orbit c i) * snd (orbit c i)) 4) eqn:L; [apply Rltb_lt in L|apply Rltb_ge in L].
    + replace ((fst (orbit c i) + snd (orbit c i)) * (fst (orbit c i) - snd (orbit c i)) + fst c)%R with (fst (orbit c (S i))) by (cbn [orbit]; unfold square_plus; cbn [fst snd]; ring).
      replace (fst (orbit c i) * snd (orbit c i) + fst (orbit c i) * snd (orbit c i) + snd c)%R with (snd (orbit c (S i))) by (cbn [orbit]; unfold square_plus; cbn [fst snd]; ring).
      destruct (IH (S i)) as (A & B & C). set (m := mand n _ _ _ _) in *. clearbody m. split; [lia|]. split.
      * intros j Hj. destruct (Nat.eq_dec j i) as [->|]; [unfold in_disc; lra|]. apply B. lia.
      * intros P. specialize (C P). replace (i + (S n - m))%nat with (S i + (n - m))%nat by lia. exact C.
    + split; [lia|]. split; [intros; lia|]. intros _. replace (i + (S n - S n))%nat with i by lia. unfold in_disc. lra.
Qed.
Lemma level_ok iter c : 0 <= iter -> orbit_level iter c (iter - Z.of_nat (mand (Z.to_nat iter) (fst c) (snd c) (fst c) (snd c))).
Proof.
  intros H. destruct (mandel_level c (Z.to_nat iter) 0) as (A & B & C). cbn [orbit] in A, B, C. set (m := mand _ _ _ _ _) in *. clearbody m. split; [lia|]. split.
  - intros j Hj. apply B. lia.
  - intros Hk. replace (Z.to_nat (iter - Z.of_nat m)) with (0 + (Z.to_nat iter - m))%nat by lia. apply C. lia.
Qed.
Lemma level_unique n c k k' : orbit_level n c k -> orbit_level n c k' -> k = k'.
Proof.
  intros (A & B & C) (A' & B' & C'). destruct (Z.lt_trichotomy k k') as [H|[H|H]]; [|exact H|]; exfalso.
  - apply C; [lia|]. apply B'. lia.
  - apply C'; [lia|]. apply B. lia.
Qed.
Lemma orbit_conj c j : orbit (fst c, - snd c)%R j = (fst (orbit c j), - snd (orbit c j))%R.
Proof. induction j as [|j IH]; [reflexivity|]. cbn [orbit]. rewrite IH. unfold square_plus. cbn [fst snd]. f_equal; ring. Qed.
Lemma level_conj n c k : orbit_level n c k -> orbit_level n (fst c, - snd c)%R k.
Proof.
  assert (forall j, in_disc (orbit (fst c, - snd c)%R j) <-> in_disc (orbit c j)) as E by (intros j; rewrite orbit_conj; unfold in_disc; cbn [fst snd]; split; intros; nra).
  intros (A & B & C). split; [exact A|]. split; [intros j Hj; apply E, B, Hj|]. intros Hk D. apply C; [exact Hk|]. apply E, D.
Qed.
Lemma mandelbrot_levels im w h iter : bytes_ok (im_data im) -> 0 <= w -> 0 <= h -> addressable w h 4 -> 0 <= iter <= 255 ->
  exists r, mandelbrot (T := R) im w h iter = Ok r /\ im_w r = w /\ im_h r = h /\
  forall x y, 0 <= x < w -> 0 <= y < h -> exists k, orbit_level iter (mandel_at w h x y) k /\ im_get r x y 0 = Ok k /\ im_get r x y 1 = Ok k /\ im_get r x y 2 = Ok k /\ im_get r x y 3 = Ok 0.
Proof.
  intros OK HW HH AD HI.
  set (cx := fun x => (- (21 / 10) + IZR (w - x) / IZR w * (9 / 10 - - (21 / 10)))%R). set (cy := fun y => (- (3 / 2) + IZR (h - y) / IZR h * (3 / 2 - - (3 / 2)))%R).
  set (lv := fun x y => iter - Z.of_nat (mandel (Z.to_nat iter) (cx x) (cy y) (cx x) (cy y))).
  unfold mandelbrot. cbv zeta.
  match goal with |- context [for_ 0 w (fun x im => for_ 0 h (fun y im => @?b x im y) im)] =>
    destruct (generator_ok im w h (fun x y => lv x y * 65793) (fun x y i => b x i y) OK HW HH AD) as [r [E [W [D1 [D2 [D3 G]]]]]] end.
  - intros x y i Hx Hy. cbn -[iint]. destruct (Req_EM_T (IZR w) 0) as [Q|_]; [apply eq_IZR in Q; lia|]. destruct (Req_EM_T (IZR h) 0) as [Q|_]; [apply eq_IZR in Q; lia|].
    cbn [bind].
    change (- (21 / 10) + IZR (w - x) / IZR w * (9 / 10 - - (21 / 10)))%R with (cx x). change (- (3 / 2) + IZR (h - y) / IZR h * (3 / 2 - - (3 / 2)))%R with (cy y). fold (lv x y).
    assert (0 <= lv x y <= iter) as L. { unfold lv. pose proof (mandel_le (Z.to_nat iter) (cx x) (cy y) (cx x) (cy y)). lia. }
    rewrite iint_ok by (unfold int_min, int_max; lia). reflexivity.
  - exists r. split; [exact E|]. do 2 (split; [assumption|]). intros x y Hx Hy. exists (lv x y).
    assert (orbit_level iter (mandel_at w h x y) (lv x y)) as LV.
    { replace (mandel_at w h x y) with (cx x, cy y); [exact (level_ok iter (cx x, cy y) ltac:(lia))|]. unfold mandel_at, cx, cy. rewrite !minus_IZR.
      f_equal; field; apply not_0_IZR; lia. }
    split; [exact LV|]. assert (0 <= lv x y <= iter) as L by apply LV. rewrite !G by lia. set (k := lv x y) in *. clearbody k. repeat split; f_equal.
    + change (256 ^ 0) with 1. rewrite Z.div_1_r. replace (k * 65793) with (k + (k * 257) * 256) by ring. rewrite Z.mod_add by lia. apply Z.mod_small. lia.
    + change (256 ^ 1) with 256. replace (k * 65793) with (k + (k * 257) * 256) by ring. rewrite Z.div_add by lia. rewrite (Z.div_small k) by lia. replace (0 + k * 257) with (k + k * 256) by ring. rewrite Z.mod_add by lia. apply Z.mod_small. lia.
    + change (256 ^ 2) with 65536. replace (k * 65793) with (k * 257 + k * 65536) by ring. rewrite Z.div_add by lia. rewrite (Z.div_small (k * 257)) by lia. apply Z.mod_small. lia.
    + change (256 ^ 3) with 16777216. rewrite Z.div_small by lia. reflexivity.
Qed.
Lemma mandelbrot_mirror im w h iter r x y p : bytes_ok (im_data im) -> 0 <= w -> 0 <= h -> addressable w h 4 -> 0 <= iter <= 255 -> mandelbrot (T := R) im w h iter = Ok r ->
  0 <= x < w -> 0 < y < h -> 0 <= p < 4 -> im_get r x y p = im_get r x (h - y) p.
Proof.
  intros OK HW HH AD HI E Hx Hy Hp. destruct (mandelbrot_levels im w h iter OK HW HH AD HI) as (r' & E' & _ & _ & G). rewrite E in E'. injection E' as <-.
  destruct (G x y Hx ltac:(lia)) as (k & L & A0 & A1 & A2 & A3). destruct (G x (h - y) Hx ltac:(lia)) as (k' & L' & B0 & B1 & B2 & B3).
  assert (k = k') as <-.
  { apply (level_unique iter (mandel_at w h x (h - y))); [|exact L']. replace (mandel_at w h x (h - y)) with (fst (mandel_at w h x y), - snd (mandel_at w h x y))%R; [apply level_conj, L|].
    unfold mandel_at. cbn [fst snd]. rewrite minus_IZR. f_equal. field. apply not_0_IZR. lia. }
  assert (p = 0 \/ p = 1 \/ p = 2 \/ p = 3) as [-> | [-> | [-> | ->]]] by lia; congruence.
Qed.
(** The point -2 belongs to the set, its orbit being -2, 2, 2, ...; the test of the loop counts it as outside. *)
Lemma minus_two_orbit j : orbit (-2, 0)%R (S j) = (2, 0)%R.
Proof. induction j as [|j IH]; [|cbn [orbit] in *; rewrite IH]; cbn; unfold square_plus; cbn [fst snd]; f_equal; ring. Qed.
Lemma minus_two im iter : bytes_ok (im_data im) -> 0 <= iter <= 255 -> mandel_at 30 2 29 1 = (-2, 0)%R /\ (forall j, (fst (orbit (-2, 0) j) * fst (orbit (-2, 0) j) + snd (orbit (-2, 0) j) * snd (orbit (-2, 0) j) <= 4)%R) /\
  exists r, mandelbrot (T := R) im 30 2 iter = Ok r /\ im_get r 29 1 0 = Ok 0.
Proof.
  intros OK HI. assert (mandel_at 30 2 29 1 = (-2, 0)%R) as M by (unfold mandel_at; f_equal; lra). split; [exact M|]. split.
  - intros [|j]; [cbn; lra|rewrite minus_two_orbit; cbn; lra].
  - destruct (mandelbrot_levels im 30 2 iter OK ltac:(lia) ltac:(lia) ltac:(unfold addressable, int_max; lia) HI) as (r & E & _ & _ & G). exists r. split; [exact E|].
    destruct (G 29 1 ltac:(lia) ltac:(lia)) as (k & L & A & _). rewrite A. f_equal. apply (level_unique iter _ k 0 L). rewrite M. split; [lia|]. split; [intros; lia|]. intros _. cbn. unfold in_disc. cbn. lra.
Qed.
Lemma mandel_case : bytes_ok (im_data (mkImg 0 0 0 [])) /\ addressable 30 2 4 /\ orbit_level 3 (0, 0)%R 3 /\ orbit_level 3 (1, 0)%R 1.
Proof.
  split; [constructor|]. split; [unfold addressable, int_max; lia|].
  assert (forall j, orbit (0, 0)%R j = (0, 0)%R) as Z by (induction j as [|j IH]; [reflexivity|]; cbn [orbit]; rewrite IH; unfold square_plus; cbn [fst snd]; f_equal; ring).
  split.
  - split; [lia|]. split; [intros j _; rewrite Z; unfold in_disc; cbn; lra|lia].
  - split; [lia|]. split; [intros j Hj; replace j with O by lia; unfold in_disc; cbn; lra|]. intros _. change (Z.to_nat 1) with 1%nat. cbn. unfold in_disc, square_plus. cbn. lra.
Qed.
