(** Surface areas of the icosahedron and the dodecahedron. *)
From Coq Require Import ZArith List Bool Lia Reals Lra Psatz.
From Verif Require Import Base Num MGeometry MKernel MMesh MMeshRun MMeasure MUtil MMeshFactory SMesh SReach SGeom SMeasure SMeshFac LBase LMesh LReach LGeom LMeasure LMeasure2 LMeshFac LMeshFac2 LMeshFac3 LMeshFac4 LMeshFac5 LMeshFac6 LMeshFac7.
Import ListNotations.
Open Scope R_scope.

Lemma dist3_sq p q : dist3 p q * dist3 p q = dot3 (sub3 p q) (sub3 p q).
Proof. unfold dist3, len3. apply sqrt_sqrt. unfold dot3. pose proof (Rle_0_sqr (px (sub3 p q))). pose proof (Rle_0_sqr (py (sub3 p q))). pose proof (Rle_0_sqr (pz (sub3 p q))). unfold Rsqr in *. lra. Qed.
(** Heron. *)
Lemma area_edges p q r a b c : dist3 p q = a -> dist3 r p = b -> dist3 q r = c ->
  area3 p q r = sqrt (a * a * (b * b) - (a * a + b * b - c * c) / 2 * ((a * a + b * b - c * c) / 2)) / 2.
Proof.
  intros A B C. unfold area3, len3. do 2 f_equal.
  assert (a * a = dot3 (sub3 p q) (sub3 p q)) as -> by (rewrite <- A; apply dist3_sq). assert (b * b = dot3 (sub3 r p) (sub3 r p)) as -> by (rewrite <- B; apply dist3_sq).
  assert (c * c = dot3 (sub3 q r) (sub3 q r)) as -> by (rewrite <- C; apply dist3_sq). unfold dot3, cross3, sub3. cbn [px py pz]. field.
Qed.
Lemma area_equilateral p q r s : dist3 p q = Rabs s -> dist3 q r = Rabs s -> dist3 r p = Rabs s -> area3 p q r = sqrt 3 / 4 * (s * s).
Proof.
  intros A B C. rewrite (area_edges p q r _ _ _ A C B). assert (Rabs s * Rabs s = s * s) as -> by (rewrite <- Rabs_mult; apply Rabs_pos_eq, Rle_0_sqr).
  replace (s * s * (s * s) - (s * s + s * s - s * s) / 2 * ((s * s + s * s - s * s) / 2)) with (3 * (s * s / 2 * (s * s / 2))) by field.
  assert (0 <= s * s) by apply Rle_0_sqr. rewrite sqrt_mult_alt, sqrt_square by lra. field.
Qed.
Lemma sumR_const {A} (f : A -> R) c l : (forall x, In x l -> f x = c) -> sumR (map f l) = IZR (len l) * c.
Proof.
  induction l as [|x l IH]; intros H; [cbn; ring|]. cbn [map]. unfold sumR in *. cbn [fold_right]. rewrite IH by (intros y Hy; apply H; right; exact Hy). rewrite (H x) by (left; reflexivity).
  unfold len. cbn [length]. rewrite Nat2Z.inj_succ, succ_IZR. ring.
Qed.
Lemma icosahedron_area (d : R) m : reach m ->
  exists m', create_icosahedron d m = Ok m' /\ let s := 2 * tau * d in surface m' = Ok (5 * sqrt 3 * (s * s)).
Proof.
  intros Rm. destruct (ico_is d (sqrt 5) tau m nsqrt_5 golden_down Rm) as [m' [E I]]. exists m'. split; [exact E|]. cbv zeta.
  rewrite (is_surface _ _ _ _ I). f_equal. rewrite (sumR_const area_tri (sqrt 3 / 4 * (2 * tau * d * (2 * tau * d)))).
  - change (len _) with 20%Z. field.
  - intros [[p q] r] H. apply ico_edges in H. destruct H as [A [B C]]. apply area_equilateral; assumption.
Qed.

Definition g_ : R := (1 + sqrt 5) / 2.
Lemma g_eq : g_ * g_ = g_ + 1.
Proof. unfold g_. pose proof (sqrt_sqrt 5 ltac:(lra)). nra. Qed.
Lemma g_pos : 1 < g_. Proof. unfold g_. assert (1 < sqrt 5) by (rewrite <- sqrt_1; apply sqrt_lt_1_alt; lra). lra. Qed.
Lemma g_tau s : s / tau = g_ * s.
Proof.
  assert (tau * g_ = 1) as H by (unfold tau, g_; pose proof (sqrt_sqrt 5 ltac:(lra)); nra). pose proof g_pos. assert (tau <> 0) by (intros Z; rewrite Z in H; lra).
  replace (s / tau) with (s * (tau * g_) / tau) by (rewrite H; field; assumption). field. assumption.
Qed.
Lemma pentagon_area s a b c d e : 0 <= s -> regular_pentagon s [a; b; c; d; e] -> area3 a b c + (area3 c d e + area3 a c e) = sqrt (25 + 10 * sqrt 5) / 4 * (s * s).
Proof.
  intros Hs [[AB [BC [CD [DE EA]]]] [[AC [BD [CE [DA EB]]]] _]]. assert (forall p q, dist3 p q = dist3 q p) as SY. { intros p q. unfold dist3, len3. f_equal. unfold dot3, sub3. cbn [px py pz]. ring. }
  rewrite g_tau in AC, CE. pose proof g_eq as GE. pose proof g_pos as GP. assert (0 <= s * s) by apply Rle_0_sqr.
  set (k := sqrt (g_ + 2)). assert (k * k = g_ + 2) as K by (apply sqrt_sqrt; lra). assert (0 <= k) by apply sqrt_pos.
  assert (sqrt (25 + 10 * sqrt 5) = k * k * k) as ->.
  { rewrite <- (sqrt_square (k * k * k)) by (repeat apply Rmult_le_pos; assumption). f_equal. replace (k * k * k * (k * k * k)) with (k * k * (k * k) * (k * k)) by ring. rewrite K.
    replace ((g_ + 2) * (g_ + 2) * (g_ + 2)) with (g_ * g_ * g_ + 6 * (g_ * g_) + 12 * g_ + 8) by ring. rewrite GE. replace ((g_ + 1) * g_) with (g_ * g_ + g_) by ring. rewrite GE. unfold g_. field. }
  assert (forall x, 0 <= x -> sqrt (x * x) = x) as SQ by (intros x Hx; apply sqrt_square; exact Hx).
  assert (forall p q r, dist3 p q = s -> dist3 q r = s -> dist3 r p = g_ * s -> area3 p q r = k / 4 * (s * s)) as T1.
  { intros p q r A B C. rewrite (area_edges p q r _ _ _ A C B).
    assert (s * s * (g_ * s * (g_ * s)) - (s * s + g_ * s * (g_ * s) - s * s) / 2 * ((s * s + g_ * s * (g_ * s) - s * s) / 2) = (k / 2 * (s * s)) * (k / 2 * (s * s))) as ->.
    { replace (k / 2 * (s * s) * (k / 2 * (s * s))) with (k * k / 4 * (s * s * (s * s))) by field. rewrite K.
      replace (s * s * (g_ * s * (g_ * s)) - (s * s + g_ * s * (g_ * s) - s * s) / 2 * ((s * s + g_ * s * (g_ * s) - s * s) / 2)) with ((g_ * g_ - g_ * g_ * (g_ * g_) / 4) * (s * s * (s * s))) by field.
      rewrite GE. f_equal. replace ((g_ + 1) * (g_ + 1)) with (g_ * g_ + 2 * g_ + 1) by ring. rewrite GE. field. }
    rewrite SQ by (apply Rmult_le_pos; lra). field. }
  rewrite (T1 a b c AB BC) by (rewrite SY; exact AC). rewrite (T1 c d e CD DE) by (rewrite SY; exact CE).
  assert (dist3 e a = s) as EA' by exact EA. rewrite (area_edges a c e _ _ _ AC EA CE).
  assert (g_ * s * (g_ * s) * (s * s) - (g_ * s * (g_ * s) + s * s - g_ * s * (g_ * s)) / 2 * ((g_ * s * (g_ * s) + s * s - g_ * s * (g_ * s)) / 2) = (g_ * k / 2 * (s * s)) * (g_ * k / 2 * (s * s))) as ->.
  { replace (g_ * k / 2 * (s * s) * (g_ * k / 2 * (s * s))) with (g_ * g_ * (k * k) / 4 * (s * s * (s * s))) by field. rewrite K.
    replace (g_ * s * (g_ * s) * (s * s) - (g_ * s * (g_ * s) + s * s - g_ * s * (g_ * s)) / 2 * ((g_ * s * (g_ * s) + s * s - g_ * s * (g_ * s)) / 2)) with ((g_ * g_ - / 4) * (s * s * (s * s))) by field.
    rewrite GE. f_equal. replace ((g_ + 1) * (g_ + 2)) with (g_ * g_ + 3 * g_ + 2) by ring. rewrite GE. field. }
  rewrite SQ by (apply Rmult_le_pos; [|lra]; unfold Rdiv; apply Rmult_le_pos; [apply Rmult_le_pos|]; lra).
  replace (k * k * k) with (k * (g_ + 2)) by (rewrite <- K; ring). field.
Qed.
Lemma dodecahedron_area (d : R) m : reach m ->
  exists m', create_dodecahedron d m = Ok m' /\ let s := 2 * tau * d in surface m' = Ok (3 * sqrt (25 + 10 * sqrt 5) * (s * s)).
Proof.
  intros Rm. destruct (dodeca_R d m Rm) as [m' [a [fs [E [R' [S [_ [_ [LV [LF RP]]]]]]]]]]. exists m'. split; [exact E|]. cbv zeta. rewrite (reach_surface _ _ R' S). f_equal.
  unfold total_area, faces. rewrite LV. set (s := 2 * tau * d) in *.
  assert (sumR (map area_tri (map (corners a) (flat_map fan5 fs))) = sumR (map (fun f => sumR (map area_tri (map (corners a) (fan5 f)))) fs)) as ->.
  { clear. induction fs as [|f l IH]; [reflexivity|]. cbn [flat_map map]. rewrite !map_app, sumR_app, IH. reflexivity. }
  rewrite (sumR_const _ (sqrt (25 + 10 * sqrt 5) / 4 * (s * s))); [rewrite LF; field|].
  intros f Hf. specialize (RP f Hf). assert (s * s = Rabs s * Rabs s) as -> by (rewrite <- Rabs_mult; symmetry; apply Rabs_pos_eq, Rle_0_sqr).
  destruct f as [|v [|w [|x [|y [|z [|? ?]]]]]]; try contradiction. cbn [map] in RP. rewrite <- (pentagon_area (Rabs s) _ _ _ _ _ (Rabs_pos s) RP).
  cbn [fan5 map corners area_tri]. unfold sumR. cbn [fold_right]. ring.
Qed.
