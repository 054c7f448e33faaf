(** Round solids: exact volumes in terms of the sines and cosines that are used. *)
From Coq Require Import ZArith List Bool Lia Reals Lra Psatz.
From Verif Require Import Base Num MGeometry MKernel MMesh MMeshRun MMeasure MUtil MMeshFactory SMesh SReach SGeom SMeasure SMeshFac LBase LMesh LReach LGeom LMeasure LMeasure2 LMeshFac LMeshFac2 LMeshFac3 LMeshFac4 LMeshFac5 LRound.
Import ListNotations.
Open Scope R_scope.

Definition cosa (N i : Z) : R := cos (angle i N).
Definition sina (N i : Z) : R := sin (angle i N).
Definition wedge (N i k : Z) : R := cosa N i * sina N k - sina N i * cosa N k.
Definition wedges (N : Z) : R := rsum (fun i => wedge N i (Z.rem (i + 1) N)) (zrange 0 N).

Ltac vol3 := unfold tetra_vol, det3, dot3, cross3; cbn [px py pz].

(** ** Cylinder *)
Lemma cyl_top r z L i : (0 <= i < L)%Z -> at_ (cyl_vs r z L) (2 * i) = mkP (cosa L i * r) (sina L i * r) z.
Proof. intros H. unfold cyl_vs. replace (2 * i)%Z with (i * 2 + 0)%Z by lia. rewrite (at_block _ 2) by (try reflexivity; lia). reflexivity. Qed.
Lemma cyl_bot r z L i : (0 <= i < L)%Z -> at_ (cyl_vs r z L) (2 * i + 1) = mkP (cosa L i * r) (sina L i * r) (- z).
Proof. intros H. unfold cyl_vs. replace (2 * i + 1)%Z with (i * 2 + 1)%Z by lia. rewrite (at_block _ 2) by (try reflexivity; lia). reflexivity. Qed.
Lemma cyl_ctop r z L : (0 <= L)%Z -> at_ (cyl_vs r z L) (2 * L) = mkP 0 0 z.
Proof. intros H. unfold cyl_vs. replace (2 * L)%Z with (L * 2 + 0)%Z by lia. rewrite (at_tail _ 2) by (try reflexivity; lia). reflexivity. Qed.
Lemma cyl_cbot r z L : (0 <= L)%Z -> at_ (cyl_vs r z L) (2 * L + 1) = mkP 0 0 (- z).
Proof. intros H. unfold cyl_vs. replace (2 * L + 1)%Z with (L * 2 + 1)%Z by lia. rewrite (at_tail _ 2) by (try reflexivity; lia). reflexivity. Qed.

Lemma tetra_cc p q : tetra_vol p q p = 0. Proof. vol3. field. Qed.
Lemma tetra_cc' p q : tetra_vol p p q = 0. Proof. vol3. field. Qed.
Lemma cyl_volume r z L : (2 <= L)%Z -> msum (cyl_vs r z L) (cyl_ts L) = wedges L * (r * r) * z.
Proof.
  intros HL. set (vs := cyl_vs r z L). set (c := r * r * z / 6).
  assert (forall i k, (0 <= i < L)%Z -> (0 <= k < L)%Z -> forall a b d e, a = (2 * i)%Z -> b = (2 * i + 1)%Z -> d = (2 * k + 1)%Z -> e = (2 * k)%Z ->
    msum vs (quad_ts a b d e) = (4 * c) * wedge L i k) as SIDE.
  { intros i k Hi Hk a b d e -> -> -> ->. rewrite msum_quad. unfold vs. rewrite !cyl_top, !cyl_bot by assumption. vol3. unfold wedge, c. field. }
  assert (forall i k, (0 <= i < L)%Z -> (0 <= k < L)%Z -> forall b d, b = (2 * i)%Z -> d = (2 * k)%Z -> msum vs [((2 * L)%Z, b, d)] = c * wedge L i k) as TOP.
  { intros i k Hi Hk b d -> ->. rewrite msum_1. unfold vs. rewrite cyl_ctop, !cyl_top by lia. vol3. unfold wedge, c. field. }
  assert (forall i k, (0 <= i < L)%Z -> (0 <= k < L)%Z -> forall b d, b = (2 * k + 1)%Z -> d = (2 * i + 1)%Z -> msum vs [((2 * L + 1)%Z, b, d)] = c * wedge L i k) as BOT.
  { intros i k Hi Hk b d -> ->. rewrite msum_1. unfold vs. rewrite cyl_cbot, !cyl_bot by lia. vol3. unfold wedge, c. field. }
  assert (forall f, rsum f (zrange 0 L) = rsum f (zrange 0 (L - 1)) + f (L - 1)%Z) as SPL.
  { intros f. assert (zrange 0 L = zrange 0 (L - 1 + 1)) as -> by (f_equal; lia). apply rsum_last. lia. }
  unfold cyl_ts. rewrite !msum_app, !msum_flat, !SPL.
  replace (2 * (L - 1) + 2)%Z with (2 * L)%Z by lia. replace (2 * (L - 1) + 3)%Z with (2 * L + 1)%Z by lia. rewrite (msum_1 vs (2 * L) _ (2 * L)), (msum_1 vs (2 * L + 1) (2 * L + 1)), tetra_cc, tetra_cc'.
  rewrite (SIDE (L - 1)%Z 0%Z), (TOP (L - 1)%Z 0%Z), (BOT (L - 1)%Z 0%Z) by lia.
  rewrite (rsum_ext _ (fun i => (4 * c) * wedge L i (i + 1)) (zrange 0 (L - 1))) by (intros i Hi; apply in_zrange in Hi; apply SIDE; lia).
  rewrite (rsum_ext (fun i => msum vs [(2 * L, 2 * i, 2 * i + 2)%Z]) (fun i => c * wedge L i (i + 1)) (zrange 0 (L - 1))) by (intros i Hi; apply in_zrange in Hi; apply TOP; lia).
  rewrite (rsum_ext (fun i => msum vs [(2 * L + 1, 2 * i + 3, 2 * i + 1)%Z]) (fun i => c * wedge L i (i + 1)) (zrange 0 (L - 1))) by (intros i Hi; apply in_zrange in Hi; apply BOT; lia).
  rewrite !rsum_scal. unfold wedges. rewrite (rsum_cycle_split (wedge L)) by lia. unfold c. field.
Qed.

(** ** Torus *)
Definition ringr (rM rm : R) (M j : Z) : R := rM + rm * cosa M j.
Definition ringz (rm : R) (M j : Z) : R := rm * sina M j.
Lemma torus_at rM rm N M i j : (0 <= i < N)%Z -> (0 <= j < M)%Z ->
  at_ (torus_vs rM rm N M) (i * M + j) = mkP (ringr rM rm M j * cosa N i) (ringr rM rm M j * sina N i) (ringz rm M j).
Proof.
  intros Hi Hj. unfold torus_vs. rewrite <- (app_nil_r (flat_map _ _)).
  rewrite (at_block _ M); [|intros k; rewrite (len_flat _ 1) by reflexivity; rewrite len_zrange; lia|lia|lia].
  rewrite (at_row (torus_p rM rm N M i)) by lia. reflexivity.
Qed.
Definition profile (rM rm : R) (M j k : Z) : R :=
  (ringr rM rm M j + ringr rM rm M k) * (ringr rM rm M j * ringz rm M k - ringr rM rm M k * ringz rm M j).
Definition cosw (M : Z) : R := rsum (fun j => wedge M j (Z.rem (j + 1) M) * (cosa M j + cosa M (Z.rem (j + 1) M))) (zrange 0 M).
Lemma torus_volume0 rM rm N M : (0 < N)%Z -> (0 < M)%Z ->
  msum (torus_vs rM rm N M) (torus_ts N M) = wedges N * rsum (fun j => profile rM rm M j (Z.rem (j + 1) M)) (zrange 0 M) / 6.
Proof.
  intros HN HM. unfold torus_ts. rewrite msum_flat. unfold wedges. set (K := rsum _ (zrange 0 M)).
  rewrite (rsum_ext _ (fun i => (K / 6) * wedge N i (Z.rem (i + 1) N))); [rewrite rsum_scal; field|].
  intros i Hi. apply in_zrange in Hi. pose proof (rem_in i N Hi). rewrite msum_flat. unfold K.
  rewrite (rsum_ext _ (fun j => (wedge N i (Z.rem (i + 1) N) / 6) * profile rM rm M j (Z.rem (j + 1) M))); [rewrite rsum_scal; field|].
  intros j Hj. apply in_zrange in Hj. pose proof (rem_in j M Hj). rewrite msum_quad, !torus_at by assumption. vol3. unfold profile, wedge. field.
Qed.
Lemma torus_profile rM rm M : (0 < M)%Z ->
  rsum (fun j => profile rM rm M j (Z.rem (j + 1) M)) (zrange 0 M) = rm * rm * (3 * rM * wedges M + rm * cosw M).
Proof.
  intros HM. set (F := fun j => 2 * rM * rM * rm * sina M j + rM * rm * rm * (sina M j * cosa M j)).
  rewrite (rsum_ext _ (fun j => (3 * rM * (rm * rm)) * wedge M j (Z.rem (j + 1) M) + (rm * rm * rm) * (wedge M j (Z.rem (j + 1) M) * (cosa M j + cosa M (Z.rem (j + 1) M))) + (F (Z.rem (j + 1) M) - F j))).
  - rewrite (rsum_plus (fun j => (3 * rM * (rm * rm)) * wedge M j (Z.rem (j + 1) M) + (rm * rm * rm) * (wedge M j (Z.rem (j + 1) M) * (cosa M j + cosa M (Z.rem (j + 1) M)))) (fun j => F (Z.rem (j + 1) M) - F j)).
    rewrite rsum_cycle_tele, (rsum_plus (fun j => _ * _) (fun j => _ * _)), !rsum_scal. unfold wedges, cosw. ring.
  - intros j Hj. generalize (Z.rem (j + 1) M). intros k. unfold profile, ringr, ringz, wedge, F.
    ring.
Qed.

(** ** Sphere made of meridians *)
Definition lat (M j : Z) : R := dv (IZR j) M * pi_lit.
Lemma uv_at r N M i j : (0 <= i < N)%Z -> (1 <= j < M)%Z ->
  at_ (uv_vs r N M) (i * (M - 1) + (j - 1)) = mkP (r * sin (lat M j) * cosa N i) (r * sin (lat M j) * sina N i) (r * cos (lat M j)).
Proof.
  intros Hi Hj. unfold uv_vs. rewrite (at_block _ (M - 1)); [|intros k; rewrite (len_flat _ 1) by reflexivity; rewrite len_zrange; lia|lia|lia].
  rewrite (at_row (uv_p r N M i)) by lia. replace (1 + (j - 1))%Z with j by lia. reflexivity.
Qed.
Lemma uv_north r N M : (0 <= N)%Z -> (1 <= M)%Z -> at_ (uv_vs r N M) ((M - 1) * N) = mkP 0 0 r.
Proof.
  intros HN HM. unfold uv_vs. replace ((M - 1) * N)%Z with (N * (M - 1) + 0)%Z by lia.
  rewrite (at_tail _ (M - 1)); [reflexivity|intros k; rewrite (len_flat _ 1) by reflexivity; rewrite len_zrange; lia|lia..].
Qed.
Lemma uv_south r N M : (0 <= N)%Z -> (1 <= M)%Z -> at_ (uv_vs r N M) ((M - 1) * N + 1) = mkP 0 0 (- r).
Proof.
  intros HN HM. unfold uv_vs. replace ((M - 1) * N + 1)%Z with (N * (M - 1) + 1)%Z by lia.
  rewrite (at_tail _ (M - 1)); [reflexivity|intros k; rewrite (len_flat _ 1) by reflexivity; rewrite len_zrange; lia|lia..].
Qed.
Definition meridian (M : Z) : R :=
  sin (lat M 1) * sin (lat M 1) + rsum (fun j => (sin (lat M j) + sin (lat M (j + 1))) * sin (lat M (j + 1) - lat M j)) (zrange 1 (M - 1)) + sin (lat M (M - 1)) * sin (lat M (M - 1)).
Lemma uv_volume r N M : (0 < N)%Z -> (2 <= M)%Z -> msum (uv_vs r N M) (uv_ts N (M - 1)) = wedges N * (r * r * r) * meridian M / 6.
Proof.
  intros HN HM. unfold uv_ts. rewrite msum_flat. unfold wedges. set (K := meridian M).
  rewrite (rsum_ext _ (fun i => (r * r * r * K / 6) * wedge N i (Z.rem (i + 1) N))); [rewrite rsum_scal; field|].
  intros i Hi. apply in_zrange in Hi. pose proof (rem_in i N Hi) as Hk. set (k := Z.rem (i + 1) N) in *. unfold uv_strip. fold k. rewrite !msum_app, msum_flat, !msum_1, uv_north, uv_south by lia.
  replace (at_ (uv_vs r N M) (i * (M - 1))) with (at_ (uv_vs r N M) (i * (M - 1) + (1 - 1))) by (f_equal; lia).
  replace (at_ (uv_vs r N M) (k * (M - 1))) with (at_ (uv_vs r N M) (k * (M - 1) + (1 - 1))) by (f_equal; lia).
  replace (i * (M - 1) + (M - 1) - 1)%Z with (i * (M - 1) + (M - 1 - 1))%Z by lia. replace (k * (M - 1) + (M - 1) - 1)%Z with (k * (M - 1) + (M - 1 - 1))%Z by lia.
  rewrite !uv_at by lia.
  rewrite (rsum_ext _ (fun j => (r * r * r * wedge N i k / 6) * ((sin (lat M j) + sin (lat M (j + 1))) * sin (lat M (j + 1) - lat M j)))).
  - rewrite rsum_scal. unfold K, meridian. vol3. unfold wedge. field.
  - intros j Hj. apply in_zrange in Hj. rewrite msum_quad.
    replace (i * (M - 1) + j - 1)%Z with (i * (M - 1) + (j - 1))%Z by lia. replace (i * (M - 1) + j)%Z with (i * (M - 1) + (j + 1 - 1))%Z by lia.
    replace (k * (M - 1) + j - 1)%Z with (k * (M - 1) + (j - 1))%Z by lia. replace (k * (M - 1) + j)%Z with (k * (M - 1) + (j + 1 - 1))%Z by lia.
    rewrite !uv_at by lia. rewrite sin_minus. vol3. unfold wedge. field.
Qed.
