(** Round solids: every face winds outwards. *)
From Coq Require Import ZArith List Bool Lia Reals Lra Psatz.
From Verif Require Import Base Num MGeometry MKernel MMesh MMeshRun MMeasure MUtil MMeshFactory SMesh SReach SGeom SMeasure SMeshFac SRound LBase LMesh LReach LGeom LMeasure LMeasure2 LMeshFac LMeshFac2 LMeshFac3 LMeshFac4 LMeshFac5 LPi LRound LRound2 LRound3 LRound4.
Import ListNotations.
Open Scope R_scope.

Definition outv (vs : list pt3) (t : triple) : Prop := let '(x, y, z) := t in 0 <= tetra_vol (at_ vs x) (at_ vs y) (at_ vs z).
Lemma outv_faces vs ts f : Forall (outv vs) ts -> In f (tri_list vs ts) -> 0 <= vol_tri f.
Proof. intros H I. unfold tri_list in I. apply in_map_iff in I. destruct I as [[[x y] z] [<- J]]. rewrite Forall_forall in H. exact (H _ J). Qed.
Lemma forall_flat {A} (P : A -> Prop) (h : Z -> list A) a b : (forall i, (a <= i < b)%Z -> Forall P (h i)) -> Forall P (flat_map h (zrange a b)).
Proof. intros H. rewrite Forall_forall. intros x I. apply in_flat_map in I. destruct I as [i [J K]]. apply in_zrange in J. specialize (H i J). rewrite Forall_forall in H. exact (H x K). Qed.
Lemma forall_app {A} (P : A -> Prop) u v : Forall P u -> Forall P v -> Forall P (u ++ v).
Proof. intros. apply Forall_app. split; assumption. Qed.
Lemma step_pos N : (6 <= N)%Z -> 0 < sin (2 * pi_lit / IZR N) /\ 0 < sin (2 * pi_lit / IZR N + 2 * e_).
Proof.
  intros H. assert (6 <= IZR N) as HN by (apply IZR_le; lia). pose proof PI_small. pose proof e_small. rewrite pi_lit_R.
  assert (0 < / IZR N) by (apply Rinv_0_lt_compat; lra). assert (/ IZR N <= / 6) by (apply Rinv_le_contravar; lra).
  assert (0 < 2 * (PI - e_) / IZR N <= 2) by (unfold Rdiv; split; [apply Rmult_lt_0_compat; lra|nra]).
  split; apply sin_gt_0; lra.
Qed.
Lemma wedge_pos N i : (6 <= N)%Z -> (0 <= i < N)%Z -> 0 < wedge N i (Z.rem (i + 1) N).
Proof.
  intros H Hi. destruct (step_pos N H) as [A B]. destruct (Z.eq_dec i (N - 1)) as [->|D].
  - rewrite rem_last by lia. rewrite wedge_close by lia. exact B.
  - rewrite rem_inner by lia. rewrite wedge_step by lia. exact A.
Qed.
Lemma cyl_outv r z L : (6 <= L)%Z -> 0 <= z -> Forall (outv (cyl_vs r z L)) (cyl_ts L).
Proof.
  intros HL Hz. set (vs := cyl_vs r z L). pose proof (Rle_0_sqr r) as R0. unfold Rsqr in R0.
  assert (forall i, (0 <= i < L)%Z -> let k := Z.rem (i + 1) L in 0 <= r * r * z * wedge L i k) as POS.
  { intros i Hi. apply Rmult_le_pos; [apply Rmult_le_pos; assumption|]. left. apply wedge_pos; assumption. }
  assert (forall i k, (0 <= i < L)%Z -> k = Z.rem (i + 1) L -> forall a b d e, a = (2 * i)%Z -> b = (2 * i + 1)%Z -> d = (2 * k + 1)%Z -> e = (2 * k)%Z ->
    Forall (outv vs) (quad_ts a b d e)) as SIDE.
  { intros i k Hi -> a b d e -> -> -> ->. pose proof (rem_in i L Hi) as Hk. specialize (POS i Hi). cbv zeta in POS. set (k := Z.rem (i + 1) L) in *. unfold quad_ts, wedge in *.
    constructor; [|constructor; [|constructor]]; unfold outv, vs; rewrite !cyl_top, !cyl_bot by assumption; vol3; unfold cosa, sina in *; lra. }
  assert (forall i k, (0 <= i < L)%Z -> k = Z.rem (i + 1) L -> forall b d, b = (2 * i)%Z -> d = (2 * k)%Z -> Forall (outv vs) [((2 * L)%Z, b, d)]) as TOP.
  { intros i k Hi -> b d -> ->. pose proof (rem_in i L Hi) as Hk. specialize (POS i Hi). cbv zeta in POS. set (k := Z.rem (i + 1) L) in *. unfold wedge in *.
    constructor; [|constructor]. unfold outv, vs. rewrite cyl_ctop, !cyl_top by lia. vol3. unfold cosa, sina in *. lra. }
  assert (forall i k, (0 <= i < L)%Z -> k = Z.rem (i + 1) L -> forall b d, b = (2 * k + 1)%Z -> d = (2 * i + 1)%Z -> Forall (outv vs) [((2 * L + 1)%Z, b, d)]) as BOT.
  { intros i k Hi -> b d -> ->. pose proof (rem_in i L Hi) as Hk. specialize (POS i Hi). cbv zeta in POS. set (k := Z.rem (i + 1) L) in *. unfold wedge in *.
    constructor; [|constructor]. unfold outv, vs. rewrite cyl_cbot, !cyl_bot by lia. vol3. unfold cosa, sina in *. lra. }
  assert (0 = Z.rem (L - 1 + 1) L)%Z as LAST by (symmetry; apply rem_last; lia).
  unfold cyl_ts. repeat apply forall_app.
  - apply forall_flat. intros i Hi. apply (SIDE i (i + 1)%Z); try lia. symmetry. apply rem_inner. lia.
  - apply (SIDE (L - 1)%Z 0%Z); lia.
  - apply forall_flat. intros i Hi. destruct (Z.eq_dec i (L - 1)) as [->|D].
    + constructor; [|constructor]. unfold outv. replace (2 * (L - 1) + 2)%Z with (2 * L)%Z by lia. rewrite tetra_cc. lra.
    + apply (TOP i (i + 1)%Z); try lia. symmetry. apply rem_inner. lia.
  - apply (TOP (L - 1)%Z 0%Z); lia.
  - apply forall_flat. intros i Hi. destruct (Z.eq_dec i (L - 1)) as [->|D].
    + constructor; [|constructor]. unfold outv. replace (2 * (L - 1) + 3)%Z with (2 * L + 1)%Z by lia. rewrite tetra_cc'. lra.
    + apply (BOT i (i + 1)%Z); try lia. symmetry. apply rem_inner. lia.
  - apply (BOT (L - 1)%Z 0%Z); lia.
Qed.

Lemma lat_pos M j : (1 <= j < M)%Z -> 0 < sin (lat M j).
Proof.
  intros H. rewrite lat_R by lia. assert (1 <= IZR j) by (apply IZR_le; lia). assert (IZR j < IZR M) by (apply IZR_lt; lia). pose proof PI_small. pose proof e_small. rewrite pi_lit_R.
  assert (0 < / IZR M) by (apply Rinv_0_lt_compat; lra). assert (IZR j * / IZR M < 1). { apply (Rmult_lt_reg_r (IZR M)); [lra|]. rewrite Rmult_assoc, Rinv_l by lra. lra. }
  assert (0 < IZR j * / IZR M) by (apply Rmult_lt_0_compat; lra).
  replace (IZR j * ((PI - e_) / IZR M)) with ((PI - e_) * (IZR j * / IZR M)) by (field; lra). apply sin_gt_0; nra.
Qed.
Lemma lat_step M j : (2 <= M)%Z -> 0 < sin (lat M (j + 1) - lat M j).
Proof.
  intros H. rewrite !lat_R by lia. assert (2 <= IZR M) by (apply IZR_le; lia). rewrite plus_IZR. replace ((IZR j + 1) * (pi_lit / IZR M) - IZR j * (pi_lit / IZR M)) with (pi_lit / IZR M) by ring.
  pose proof PI_small. pose proof e_small. rewrite pi_lit_R. assert (0 < / IZR M) by (apply Rinv_0_lt_compat; lra). assert (/ IZR M <= / 2) by (apply Rinv_le_contravar; lra).
  unfold Rdiv. apply sin_gt_0; nra.
Qed.
Lemma uv_outv r N M : (6 <= N)%Z -> (2 <= M)%Z -> 0 <= r -> Forall (outv (uv_vs r N M)) (uv_ts N (M - 1)).
Proof.
  intros HN HM Hr. unfold uv_ts. apply forall_flat. intros i Hi. pose proof (rem_in i N Hi) as Hk. pose proof (wedge_pos N i HN Hi) as W. set (k := Z.rem (i + 1) N) in *. unfold uv_strip. fold k.
  assert (0 <= r * r * r) as R3 by (repeat apply Rmult_le_pos; lra). unfold wedge in W. set (w := cosa N i * sina N k - sina N i * cosa N k) in *.
  repeat apply forall_app.
  - constructor; [|constructor]. unfold outv. rewrite uv_north by lia.
    replace (at_ (uv_vs r N M) (i * (M - 1))) with (at_ (uv_vs r N M) (i * (M - 1) + (1 - 1))) by (f_equal; lia).
    replace (at_ (uv_vs r N M) (k * (M - 1))) with (at_ (uv_vs r N M) (k * (M - 1) + (1 - 1))) by (f_equal; lia). rewrite !uv_at by lia.
    pose proof (lat_pos M 1 ltac:(lia)) as S. set (s := sin (lat M 1)) in *.
    match goal with |- 0 <= tetra_vol ?p ?q ?t => replace (tetra_vol p q t) with (r * r * r * (s * s) * w / 6) by (vol3; unfold w; field) end.
    unfold Rdiv. apply Rmult_le_pos; [|lra]. apply Rmult_le_pos; [|lra]. apply Rmult_le_pos; [exact R3|]. apply Rle_0_sqr.
  - apply forall_flat. intros j Hj. unfold quad_ts.
    replace (i * (M - 1) + j - 1)%Z with (i * (M - 1) + (j - 1))%Z by lia. replace (i * (M - 1) + j)%Z with (i * (M - 1) + (j + 1 - 1))%Z by lia.
    replace (k * (M - 1) + j - 1)%Z with (k * (M - 1) + (j - 1))%Z by lia. replace (k * (M - 1) + j)%Z with (k * (M - 1) + (j + 1 - 1))%Z by lia.
    pose proof (lat_pos M j ltac:(lia)) as S1. pose proof (lat_pos M (j + 1) ltac:(lia)) as S2. pose proof (lat_step M j HM) as D. rewrite sin_minus in D.
    constructor; [|constructor; [|constructor]]; unfold outv; rewrite !uv_at by lia; set (s := sin (lat M j)) in *; set (t := sin (lat M (j + 1))) in *; set (c := cos (lat M j)) in *; set (d := cos (lat M (j + 1))) in *; set (q := t * c - d * s) in *.
    + match goal with |- 0 <= tetra_vol ?a ?b ?e => replace (tetra_vol a b e) with (r * r * r * t * w * q / 6) by (vol3; unfold w, q; field) end.
      unfold Rdiv. repeat apply Rmult_le_pos; lra.
    + match goal with |- 0 <= tetra_vol ?a ?b ?e => replace (tetra_vol a b e) with (r * r * r * s * w * q / 6) by (vol3; unfold w, q; field) end.
      unfold Rdiv. repeat apply Rmult_le_pos; lra.
  - constructor; [|constructor]. unfold outv. rewrite uv_south by lia.
    replace (i * (M - 1) + (M - 1) - 1)%Z with (i * (M - 1) + (M - 1 - 1))%Z by lia. replace (k * (M - 1) + (M - 1) - 1)%Z with (k * (M - 1) + (M - 1 - 1))%Z by lia.
    rewrite !uv_at by lia. set (s := sin (lat M (M - 1))).
    match goal with |- 0 <= tetra_vol ?p ?q ?t => replace (tetra_vol p q t) with (r * r * r * (s * s) * w / 6) by (vol3; unfold w; field) end.
    unfold Rdiv. apply Rmult_le_pos; [|lra]. apply Rmult_le_pos; [|lra]. apply Rmult_le_pos; [exact R3|]. apply Rle_0_sqr.
Qed.
Lemma round_outwards (h r : R) n m : reach m -> (1 <= n)%Z -> 0 <= h -> 0 <= r ->
  (exists m' a, create_cylinder h r n m = Ok m' /\ shows m' a /\ forall f, In f (faces a) -> 0 <= vol_tri f) /\
  (exists m' a, create_sphere_uv r n m = Ok m' /\ shows m' a /\ forall f, In f (faces a) -> 0 <= vol_tri f).
Proof.
  intros Rm Hn Hh Hr. split.
  - destruct (cyl_is h r n m divides_R Rm ltac:(lia)) as [m' [E I]]. rewrite dv_R in I by lia. eexists m', _. split; [exact E|]. split; [apply I|]. intros f. rewrite faces_is. apply outv_faces. apply cyl_outv; [lia|lra].
  - destruct (uv_is r n m divides_R Rm) as [m' [E I]]. replace (1 + 2 * n)%Z with (2 + 2 * n - 1)%Z in I by lia. eexists m', _. split; [exact E|]. split; [apply I|]. intros f. rewrite faces_is. apply outv_faces. apply uv_outv; [lia|lia|exact Hr].
Qed.

(** ** Torus *)
Definition tubev (rM rm : R) (vs : list pt3) (t : triple) : Prop := let '(x, y, z) := t in faces_out_of_tube rM rm (at_ vs x, at_ vs y, at_ vs z).
Lemma tubev_faces rM rm vs ts f : Forall (tubev rM rm vs) ts -> In f (tri_list vs ts) -> faces_out_of_tube rM rm f.
Proof. intros H I. unfold tri_list in I. apply in_map_iff in I. destruct I as [[[x y] z] [<- J]]. rewrite Forall_forall in H. exact (H _ J). Qed.
Lemma tube_dist rM rm N M i j : 0 <= rm -> dist3 (mkP (ringr rM rm M j * cosa N i) (ringr rM rm M j * sina N i) (ringz rm M j)) (mkP (rM * cos (angle i N)) (rM * sin (angle i N)) 0) = rm.
Proof.
  intros H. unfold dist3, len3, dot3, sub3. cbn [px py pz]. unfold ringr, ringz, cosa, sina. set (u := angle i N). set (v := angle j M).
  pose proof (sin2_cos2 u) as U. pose proof (sin2_cos2 v) as V. unfold Rsqr in U, V.
  match goal with |- sqrt ?x = _ => replace x with (rm * rm) end; [apply sqrt_square; exact H|].
  replace (rm * rm) with (rm * rm * (sin v * sin v + cos v * cos v)) by (rewrite V; ring).
  replace (cos v * cos v) with (cos v * cos v * (sin u * sin u + cos u * cos u)) at 1 by (rewrite U; ring). ring.
Qed.
Lemma torus_outv rM rm N M : (6 <= N)%Z -> (6 <= M)%Z -> 0 < rm < rM -> Forall (tubev rM rm (torus_vs rM rm N M)) (torus_ts N M).
Proof.
  intros HN HM Hr. unfold torus_ts. apply forall_flat. intros i Hi. apply forall_flat. intros j Hj. pose proof (rem_in i N Hi) as Hi'. pose proof (rem_in j M Hj) as Hj'.
  pose proof (wedge_pos N i HN Hi) as W. pose proof (wedge_pos M j HM Hj) as D. set (k := Z.rem (i + 1) N) in *. set (l := Z.rem (j + 1) M) in *.
  assert (forall b, 0 < ringr rM rm M b) as RP. { intros b. unfold ringr. pose proof (COS_bound (angle b M)) as C. fold (cosa M b) in C. nra. }
  unfold quad_ts. constructor; [|constructor; [|constructor]]; unfold tubev; rewrite !torus_at by assumption.
  - exists (angle k N). cbv zeta. split; [apply tube_dist; lra|]. split; [apply tube_dist; lra|].
    pose proof (RP l) as Rl. change (cos (angle k N)) with (cosa N k). change (sin (angle k N)) with (sina N k).
    match goal with |- 0 < ?x => replace x with (rm * rm * wedge M j l * ringr rM rm M l * wedge N i k * 1) end.
    + rewrite Rmult_1_r. apply Rmult_lt_0_compat; [|exact W]. apply Rmult_lt_0_compat; [|exact Rl]. apply Rmult_lt_0_compat; [|exact D]. apply Rmult_lt_0_compat; lra.
    + unfold det3, dot3, cross3, sub3, wedge, ringr, ringz. cbn [px py pz]. 
      set (a := cosa N k) in *. set (b := sina N k) in *. set (c := cosa N i). set (d := sina N i). set (e := cosa M j). set (f := sina M j). set (g := cosa M l). set (h := sina M l). ring.
  - exists (angle i N). cbv zeta. split; [apply tube_dist; lra|]. split; [apply tube_dist; lra|].
    pose proof (RP j) as Rl. change (cos (angle i N)) with (cosa N i). change (sin (angle i N)) with (sina N i).
    match goal with |- 0 < ?x => replace x with (rm * rm * wedge M j l * ringr rM rm M j * wedge N i k * 1) end.
    + rewrite Rmult_1_r. apply Rmult_lt_0_compat; [|exact W]. apply Rmult_lt_0_compat; [|exact Rl]. apply Rmult_lt_0_compat; [|exact D]. apply Rmult_lt_0_compat; lra.
    + unfold det3, dot3, cross3, sub3, wedge, ringr, ringz. cbn [px py pz]. 
      set (a := cosa N k) in *. set (b := sina N k) in *. set (c := cosa N i) in *. set (d := sina N i) in *. set (e := cosa M j). set (f := sina M j). set (g := cosa M l). set (h := sina M l). ring.
Qed.
Lemma torus_outwards (rM rm : R) n m : reach m -> (1 <= n)%Z -> 0 < rm < rM ->
  exists m' a, create_torus rM rm n m = Ok m' /\ shows m' a /\ forall f, In f (faces a) -> faces_out_of_tube rM rm f.
Proof.
  intros Rm Hn Hr. destruct (torus_is rM rm n m divides_R Rm) as [m' [E I]]. eexists m', _. split; [exact E|]. split; [apply I|]. intros f. rewrite faces_is. apply tubev_faces. apply torus_outv; [lia|lia|exact Hr].
Qed.
