(** NURBS factories: circle, sphere, torus, cylinder, extrusion, ruled surfaces, quads and triangles. *)
From Coq Require Import ZArith List Bool Reals Lra Lia Permutation Psatz.
From Verif Require Import Base Num MGeometry MNurbs MNurbsSurface MNurbsFactory SGeom SNurbs SSurface LBase LMesh LBlossom LNurbs LNurbs2 LNurbs3 LNurbs4 LSurf LSurf2 LRevolve.
Import ListNotations.
Open Scope Z_scope.

Ltac ncbn := cbn [nc_degree nc_knots nc_weights nc_points nc_nb nc_tp nc_tw].
Ltac nscbn := cbn [ns_degU ns_degV ns_nbU ns_nbV ns_closedU ns_closedV ns_knotsU ns_knotsV ns_weights ns_points ns_tpU ns_tpV ns_twU ns_twV].

Lemma inv_sqrt2_ok : @inv_sqrt2 R RNum = Ok h2.
Proof.
  unfold inv_sqrt2, nsqrt, n2, nofZ, ndiv, n1. cbn [RNum]. pose proof sqrt2_pos. destruct (Rlt_dec 2 0); [lra|]. cbn [bind nofZ RNum].
  destruct (Req_EM_T (sqrt 2) 0); [lra|]. reflexivity.
Qed.

Definition circle_ws : list R := [1; h2; 1; h2; 1; h2; 1; h2; 1]%R.
Definition circle_pts (r : R) : list pt3 :=
  [lpt 1 0 0 r; lpt 1 1 0 r; lpt 0 1 0 r; lpt (-1) 1 0 r; lpt (-1) 0 0 r; lpt (-1) (-1) 0 r; lpt 0 (-1) 0 r; lpt 1 (-1) 0 r; lpt 1 0 0 r].
Lemma circle_ok r c0 : exists c, nf_create_circle r c0 = Ok c /\ valid c /\ nc_degree c = 2 /\ nc_knots c = ck /\ nc_weights c = circle_ws /\ nc_points c = circle_pts r.
Proof.
  unfold nf_create_circle. rewrite inv_sqrt2_ok. cbn [bind]. destruct (nc_degree_set (nc_clear c0) 2 ltac:(lia)) as [tp [tw [E [S1 S2]]]]. rewrite E. cbn [bind].
  unfold nc_set_knots. ncbn. rewrite ck_circle, (clamped_scale _ _ _ ck_clamped). cbn [bind]. eexists. split; [reflexivity|].
  unfold nc_set_weights, nc_set_points, valid. ncbn. split; [|auto].
  split; [reflexivity|]. split; [reflexivity|]. split; [exact ck_clamped|]. split; [|lia]. pose proof h2_pos. repeat (constructor; [unfold n1; cbn; lra|]). constructor.
Qed.

(** Sums of a curve of degree 2 over the circle knots. *)
Lemma quad_sum c u q t i a b f : valid c -> nc_degree c = 2 -> 2 <= i < vsize (nc_points c) -> i = 2 + 2 * q ->
  in_span (nc_knots c) i u -> kn (nc_knots c) (i - 1) = a -> kn (nc_knots c) i = a -> kn (nc_knots c) (i + 1) = b -> kn (nc_knots c) (i + 2) = b ->
  t = ((u - a) / (b - a))%R ->
  (nurbs_sum c f u = (1 - t) * (1 - t) * (cw c (2 * q)%Z * f (2 * q)%Z) + 2 * t * (1 - t) * (cw c (2 * q + 1)%Z * f (2 * q + 1)%Z) + t * t * (cw c (2 * q + 2)%Z * f (2 * q + 2)%Z))%R.
Proof.
  intros V D B -> I K1 K2 K3 K4 ET. rewrite (nurbs_sum_ev c f u (2 + 2 * q) V ltac:(lia) I). unfold ev. rewrite D. change (repeat u (Z.to_nat 2)) with [u; u].
  destruct (in_span_lt _ _ _ I) as [L _].
  rewrite (db_bez2 _ _ _ a b u K1 K2 K3 K4) by lra. rewrite <- ET.
  replace (2 + 2 * q - 2) with (2 * q) by lia. replace (2 + 2 * q - 1) with (2 * q + 1) by lia. replace (2 + 2 * q) with (2 * q + 2) by lia. reflexivity.
Qed.

Ltac quarters QQ := destruct QQ as [->|[->|[->| ->]]].
Lemma circle_sums r c u q t : valid c -> nc_degree c = 2 -> nc_knots c = ck -> nc_weights c = circle_ws -> nc_points c = circle_pts r ->
  0 <= q < 4 -> in_span ck (2 + 2 * q) u -> kn ck (2 + 2 * q - 1) = (IZR q / 4)%R -> kn ck (2 + 2 * q) = (IZR q / 4)%R ->
  kn ck (2 + 2 * q + 1) = (IZR (q + 1) / 4)%R -> kn ck (2 + 2 * q + 2) = (IZR (q + 1) / 4)%R ->
  t = ((u - IZR q / 4) / (IZR (q + 1) / 4 - IZR q / 4))%R -> (0 <= t <= 1)%R ->
  nurbs_at c u = mkP (r * (qc q t / aD t))%R (r * (qs q t / aD t))%R 0%R.
Proof.
  intros V D K W P Q I K1 K2 K3 K4 ET T. pose proof (aD_pos t T) as PD.
  assert (vsize (nc_points c) = 9) as N by (rewrite P; reflexivity).
  assert (forall f, nurbs_sum c f u = (1 - t) * (1 - t) * (cw c (2 * q)%Z * f (2 * q)%Z) + 2 * t * (1 - t) * (cw c (2 * q + 1)%Z * f (2 * q + 1)%Z) + t * t * (cw c (2 * q + 2)%Z * f (2 * q + 2)%Z))%R as S.
  { intros f. apply (quad_sum c u q t (2 + 2 * q) (IZR q / 4)%R (IZR (q + 1) / 4)%R f V D); try lia; rewrite ?K; assumption. }
  unfold nurbs_at, nurbs_den. rewrite !S. unfold cw, cp. rewrite W, P.
  assert (q = 0 \/ q = 1 \/ q = 2 \/ q = 3) as QQ by lia.
  assert (forall x y z d x' y' : R, d = aD t -> x = (r * x')%R -> y = (r * y')%R -> z = 0%R -> mkP (x / d) (y / d) (z / d) = mkP (r * (x' / aD t)) (r * (y' / aD t)) 0)%R as M.
  { intros x y z d x' y' -> -> -> ->. f_equal; field; lra. }
  clear S K1 K2 K3 K4 ET I.
  quarters QQ; apply M; unfold circle_ws, circle_pts, lpt, pmul, qc, qs, aC, aS, aD, Z.to_nat, Pos.to_nat; cbn; ring.
Qed.
Lemma circle_at r c u : valid c -> nc_degree c = 2 -> nc_knots c = ck -> nc_weights c = circle_ws -> nc_points c = circle_pts r -> (0 <= u <= 1)%R ->
  exists cs sn, (cs * cs + sn * sn = 1)%R /\ nurbs_at c u = mkP (r * cs)%R (r * sn)%R 0%R.
Proof.
  intros V D K W P U. destruct (ck_local u U) as [q [t [Q [T [I [K1 [K2 [K3 [K4 ET]]]]]]]]]. pose proof (aD_pos t T) as PD.
  exists (qc q t / aD t)%R, (qs q t / aD t)%R. split; [|apply circle_sums; assumption].
  pose proof (quarter_unit q t) as E. replace (qc q t / aD t * (qc q t / aD t) + qs q t / aD t * (qs q t / aD t))%R with ((qc q t * qc q t + qs q t * qs q t) / (aD t * aD t))%R by (field; lra). rewrite E. field. lra.
Qed.
Lemma circle_covers r c cs sn : valid c -> nc_degree c = 2 -> nc_knots c = ck -> nc_weights c = circle_ws -> nc_points c = circle_pts r -> (cs * cs + sn * sn = 1)%R ->
  exists u, (0 <= u <= 1)%R /\ nurbs_at c u = mkP (r * cs)%R (r * sn)%R 0%R.
Proof.
  intros V D K W P E. destruct (unit_quarter cs sn E) as [q [t [Q [T [EC ES]]]]]. destruct (ck_at q t Q T) as [U [I [K1 [K2 [K3 [K4 ET]]]]]].
  set (u := ((IZR q + t) / 4)%R) in *. exists u. split; [exact U|]. pose proof (aD_pos t ltac:(lra)) as PD.
  rewrite (circle_sums r c u q t V D K W P Q I K1 K2 K3 K4 ET ltac:(lra)), EC, ES. f_equal; field; lra.
Qed.

(** ** Sphere *)
Definition sk : list R := [0; 0; 0; 1 / 2; 1 / 2; 1; 1; 1]%R.
Lemma sk_clamped : clamped sk 2 5.
Proof.
  apply clamped_of; [lia|reflexivity| | |].
  - intros i H1 H2. change (vsize sk) with 8 in H2.
    assert (i = 0 \/ i = 1 \/ i = 2 \/ i = 3 \/ i = 4 \/ i = 5 \/ i = 6) as K by lia.
    repeat (destruct K as [->|K]; [unfold sk; kcase|]). subst i. unfold sk. kcase.
  - intros i H. assert (i = 0 \/ i = 1 \/ i = 2) as K by lia. repeat (destruct K as [->|K]; [reflexivity|]). subst i. reflexivity.
  - intros i H. assert (i = 5 \/ i = 6 \/ i = 7) as K by lia. repeat (destruct K as [->|K]; [reflexivity|]). subst i. reflexivity.
Qed.
Definition half_ws : list R := [1; h2; 1; h2; 1]%R.
Definition half_pts (r : R) : list pt3 := [lpt 0 0 (-1) r; lpt 0 1 (-1) r; lpt 0 1 0 r; lpt 0 1 1 r; lpt 0 0 1 r].
Lemma half_at r c u : valid c -> nc_degree c = 2 -> nc_knots c = sk -> nc_weights c = half_ws -> nc_points c = half_pts r -> (0 <= u <= 1)%R ->
  exists y z, (y * y + z * z = 1)%R /\ (0 <= y)%R /\ nurbs_at c u = mkP 0%R (r * y)%R (r * z)%R.
Proof.
  intros V D K W P U. assert (vsize (nc_points c) = 5) as N by (rewrite P; reflexivity).
  destruct (clamped_span sk 2 5 u sk_clamped U) as [i [_ [B I]]]. destruct (in_span_lt _ _ _ I) as [L [L1 L2]].
  assert (exists q, (q = 0 \/ q = 1) /\ i = 2 + 2 * q /\ kn sk (i - 1) = (IZR q / 2)%R /\ kn sk i = (IZR q / 2)%R /\ kn sk (i + 1) = (IZR (q + 1) / 2)%R /\ kn sk (i + 2) = (IZR (q + 1) / 2)%R) as [q [QQ [-> [K1 [K2 [K3 K4]]]]]].
  { assert (i = 2 \/ i = 3 \/ i = 4) as [->|[->| ->]] by lia; unfold sk, kn, Z.to_nat, Pos.to_nat in *; cbn in *; try (exfalso; lra).
    - exists 0. repeat split; try lia; unfold Z.to_nat, Pos.to_nat; cbn; lra.
    - exists 1. repeat split; try lia; unfold Z.to_nat, Pos.to_nat; cbn; lra. }
  rewrite K2 in L1. rewrite K3 in L2. rewrite plus_IZR in L2.
  set (t := ((u - IZR q / 2) / (IZR (q + 1) / 2 - IZR q / 2))%R).
  assert (0 <= t <= 1)%R as T.
  { unfold t. rewrite plus_IZR. replace ((IZR q + 1) / 2 - IZR q / 2)%R with (1 / 2)%R by field. lra. }
  pose proof (aD_pos t T) as PD.
  assert (forall f, nurbs_sum c f u = (1 - t) * (1 - t) * (cw c (2 * q)%Z * f (2 * q)%Z) + 2 * t * (1 - t) * (cw c (2 * q + 1)%Z * f (2 * q + 1)%Z) + t * t * (cw c (2 * q + 2)%Z * f (2 * q + 2)%Z))%R as S.
  { intros f. apply (quad_sum c u q t (2 + 2 * q) (IZR q / 2)%R (IZR (q + 1) / 2)%R f V D); try lia; rewrite ?K; try assumption. reflexivity. }
  assert (0 <= aC t)%R as PC. { unfold aC. pose proof h2_pos. assert (0 <= t * (1 - t) * h2)%R by (apply Rmult_le_pos; [apply Rmult_le_pos; lra|lra]). assert (0 <= (1 - t) * (1 - t))%R by apply Rle_0_sqr. lra. }
  assert (0 <= aS t)%R as PS. { unfold aS. pose proof h2_pos. assert (0 <= t * (1 - t) * h2)%R by (apply Rmult_le_pos; [apply Rmult_le_pos; lra|lra]). assert (0 <= t * t)%R by apply Rle_0_sqr. lra. }
  pose proof (arc_circle t) as AC.
  assert (forall x y z d y' z' : R, d = aD t -> x = 0%R -> y = (r * y')%R -> z = (r * z')%R -> mkP (x / d) (y / d) (z / d) = mkP 0 (r * (y' / aD t)) (r * (z' / aD t)))%R as M.
  { intros x y z d y' z' -> -> -> ->. f_equal; field; lra. }
  clearbody t. clear K1 K2 K3 K4 L1 L2 L I.
  unfold nurbs_at, nurbs_den. rewrite !S. unfold cw, cp. rewrite W, P.
  destruct QQ as [->| ->].
  - exists (aS t / aD t)%R, (- aC t / aD t)%R. split; [|split].
    + replace (aS t / aD t * (aS t / aD t) + - aC t / aD t * (- aC t / aD t))%R with ((aC t * aC t + aS t * aS t) / (aD t * aD t))%R by (field; lra). rewrite AC. field. lra.
    + apply Rmult_le_pos; [exact PS|left; apply Rinv_0_lt_compat; exact PD].
    + apply M; unfold half_ws, half_pts, lpt, pmul, aC, aS, aD, Z.to_nat, Pos.to_nat; cbn; ring.
  - exists (aC t / aD t)%R, (aS t / aD t)%R. split; [|split].
    + replace (aC t / aD t * (aC t / aD t) + aS t / aD t * (aS t / aD t))%R with ((aC t * aC t + aS t * aS t) / (aD t * aD t))%R by (field; lra). rewrite AC. field. lra.
    + apply Rmult_le_pos; [exact PC|left; apply Rinv_0_lt_compat; exact PD].
    + apply M; unfold half_ws, half_pts, lpt, pmul, aC, aS, aD, Z.to_nat, Pos.to_nat; cbn; ring.
Qed.

Lemma affine_flip_y : affine3 flip_y.
Proof. exists (mkP 1 0 0)%R, (mkP 0 (-1) 0)%R, (mkP 0 0 1)%R, (mkP 0 0 0)%R. intros [x y z]. unfold flip_y, add3, scal3. cbn. f_equal; ring. Qed.

Lemma sphere_ok r s0 : exists s, nf_create_sphere r s0 = Ok s /\ svalid s /\
  forall u v, (0 <= u <= 1)%R -> (0 <= v <= 1)%R -> let p := surf_at s u v in (px p * px p + py p * py p + pz p * pz p = r * r)%R.
Proof.
  unfold nf_create_sphere. rewrite inv_sqrt2_ok. cbn [bind]. destruct (nc_degree_set nc_new 2 ltac:(lia)) as [tp [tw [E [S1 S2]]]]. rewrite E. cbn [bind].
  unfold nc_set_knots, nc_set_weights, nc_set_points. ncbn.
  change [n0; n0; n0; nlit 1 2; nlit 1 2; n1; n1; n1] with sk. rewrite (clamped_scale _ _ _ sk_clamped). cbn [bind].
  match goal with |- context [nr_revolve ?c _] => set (c1 := c) end.
  assert (valid c1) as V.
  { unfold valid, c1. ncbn. split; [reflexivity|]. split; [reflexivity|]. split; [exact sk_clamped|]. split; [|lia]. pose proof h2_pos. repeat (constructor; [unfold n1; cbn; lra|]). constructor. }
  destruct (revolve_ok c1 (ns_clear s0) V) as [s [ER [RO _]]]. rewrite ER. cbn [bind]. eexists. split; [reflexivity|].
  pose proof RO as [VS _]. split; [apply (svalid_map s flip_y VS)|].
  intros u v HU HV. change (ns_points_ref s (map flip_y (ns_points s))) with (ns_apply_transform s flip_y). rewrite (surf_affine s flip_y u v VS HU HV affine_flip_y).
  destruct (revolve_turn c1 s u V RO HU) as [cs [sn [EU ET]]]. rewrite (ET v HV).
  destruct (half_at r c1 v V eq_refl eq_refl eq_refl eq_refl HV) as [y [z [EY [_ EP]]]]. rewrite EP. unfold flip_y, turn_z. cbn.
  replace ((cs * 0 + sn * (r * y)) * (cs * 0 + sn * (r * y)) + - (cs * (r * y) - sn * 0) * - (cs * (r * y) - sn * 0) + r * z * (r * z))%R with (r * r * ((cs * cs + sn * sn) * (y * y) + z * z))%R by ring.
  rewrite EU, Rmult_1_l, EY. ring.
Qed.

(** ** Torus *)
Lemma torus_ok rM rm s0 : exists s, nf_create_torus rM rm s0 = Ok s /\ svalid s /\
  forall u v, (0 <= u <= 1)%R -> (0 <= v <= 1)%R -> let p := surf_at s u v in
    exists rho, (rho * rho = px p * px p + py p * py p)%R /\ ((rho - rM) * (rho - rM) + pz p * pz p = rm * rm)%R.
Proof.
  unfold nf_create_torus. destruct (circle_ok rm nc_new) as [c [E [V [D [K [W P]]]]]]. rewrite E. cbn [bind].
  set (g := fun p : pt3 => mkP (nadd (px p) rM) (nneg (pz p)) (py p)).
  assert (affine3 g) as AG.
  { exists (mkP 1 0 0)%R, (mkP 0 0 1)%R, (mkP 0 (-1) 0)%R, (mkP rM 0 0)%R. intros [x y z]. unfold g, add3, scal3. cbn. f_equal; ring. }
  pose proof (valid_map c g V) as V'. set (c1 := nc_points_ref c (map g (nc_points c))) in *.
  destruct (revolve_ok c1 (ns_clear s0) V') as [s [ER [RO _]]]. exists s. split; [exact ER|]. pose proof RO as [VS _]. split; [exact VS|].
  intros u v HU HV. destruct (revolve_turn c1 s u V' RO HU) as [cs [sn [EU ET]]]. cbv zeta. rewrite (ET v HV). unfold c1. rewrite (nurbs_affine c g v V HV AG).
  destruct (circle_at rm c v V D K W P HV) as [a [b [EAB EP]]]. rewrite EP. unfold g, turn_z. cbn.
  exists (rm * a + rM)%R. split.
  - replace ((cs * (rm * a + rM) + sn * - 0) * (cs * (rm * a + rM) + sn * - 0) + (cs * - 0 - sn * (rm * a + rM)) * (cs * - 0 - sn * (rm * a + rM)))%R with ((cs * cs + sn * sn) * ((rm * a + rM) * (rm * a + rM)))%R by ring. rewrite EU. ring.
  - replace ((rm * a + rM - rM) * (rm * a + rM - rM) + rm * b * (rm * b))%R with (rm * rm * (a * a + b * b))%R by ring. rewrite EAB. ring.
Qed.

(** ** Lines, disks and cylinders *)
Lemma curve_from_points_ok p pts c0 : 0 <= p < vsize pts -> exists c, nf_curve_from_points pts p c0 = Ok c /\ valid c /\
  tight (nc_knots c) p (vsize pts) /\ nc_degree c = p /\ nc_points c = pts /\ (forall i, 0 <= i < vsize pts -> cw c i = 1%R) /\ vsize (nc_weights c) = vsize pts.
Proof.
  intros H. unfold nf_curve_from_points. destruct (nc_degree_set (nc_clear c0) p ltac:(lia)) as [tp [tw [E [S1 S2]]]]. rewrite E. cbn [bind].
  match goal with |- context [nc_set_uniform ?x] => destruct (set_uniform_ok x) as [c [EU [C [T [K [D [W' [P [Nb [TP TW]]]]]]]]]] end.
  { cbn. exact H. }
  rewrite EU. cbn [bind]. eexists. split; [reflexivity|]. cbn [nc_set_points nc_degree nc_nb nc_weights nc_points nc_tp nc_tw] in *.
  unfold nc_set_equals_weights, nc_set_weights, valid, cw. ncbn. rewrite P, Nb, D, TP, TW.
  assert (vsize (repeat (@n1 R RNum) (Z.to_nat (vsize pts))) = vsize pts) as SR by (unfold vsize; rewrite repeat_length; lia).
  split; [split; [reflexivity|split; [exact SR|split; [exact C|split; [|lia]]]]|split; [exact T|split; [reflexivity|split; [reflexivity|split; [|exact SR]]]]].
  - rewrite Forall_forall. intros x Hx. apply repeat_spec in Hx. subst x. unfold n1. cbn. lra.
  - intros i Hi. pose proof (vget_nth (repeat (@n1 R RNum) (Z.to_nat (vsize pts))) 0%R i ltac:(lia)) as G. apply vget_In in G. apply repeat_spec in G. exact G.
Qed.

(** Degree 1 with two control points. *)
Lemma two_knots ks : clamped ks 1 2 -> ks = [0; 0; 1; 1]%R.
Proof.
  intros [_ [S [_ [A B]]]]. apply vget_ext; [rewrite S; reflexivity|]. intros i Hi.
  rewrite (vget_kn ks) by lia. assert (i = 0 \/ i = 1 \/ i = 2 \/ i = 3) as [->|[->|[->| ->]]] by lia.
  - rewrite (A 0) by lia. reflexivity.
  - rewrite (A 1) by lia. reflexivity.
  - rewrite (B 2) by lia. reflexivity.
  - rewrite (B 3) by lia. reflexivity.
Qed.
Lemma line_span v : (0 <= v <= 1)%R -> in_span [0; 0; 1; 1]%R 1 v.
Proof. intros H. unfold in_span, kn, Z.to_nat, Pos.to_nat. cbn. destruct (Rlt_dec v 1); [left|right]; lra. Qed.
Lemma db_line f v : (db (kn [0; 0; 1; 1]%R) f 1 [v] 1 = (1 - v) * f 0%Z + v * f 1%Z)%R.
Proof. unfold db, kn, Z.to_nat, Pos.to_nat. cbn. field. Qed.
Lemma line_sum c f v : valid c -> nc_degree c = 1 -> vsize (nc_points c) = 2 -> (0 <= v <= 1)%R ->
  (nurbs_sum c f v = (1 - v) * (cw c 0 * f 0%Z) + v * (cw c 1 * f 1%Z))%R.
Proof.
  intros V D N HV. pose proof V as [_ [_ [C _]]]. rewrite D, N in C. pose proof (two_knots _ C) as K.
  rewrite (nurbs_sum_ev c f v 1 V ltac:(lia)) by (rewrite K; apply line_span; exact HV). unfold ev. rewrite D, K. change (repeat v (Z.to_nat 1)) with [v]. apply db_line.
Qed.
Lemma line_at c v : valid c -> nc_degree c = 1 -> vsize (nc_points c) = 2 -> cw c 0 = 1%R -> cw c 1 = 1%R -> (0 <= v <= 1)%R ->
  nurbs_at c v = lerp3 (cp c 0) (cp c 1) v.
Proof.
  intros V D N W0 W1 HV. unfold nurbs_at, nurbs_den. rewrite !(line_sum c _ v V D N HV), W0, W1. unfold lerp3, add3, scal3, sub3. cbn. f_equal; field; lra.
Qed.

Lemma disk_ok r s0 : exists s, nf_create_disk r s0 = Ok s /\ svalid s /\
  forall u v, (0 <= u <= 1)%R -> (0 <= v <= 1)%R -> let p := surf_at s u v in (px p * px p + py p * py p = v * r * (v * r))%R /\ pz p = 0%R.
Proof.
  destruct (curve_from_points_ok 1 [mkP n0 n0 n0; mkP r n0 n0]%R nc_new ltac:(cbn; lia)) as [c [E [V [_ [D [P [W SW]]]]]]].
  unfold nf_create_disk. change (nc_set_degree nc_new 1) with (nc_set_degree (nc_clear (@nc_new R)) 1). unfold nf_curve_from_points in E.
  apply bind_Ok in E. destruct E as [ca [-> E]]. cbn [bind]. apply bind_Ok in E. destruct E as [cb [-> E]]. cbn [bind]. injection E as ->.
  destruct (revolve_ok c (ns_clear s0) V) as [s [ER [RO _]]]. exists s. split; [exact ER|]. pose proof RO as [VS _]. split; [exact VS|].
  intros u v HU HV. destruct (revolve_turn c s u V RO HU) as [cs [sn [EU ET]]]. cbv zeta. rewrite (ET v HV).
  rewrite (line_at c v V D) by (try rewrite P; try apply W; try reflexivity; try assumption; cbn; lia).
  unfold cp. rewrite P. unfold turn_z, lerp3, add3, scal3, sub3, n0, Z.to_nat, Pos.to_nat. cbn. split; [|ring].
  match goal with |- ?L = ?R => replace L with ((cs * cs + sn * sn) * (v * r * (v * r)))%R by ring end. rewrite EU. ring.
Qed.

Lemma cylinder_ok r h : exists s1 s2 s3, nf_create_cylinder r h = Ok [s1; s2; s3] /\ svalid s1 /\ svalid s2 /\ svalid s3 /\
  forall u v, (0 <= u <= 1)%R -> (0 <= v <= 1)%R ->
    (let p := surf_at s1 u v in (px p * px p + py p * py p = v * r * (v * r))%R /\ pz p = (- (h / 2))%R) /\
    (let p := surf_at s2 u v in (px p * px p + py p * py p = r * r)%R /\ pz p = (v * h - h / 2)%R) /\
    (let p := surf_at s3 u v in (px p * px p + py p * py p = v * r * (v * r))%R /\ pz p = (h / 2)%R).
Proof.
  assert (@ndiv R RNum h n2 = Ok (h / 2)%R) as E2. { unfold n2, ndiv. cbn [RNum nofZ]. destruct (Req_EM_T 2 0); [lra|reflexivity]. }
  assert (@ndiv R RNum (nneg h) n2 = Ok (- h / 2)%R) as E3. { unfold n2, ndiv. cbn [RNum nofZ nneg]. destruct (Req_EM_T 2 0); [lra|reflexivity]. }
  destruct (disk_ok r ns_new) as [s [ED [VS HD]]].
  destruct (curve_from_points_ok 1 [mkP r n0 (- h / 2)%R; mkP r n0 (h / 2)%R] nc_new ltac:(cbn; lia)) as [c [E [V [_ [D [P [W SW]]]]]]].
  destruct (revolve_ok c ns_new V) as [s2 [ER [RO _]]]. pose proof RO as [VS2 _].
  unfold nf_create_cylinder. rewrite E2. cbn [bind]. rewrite ED. cbn [bind]. rewrite E3. cbn [bind]. rewrite E. cbn [bind]. rewrite ER. cbn [bind].
  set (g1 := fun p : pt3 => mkP (px p) (nneg (py p)) (nsub (pz p) (h / 2)%R)). set (g3 := fun p : pt3 => mkP (px p) (py p) (nadd (pz p) (h / 2)%R)).
  change (ns_points_ref s (map g1 (ns_points s))) with (ns_apply_transform s g1). change (ns_points_ref s (map g3 (ns_points s))) with (ns_apply_transform s g3).
  change (ns_points_ref s2 (map flip_y (ns_points s2))) with (ns_apply_transform s2 flip_y).
  assert (affine3 g1) as A1. { exists (mkP 1 0 0)%R, (mkP 0 (-1) 0)%R, (mkP 0 0 1)%R, (mkP 0 0 (- (h / 2)))%R. intros [x y z]. unfold g1, add3, scal3. cbn. f_equal; ring. }
  assert (affine3 g3) as A3. { exists (mkP 1 0 0)%R, (mkP 0 1 0)%R, (mkP 0 0 1)%R, (mkP 0 0 (h / 2))%R. intros [x y z]. unfold g3, add3, scal3. cbn. f_equal; ring. }
  eexists _, _, _. split; [reflexivity|]. split; [apply svalid_map, VS|]. split; [apply svalid_map, VS2|]. split; [apply svalid_map, VS|].
  intros u v HU HV. rewrite (surf_affine s g1 u v VS HU HV A1), (surf_affine s g3 u v VS HU HV A3), (surf_affine s2 flip_y u v VS2 HU HV affine_flip_y).
  destruct (HD u v HU HV) as [H1 H2]. destruct (surf_at s u v) as [x y z]. cbn in H1, H2. subst z.
  split; [|split].
  - cbn. split; [rewrite <- H1; ring|ring].
  - destruct (revolve_turn c s2 u V RO HU) as [cs [sn [EU ET]]]. rewrite (ET v HV).
    rewrite (line_at c v V D) by (try rewrite P; try apply W; try reflexivity; try assumption; cbn; lia).
    unfold cp. rewrite P. unfold flip_y, turn_z, lerp3, add3, scal3, sub3, n0, Z.to_nat, Pos.to_nat. cbn. split; [|field].
    match goal with |- ?L = ?R => replace L with ((cs * cs + sn * sn) * (r * r))%R by ring end. rewrite EU. ring.
  - cbn. split; [rewrite <- H1; ring|ring].
Qed.

Lemma torus_solid_ok rM rm : exists s, nf_create_torus_solid rM rm = Ok [s] /\ svalid s /\
  forall u v, (0 <= u <= 1)%R -> (0 <= v <= 1)%R -> let p := surf_at s u v in
    exists rho, (rho * rho = px p * px p + py p * py p)%R /\ ((rho - rM) * (rho - rM) + pz p * pz p = rm * rm)%R.
Proof.
  destruct (torus_ok rM rm ns_new) as [s [E [V H]]]. unfold nf_create_torus_solid. rewrite E. cbn [bind].
  change (ns_points_ref s (map flip_y (ns_points s))) with (ns_apply_transform s flip_y). eexists. split; [reflexivity|]. split; [apply svalid_map, V|].
  intros u v HU HV. rewrite (surf_affine s flip_y u v V HU HV affine_flip_y). destruct (H u v HU HV) as [rho [H1 H2]]. exists rho. destruct (surf_at s u v) as [x y z]. cbn in *. split; [rewrite H1; ring|exact H2].
Qed.
Lemma sphere_solid_ok r : exists s, nf_create_sphere_solid r = Ok [s] /\ svalid s /\
  forall u v, (0 <= u <= 1)%R -> (0 <= v <= 1)%R -> let p := surf_at s u v in (px p * px p + py p * py p + pz p * pz p = r * r)%R.
Proof.
  destruct (sphere_ok r ns_new) as [s [E [V H]]]. unfold nf_create_sphere_solid. rewrite E. cbn [bind]. eexists. split; [reflexivity|]. split; assumption.
Qed.

(** ** Strips: two rows of control points *)
Definition strip (c1 c2 : NurbsCurve R) (s : NurbsSurface R) : Prop :=
  svalid s /\ is_row s 0 c1 /\ is_row s 1 c2 /\ ns_degV s = 1 /\ ns_nbV s = 2 /\ ns_knotsV s = [0; 0; 1; 1]%R.
Lemma strip_sum c1 c2 s F f1 f2 u v : strip c1 c2 s -> (0 <= v <= 1)%R ->
  (forall i, 0 <= i < ns_nbU s -> f1 i = F i 0) -> (forall i, 0 <= i < ns_nbU s -> f2 i = F i 1) ->
  (surf_sum s F u v = (1 - v) * nurbs_sum c1 f1 u + v * nurbs_sum c2 f2 u)%R.
Proof.
  intros [VS [R1 [R2 [D [N K]]]]] HV E1 E2. pose proof VS as [_ [_ [_ [CV _]]]]. rewrite D, N, K in CV.
  unfold surf_sum. rewrite D, N, K. rewrite (basis_sum _ _ _ 1 v CV ltac:(lia) (line_span v HV)). change (repeat v (Z.to_nat 1)) with [v]. rewrite db_line.
  rewrite <- (row_sum s 0 c1 f1 F u R1 E1), <- (row_sum s 1 c2 f2 F u R2 E2). reflexivity.
Qed.
Lemma strip_at c1 c2 s u v : strip c1 c2 s -> (0 <= v <= 1)%R ->
  let L g := ((1 - v) * nurbs_sum c1 (fun i => g (cp c1 i)) u + v * nurbs_sum c2 (fun i => g (cp c2 i)) u)%R in
  surf_at s u v = mkP (L px / L (fun _ => 1))%R (L py / L (fun _ => 1))%R (L pz / L (fun _ => 1))%R.
Proof.
  intros S HV L. unfold surf_at, surf_den, L. pose proof S as [_ [R1 [R2 _]]].
  assert (forall g : pt3 -> R, surf_sum s (fun i j => g (scp s i j)) u v = (1 - v) * nurbs_sum c1 (fun i => g (cp c1 i)) u + v * nurbs_sum c2 (fun i => g (cp c2 i)) u)%R as H.
  { intros g. apply (strip_sum c1 c2 s _ _ _ u v S HV).
    - intros i Hi. destruct R1 as [_ [_ [_ [_ R1]]]]. destruct (R1 i Hi) as [-> _]. reflexivity.
    - intros i Hi. destruct R2 as [_ [_ [_ [_ R2]]]]. destruct (R2 i Hi) as [-> _]. reflexivity. }
  rewrite (H px), (H py), (H pz), <- (H (fun _ => 1%R)). reflexivity.
Qed.

Lemma line_clamped : clamped [0; 0; 1; 1]%R 1 2.
Proof.
  apply clamped_of; [lia|reflexivity| | |].
  - intros i H1 H2. change (vsize [0; 0; 1; 1]%R) with 4 in H2. assert (i = 0 \/ i = 1 \/ i = 2) as [->|[->| ->]] by lia; kcase.
  - intros i H. assert (i = 0 \/ i = 1) as [->| ->] by lia; reflexivity.
  - intros i H. assert (i = 2 \/ i = 3) as [->| ->] by lia; reflexivity.
Qed.
Lemma nth_app_row {A} (l1 l2 : list A) d i n : vsize l1 = n -> vsize l2 = n -> 0 <= i < n ->
  nth (Z.to_nat (i + n * 0)) (l1 ++ l2) d = nth (Z.to_nat i) l1 d /\ nth (Z.to_nat (i + n * 1)) (l1 ++ l2) d = nth (Z.to_nat i) l2 d.
Proof.
  unfold vsize. intros H1 H2 Hi. split.
  - rewrite app_nth1 by lia. f_equal. lia.
  - rewrite app_nth2 by lia. f_equal. lia.
Qed.
(** The data put together by create_ruled and extrude. *)
Lemma strip_of c1 c2 cu cv a b c d : valid c1 -> valid c2 -> nc_degree c2 = nc_degree c1 -> nc_knots c2 = nc_knots c1 ->
  vsize a = nc_degree c1 + 1 -> vsize b = 2 -> vsize c = nc_degree c1 + 1 -> vsize d = 2 ->
  strip c1 c2 (mkNS (nc_degree c1) 1 (vsize (nc_points c1)) 2 cu cv (nc_knots c1) [0; 0; 1; 1]%R (nc_weights c1 ++ nc_weights c2) (nc_points c1 ++ nc_points c2) a b c d).
Proof.
  intros V1 V2 ED EK S1 S2 S3 S4. pose proof V1 as [_ [W1 [C1 [F1 _]]]]. pose proof V2 as [_ [W2 [C2 [F2 _]]]].
  assert (vsize (nc_points c2) = vsize (nc_points c1)) as EN. { destruct C1 as [_ [K1 _]]. destruct C2 as [_ [K2 _]]. rewrite EK, ED in K2. lia. }
  unfold strip. split; [|split; [|split; [|auto]]].
  - unfold svalid. nscbn. rewrite !vsize_app. split; [lia|]. split; [lia|]. split; [exact C1|]. split; [exact line_clamped|]. split; [apply Forall_app; split; assumption|]. lia.
  - unfold is_row, scp, scw. nscbn. split; [exact V1|]. split; [reflexivity|]. split; [reflexivity|]. split; [reflexivity|]. intros i Hi.
    destruct (nth_app_row (nc_points c1) (nc_points c2) O3 i _ eq_refl EN Hi) as [-> _]. destruct (nth_app_row (nc_weights c1) (nc_weights c2) 0%R i _ W1 ltac:(lia) Hi) as [-> _]. split; reflexivity.
  - unfold is_row, scp, scw. nscbn. split; [exact V2|]. split; [exact ED|]. split; [exact EK|]. split; [exact EN|]. intros i Hi.
    destruct (nth_app_row (nc_points c1) (nc_points c2) O3 i _ eq_refl EN Hi) as [_ ->]. destruct (nth_app_row (nc_weights c1) (nc_weights c2) 0%R i _ W1 ltac:(lia) Hi) as [_ ->]. split; reflexivity.
Qed.

Lemma ruled_ok c1 c2 s0 : valid c1 -> valid c2 -> nc_degree c2 = nc_degree c1 -> nc_knots c2 = nc_knots c1 ->
  exists s, nr_create_ruled c1 c2 s0 = Ok s /\ strip c1 c2 s.
Proof.
  intros V1 V2 ED EK. unfold nr_create_ruled. pose proof V1 as [_ [W1 [C1 [F1 _]]]]. destruct (set_degree_s (ns_clear s0) (nc_degree c1) 1 ltac:(destruct C1; lia) ltac:(lia)) as [a [b [c [d [E [S1 [S2 [S3 S4]]]]]]]].
  rewrite E. cbn [bind]. unfold ns_set_knots_u. nscbn. rewrite (clamped_scale _ _ _ C1). cbn [bind]. unfold ns_set_knots_v. nscbn.
  change [n0; n0; n1; n1] with [0; 0; 1; 1]%R. rewrite (clamped_scale _ _ _ line_clamped). cbn [bind].
  destruct (is_closed_ok c1 default_tol) as [b1 ->]. cbn [bind]. destruct (is_closed_ok c2 default_tol) as [b2 E2].
  assert (exists x, (if b1 then nc_is_closed c2 default_tol else Ok false) = Ok x) as [x ->] by (destruct b1; eauto). cbn [bind].
  eexists. split; [reflexivity|]. unfold ns_set_weights. nscbn. unfold ns_set_points. nscbn. unfold ns_set_closed_u. nscbn.
  apply strip_of; assumption.
Qed.

Lemma push_copy {A} (g : A -> A) (l0 : list A) n : vsize l0 = n -> 0 <= n ->
  for_ 0 n (fun i w => do x <- vget w i; Ok (vpush w (g x))) l0 = Ok (l0 ++ map g l0).
Proof.
  intros N Hn. pose proof (for_inv (fun i w => w = l0 ++ map g (firstn (Z.to_nat i) l0)) 0 n (fun i w => do x <- vget w i; Ok (vpush w (g x))) l0) as L.
  destruct L as [w [E H]].
  - exact Hn.
  - cbn. rewrite app_nil_r. reflexivity.
  - intros i w Hi ->. rewrite vget_app_l by lia. destruct (vget_in_range l0 i ltac:(lia)) as [x G]. rewrite G. cbn [bind]. eexists. split; [reflexivity|].
    unfold vpush. rewrite <- app_assoc. f_equal. rewrite (firstn_vget _ _ _ G), map_app. reflexivity.
  - rewrite E, H. rewrite firstn_all2 by (unfold vsize in N; lia). reflexivity.
Qed.

Definition shift_by (d : pt3) (p : pt3) : pt3 := padd p d.
Lemma affine_shift d : affine3 (shift_by d).
Proof. exists (mkP 1 0 0)%R, (mkP 0 1 0)%R, (mkP 0 0 1)%R, d. intros [x y z]. unfold shift_by, padd, add3, scal3. cbn. f_equal; ring. Qed.
Lemma extrude_ok c dir s0 : valid c -> exists s, ne_extrude c dir s0 = Ok s /\ strip c (nc_points_ref c (map (shift_by dir) (nc_points c))) s.
Proof.
  intros V. unfold ne_extrude. pose proof V as [_ [W [C [F _]]]]. cbv zeta.
  rewrite (push_copy (fun x => x) (nc_weights c) (vsize (nc_points c)) W) by apply vsize_nonneg. rewrite map_id. cbn [bind].
  pose proof (push_copy (shift_by dir) (nc_points c) (vsize (nc_points c)) eq_refl (vsize_nonneg _)) as PC. unfold shift_by in PC at 1. rewrite PC. cbn [bind].
  destruct (set_degree_s (ns_clear s0) (nc_degree c) 1 ltac:(destruct C; lia) ltac:(lia)) as [a [b [e [d [E [S1 [S2 [S3 S4]]]]]]]].
  rewrite E. cbn [bind]. unfold ns_set_knots_u. nscbn. rewrite (clamped_scale _ _ _ C). cbn [bind]. unfold ns_set_knots_v. nscbn.
  change [n0; n0; n1; n1] with [0; 0; 1; 1]%R. rewrite (clamped_scale _ _ _ line_clamped). cbn [bind].
  destruct (is_closed_ok c default_tol) as [b1 ->]. cbn [bind]. eexists. split; [reflexivity|].
  unfold ns_set_weights. nscbn. unfold ns_set_points. nscbn. unfold ns_set_closed_u. nscbn.
  apply (strip_of c (nc_points_ref c (map (shift_by dir) (nc_points c)))); try assumption; try reflexivity. apply valid_map, V.
Qed.

Lemma nurbs_den_eq c t : nurbs_den c t = nurbs_sum c (fun _ => 1%R) t.
Proof. reflexivity. Qed.
Lemma nurbs_den_pos c t : valid c -> (0 <= t <= 1)%R -> (0 < nurbs_sum c (fun _ => 1%R) t)%R.
Proof. intros V T. rewrite <- nurbs_den_eq. apply (evaluate_nurbs c t V T). Qed.
Lemma extrude_at c dir s u v : valid c -> strip c (nc_points_ref c (map (shift_by dir) (nc_points c))) s -> (0 <= u <= 1)%R -> (0 <= v <= 1)%R ->
  surf_at s u v = add3 (nurbs_at c u) (scal3 v dir).
Proof.
  intros V S HU HV. set (c2 := nc_points_ref c (map (shift_by dir) (nc_points c))) in *. rewrite (strip_at c c2 s u v S HV).
  pose proof (nurbs_affine c (shift_by dir) u V HU (affine_shift dir)) as A. fold c2 in A.
  pose proof (nurbs_den_pos c u V HU) as P.
  assert (nurbs_sum c2 (fun _ => 1%R) u = nurbs_sum c (fun _ => 1%R) u) as ED.
  { unfold nurbs_sum, c2, cw, nc_points_ref. cbn [nc_points nc_knots nc_degree nc_weights]. rewrite map_length. reflexivity. }
  unfold nurbs_at, nurbs_den in A. rewrite ED in A. unfold shift_by, padd in A. cbn [px py pz] in A. injection A as AX AY AZ. cbn [nadd RNum] in AX, AY, AZ.
  unfold nurbs_at, nurbs_den. rewrite ED. set (D := nurbs_sum c (fun _ => 1%R) u) in *.
  assert (forall x2 x d : R, (x2 / D = x / D + d -> x2 = x + d * D)%R) as M.
  { intros x2 x d H. apply (f_equal (fun z => z * D)%R) in H. replace (x2 / D * D)%R with x2 in H by (field; lra). rewrite H. field. lra. }
  apply M in AX. apply M in AY. apply M in AZ. rewrite AX, AY, AZ. unfold add3, scal3. cbn [px py pz]. f_equal; field; lra.
Qed.

(** A ruled surface is the segment between the two rows, swept by a parameter that depends on the weights. *)
Lemma ruled_at c1 c2 s u v : valid c1 -> valid c2 -> strip c1 c2 s -> (0 <= u <= 1)%R -> (0 <= v <= 1)%R ->
  surf_at s u v = lerp3 (nurbs_at c1 u) (nurbs_at c2 u) (v * nurbs_den c2 u / ((1 - v) * nurbs_den c1 u + v * nurbs_den c2 u)).
Proof.
  intros V1 V2 S HU HV. rewrite (strip_at c1 c2 s u v S HV). pose proof (nurbs_den_pos c1 u V1 HU) as P1. pose proof (nurbs_den_pos c2 u V2 HU) as P2.
  unfold nurbs_at, nurbs_den. set (D1 := nurbs_sum c1 (fun _ => 1%R) u) in *. set (D2 := nurbs_sum c2 (fun _ => 1%R) u) in *.
  assert (0 < (1 - v) * D1 + v * D2)%R as P by nra.
  unfold lerp3, add3, scal3, sub3. cbn [px py pz]. f_equal; field; lra.
Qed.
Lemma ruled_par D1 D2 v : (0 < D1)%R -> (0 < D2)%R -> (0 <= v <= 1)%R -> (0 <= v * D2 / ((1 - v) * D1 + v * D2) <= 1)%R.
Proof.
  intros P1 P2 HV. assert (0 < (1 - v) * D1 + v * D2)%R as P by nra. split.
  - apply Rmult_le_pos; [nra|left; apply Rinv_0_lt_compat; exact P].
  - apply (Rmult_le_reg_r ((1 - v) * D1 + v * D2)); [exact P|]. replace (v * D2 / ((1 - v) * D1 + v * D2) * ((1 - v) * D1 + v * D2))%R with (v * D2)%R by (field; lra). nra.
Qed.

(** ** Quads, triangles, boxes *)
Definition bilerp (p1 p2 p3 p4 : pt3) (u v : R) : pt3 := lerp3 (lerp3 p1 p2 u) (lerp3 p4 p3 u) v.
Lemma quad_ok p1 p2 p3 p4 s0 : exists s, nf_create_quad p1 p2 p3 p4 s0 = Ok s /\ svalid s /\
  forall u v, (0 <= u <= 1)%R -> (0 <= v <= 1)%R -> surf_at s u v = bilerp p1 p2 p3 p4 u v.
Proof.
  destruct (curve_from_points_ok 1 [p1; p2] nc_new ltac:(cbn; lia)) as [c1 [E1 [V1 [_ [D1 [P1 [W1 SW1]]]]]]].
  destruct (curve_from_points_ok 1 [p4; p3] nc_new ltac:(cbn; lia)) as [c2 [E2 [V2 [_ [D2 [P2 [W2 SW2]]]]]]].
  assert (nc_knots c1 = [0; 0; 1; 1]%R) as K1. { apply two_knots. pose proof V1 as [_ [_ [C _]]]. rewrite D1, P1 in C. exact C. }
  assert (nc_knots c2 = [0; 0; 1; 1]%R) as K2. { apply two_knots. pose proof V2 as [_ [_ [C _]]]. rewrite D2, P2 in C. exact C. }
  unfold nf_create_quad. rewrite E1. cbn [bind]. rewrite E2. cbn [bind].
  destruct (ruled_ok c1 c2 s0 V1 V2 ltac:(congruence) ltac:(congruence)) as [s [E S]]. exists s. split; [exact E|]. split; [apply S|].
  intros u v HU HV. rewrite (ruled_at c1 c2 s u v V1 V2 S HU HV).
  assert (vsize (nc_points c1) = 2) as N1 by (rewrite P1; reflexivity). assert (vsize (nc_points c2) = 2) as N2 by (rewrite P2; reflexivity).
  assert (nurbs_den c1 u = 1%R) as -> by (unfold nurbs_den; rewrite (line_sum c1 _ u V1 D1 N1 HU), !W1 by (cbn; lia); ring).
  assert (nurbs_den c2 u = 1%R) as -> by (unfold nurbs_den; rewrite (line_sum c2 _ u V2 D2 N2 HU), !W2 by (cbn; lia); ring).
  rewrite (line_at c1 u V1 D1 N1) by (try apply W1; try assumption; cbn; lia). rewrite (line_at c2 u V2 D2 N2) by (try apply W2; try assumption; cbn; lia).
  unfold cp. rewrite P1, P2. unfold bilerp. f_equal. field. lra.
Qed.
Lemma box_ok sx sy sz : exists a b c d e f, nf_create_box sx sy sz = Ok [a; b; c; d; e; f] /\
  (svalid a /\ svalid b /\ svalid c /\ svalid d /\ svalid e /\ svalid f) /\
  forall u v, (0 <= u <= 1)%R -> (0 <= v <= 1)%R ->
    let x t := (sx / 2 - t * sx)%R in let y t := (sy / 2 - t * sy)%R in let z t := (sz / 2 - t * sz)%R in
    surf_at a u v = mkP (x u) (y v) (sz / 2)%R /\ surf_at b u v = mkP (x v) (y u) (- (sz / 2))%R /\
    surf_at c u v = mkP (sx / 2)%R (y u) (z v) /\ surf_at d u v = mkP (- (sx / 2))%R (y (1 - u)%R) (z v) /\
    surf_at e u v = mkP (x (1 - v)%R) (- (sy / 2))%R (z u) /\ surf_at f u v = mkP (x v) (sy / 2)%R (z u).
Proof.
  assert (forall x : R, @ndiv R RNum x n2 = Ok (x / 2)%R) as E2. { intros x. unfold n2, ndiv. cbn [RNum nofZ]. destruct (Req_EM_T 2 0); [lra|reflexivity]. }
  unfold nf_create_box. rewrite !E2. cbn [bind]. rewrite ?E2. cbn [bind nneg RNum].
  repeat match goal with |- context [bind (nf_create_quad ?p ?q ?r ?s ?x) _] =>
    let a := fresh "a" in let E := fresh "E" in let V := fresh "V" in let H := fresh "H" in
    destruct (quad_ok p q r s x) as [a [E [V H]]]; rewrite E; cbn [bind] end.
  eexists _, _, _, _, _, _. split; [reflexivity|]. split; [repeat (split; [assumption|]); assumption|].
  intros u v HU HV. cbv zeta. repeat match goal with |- _ /\ _ => split end;
  match goal with H : forall u v, _ -> _ -> surf_at ?s u v = _ |- surf_at ?s _ _ = _ => rewrite (H u v HU HV) end; unfold bilerp, lerp3, add3, scal3, sub3; cbn; f_equal; field.
Qed.
