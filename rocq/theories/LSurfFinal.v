(** The results about surfaces, in terms of what evaluate returns. *)
From Coq Require Import ZArith List Bool Reals Lra Lia Permutation Psatz.
From Verif Require Import Base Num MGeometry MKernel MMesh MMeshRun MNurbs MNurbsSurface MNurbsFactory SMesh SReach SGeom SMeasure SNurbs SSurface
  LBase LMesh LReach LNurbs2 LNurbsEx LSurf LSurf2 LRevolve LFactory LSurfClear LSurfMesh.
Import ListNotations.
Open Scope Z_scope.

Lemma curve_point c t : valid c -> (0 <= t <= 1)%R -> point_of (nc_evaluate c t) = Ok (nurbs_at c t).
Proof. intros V T. destruct (evaluate_nurbs c t V T) as [_ [c' [E _]]]. rewrite E. reflexivity. Qed.

(** ** C59 *)
Lemma circle_exact r c0 : exists c, nf_create_circle r c0 = Ok c /\ valid c /\
  (forall t, (0 <= t <= 1)%R -> exists p, point_of (nc_evaluate c t) = Ok p /\ (px p * px p + py p * py p = r * r)%R /\ pz p = 0%R) /\
  (forall p, (px p * px p + py p * py p = r * r)%R -> pz p = 0%R -> exists t, (0 <= t <= 1)%R /\ point_of (nc_evaluate c t) = Ok p).
Proof.
  destruct (circle_ok r c0) as [c [E [V [D [K [W P]]]]]]. exists c. split; [exact E|]. split; [exact V|]. split.
  - intros t T. rewrite (curve_point c t V T). eexists. split; [reflexivity|]. destruct (circle_at r c t V D K W P T) as [cs [sn [U ->]]]. cbn. split; [|reflexivity].
    replace (r * cs * (r * cs) + r * sn * (r * sn))%R with (r * r * (cs * cs + sn * sn))%R by ring. rewrite U. ring.
  - intros [x y z] H Z0. cbn in H, Z0. subst z. destruct (Req_EM_T r 0) as [->|NZ].
    + assert (x = 0 /\ y = 0)%R as [-> ->] by (split; nra). destruct (circle_covers 0 c 1 0 V D K W P ltac:(ring)) as [t [T Et]]. exists t. split; [exact T|].
      rewrite (curve_point c t V T), Et. f_equal. f_equal; ring.
    + destruct (circle_covers r c (x / r) (y / r) V D K W P) as [t [T Et]].
      { replace (x / r * (x / r) + y / r * (y / r))%R with ((x * x + y * y) / (r * r))%R by (field; exact NZ). rewrite H. field. exact NZ. }
      exists t. split; [exact T|]. rewrite (curve_point c t V T), Et. f_equal. f_equal; field; exact NZ.
Qed.
Lemma sphere_exact r s0 : exists s, nf_create_sphere r s0 = Ok s /\ svalid s /\
  forall u v, (0 <= u <= 1)%R -> (0 <= v <= 1)%R -> exists p, spoint_of (ns_evaluate s u v) = Ok p /\ (px p * px p + py p * py p + pz p * pz p = r * r)%R.
Proof.
  destruct (sphere_ok r s0) as [s [E [V H]]]. exists s. split; [exact E|]. split; [exact V|]. intros u v HU HV. exists (surf_at s u v). split; [apply ns_evaluate_formula; assumption|]. exact (H u v HU HV).
Qed.
Lemma torus_quartic rM rm (p : pt3) rho : (rho * rho = px p * px p + py p * py p)%R -> ((rho - rM) * (rho - rM) + pz p * pz p = rm * rm)%R ->
  let q := (px p * px p + py p * py p + pz p * pz p + rM * rM - rm * rm)%R in (q * q = 4 * (rM * rM) * (px p * px p + py p * py p))%R.
Proof. intros H1 H2. cbv zeta. rewrite <- H1. replace (rho * rho + pz p * pz p + rM * rM - rm * rm)%R with (2 * rM * rho)%R by lra. ring. Qed.
Lemma torus_exact rM rm s0 : exists s, nf_create_torus rM rm s0 = Ok s /\ svalid s /\
  forall u v, (0 <= u <= 1)%R -> (0 <= v <= 1)%R -> exists p, spoint_of (ns_evaluate s u v) = Ok p /\
    let q := (px p * px p + py p * py p + pz p * pz p + rM * rM - rm * rm)%R in (q * q = 4 * (rM * rM) * (px p * px p + py p * py p))%R.
Proof.
  destruct (torus_ok rM rm s0) as [s [E [V H]]]. exists s. split; [exact E|]. split; [exact V|]. intros u v HU HV. exists (surf_at s u v). split; [apply ns_evaluate_formula; assumption|].
  destruct (H u v HU HV) as [rho [H1 H2]]. exact (torus_quartic rM rm _ rho H1 H2).
Qed.
Lemma solids_exact rM rm r : exists s s', nf_create_torus_solid rM rm = Ok [s] /\ nf_create_sphere_solid r = Ok [s'] /\ svalid s /\ svalid s' /\
  forall u v, (0 <= u <= 1)%R -> (0 <= v <= 1)%R -> exists p p', spoint_of (ns_evaluate s u v) = Ok p /\ spoint_of (ns_evaluate s' u v) = Ok p' /\
    (let q := (px p * px p + py p * py p + pz p * pz p + rM * rM - rm * rm)%R in (q * q = 4 * (rM * rM) * (px p * px p + py p * py p))%R) /\
    (px p' * px p' + py p' * py p' + pz p' * pz p' = r * r)%R.
Proof.
  destruct (torus_solid_ok rM rm) as [s [E [V H]]]. destruct (sphere_solid_ok r) as [s' [E' [V' H']]]. exists s, s'. do 4 (split; [assumption|]).
  intros u v HU HV. exists (surf_at s u v), (surf_at s' u v). split; [apply ns_evaluate_formula; assumption|]. split; [apply ns_evaluate_formula; assumption|].
  split; [destruct (H u v HU HV) as [rho [H1 H2]]; exact (torus_quartic rM rm _ rho H1 H2)|exact (H' u v HU HV)].
Qed.
Lemma cylinder_exact r h : exists s1 s2 s3, nf_create_cylinder r h = Ok [s1; s2; s3] /\ svalid s1 /\ svalid s2 /\ svalid s3 /\
  forall u v, (0 <= u <= 1)%R -> (0 <= v <= 1)%R -> exists p1 p2 p3,
    spoint_of (ns_evaluate s1 u v) = Ok p1 /\ spoint_of (ns_evaluate s2 u v) = Ok p2 /\ spoint_of (ns_evaluate s3 u v) = Ok p3 /\
    (px p1 * px p1 + py p1 * py p1 = v * r * (v * r))%R /\ pz p1 = (- (h / 2))%R /\
    (px p2 * px p2 + py p2 * py p2 = r * r)%R /\ pz p2 = (v * h - h / 2)%R /\
    (px p3 * px p3 + py p3 * py p3 = v * r * (v * r))%R /\ pz p3 = (h / 2)%R.
Proof.
  destruct (cylinder_ok r h) as [s1 [s2 [s3 [E [V1 [V2 [V3 H]]]]]]]. exists s1, s2, s3. do 4 (split; [assumption|]). intros u v HU HV. exists (surf_at s1 u v), (surf_at s2 u v), (surf_at s3 u v).
  do 3 (split; [apply ns_evaluate_formula; assumption|]). destruct (H u v HU HV) as [[A1 A2] [[B1 B2] [C1 C2]]]. auto 10.
Qed.
Lemma box_exact sx sy sz : exists a b c d e f, nf_create_box sx sy sz = Ok [a; b; c; d; e; f] /\
  forall u v, (0 <= u <= 1)%R -> (0 <= v <= 1)%R ->
    let x t := (sx / 2 - t * sx)%R in let y t := (sy / 2 - t * sy)%R in let z t := (sz / 2 - t * sz)%R in
    spoint_of (ns_evaluate a u v) = Ok (mkP (x u) (y v) (sz / 2)%R) /\ spoint_of (ns_evaluate b u v) = Ok (mkP (x v) (y u) (- (sz / 2))%R) /\
    spoint_of (ns_evaluate c u v) = Ok (mkP (sx / 2)%R (y u) (z v)) /\ spoint_of (ns_evaluate d u v) = Ok (mkP (- (sx / 2))%R (y (1 - u)%R) (z v)) /\
    spoint_of (ns_evaluate e u v) = Ok (mkP (x (1 - v)%R) (- (sy / 2))%R (z u)) /\ spoint_of (ns_evaluate f u v) = Ok (mkP (x v) (sy / 2)%R (z u)).
Proof.
  destruct (box_ok sx sy sz) as [a [b [c [d [e [f [E [[V1 [V2 [V3 [V4 [V5 V6]]]]] H]]]]]]]]. exists a, b, c, d, e, f. split; [exact E|]. intros u v HU HV. cbv zeta.
  destruct (H u v HU HV) as [H1 [H2 [H3 [H4 [H5 H6]]]]].
  rewrite <- H1, <- H2, <- H3, <- H4, <- H5, <- H6, !ns_evaluate_formula by assumption. auto 10.
Qed.

(** ** C60 *)
Lemma revolve_exact c s0 : valid c -> exists s, nr_revolve c s0 = Ok s /\ svalid s /\ ns_closedU s = true /\
  forall u, (0 <= u <= 1)%R -> exists cs sn, (cs * cs + sn * sn = 1)%R /\
    forall v, (0 <= v <= 1)%R -> exists q, point_of (nc_evaluate c v) = Ok q /\ spoint_of (ns_evaluate s u v) = Ok (turn_z cs sn q).
Proof.
  intros V. destruct (revolve_ok c s0 V) as [s [E [RO CL]]]. exists s. pose proof RO as [VS _]. split; [exact E|]. split; [exact VS|]. split; [exact CL|].
  intros u HU. destruct (revolve_turn c s u V RO HU) as [cs [sn [EU ET]]]. exists cs, sn. split; [exact EU|]. intros v HV. exists (nurbs_at c v). split; [apply curve_point; assumption|].
  rewrite <- (ET v HV). apply ns_evaluate_formula; assumption.
Qed.
Lemma revolve_height_radius c s0 : valid c -> exists s, nr_revolve c s0 = Ok s /\ svalid s /\
  forall u v, (0 <= u <= 1)%R -> (0 <= v <= 1)%R -> exists p q, spoint_of (ns_evaluate s u v) = Ok p /\ point_of (nc_evaluate c v) = Ok q /\
    pz p = pz q /\ (px p * px p + py p * py p = px q * px q + py q * py q)%R.
Proof.
  intros V. destruct (revolve_exact c s0 V) as [s [E [VS [_ H]]]]. exists s. split; [exact E|]. split; [exact VS|]. intros u v HU HV. destruct (H u HU) as [cs [sn [EU HH]]]. destruct (HH v HV) as [q [Eq Ep]].
  exists (turn_z cs sn q), q. split; [exact Ep|]. split; [exact Eq|]. split; [reflexivity|]. unfold turn_z. cbn.
  replace ((cs * px q + sn * py q) * (cs * px q + sn * py q) + (cs * py q - sn * px q) * (cs * py q - sn * px q))%R with ((cs * cs + sn * sn) * (px q * px q + py q * py q))%R by ring. rewrite EU. ring.
Qed.
Lemma revolve_all_round c s0 : valid c -> exists s, nr_revolve c s0 = Ok s /\
  forall cs sn, (cs * cs + sn * sn = 1)%R -> exists u, (0 <= u <= 1)%R /\
    forall v, (0 <= v <= 1)%R -> exists q, point_of (nc_evaluate c v) = Ok q /\ spoint_of (ns_evaluate s u v) = Ok (turn_z cs sn q).
Proof.
  intros V. destruct (revolve_ok c s0 V) as [s [E [RO CL]]]. exists s. pose proof RO as [VS _]. split; [exact E|].
  intros cs sn EU. destruct (revolve_covers c s cs sn V RO EU) as [u [HU ET]]. exists u. split; [exact HU|]. intros v HV. exists (nurbs_at c v). split; [apply curve_point; assumption|].
  rewrite <- (ET v HV). apply ns_evaluate_formula; assumption.
Qed.

(** ** C61, C62 *)
Lemma extrude_exact c dir s0 : valid c -> exists s, ne_extrude c dir s0 = Ok s /\ svalid s /\
  forall u v, (0 <= u <= 1)%R -> (0 <= v <= 1)%R -> exists q, point_of (nc_evaluate c u) = Ok q /\ spoint_of (ns_evaluate s u v) = Ok (add3 q (scal3 v dir)).
Proof.
  intros V. destruct (extrude_ok c dir s0 V) as [s [E S]]. exists s. pose proof S as [VS _]. split; [exact E|]. split; [exact VS|]. intros u v HU HV. exists (nurbs_at c u). split; [apply curve_point; assumption|].
  rewrite <- (extrude_at c dir s u v V S HU HV). apply ns_evaluate_formula; assumption.
Qed.
Lemma ruled_exact c1 c2 s0 : valid c1 -> valid c2 -> nc_degree c2 = nc_degree c1 -> nc_knots c2 = nc_knots c1 ->
  exists s, nr_create_ruled c1 c2 s0 = Ok s /\ svalid s /\
  forall u, (0 <= u <= 1)%R -> exists p q, point_of (nc_evaluate c1 u) = Ok p /\ point_of (nc_evaluate c2 u) = Ok q /\
    spoint_of (ns_evaluate s u 0%R) = Ok p /\ spoint_of (ns_evaluate s u 1%R) = Ok q /\
    (forall v, (0 <= v <= 1)%R -> exists x, spoint_of (ns_evaluate s u v) = Ok x /\ on_segment x p q) /\
    (forall x, on_segment x p q -> exists v, (0 <= v <= 1)%R /\ spoint_of (ns_evaluate s u v) = Ok x).
Proof.
  intros V1 V2 ED EK. destruct (ruled_ok c1 c2 s0 V1 V2 ED EK) as [s [E S]]. exists s. pose proof S as [VS _]. split; [exact E|]. split; [exact VS|]. intros u HU.
  exists (nurbs_at c1 u), (nurbs_at c2 u). split; [apply curve_point; assumption|]. split; [apply curve_point; assumption|].
  destruct (evaluate_nurbs c1 u V1 HU) as [P1 _]. destruct (evaluate_nurbs c2 u V2 HU) as [P2 _]. set (D1 := nurbs_den c1 u) in *. set (D2 := nurbs_den c2 u) in *.
  assert (forall v, (0 <= v <= 1)%R -> spoint_of (ns_evaluate s u v) = Ok (lerp3 (nurbs_at c1 u) (nurbs_at c2 u) (v * D2 / ((1 - v) * D1 + v * D2)))) as G.
  { intros v HV. rewrite (ns_evaluate_formula s u v VS HU HV), (ruled_at c1 c2 s u v V1 V2 S HU HV). reflexivity. }
  split; [|split; [|split]].
  - rewrite (G 0%R) by lra. f_equal. destruct (nurbs_at c1 u) as [x y z]. destruct (nurbs_at c2 u) as [x' y' z']. unfold lerp3, add3, scal3, sub3. cbn. f_equal; field; lra.
  - rewrite (G 1%R) by lra. f_equal. destruct (nurbs_at c1 u) as [x y z]. destruct (nurbs_at c2 u) as [x' y' z']. unfold lerp3, add3, scal3, sub3. cbn. f_equal; field; lra.
  - intros v HV. rewrite (G v HV). eexists. split; [reflexivity|]. exists (v * D2 / ((1 - v) * D1 + v * D2))%R. split; [apply ruled_par; assumption|reflexivity].
  - intros x [t [Ht ->]]. set (v := (t * D1 / (t * D1 + (1 - t) * D2))%R). assert (0 < t * D1 + (1 - t) * D2)%R as P by nra.
    assert (0 <= v <= 1)%R as HV. { unfold v. replace (t * D1 + (1 - t) * D2)%R with ((1 - t) * D2 + t * D1)%R by ring. apply (ruled_par D2 D1 t); assumption. }
    exists v. split; [exact HV|]. rewrite (G v HV). f_equal. f_equal.
    assert (v * D2 / ((1 - v) * D1 + v * D2) = t)%R; [|assumption].
    assert (1 - v = (1 - t) * D2 / (t * D1 + (1 - t) * D2))%R as Ev by (unfold v; field; lra). rewrite Ev. unfold v. field. split; [lra|]. nra.
Qed.
Lemma quad_exact p1 p2 p3 p4 s0 : exists s, nf_create_quad p1 p2 p3 p4 s0 = Ok s /\ svalid s /\
  forall u v, (0 <= u <= 1)%R -> (0 <= v <= 1)%R -> spoint_of (ns_evaluate s u v) = Ok (lerp3 (lerp3 p1 p2 u) (lerp3 p4 p3 u) v).
Proof.
  destruct (quad_ok p1 p2 p3 p4 s0) as [s [E [V H]]]. exists s. split; [exact E|]. split; [exact V|]. intros u v HU HV. rewrite (ns_evaluate_formula s u v V HU HV), (H u v HU HV). reflexivity.
Qed.

(** ** C63 *)
Lemma to_mesh_reach {T} {N : Num T} s (m m' : Mesh T) seg b : reach m -> nu_to_mesh s m seg b = Ok m' -> reach m'.
Proof.
  intros R E. unfold nu_to_mesh in E. assert (reach (if b then clear m else m)) as R0.
  { destruct b; [|exact R]. eapply (R_step m OpClear); [exact R| |reflexivity]. intros f [F|F]; discriminate. }
  set (m0 := if b then clear m else m) in *. clearbody m0. cbv zeta in E. apply bind_Ok in E. destruct E as [nU [_ E]]. apply bind_Ok in E. destruct E as [nV [_ E]]. apply bind_Ok in E. destruct E as [sq [_ E]]. destruct (sq =? 0); [injection E as <-; exact R0|].
  assert (forall a b (body : Z -> NurbsSurface T * Mesh T -> res (NurbsSurface T * Mesh T)) x y, reach (snd x) -> (forall i x y, reach (snd x) -> body i x = Ok y -> reach (snd y)) -> for_ a b body x = Ok y -> reach (snd y)) as L1.
  { intros a0 b0 body x y H0 HB HF. destruct (Z.leb_spec a0 b0); [|rewrite for_empty in HF by lia; injection HF as <-; exact H0].
    apply (for_inv_part (fun _ z => reach (snd z))) in HF; auto. intros i z z' _. apply HB. }
  assert (forall a b (body : Z -> Mesh T -> res (Mesh T)) x y, reach x -> (forall i x y, reach x -> body i x = Ok y -> reach y) -> for_ a b body x = Ok y -> reach y) as L2.
  { intros a0 b0 body x y H0 HB HF. destruct (Z.leb_spec a0 b0); [|rewrite for_empty in HF by lia; injection HF as <-; exact H0].
    apply (for_inv_part (fun _ z => reach z)) in HF; auto. intros i z z' _. apply HB. }
  apply bind_Ok in E. destruct E as [[s1 m1] [E1 E2]]. cbn [snd] in E2.
  assert (reach m1) as R1.
  { change m1 with (snd (s1, m1)). unfold to_mesh_vertices in E1. eapply L1; [|intros i x y Hx HE|exact E1]; [exact R0|]. eapply L1; [exact Hx| |exact HE]. clear - N.
    intros j x y Hx HE. apply bind_Ok in HE. destruct HE as [du [_ HE]]. apply bind_Ok in HE. destruct HE as [dv [_ HE]]. apply bind_Ok in HE. destruct HE as [e [_ HE]]. injection HE as <-. cbn [snd].
    eapply (R_step (snd x) (OpAddVertex (fst e))); [exact Hx| |reflexivity]. intros f [F|F]; discriminate. }
  unfold to_mesh_quads in E2. eapply L2; [exact R1| |exact E2]. intros i x y Hx HE. eapply L2; [exact Hx| |exact HE]. clear - N. intros j x y Hx HE. cbv beta zeta in HE.
  match type of HE with add_quad _ ?a ?b ?c ?d = _ => eapply (R_step x (OpAddQuad a b c d)) end; [exact Hx| |cbn [mstep]; unfold unit_out; rewrite HE; reflexivity]. intros f [F|F]; discriminate.
Qed.
(** Every vertex of the new triangles is a point of the surface. *)
Lemma to_mesh_solid_zero (ss : list (NurbsSurface R)) (m : Mesh R) : nu_solid_to_mesh ss m 0 = Ok (clear m).
Proof.
  unfold nu_solid_to_mesh. edestruct (for_inv (fun _ s => s = clear m)) as [x [E H]]; [| | |rewrite E, H; reflexivity].
  - apply vsize_nonneg.
  - reflexivity.
  - intros i x Hi ->. destruct (vget_in_range ss i Hi) as [s ->]. cbn [bind]. rewrite to_mesh_zero. eexists. split; reflexivity.
Qed.

(** ** C64 *)
Lemma from_z_refuted : exists (z : list R) X Y s p (x y : Z) c, vsize z = X * Y /\ 0 <= x < X /\ 0 <= y < Y /\ nu_create_from_z z X Y 1 ns_new = Ok s /\
  In p (ns_points s) /\ px p = IZR x /\ py p = IZR y /\ vget z (x + y * X) = Ok c /\ pz p <> c.
Proof.
  destruct (from_z_exact [0; 1; 2; 3]%R 2 2 1 ns_new ltac:(lia) ltac:(lia) ltac:(lia) ltac:(cbn; lia)) as [s [E [_ [_ [_ [_ [_ [H _]]]]]]]].
  exists [0; 1; 2; 3]%R, 2, 2, s. specialize (H 0 1 ltac:(lia) ltac:(lia)). eexists _, 0, 1, 2%R.
  split; [reflexivity|]. split; [lia|]. split; [lia|]. split; [exact E|]. split; [exact (vget_In _ _ _ H)|]. cbn [px py pz]. split; [reflexivity|]. split; [reflexivity|]. split; [reflexivity|].
  unfold Z.to_nat, Pos.to_nat. cbn. lra.
Qed.
(** Not square: neighbouring control points are not neighbours on the ground. *)
Lemma from_z_scrambled : exists (z : list R) s, vsize z = 2 * 3 /\ nu_create_from_z z 2 3 1 ns_new = Ok s /\ svalid s /\
  scp s 0 1 = mkP 0%R 2%R 5%R /\ scp s 1 1 = mkP 1%R 0%R 7%R.
Proof.
  destruct (from_z_exact [0; 1; 5; 7; 8; 9]%R 2 3 1 ns_new ltac:(lia) ltac:(lia) ltac:(lia) ltac:(cbn; lia)) as [s [E [V [_ [_ [_ [_ [_ H]]]]]]]].
  exists [0; 1; 5; 7; 8; 9]%R, s. split; [reflexivity|]. split; [exact E|]. split; [exact V|]. rewrite (H 0 1) by lia. rewrite (H 1 1) by lia. split; unfold Z.to_nat, Pos.to_nat; cbn; reflexivity.
Qed.
Lemma from_z_symmetric z X d s0 : 0 <= d < X -> X * X <= vsize z -> (forall x y, 0 <= x < X -> 0 <= y < X -> vget z (x * X + y) = vget z (x + y * X)) ->
  exists s, nu_create_from_z z X X d s0 = Ok s /\ svalid s /\
    forall x y, 0 <= x < X -> 0 <= y < X -> exists c p, vget z (x + y * X) = Ok c /\ In p (ns_points s) /\ p = mkP (IZR x) (IZR y) c.
Proof.
  intros Hd Hz Sy. destruct (from_z_exact z X X d s0 ltac:(lia) ltac:(lia) ltac:(lia) Hz) as [s [E [V [_ [_ [_ [_ [H _]]]]]]]]. exists s. split; [exact E|]. split; [exact V|].
  intros x y Hx Hy. specialize (H x y Hx Hy). rewrite <- (Sy x y Hx Hy). destruct (vget_in_range z (x * X + y) ltac:(nia)) as [c G]. exists c. eexists. split; [exact G|]. split; [exact (vget_In _ _ _ H)|].
  f_equal. apply vget_Ok in G. destruct G as [_ G]. apply nth_error_nth. exact G.
Qed.

(** ** C65 *)
Lemma patch_corners p q r : bilerp p q r r 0 0 = p /\ bilerp p q r r 1 0 = q /\ forall u, bilerp p q r r u 1 = r.
Proof. destruct p, q, r. unfold bilerp, lerp3, add3, scal3, sub3. cbn. repeat split; intros; f_equal; ring. Qed.
Lemma patch_in p q r u v : (0 <= u <= 1)%R -> (0 <= v <= 1)%R -> in_triangle p q r (bilerp p q r r u v).
Proof.
  intros HU HV. exists ((1 - u) * (1 - v))%R, (u * (1 - v))%R, v. split; [nra|]. split; [nra|]. split; [lra|]. split; [ring|]. destruct p, q, r. unfold bilerp, lerp3, add3, scal3, sub3. cbn. f_equal; ring.
Qed.
Lemma patch_onto p q r x : in_triangle p q r x -> exists u v, (0 <= u <= 1)%R /\ (0 <= v <= 1)%R /\ bilerp p q r r u v = x.
Proof.
  intros [a [b [c [Ha [Hb [Hc [S ->]]]]]]]. destruct (Req_EM_T c 1) as [->|NC].
  - exists 0%R, 1%R. split; [lra|]. split; [lra|]. assert (a = 0 /\ b = 0)%R as [-> ->] by lra. destruct p, q, r. unfold bilerp, lerp3, add3, scal3, sub3. cbn. f_equal; ring.
  - exists (b / (1 - c))%R, c. assert (0 < 1 - c)%R as P by lra. split; [|split; [lra|]].
    + split; [apply Rmult_le_pos; [exact Hb|left; apply Rinv_0_lt_compat, P]|]. apply (Rmult_le_reg_r (1 - c)); [exact P|]. replace (b / (1 - c) * (1 - c))%R with b by (field; lra). lra.
    + replace a with (1 - b - c)%R by lra. destruct p, q, r. unfold bilerp, lerp3, add3, scal3, sub3. cbn. f_equal; field; lra.
Qed.
Lemma from_mesh_exact (m : Mesh R) : reach m -> exists ss, nu_create_from_mesh m = Ok ss /\ vsize ss = nb_triangles m /\
  forall i, 0 <= i < nb_triangles m -> exists t s, get_triangle m i = Ok t /\ vget ss i = Ok s /\ svalid s /\
    spoint_of (ns_evaluate s 0 0)%R = Ok (t1 t) /\ spoint_of (ns_evaluate s 1 0)%R = Ok (t2 t) /\ spoint_of (ns_evaluate s 0 1)%R = Ok (t3 t) /\ spoint_of (ns_evaluate s 1 1)%R = Ok (t3 t) /\
    (forall u v, (0 <= u <= 1)%R -> (0 <= v <= 1)%R -> exists p, spoint_of (ns_evaluate s u v) = Ok p /\ in_tri t p) /\
    (forall p, in_tri t p -> exists u v, (0 <= u <= 1)%R /\ (0 <= v <= 1)%R /\ spoint_of (ns_evaluate s u v) = Ok p).
Proof.
  intros R. destruct (from_mesh_ok m (reach_wf m R)) as [ss [E [S H]]]. exists ss. split; [exact E|]. split; [exact S|]. intros i Hi. destruct (H i Hi) as [t [s [Et [Es [V HH]]]]]. exists t, s.
  split; [exact Et|]. split; [exact Es|]. split; [exact V|].
  assert (forall u v, (0 <= u <= 1)%R -> (0 <= v <= 1)%R -> spoint_of (ns_evaluate s u v) = Ok (bilerp (t1 t) (t2 t) (t3 t) (t3 t) u v)) as G.
  { intros u v HU HV. rewrite (ns_evaluate_formula s u v V HU HV), (HH u v HU HV). reflexivity. }
  destruct (patch_corners (t1 t) (t2 t) (t3 t)) as [P1 [P2 P3]].
  split; [rewrite G by lra; f_equal; exact P1|]. split; [rewrite G by lra; f_equal; exact P2|]. split; [rewrite G by lra; f_equal; apply P3|]. split; [rewrite G by lra; f_equal; apply P3|]. split.
  - intros u v HU HV. rewrite (G u v HU HV). eexists. split; [reflexivity|]. apply patch_in; assumption.
  - intros p HP. destruct (patch_onto _ _ _ _ HP) as [u [v [HU [HV Ep]]]]. exists u, v. split; [exact HU|]. split; [exact HV|]. rewrite (G u v HU HV), Ep. reflexivity.
Qed.

(** ** C58 *)
Lemma clear_refuted : exists (s : NurbsSurface R) l, ~ alike (sdo_all ns_new l) (sdo_all (ns_clear s) l).
Proof.
  exists (ns_set_closed_u ns_new true), [SDegree 1 1]. unfold alike. cbn. intros [_ H]. unfold same_sdata in H. cbn in H. destruct H as [_ [_ [_ [_ [H _]]]]]. discriminate.
Qed.
Lemma equal_weights_refuted : exists s s' : NurbsSurface R, ns_set_equals_weights s = Ok s' /\ vsize (ns_weights s') = vsize (ns_points s') /\
  exists i j x y, vget (ns_weights s') i = Ok x /\ vget (ns_weights s') j = Ok y /\ x <> y.
Proof.
  exists (ns_set_weights (ns_set_points ns_new [mkP 0 0 0; mkP 1 0 0]%R 2 1) [2]%R). eexists. split; [reflexivity|]. split; [reflexivity|]. exists 0, 1, 2%R, 1%R. split; [reflexivity|]. split; [reflexivity|]. lra.
Qed.
