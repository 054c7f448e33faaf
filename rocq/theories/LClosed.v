(** When a curve, an extrusion, a surface of revolution or a ruled surface says that it is closed. *)
From Coq Require Import ZArith List Bool Reals Lra Lia.
From Flocq Require Import Core.
From Verif Require Import Base Num MGeometry MKernel MMesh MNurbs MNurbsSurface MNurbsFactory SGeom SNurbs SSurface SMesh SUtil
  LBase LGeom LMeasure LNurbs LNurbs2 LRevolve LFactory LSurfMesh LSurfFinal LSurf.
Import ListNotations.
Open Scope Z_scope.

Lemma is_closed_gen {T} {N : Num T} (c : NurbsCurve T) tol p q : 2 <= vsize (nc_points c) -> vget (nc_points c) 0 = Ok p -> vget (nc_points c) (vsize (nc_points c) - 1) = Ok q ->
  nc_is_closed c tol = Ok (nltb (norm_square (psub p q)) (nmul tol tol)).
Proof. intros S EP EQ. unfold nc_is_closed. destruct (Z.leb_spec (vsize (nc_points c)) 1); [lia|]. rewrite EP, EQ. reflexivity. Qed.
Lemma is_closed_iff (c : NurbsCurve R) tol : exists b, nc_is_closed c tol = Ok b /\ (b = true <-> 2 <= vsize (nc_points c) /\ short tol (cp c 0) (cp c (vsize (nc_points c) - 1))).
Proof.
  destruct (Z_le_gt_dec (vsize (nc_points c)) 1) as [L|G].
  - exists false. split; [unfold nc_is_closed; rewrite (proj2 (Z.leb_le _ _) L); reflexivity|]. split; [discriminate|lia].
  - pose proof (vget_nth (nc_points c) O3 0 ltac:(lia)) as E1. pose proof (vget_nth (nc_points c) O3 (vsize (nc_points c) - 1) ltac:(lia)) as E2.
    fold (cp c 0) in E1. fold (cp c (vsize (nc_points c) - 1)) in E2. rewrite (is_closed_gen c tol _ _ ltac:(lia) E1 E2). eexists. split; [reflexivity|].
    set (p := cp c 0). set (q := cp c _). change (nltb ?a ?b) with (Rltb a b). rewrite Rltb_lt. unfold short, dist3.
    assert (norm_square (psub p q) = (len3 (sub3 p q) * len3 (sub3 p q))%R) as -> by (rewrite len3_sq; unfold norm_square, psub, sub3, dot3; cbn; ring).
    assert (0 <= len3 (sub3 p q))%R as NN by (apply sqrt_pos). change (nmul tol tol) with (tol * tol)%R. replace (tol * tol)%R with (Rabs tol * Rabs tol)%R by (rewrite <- Rabs_mult, Rabs_pos_eq; [reflexivity|apply Rle_0_sqr]).
    split.
    + intros H. split; [lia|]. apply Rsqr_incrst_0; [exact H|exact NN|apply Rabs_pos].
    + intros [_ H]. apply Rmult_le_0_lt_compat; assumption.
Qed.
Lemma closed_ends (c : NurbsCurve R) tol : valid c -> 1 <= nc_degree c -> tight (nc_knots c) (nc_degree c) (vsize (nc_points c)) ->
  exists b p q, nc_is_closed c tol = Ok b /\ point_of (nc_evaluate c 0%R) = Ok p /\ point_of (nc_evaluate c 1%R) = Ok q /\ (b = true <-> short tol p q).
Proof.
  intros V D TI. destruct (curve_ends c V TI) as [E0 E1]. destruct (is_closed_iff c tol) as (b & E & H). exists b, (cp c 0), (cp c (vsize (nc_points c) - 1)).
  split; [exact E|]. split; [exact E0|]. split; [exact E1|]. rewrite H. destruct V as (_ & _ & (C & _) & _). split; [intros [_ S]; exact S|intros S; split; [lia|exact S]].
Qed.
Lemma zero_tolerance (c : NurbsCurve R) : nc_is_closed c 0%R = Ok false.
Proof.
  destruct (is_closed_iff c 0%R) as ([] & E & H); [|exact E]. destruct (proj1 H eq_refl) as [_ S]. unfold short in S. rewrite Rabs_R0 in S. pose proof (sqrt_pos (dot3 (sub3 (cp c 0) (cp c (vsize (nc_points c) - 1))) (sub3 (cp c 0) (cp c (vsize (nc_points c) - 1))))). unfold dist3, len3 in S. lra.
Qed.

(** ** The flags of the surfaces *)
Section Flags.
Context {T : Type} {N : Num T}.
Implicit Types s : NurbsSurface T.
Lemma flags_degree s a b s' : ns_set_degree s a b = Ok s' -> ns_closedU s' = ns_closedU s /\ ns_closedV s' = ns_closedV s.
Proof. unfold ns_set_degree. do 4 (destruct (vresize _ _ _); [|discriminate]; cbn [bind]). intros [= <-]. split; reflexivity. Qed.
Lemma flags_ku s k s' : ns_set_knots_u s k = Ok s' -> ns_closedU s' = ns_closedU s /\ ns_closedV s' = ns_closedV s.
Proof. unfold ns_set_knots_u. destruct (scale_knots k); [|discriminate]. intros [= <-]. split; reflexivity. Qed.
Lemma flags_kv s k s' : ns_set_knots_v s k = Ok s' -> ns_closedU s' = ns_closedU s /\ ns_closedV s' = ns_closedV s.
Proof. unfold ns_set_knots_v. destruct (scale_knots k); [|discriminate]. intros [= <-]. split; reflexivity. Qed.
Ltac go := match goal with
  | |- bind (ns_set_degree ?s ?a ?b) _ = _ -> _ => let E := fresh "E" in destruct (ns_set_degree s a b) eqn:E; [|discriminate]; apply flags_degree in E; cbn [bind]
  | |- bind (ns_set_knots_u ?s ?a) _ = _ -> _ => let E := fresh "E" in destruct (ns_set_knots_u s a) eqn:E; [|discriminate]; apply flags_ku in E; cbn [bind]
  | |- bind (ns_set_knots_v ?s ?a) _ = _ -> _ => let E := fresh "E" in destruct (ns_set_knots_v s a) eqn:E; [|discriminate]; apply flags_kv in E; cbn [bind]
  | |- bind (for_ _ _ _ _) _ = _ -> _ => destruct (for_ _ _ _ _); [|discriminate]; cbn [bind]
  end.
Lemma extrude_flags (c : NurbsCurve T) dir s0 s : ne_extrude c dir s0 = Ok s -> nc_is_closed c default_tol = Ok (ns_closedU s) /\ ns_closedV s = ns_closedV s0.
Proof.
  unfold ne_extrude. cbv zeta. repeat go. destruct (nc_is_closed c default_tol) as [b|]; [|discriminate]. cbn [bind]. intros [= <-]. cbn in *. split; [reflexivity|]. intuition congruence.
Qed.
Lemma size_kuv s k s' : (ns_set_knots_u s k = Ok s' \/ ns_set_knots_v s k = Ok s') -> ns_nbU s' = ns_nbU s /\ ns_nbV s' = ns_nbV s.
Proof. unfold ns_set_knots_u, ns_set_knots_v. destruct (scale_knots k); [|intros [E|E]; discriminate E]. cbn [bind]. intros [E|E]; injection E as <-; split; reflexivity. Qed.
Lemma revolve_size (c : NurbsCurve T) s0 s : nr_revolve c s0 = Ok s -> ns_nbU s = 9 /\ ns_nbV s = nc_nb_points c.
Proof.
  unfold nr_revolve. cbv zeta. destruct (for_ _ _ _ _) as [pw|]; [|discriminate]. cbn [bind]. destruct (ns_set_degree _ _ _) as [s1|]; [|discriminate]. cbn [bind].
  destruct (ns_set_knots_u _ _) as [s2|] eqn:E2; [|discriminate]. cbn [bind]. destruct (ns_set_knots_v _ _) as [s3|] eqn:E3; [|discriminate]. cbn [bind]. destruct (nc_is_closed c default_tol) as [b|]; [|discriminate]. cbn [bind]. intros [= <-].
  pose proof (size_kuv _ _ _ (or_introl E2)) as [A1 A2]. pose proof (size_kuv _ _ _ (or_intror E3)) as [B1 B2]. cbn in *. split; congruence.
Qed.
Lemma revolve_flags (c : NurbsCurve T) s0 s : nr_revolve c s0 = Ok s -> nc_is_closed c default_tol = Ok (ns_closedV s) /\ ns_closedU s = true.
Proof.
  unfold nr_revolve. cbv zeta. repeat go. destruct (nc_is_closed c default_tol) as [b|]; [|discriminate]. cbn [bind]. intros [= <-]. cbn in *. split; reflexivity.
Qed.
Lemma ruled_flags (c1 c2 : NurbsCurve T) s0 s : nr_create_ruled c1 c2 s0 = Ok s ->
  (ns_closedU s = true <-> nc_is_closed c1 default_tol = Ok true /\ nc_is_closed c2 default_tol = Ok true) /\ ns_closedV s = ns_closedV s0.
Proof.
  unfold nr_create_ruled. cbv zeta. repeat go. destruct (nc_is_closed c1 default_tol) as [[]|]; [| |discriminate]; cbn [bind].
  - destruct (nc_is_closed c2 default_tol) as [b|]; [|discriminate]. cbn [bind]. intros [= <-]. cbn in *. split; [|intuition congruence]. split; [intros ->; auto|intros [_ [= ->]]; reflexivity].
  - intros [= <-]. cbn in *. split; [|intuition congruence]. split; [discriminate|intros [[=] _]].
Qed.
End Flags.

Lemma tol_pos : (0 < Rabs (default_tol : R))%R.
Proof. unfold default_tol. cbn. rewrite Rabs_pos_eq; lra. Qed.
Lemma dist3_refl p : dist3 p p = 0%R.
Proof. unfold dist3, len3. replace (dot3 (sub3 p p) (sub3 p p)) with 0%R by (unfold dot3, sub3; cbn; ring). apply sqrt_0. Qed.
Lemma circle_closed r c0 : exists c, nf_create_circle r c0 = Ok c /\ nc_is_closed c default_tol = Ok true.
Proof.
  destruct (circle_ok r c0) as (c & E & _ & _ & _ & _ & P). exists c. split; [exact E|]. destruct (is_closed_iff c default_tol) as (b & EB & H). rewrite EB. f_equal. apply H. unfold cp. rewrite P.
  split; [cbn; lia|]. unfold short. change (nth (Z.to_nat (vsize (circle_pts r) - 1)) (circle_pts r) O3) with (nth (Z.to_nat 0) (circle_pts r) O3). rewrite dist3_refl. exact tol_pos.
Qed.
Lemma torus_flags rM rm s0 : exists s, nf_create_torus rM rm s0 = Ok s /\ svalid s /\ ns_closedU s = true /\ ns_closedV s = true /\ ns_nbU s = 9 /\ ns_nbV s = 9.
Proof.
  destruct (torus_ok rM rm s0) as (s & E & V & _). exists s. split; [exact E|]. split; [exact V|]. revert E. unfold nf_create_torus. destruct (circle_ok rm nc_new) as (c & EC & VC & _ & _ & _ & P). rewrite EC. cbn [bind].
  set (c' := nc_points_ref _ _). intros E. destruct (revolve_flags c' _ _ E) as [H1 H2]. destruct (revolve_size c' _ _ E) as [H3 H4]. split; [exact H2|]. assert (nc_nb_points c' = 9) as N9 by (unfold nc_nb_points, c'; cbn [nc_points nc_points_ref]; rewrite P; reflexivity). split; [|split; [exact H3|congruence]]. destruct (is_closed_iff c' default_tol) as (b & EB & H). rewrite H1 in EB. injection EB as ->. apply H.
  unfold c', cp. cbn [nc_points nc_points_ref]. rewrite P. split; [cbn; lia|]. unfold short. match goal with |- (dist3 ?p ?q < _)%R => change q with p end. rewrite dist3_refl. exact tol_pos.
Qed.
Lemma torus_solid_size rM rm : exists s, nf_create_torus_solid rM rm = Ok [s] /\ svalid s /\ ns_nbU s = 9 /\ ns_nbV s = 9.
Proof.
  destruct (torus_flags rM rm ns_new) as (s & E & V & _ & _ & NU & NV). unfold nf_create_torus_solid. rewrite E. cbn [bind]. eexists. split; [reflexivity|]. split; [exact (svalid_map s flip_y V)|]. split; [exact NU|exact NV].
Qed.
(** A degree 1 curve through n points, extruded: n control points along u. *)
Lemma wide_surface n : 2 <= n -> exists c s, nf_curve_from_points (repeat (mkP 0 0 0)%R (Z.to_nat n)) 1 nc_new = Ok c /\ ne_extrude c (mkP 0 0 1)%R ns_new = Ok s /\ svalid s /\ ns_nbU s = n /\ ns_nbV s = 2.
Proof.
  intros Hn. assert (vsize (repeat (mkP 0 0 0)%R (Z.to_nat n)) = n) as SZ by (unfold vsize; rewrite repeat_length; lia).
  destruct (curve_from_points_ok 1 (repeat (mkP 0 0 0)%R (Z.to_nat n)) nc_new ltac:(lia)) as (c & EC & VC & _ & _ & P & _).
  destruct (extrude_ok c (mkP 0 0 1)%R ns_new VC) as (s & ES & VS & (_ & _ & _ & NR & _) & _ & _ & NV & _). exists c, s. split; [exact EC|]. split; [exact ES|]. split; [exact VS|]. split; [|exact NV].
  pose proof (proj1 VC) as NB. rewrite P in NB. congruence.
Qed.
Lemma torus_mesh rM rm s0 (m : Mesh R) seg : 0 < seg <= 5148 -> exists s m', nf_create_torus rM rm s0 = Ok s /\ nu_to_mesh s m seg true = Ok m' /\ 0 < nb_triangles m' /\
  forall t p q, 0 <= t < nb_triangles m' -> has_edge m' t p q -> exists t', 0 <= t' < nb_triangles m' /\ has_edge m' t' q p.
Proof.
  intros [S SM]. destruct (torus_flags rM rm s0) as (s & E & V & FU & FV & NU & NV). assert (meshable seg s) as MS by (unfold meshable, int_max; lia). destruct (to_mesh_edges s m seg true V S MS) as (m' & EM & H). destruct (to_mesh_facts s m seg true V S MS) as (m2 & EM2 & _ & NT & _). rewrite EM in EM2. injection EM2 as <-.
  exists s, m'. split; [exact E|]. split; [exact EM|]. cbv zeta in H, NT. change (nb_triangles (clear m)) with 0 in H, NT. split.
  - rewrite NT. destruct V as (_ & _ & (U & _) & (W & _) & _). assert (0 < seg * ns_nbU s) by nia. assert (0 < seg * ns_nbV s) by nia. nia.
  - intros t p q Ht He. destruct (H t p q Ht He) as [K|[[K _]|[K _]]]; [exact K|congruence|congruence].
Qed.

(** A surface object used again keeps the flag of its former life. *)
Lemma stale_flag : exists (c : NurbsCurve R) (s0 s : NurbsSurface R), valid c /\ nf_create_torus 3%R 1%R ns_new = Ok s0 /\ ne_extrude c (mkP 0 0 1)%R s0 = Ok s /\ svalid s /\ ns_closedV s = true /\
  forall u, (0 <= u <= 1)%R -> exists p q, spoint_of (ns_evaluate s u 0%R) = Ok p /\ spoint_of (ns_evaluate s u 1%R) = Ok q /\ dist3 p q = 1%R.
Proof.
  destruct (torus_flags 3 1 ns_new) as (s0 & E0 & V0 & _ & FV & _). destruct (circle_ok 1 nc_new) as (c & EC & VC & _). destruct (extrude_exact c (mkP 0 0 1)%R s0 VC) as (s & ES & VS & H).
  exists c, s0, s. split; [exact VC|]. split; [exact E0|]. split; [exact ES|]. split; [exact VS|]. split; [rewrite (proj2 (extrude_flags _ _ _ _ ES)); exact FV|].
  intros u HU. destruct (H u 0%R HU ltac:(lra)) as (p & EP & E1). destruct (H u 1%R HU ltac:(lra)) as (q & EQ & E2). rewrite EP in EQ. injection EQ as <-. do 2 eexists. split; [exact E1|]. split; [exact E2|].
  unfold dist3, len3. match goal with |- sqrt ?x = _ => replace x with 1%R by (unfold dot3, sub3, add3, scal3; cbn; ring) end. apply sqrt_1.
Qed.

(** ** Cases *)
Definition line2 : NurbsCurve R := mkNC 1 [0; 0; 1; 1]%R [1; 1]%R [mkP 0 0 0; mkP 1 0 0]%R 2 [] [].
Lemma line2_open : nc_is_closed line2 default_tol = Ok false /\ nc_is_closed line2 2%R = Ok true.
Proof.
  assert (dist3 (mkP 0 0 0) (mkP 1 0 0) = 1)%R as D. { unfold dist3, len3. replace (dot3 _ _) with 1%R by (unfold dot3, sub3; cbn; ring). apply sqrt_1. }
  split.
  - destruct (is_closed_iff line2 default_tol) as ([] & E & H); [|exact E]. destruct (proj1 H eq_refl) as [_ S]. unfold short in S. change (dist3 (mkP 0 0 0)%R (mkP 1 0 0)%R < Rabs default_tol)%R in S. rewrite D in S. unfold default_tol in S. cbn in S. rewrite Rabs_pos_eq in S by lra. lra.
  - destruct (is_closed_iff line2 2%R) as (b & E & H). rewrite E. f_equal. apply H. split; [cbn; lia|]. unfold short. change (dist3 (mkP 0 0 0)%R (mkP 1 0 0)%R < Rabs 2)%R. rewrite D, Rabs_pos_eq; lra.
Qed.
Lemma circle_tight r c0 : exists c, nf_create_circle r c0 = Ok c /\ valid c /\ 1 <= nc_degree c /\ tight (nc_knots c) (nc_degree c) (vsize (nc_points c)).
Proof.
  destruct (circle_ok r c0) as (c & E & V & D & K & _ & P). exists c. split; [exact E|]. split; [exact V|]. rewrite D, K, P. split; [lia|]. change (1 / 4 > 0 /\ 3 / 4 < 1)%R. lra.
Qed.
