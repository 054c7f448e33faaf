(** Surface refinement keeps the surface; hull and box; clear and set_equals_weights. *)
From Coq Require Import ZArith List Bool Reals Lra Lia Permutation Psatz.
From Verif Require Import Base Num MGeometry MNurbs MNurbsSurface SGeom SNurbs SSurface LBase LBlossom LNurbs LNurbs2 LNurbs3 LNurbs4 LNurbs5 LNurbsEx LSurf LSurf2.
Import ListNotations.
Open Scope Z_scope.

Lemma insert_u_ok s x : svalid s -> (0 <= x <= 1)%R -> exists s', ns_insert_knot_u s x = Ok s' /\ svalid s' /\
  ns_degU s' = ns_degU s /\ ns_nbU s' = ns_nbU s + 1 /\ Permutation (ns_knotsU s') (x :: ns_knotsU s) /\ same_v s s' /\
  forall u v, (0 <= u <= 1)%R -> (0 <= v <= 1)%R -> spoint_of (ns_evaluate s' u v) = spoint_of (ns_evaluate s u v).
Proof.
  intros V X.
  destruct (refine_u (fun c => nc_insert_knot c x) (ns_degU s) (ns_nbU s) (ns_knotsU s) (ns_degU s) (ns_nbU s + 1)) with (s := s) as [c0 [s' [EC [E [V' [D' [N' [SV [[c0' [F0 K0]] SH]]]]]]]]]; auto.
  - intros c VC D K N. destruct (insert_knot_hom c x VC X) as [c' [E [VC' [DC [NC [_ [_ H]]]]]]]. exists c'. rewrite DC, NC, D, N. auto.
  - intros c1 c2 c1' c2' _ _ H1 H2 H3. exact (insert_knots_only c1 c2 c1' c2' x H1 H2 H3).
  - exists s'. split; [exact E|]. split; [exact V'|]. split; [exact D'|]. split; [exact N'|]. split; [|split; [exact SV|]].
    + destruct V as [V1 [V2 [CU [[C0 C1] V3]]]]. destruct (u_curve_ok s 0 ltac:(split; [|split; [|split; [|split; [split|]]]]; assumption) ltac:(lia)) as [c [EC' [VC [_ [KC _]]]]].
      rewrite EC in EC'. injection EC' as <-. destruct (insert_knot_hom c0 x VC X) as [c' [EI [_ [_ [_ [P _]]]]]]. rewrite F0 in EI. injection EI as <-. rewrite K0, <- KC. exact P.
    + intros u v HU HV. apply same_shom_points; auto.
Qed.
Lemma insert_v_ok s x : svalid s -> (0 <= x <= 1)%R -> exists s', ns_insert_knot_v s x = Ok s' /\ svalid s' /\
  ns_degV s' = ns_degV s /\ ns_nbV s' = ns_nbV s + 1 /\ Permutation (ns_knotsV s') (x :: ns_knotsV s) /\ same_u s s' /\
  forall u v, (0 <= u <= 1)%R -> (0 <= v <= 1)%R -> spoint_of (ns_evaluate s' u v) = spoint_of (ns_evaluate s u v).
Proof.
  intros V X.
  destruct (refine_v (fun c => nc_insert_knot c x) (ns_degV s) (ns_nbV s) (ns_knotsV s) (ns_degV s) (ns_nbV s + 1)) with (s := s) as [c0 [s' [EC [E [V' [D' [N' [SV [[c0' [F0 K0]] SH]]]]]]]]]; auto.
  - intros c VC D K N. destruct (insert_knot_hom c x VC X) as [c' [E [VC' [DC [NC [_ [_ H]]]]]]]. exists c'. rewrite DC, NC, D, N. auto.
  - intros c1 c2 c1' c2' _ _ H1 H2 H3. exact (insert_knots_only c1 c2 c1' c2' x H1 H2 H3).
  - exists s'. split; [exact E|]. split; [exact V'|]. split; [exact D'|]. split; [exact N'|]. split; [|split; [exact SV|]].
    + pose proof V as [_ [_ [[C0 _] _]]]. destruct (v_curve_ok s 0 V ltac:(lia)) as [c [EC' [VC [_ [KC _]]]]].
      rewrite EC in EC'. injection EC' as <-. destruct (insert_knot_hom c0 x VC X) as [c' [EI [_ [_ [_ [P _]]]]]]. rewrite F0 in EI. injection EI as <-. rewrite K0, <- KC. exact P.
    + intros u v HU HV. apply same_shom_points; auto.
Qed.

Lemma elev_curve d n ks c : (d = 1 \/ d = 2) -> regular ks d n -> valid c -> nc_degree c = d -> nc_knots c = ks -> vsize (nc_points c) = n ->
  exists c', (do r <- nc_degree_elevation c; Ok (snd r)) = Ok c' /\ valid c' /\ nc_degree c' = d + 1 /\ vsize (nc_points c') = elev_size d n ks /\
    forall t, (0 <= t <= 1)%R -> same_hom c c' t.
Proof.
  intros [->| ->] R V D K N.
  - destruct (elevate_1_hom c V D) as [c' [E [V' [D' [N' H]]]]]; [rewrite K, D, N; exact R|]. exists c'. rewrite E. cbn [bind snd]. rewrite N', N. auto.
  - destruct (elevate_2_hom c V D) as [c' [E [V' [D' [N' H]]]]]; [rewrite K, D, N; exact R|]. exists c'. rewrite E. cbn [bind snd]. rewrite N', N, K, spans_e. auto.
Qed.
Lemma elevate_u_ok s : svalid s -> ns_degU s = 1 \/ ns_degU s = 2 -> regular (ns_knotsU s) (ns_degU s) (ns_nbU s) ->
  exists s', ns_degree_elevation_u s = Ok (true, s') /\ svalid s' /\ ns_degU s' = ns_degU s + 1 /\
    ns_nbU s' = elev_size (ns_degU s) (ns_nbU s) (ns_knotsU s) /\ same_v s s' /\
    forall u v, (0 <= u <= 1)%R -> (0 <= v <= 1)%R -> spoint_of (ns_evaluate s' u v) = spoint_of (ns_evaluate s u v).
Proof.
  intros V D R.
  destruct (refine_u (fun c => do r <- nc_degree_elevation c; Ok (snd r)) (ns_degU s) (ns_nbU s) (ns_knotsU s) (ns_degU s + 1) (elev_size (ns_degU s) (ns_nbU s) (ns_knotsU s))) with (s := s) as [c0 [s' [EC [E [V' [D' [N' [SV [_ SH]]]]]]]]]; auto.
  - intros c VC DC KC NC. apply elev_curve; auto.
  - intros c1 c2 c1' c2' D1 D2 H1 H2 H3. apply (elevation_knots_only c1 c2 c1' c2'); auto; lia.
  - exists s'. unfold ns_degree_elevation_u. destruct (Z.leb_spec 3 (ns_degU s)); [lia|].
    apply bind_Ok in E. destruct E as [vu [-> E]]. cbn [bind]. apply bind_Ok in E. destruct E as [vu' [-> E]]. cbn [bind]. rewrite E. cbn [bind].
    split; [reflexivity|]. split; [exact V'|]. split; [exact D'|]. split; [exact N'|]. split; [exact SV|]. intros u v HU HV. apply same_shom_points; auto.
Qed.
Lemma elevate_v_ok s : svalid s -> ns_degV s = 1 \/ ns_degV s = 2 -> regular (ns_knotsV s) (ns_degV s) (ns_nbV s) ->
  exists s', ns_degree_elevation_v s = Ok (true, s') /\ svalid s' /\ ns_degV s' = ns_degV s + 1 /\
    ns_nbV s' = elev_size (ns_degV s) (ns_nbV s) (ns_knotsV s) /\ same_u s s' /\
    forall u v, (0 <= u <= 1)%R -> (0 <= v <= 1)%R -> spoint_of (ns_evaluate s' u v) = spoint_of (ns_evaluate s u v).
Proof.
  intros V D R.
  destruct (refine_v (fun c => do r <- nc_degree_elevation c; Ok (snd r)) (ns_degV s) (ns_nbV s) (ns_knotsV s) (ns_degV s + 1) (elev_size (ns_degV s) (ns_nbV s) (ns_knotsV s))) with (s := s) as [c0 [s' [EC [E [V' [D' [N' [SV [_ SH]]]]]]]]]; auto.
  - intros c VC DC KC NC. apply elev_curve; auto.
  - intros c1 c2 c1' c2' D1 D2 H1 H2 H3. apply (elevation_knots_only c1 c2 c1' c2'); auto; lia.
  - exists s'. unfold ns_degree_elevation_v. destruct (Z.leb_spec 3 (ns_degV s)); [lia|].
    apply bind_Ok in E. destruct E as [vu [-> E]]. cbn [bind]. apply bind_Ok in E. destruct E as [vu' [-> E]]. cbn [bind]. rewrite E. cbn [bind].
    split; [reflexivity|]. split; [exact V'|]. split; [exact D'|]. split; [exact N'|]. split; [exact SV|]. intros u v HU HV. apply same_shom_points; auto.
Qed.
Lemma elevate_high {T} {N : Num T} (s : NurbsSurface T) :
  (3 <= ns_degU s -> ns_degree_elevation_u s = Ok (false, s)) /\ (3 <= ns_degV s -> ns_degree_elevation_v s = Ok (false, s)).
Proof. unfold ns_degree_elevation_u, ns_degree_elevation_v. split; intros H; [destruct (Z.leb_spec 3 (ns_degU s))|destruct (Z.leb_spec 3 (ns_degV s))]; auto; lia. Qed.

(** ** Hull and affine maps on the results of evaluate *)
Lemma sevaluate_affine s f u v : svalid s -> (0 <= u <= 1)%R -> (0 <= v <= 1)%R -> affine3 f ->
  spoint_of (ns_evaluate (ns_apply_transform s f) u v) = (do p <- spoint_of (ns_evaluate s u v); Ok (f p)).
Proof.
  intros V HU HV A. rewrite (ns_evaluate_formula s u v V HU HV), (ns_evaluate_formula _ u v (svalid_map s f V) HU HV). cbn [bind]. rewrite surf_affine; auto.
Qed.
Lemma sevaluate_hull s u v n d : svalid s -> (0 <= u <= 1)%R -> (0 <= v <= 1)%R -> (forall p, In p (ns_points s) -> dot3 n p <= d)%R ->
  exists p, spoint_of (ns_evaluate s u v) = Ok p /\ (dot3 n p <= d)%R.
Proof.
  intros V HU HV H. exists (surf_at s u v). split; [apply ns_evaluate_formula; assumption|]. apply surf_hull; auto.
  intros i j Hi Hj. apply H. pose proof (svalid_idx s i j Hi Hj). destruct V as [V1 _]. unfold scp. apply nth_In. unfold vsize in *. lia.
Qed.
Lemma sevaluate_box s u v lo hi : svalid s -> (0 <= u <= 1)%R -> (0 <= v <= 1)%R ->
  (forall p, In p (ns_points s) -> px lo <= px p <= px hi /\ py lo <= py p <= py hi /\ pz lo <= pz p <= pz hi)%R ->
  exists p, spoint_of (ns_evaluate s u v) = Ok p /\ (px lo <= px p <= px hi /\ py lo <= py p <= py hi /\ pz lo <= pz p <= pz hi)%R.
Proof.
  intros V HU HV H. exists (surf_at s u v). split; [apply ns_evaluate_formula; assumption|].
  assert (forall n d, (forall p, In p (ns_points s) -> dot3 n p <= d)%R -> (dot3 n (surf_at s u v) <= d)%R) as K.
  { intros n d Q. destruct (sevaluate_hull s u v n d V HU HV Q) as [p [E P]]. rewrite (ns_evaluate_formula s u v V HU HV) in E. injection E as <-. exact P. }
  unfold dot3 in K.
  pose proof (K (mkP 1 0 0) (px hi))%R as A1. pose proof (K (mkP (-1) 0 0) (- px lo))%R as A2.
  pose proof (K (mkP 0 1 0) (py hi))%R as B1. pose proof (K (mkP 0 (-1) 0) (- py lo))%R as B2.
  pose proof (K (mkP 0 0 1) (pz hi))%R as C1. pose proof (K (mkP 0 0 (-1)) (- pz lo))%R as C2.
  cbn [px py pz] in *.
  specialize (A1 ltac:(intros p I; destruct (H p I) as [? [? ?]]; lra)). specialize (A2 ltac:(intros p I; destruct (H p I) as [? [? ?]]; lra)).
  specialize (B1 ltac:(intros p I; destruct (H p I) as [? [? ?]]; lra)). specialize (B2 ltac:(intros p I; destruct (H p I) as [? [? ?]]; lra)).
  specialize (C1 ltac:(intros p I; destruct (H p I) as [? [? ?]]; lra)). specialize (C2 ltac:(intros p I; destruct (H p I) as [? [? ?]]; lra)). lra.
Qed.
