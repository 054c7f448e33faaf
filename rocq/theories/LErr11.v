(** Curves and surfaces of doubles built through the interface: errors with unit weights, ends, examples. *)
From Coq Require Import ZArith List Bool Reals Lra Lia Psatz.
From Flocq Require Import Core IEEE754.Binary IEEE754.Bits IEEE754.BinarySingleNaN.
From Verif Require Import Base Num MGeometry MNurbs MNurbsSurface MStl MF64 SGeom SNurbs SSurface SF64 SErr SErrN LBase LGeom LNurbs LNurbs2 LSurf LF64 LF64Ord LF64Arith LKnotF64 LCurveF64 LUniformF64 LSurfF64 LErr1 LErr2 LErr7 LErr8 LErr9 LErr10.
Import ListNotations.
Open Scope Z_scope.

Lemma build_tight (p : Z) (pts : list dpt) (ws : list f64) : 0 <= p < vsize pts -> vsize ws = vsize pts -> vsize pts <= 2 ^ 53 ->
  exists c, (do c <- nc_set_degree nc_new p; nc_set_uniform (nc_set_weights (nc_set_points c pts) ws)) = Ok c /\ dvalid c /\
    nc_degree c = p /\ nc_points c = pts /\ nc_weights c = ws /\ tight (dvals (nc_knots c)) p (vsize pts).
Proof.
  intros H W Hb. destruct (build_double p pts ws H W Hb) as (c & E & V & D & P & Wt). exists c. do 5 (split; [assumption|]).
  unfold nc_set_degree in E. destruct (vresize (nc_tp nc_new) (p + 1) _) as [tp|]; [|discriminate]. cbn [bind] in E. destruct (vresize (nc_tw nc_new) (p + 1) _) as [tw|]; [|discriminate]. cbn [bind] in E.
  match type of E with nc_set_uniform ?x = _ => destruct (set_uniform_double x) as (c2 & E2 & _ & _ & T & _) end.
  { cbn. exact H. } { cbn [nc_set_weights nc_set_points nc_degree nc_nb]. unfold dpt in *. lia. }
  rewrite E in E2. injection E2 as <-. exact T.
Qed.
Lemma sbuild_tight (du dv nu nv : Z) (pts : list dpt) (ws : list f64) : 0 <= du < nu -> 0 <= dv < nv -> vsize pts = nu * nv -> vsize ws = nu * nv -> nu <= 2 ^ 53 -> nv <= 2 ^ 53 ->
  exists s, (do s <- ns_set_degree ns_new du dv; do s <- ns_set_uniform_u (ns_set_weights (ns_set_points s pts nu nv) ws); ns_set_uniform_v s) = Ok s /\ dsvalid s /\
    ns_points s = pts /\ ns_weights s = ws /\ ns_degU s = du /\ ns_degV s = dv /\ ns_nbU s = nu /\ ns_nbV s = nv /\ tight (dvals (ns_knotsU s)) du nu /\ tight (dvals (ns_knotsV s)) dv nv.
Proof.
  intros Hu Hv Hp Hw Bu Bv. destruct (sbuild_double du dv nu nv pts ws Hu Hv Hp Hw Bu Bv) as (s & E & V & P & Wt & D1 & D2). exists s. do 6 (split; [assumption|]).
  unfold ns_set_degree in E. repeat match type of E with (do _ <- vresize ?a ?b ?c; _) = _ => destruct (vresize a b c); [|discriminate]; cbn [bind] in E | (do _ <- (do _ <- vresize ?a ?b ?c; _); _) = _ => destruct (vresize a b c); [|discriminate]; cbn [bind] in E end.
  match type of E with (do _ <- ns_set_uniform_u ?x; _) = _ => destruct (suniform_u_double x) as (ku & E1 & F & C & T) end; [cbn; exact Hu|cbn [ns_set_weights ns_set_points ns_degU ns_nbU]; lia|].
  rewrite E1 in E. cbn [bind] in E. match type of E with ns_set_uniform_v ?x = _ => destruct (suniform_v_double x) as (kv & E' & F' & C' & T') end; [cbn; exact Hv|cbn [ns_set_weights ns_set_points ns_degV ns_nbV]; lia|].
  rewrite E in E'. injection E' as ->. cbn [ns_set_weights ns_set_points ns_degU ns_degV ns_nbU ns_nbV ns_knotsU ns_knotsV] in *. split; [reflexivity|]. split; [reflexivity|]. split; [exact T|exact T'].
Qed.

(** Unit weights. *)
Lemma moderate_1 : moderate 1. Proof. split; change 1%R with (bpow radix2 0); apply bpow_le; lia. Qed.
Lemma unit_within ws : unit_weights ws -> weights_within 1 1 ws.
Proof. intros H. eapply Forall_impl; [|exact H]. intros w [F V]. split; [exact F|]. cbv beta in V. lra. Qed.
Lemma balanced_1 d : 0 <= d <= 2 ^ 40 -> balanced d 1 1.
Proof.
  intros [A B]. apply IZR_le in A, B. unfold balanced. rewrite Rmult_1_r. assert (13 * IZR d + 2 <= bpow radix2 48)%R as C.
  { change (IZR (2 ^ 40)) with (bpow radix2 40) in B. replace (bpow radix2 48) with (bpow radix2 8 * bpow radix2 40)%R by (rewrite <- bpow_plus; reflexivity). change (bpow radix2 8) with 256%R. pose proof (bpow_le radix2 0 40 ltac:(lia)) as G. change (bpow radix2 0) with 1%R in G. lra. }
  apply Rle_trans with (bpow radix2 (-53) * bpow radix2 48)%R; [apply Rmult_le_compat_l; [apply bpow_ge_0|exact C]|]. rewrite <- bpow_plus. change (-53 + 48) with (-5). change (bpow radix2 (-5)) with (/ 32)%R. lra.
Qed.
Lemma curve_unit_error K c t : moderate K -> dvalid c -> coords_within K (nc_points c) -> unit_weights (nc_weights c) -> nc_degree c <= 2 ^ 40 -> fin t -> (0 <= val t <= 1)%R ->
  exists p c', nc_evaluate c t = Ok (p, c') /\ close_pt p (nurbs_at (val_curve c) (val t)) (bpow radix2 (-53) * ((52 * IZR (nc_degree c) + 12) * K)).
Proof.
  intros MK V CW UW Hd Ft Ht. assert (0 <= nc_degree c) as D0 by (destruct V as (_ & _ & _ & (D & _) & _); lia).
  destruct (curve_error K 1 1 MK moderate_1 ltac:(lra) c t V CW (unit_within _ UW) (balanced_1 _ (conj D0 Hd)) Ft Ht) as (p & c' & E & CP). exists p, c'. split; [exact E|].
  replace (bpow radix2 (-53) * ((52 * IZR (nc_degree c) + 12) * K))%R with (nurbs_error (nc_degree c) K 1 1); [exact CP|]. unfold nurbs_error. field.
Qed.
Lemma surface_unit_error K s t r : moderate K -> dsvalid s -> coords_within K (ns_points s) -> unit_weights (ns_weights s) -> ns_degU s + ns_degV s <= 2 ^ 40 -> fin t -> (0 <= val t <= 1)%R -> fin r -> (0 <= val r <= 1)%R ->
  exists p s', ns_evaluate s t r = Ok (p, s') /\ close_pt p (surf_at (val_surface s) (val t) (val r)) (bpow radix2 (-53) * ((52 * IZR (ns_degU s + ns_degV s) + 12) * K)).
Proof.
  intros MK V CW UW Hd Ft Ht Fr Hr. assert (0 <= ns_degU s + ns_degV s) as D0 by (destruct V as (_ & _ & _ & _ & (D & _) & (D' & _) & _); lia).
  destruct (surface_error K 1 1 MK moderate_1 ltac:(lra) s t r V CW (unit_within _ UW) (balanced_1 _ (conj D0 Hd)) Ft Ht Fr Hr) as (p & s' & E & CP). exists p, s'. split; [exact E|].
  replace (bpow radix2 (-53) * ((52 * IZR (ns_degU s + ns_degV s) + 12) * K))%R with (nurbs_error (ns_degU s + ns_degV s) K 1 1); [exact CP|]. unfold nurbs_error. field.
Qed.

(** The ends of built curves. *)
Lemma built_ends (p : Z) (pts : list dpt) (ws : list f64) : 0 <= p < vsize pts -> vsize ws = vsize pts -> vsize pts <= 2 ^ 53 -> finite_points pts -> unit_weights ws ->
  exists c, (do c <- nc_set_degree nc_new p; nc_set_uniform (nc_set_weights (nc_set_points c pts) ws)) = Ok c /\
    (exists a b c', vget pts 0 = Ok a /\ nc_evaluate c (f64_ofZ 0) = Ok (b, c') /\ same_place b a) /\
    (exists a b c', vget pts (vsize pts - 1) = Ok a /\ nc_evaluate c (f64_ofZ 1) = Ok (b, c') /\ same_place b a).
Proof.
  intros H W Hb FP UW. destruct (build_tight p pts ws H W Hb) as (c & E & V & D & P & Wt & T). exists c. split; [exact E|]. rewrite <- P, <- D in T. rewrite <- P in FP. rewrite <- Wt in UW.
  destruct (ofZ_exact 0 ltac:(vm_compute; discriminate)) as [A0 B0]. destruct (ofZ_exact 1 ltac:(vm_compute; discriminate)) as [A1 B1]. split.
  - destruct (curve_end c (f64_ofZ 0) V T FP UW B0 (or_introl A0)) as (b & c' & a & E1 & E2 & S). exists a, b, c'. split; [|split; [exact E1|exact S]]. unfold end_index, val in E2. rewrite A0 in E2. destruct (Req_EM_T 0 0); [|lra]. rewrite P in E2. exact E2.
  - destruct (curve_end c (f64_ofZ 1) V T FP UW B1 (or_intror A1)) as (b & c' & a & E1 & E2 & S). exists a, b, c'. split; [|split; [exact E1|exact S]]. unfold end_index, val in E2. rewrite A1 in E2. destruct (Req_EM_T 1 0); [lra|]. rewrite P in E2. exact E2.
Qed.

(** Weights 3: the curve does not start at its first control point. *)
Definition tenth : f64 := b64_div mode_NE (f64_ofZ 1) (f64_ofZ 10).
Definition seg3 : res (NurbsCurve f64) :=
  do c <- nc_set_degree nc_new 1;
  nc_set_uniform (nc_set_weights (nc_set_points c [mkP tenth (f64_ofZ 0) (f64_ofZ 0); mkP (f64_ofZ 1) (f64_ofZ 0) (f64_ofZ 0)]) [f64_ofZ 3; f64_ofZ 3]).
Lemma seg3_start : match (do c <- seg3; nc_evaluate c (f64_ofZ 0)) with Ok (p, _) => f64_eqb (px p) tenth | _ => true end = false.
Proof. vm_compute. reflexivity. Qed.
Lemma weighted_end_refuted : exists c p c', seg3 = Ok c /\ dvalid c /\ vget (nc_points c) 0 = Ok (mkP tenth (f64_ofZ 0) (f64_ofZ 0)) /\ nc_weights c = [f64_ofZ 3; f64_ofZ 3] /\
  nc_evaluate c (f64_ofZ 0) = Ok (p, c') /\ f64_eqb (px p) tenth = false.
Proof.
  destruct (build_double 1 [mkP tenth (f64_ofZ 0) (f64_ofZ 0); mkP (f64_ofZ 1) (f64_ofZ 0) (f64_ofZ 0)] [f64_ofZ 3; f64_ofZ 3]) as (c & E & V & D & P & W); [cbn; lia|reflexivity|cbn; lia|].
  pose proof seg3_start as K. unfold seg3 in *. rewrite E in K |- *. cbn [bind] in K. destruct (nc_evaluate c (f64_ofZ 0)) as [[p c']|] eqn:E2; [|discriminate].
  exists c, p, c'. do 2 (split; [assumption || reflexivity|]). split; [rewrite P; reflexivity|]. split; [exact W|]. split; [exact E2|exact K].
Qed.

(** Examples. *)
Definition ex_pts : list dpt := [mkP (f64_ofZ 1) (f64_ofZ 0) (f64_ofZ (-4)); mkP (f64_ofZ 2) (f64_ofZ 3) (f64_ofZ 0); mkP (f64_ofZ 0) (f64_ofZ 1) (f64_ofZ 2); mkP (f64_ofZ 3) (f64_ofZ 3) (f64_ofZ 1)].
Definition ex_ws : list f64 := [f64_ofZ 1; f64_ofZ 2; f64_ofZ 1; f64_ofZ 2].
Lemma ofZ_small z : Z.abs z <= 4 -> fin (f64_ofZ z) /\ (Rabs (val (f64_ofZ z)) <= 4)%R.
Proof. intros H. destruct (ofZ_exact z) as [A B]; [transitivity 4; [exact H|vm_compute; discriminate]|]. split; [exact B|]. unfold val. rewrite A, <- abs_IZR. apply IZR_le. exact H. Qed.
Lemma ex_coords : coords_within 4 ex_pts.
Proof. unfold coords_within, ex_pts. repeat (apply Forall_cons; [cbn [px py pz]; repeat split; apply ofZ_small; cbn; lia|]). apply Forall_nil. Qed.
Lemma ex_weights : weights_within 1 2 ex_ws.
Proof.
  assert (forall z, 1 <= z <= 2 -> fin (f64_ofZ z) /\ (1 <= val (f64_ofZ z) <= 2)%R) as K. { intros z Hz. destruct (ofZ_exact z) as [A B]; [transitivity 4; [lia|vm_compute; discriminate]|]. split; [exact B|]. unfold val. rewrite A. split; apply IZR_le; lia. }
  unfold weights_within, ex_ws. repeat (apply Forall_cons; [apply K; lia|]). apply Forall_nil.
Qed.
Lemma ex_finite : finite_points ex_pts.
Proof. eapply Forall_impl; [|exact ex_coords]. intros p ((A & _) & (B & _) & C & _). auto. Qed.
Lemma ex_units n : unit_weights (repeat (f64_ofZ 1) n).
Proof. destruct (ofZ_exact 1 ltac:(vm_compute; discriminate)) as [A B]. induction n; [apply Forall_nil|]. apply Forall_cons; [split; [exact B|exact A]|exact IHn]. Qed.
Lemma ex_moderate : moderate 4 /\ moderate 2.
Proof. split; (split; [|]); [change 4%R with (bpow radix2 2)|change 4%R with (bpow radix2 2)|change 2%R with (bpow radix2 1)|change 2%R with (bpow radix2 1)]; apply bpow_le; lia. Qed.
Lemma ex_balanced d : 0 <= d <= 100 -> balanced d 2 1.
Proof.
  intros H. pose proof (balanced_1 d) as B. unfold balanced in *. assert (0 <= 13 * IZR d + 2 <= 1302)%R as C by (destruct H as [H1 H2]; apply IZR_le in H1, H2; lra).
  apply Rle_trans with (bpow radix2 (-53) * bpow radix2 11 * 2)%R. { apply Rmult_le_compat_r; [lra|]. apply Rmult_le_compat_l; [apply bpow_ge_0|]. change (bpow radix2 11) with 2048%R. lra. }
  rewrite <- bpow_plus. change (-53 + 11) with (-42). pose proof (bpow_le radix2 (-42) (-3) ltac:(lia)) as G. change (bpow radix2 (-3)) with (/ 8)%R in G. lra.
Qed.
