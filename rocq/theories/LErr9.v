(** Points of NURBS curves and surfaces computed in doubles. *)
From Coq Require Import ZArith List Bool Reals Lra Lia Psatz.
From Flocq Require Import Core IEEE754.Binary IEEE754.Bits IEEE754.BinarySingleNaN.
From Verif Require Import Base Num MGeometry MNurbs MNurbsSurface MStl MF64 SGeom SNurbs SSurface SF64 SErr SErrN LBase LGeom LNurbs LNurbs2 LSurf LF64 LF64Ord LF64Arith LKnotF64 LCurveF64 LSurfF64 LErr1 LErr2 LErr7 LErr8.
Import ListNotations.
Open Scope Z_scope.

(** The span found, in doubles and in reals. *)
Lemma span_both (ks : list f64) p n (t : f64) : Forall (fun k : f64 => fin64 k = true) ks -> clamped (dvals ks) p n -> fin64 t = true -> (0 <= V64 t <= 1)%R ->
  exists ki, find_knot_span ks t = Ok ki /\ find_knot_span (dvals ks) (V64 t) = Ok ki /\ p <= ki < n /\
    (kn (dvals ks) ki < kn (dvals ks) (ki + 1))%R /\ (kn (dvals ks) ki <= V64 t <= kn (dvals ks) (ki + 1))%R.
Proof.
  intros C D Ft Ht. assert (no_nan t) as Nt by (apply fin_no_nan, Ft). pose proof D as D'. destruct (clamped_sorted _ _ _ D) as (S & _ & K0 & K1). destruct D as (D1 & D2 & D3 & D4 & D5).
  destruct (find_span_double ks t C S) as (i & E1 & R & G & In & _); rewrite ?vals_size in *; [lia|exact K0|exact K1|exact Nt|].
  exists i. split; [exact E1|]. split; [rewrite <- (ext_fin t Ft), <- find_span_vals by assumption; exact E1|]. split; [|split; [exact G|apply In; assumption]].
  split; [destruct (Z_lt_dec i p) as [L|L]; [rewrite !D4 in G by lia; lra|lia]|]. destruct (Z_le_dec n i) as [L2|L2]; [rewrite !D5 in G by lia; lra|lia].
Qed.
Lemma clamped_unit (ks : list f64) p n : clamped (dvals ks) p n -> forall i j, 0 <= i <= j -> j < vsize ks -> (0 <= kn (dvals ks) i <= kn (dvals ks) j /\ kn (dvals ks) j <= 1)%R.
Proof.
  intros (D1 & D2 & D3 & D4 & D5) i j H L. rewrite vals_size in D2. pose proof (D3 i j H ltac:(lia)). pose proof (D3 0 i ltac:(lia) ltac:(lia)). pose proof (D3 j (n + p) ltac:(lia) ltac:(lia)).
  rewrite D4 in H1 by lia. rewrite (D5 (n + p)) in H2 by lia. lra.
Qed.

Section Sim.
Variables (K W w0 : R).
Hypothesis HK : moderate K.
Hypothesis HW : moderate W.
Hypothesis H0 : (0 < w0 <= W)%R.
Notation entry := (entry K W w0).
Notation pair_near := (pair_near K W w0).
Lemma put_sim d j E s q p w a v : sized d s q -> 0 <= j <= d -> pair_near E p w a v -> exists s' q',
  vset (fst s) j p = Ok (fst s') /\ vset (snd s) j w = Ok (snd s') /\ vset (fst q) j a = Ok (fst q') /\ vset (snd q) j v = Ok (snd q') /\
  sized d s' q' /\ entry E j s' q' /\ forall i F, i <> j -> entry F i s q -> entry F i s' q'.
Proof.
  intros (Z1 & Z2 & Z3 & Z4) Hj N. destruct s as [tp tw], q as [tp' tw']. cbn [fst snd] in *.
  pose proof (vset_in_range tp j p ltac:(lia)) as U1. pose proof (vset_in_range tp' j a ltac:(lia)) as U2. pose proof (vset_in_range tw j w ltac:(lia)) as U3. pose proof (vset_in_range tw' j v ltac:(lia)) as U4.
  eexists (_, _), (_, _). cbn [fst snd]. split; [exact U1|]. split; [exact U3|]. split; [exact U2|]. split; [exact U4|].
  pose proof (vset_size _ _ _ _ U1). pose proof (vset_size _ _ _ _ U2). pose proof (vset_size _ _ _ _ U3). pose proof (vset_size _ _ _ _ U4).
  split; [unfold sized; cbn [fst snd]; lia|]. split.
  - exists p, w, a, v. cbn [fst snd]. rewrite (vget_vset _ _ _ _ j U1), (vget_vset _ _ _ _ j U2), (vget_vset _ _ _ _ j U3), (vget_vset _ _ _ _ j U4), Z.eqb_refl. auto.
  - intros i F Ne (a1 & a2 & a3 & a4 & g1 & g2 & g3 & g4 & NN). exists a1, a2, a3, a4. cbn [fst snd] in *.
    rewrite (vget_vset _ _ _ _ i U1), (vget_vset _ _ _ _ i U2), (vget_vset _ _ _ _ i U3), (vget_vset _ _ _ _ i U4). destruct (Z.eqb_spec i j); [contradiction|]. auto.
Qed.
Lemma given_near ps ws i p w : coords_within K ps -> weights_within w0 W ws -> vget ps i = Ok p -> vget ws i = Ok w ->
  pair_near (2 * uu) (pmul p w) w (pmul (val_pt p) (val w)) (val w).
Proof.
  intros A B G1 G2. unfold coords_within in A. unfold weights_within in B. rewrite Forall_forall in A, B. destruct (A p (vget_In _ _ _ G1)) as ((F1 & B1) & (F2 & B2) & F3 & B3). destruct (B w (vget_In _ _ _ G2)) as [Fw Bw].
  apply (load_near K W w0 HK HW (proj1 H0)); assumption.
Qed.

(** Both sides of the three loops of evaluate that load the points. *)
Lemma load_sim (c : NurbsCurve f64) ki s q : vsize (nc_weights c) = vsize (nc_points c) -> nc_nb c = vsize (nc_points c) -> 0 <= nc_degree c -> nc_degree c <= ki < vsize (nc_points c) ->
  coords_within K (nc_points c) -> weights_within w0 W (nc_weights c) -> sized (nc_degree c) s q ->
  exists s' q', nc_load c ki s = Ok s' /\ nc_load (val_curve c) ki q = Ok q' /\ sized (nc_degree c) s' q' /\ forall j, 0 <= j <= nc_degree c -> entry (2 * uu) j s' q'.
Proof.
  intros S1 S2 D0 B CW WW SZ. unfold nc_load. cbn [val_curve nc_degree nc_nb nc_weights nc_points].
  match goal with |- exists _ _, for_ _ _ ?f _ = _ /\ for_ _ _ ?g _ = _ /\ _ => destruct (for_rel (fun m s q => sized (nc_degree c) s q /\ forall j, 0 <= j < m -> entry (2 * uu) j s q) 0 (nc_degree c + 1) f g s q) as (s' & q' & E1 & E2 & Z & H) end.
  - lia.
  - split; [exact SZ|]. intros j Hj. lia.
  - intros j x y Hj [Z H]. cbv zeta. rewrite !bind_massert_true by (apply Z.leb_le || apply Z.ltb_lt; lia).
    destruct (vget_in_range (nc_weights c) (j + ki - nc_degree c) ltac:(lia)) as [w Ew]. destruct (vget_in_range (nc_points c) (j + ki - nc_degree c) ltac:(lia)) as [p Ep].
    rewrite !vget_map, Ew, Ep. cbn [bind]. destruct (put_sim (nc_degree c) j (2 * uu) x y _ _ _ _ Z ltac:(lia) (given_near _ _ _ _ _ CW WW Ep Ew)) as (x' & y' & U1 & U2 & U3 & U4 & Z' & N & P).
    rewrite U1, U2. unfold val_pt, val in U3, U4 |- *. rewrite U3, U4. cbn [bind]. exists (fst x', snd x'), (fst y', snd y'). split; [reflexivity|]. split; [reflexivity|].
    destruct x', y'. cbn [fst snd]. split; [exact Z'|]. intros i Hi. destruct (Z.eq_dec i j) as [-> |Ne]; [exact N|]. apply P; [exact Ne|]. apply H. lia.
  - exists s', q'. split; [exact E1|]. split; [exact E2|]. split; [exact Z|]. intros j Hj. apply H. lia.
Qed.
Lemma row_sim (c : NurbsSurface f64) ki iv s q : vsize (ns_points c) = ns_nbU c * ns_nbV c -> vsize (ns_weights c) = ns_nbU c * ns_nbV c -> 0 <= ns_degU c -> ns_degU c <= ki < ns_nbU c -> 0 <= iv < ns_nbV c ->
  coords_within K (ns_points c) -> weights_within w0 W (ns_weights c) -> sized (ns_degU c) s q ->
  exists s' q', ns_load_row c ki iv s = Ok s' /\ ns_load_row (val_surface c) ki iv q = Ok q' /\ sized (ns_degU c) s' q' /\ forall j, 0 <= j <= ns_degU c -> entry (2 * uu) j s' q'.
Proof.
  intros S1 S2 D0 B BV CW WW SZ. unfold ns_load_row. cbn [val_surface ns_degU ns_nbU ns_weights ns_points].
  match goal with |- exists _ _, for_ _ _ ?f _ = _ /\ for_ _ _ ?g _ = _ /\ _ => destruct (for_rel (fun m s q => sized (ns_degU c) s q /\ forall j, 0 <= j < m -> entry (2 * uu) j s q) 0 (ns_degU c + 1) f g s q) as (s' & q' & E1 & E2 & Z & H) end.
  - lia.
  - split; [exact SZ|]. intros j Hj. lia.
  - intros j x y Hj [Z H]. cbv zeta. rewrite !bind_massert_true by (apply Z.leb_le || apply Z.ltb_lt; lia).
    assert (0 <= j + ki - ns_degU c + ns_nbU c * iv < ns_nbU c * ns_nbV c) as I by nia.
    destruct (vget_in_range (ns_weights c) (j + ki - ns_degU c + ns_nbU c * iv) ltac:(lia)) as [w Ew]. destruct (vget_in_range (ns_points c) (j + ki - ns_degU c + ns_nbU c * iv) ltac:(lia)) as [p Ep].
    rewrite !vget_map, Ew, Ep. cbn [bind]. destruct (put_sim (ns_degU c) j (2 * uu) x y _ _ _ _ Z ltac:(lia) (given_near _ _ _ _ _ CW WW Ep Ew)) as (x' & y' & U1 & U2 & U3 & U4 & Z' & N & P).
    rewrite U1, U2. unfold val_pt, val in U3, U4 |- *. rewrite U3, U4. cbn [bind]. exists (fst x', snd x'), (fst y', snd y'). split; [reflexivity|]. split; [reflexivity|].
    destruct x', y'. cbn [fst snd]. split; [exact Z'|]. intros i Hi. destruct (Z.eq_dec i j) as [-> |Ne]; [exact N|]. apply P; [exact Ne|]. apply H. lia.
  - exists s', q'. split; [exact E1|]. split; [exact E2|]. split; [exact Z|]. intros j Hj. apply H. lia.
Qed.

Definition EE (d : Z) : R := (2 * uu + 13 * uu * IZR d)%R.
Lemma EE_balanced d : balanced d W w0 -> (EE d * W <= w0 / 2)%R.
Proof. unfold balanced, EE. fold uu. intros H. replace ((2 * uu + 13 * uu * IZR d) * W)%R with (uu * (13 * IZR d + 2) * W)%R by ring. exact H. Qed.
Lemma EE_half d : balanced d W w0 -> (EE d <= 1)%R.
Proof. intros H. apply EE_balanced in H. assert (0 < W)%R by lra. nra. Qed.
Lemma EE_pos d : 0 <= d -> (0 <= EE d)%R.
Proof. intros H. apply IZR_le in H. pose proof uu_pos. unfold EE. assert (0 <= 13 * uu * IZR d)%R by (apply Rmult_le_pos; lra). lra. Qed.
Lemma error_eq d : nurbs_error d K W w0 = (uu * K * 4 + 4 * EE d * K * W / w0)%R.
Proof. unfold nurbs_error, EE. fold uu. field. lra. Qed.
Lemma EE_mono d e : d <= e -> (EE d <= EE e)%R.
Proof. intros H. apply IZR_le in H. pose proof uu_pos. unfold EE. assert (13 * uu * IZR d <= 13 * uu * IZR e)%R by (apply Rmult_le_compat_l; lra). lra. Qed.

Lemma val_valid c : dvalid c -> weights_within w0 W (nc_weights c) -> valid (val_curve c).
Proof.
  intros (A & B & C & D & E & F) WW. unfold valid. cbn [val_curve nc_degree nc_nb nc_weights nc_points nc_knots nc_tp nc_tw]. rewrite !vsize_map. do 3 (split; [assumption|]). split; [|split; assumption].
  apply Forall_forall. intros x Hx. apply in_map_iff in Hx. destruct Hx as (w & <- & Hw). unfold weights_within in WW. rewrite Forall_forall in WW. destruct (WW w Hw). lra.
Qed.
(** C109 *)
Lemma curve_error c t : dvalid c -> coords_within K (nc_points c) -> weights_within w0 W (nc_weights c) -> balanced (nc_degree c) W w0 -> fin t -> (0 <= val t <= 1)%R ->
  exists p c', nc_evaluate c t = Ok (p, c') /\ close_pt p (nurbs_at (val_curve c) (val t)) (nurbs_error (nc_degree c) K W w0).
Proof.
  intros V CW WW BA Ft Ht. pose proof (val_valid c V WW) as VV. destruct (evaluate_nurbs (val_curve c) (val t) VV Ht) as (_ & cR & ER & _ & _). set (Q := nurbs_at (val_curve c) (val t)) in *. clearbody Q.
  pose proof V as (A & B & C & D & E & F). pose proof D as (D1 & D2 & _). rewrite vals_size in D2.
  destruct (span_both _ _ _ t C D Ft Ht) as (ki & F1 & F2 & Bk & Lk & Tk).
  unfold nc_evaluate in *. cbn [val_curve nc_degree nc_nb nc_weights nc_points nc_knots nc_tp nc_tw] in ER. rewrite !vsize_map in ER.
  rewrite !bind_massert_true in ER by (apply Z.eqb_eq; lia). rewrite !bind_massert_true by (apply Z.eqb_eq; lia).
  change (map val (nc_knots c)) with (dvals (nc_knots c)) in ER. rewrite F1. change (val t) with (V64 t) in F2, ER. rewrite F2 in ER. cbn [bind] in *.
  destruct (load_sim c ki (nc_tp c, nc_tw c) (map val_pt (nc_tp c), map val (nc_tw c))) as (s1 & q1 & L1 & L2 & Z1 & N1); try assumption; try lia.
  { unfold sized. cbn [fst snd]. rewrite !vsize_map. lia. }
  rewrite L1. fold (val_curve c) in ER. change (mkNC (nc_degree c) (dvals (nc_knots c)) (map val (nc_weights c)) (map val_pt (nc_points c)) (nc_nb c) (map val_pt (nc_tp c)) (map val (nc_tw c))) with (val_curve c) in ER. rewrite L2 in ER. cbn [bind] in *.
  pose proof uu_pos as U0.
  destruct (deboor_sim K W w0 HK HW (proj1 H0) (nc_knots c) (nc_degree c) ki t C (clamped_unit _ _ _ D) ltac:(lia) ltac:(lia) Ft Tk Lk (2 * uu)%R s1 q1 ltac:(lra) (EE_half _ BA) Z1 N1) as (s2 & q2 & G1 & G2 & Z2 & (p & w & a & v & g1 & g2 & g3 & g4 & NN)).
  rewrite G1. cbn [bind]. rewrite g1, g2. cbn [bind]. change (map val (nc_knots c)) with (dvals (nc_knots c)) in ER. rewrite G2 in ER. cbn [bind] in ER. rewrite g3, g4 in ER. cbn [bind] in ER.
  destruct (quot_near K W w0 HK HW (proj1 H0) _ p w a v (EE_pos _ (proj1 D1)) (EE_balanced _ BA) NN) as (z & Ez & Cz). rewrite Ez. cbn [bind].
  do 2 eexists. split; [reflexivity|]. specialize (Cz _ (error_eq (nc_degree c))).
  assert (v <> 0)%R as Nv by (destruct NN as (_ & _ & (_ & _ & _ & Hv)); lra).
  unfold pdiv in ER. rewrite !ndiv_R in ER by exact Nv. cbn [bind] in ER. injection ER as EP _. rewrite <- EP. exact Cz.
Qed.

Lemma val_svalid s : dsvalid s -> weights_within w0 W (ns_weights s) -> svalid (val_surface s).
Proof.
  intros (A & B & C & D & E & F & G1 & G2 & G3 & G4) WW. unfold svalid. cbn [val_surface ns_degU ns_degV ns_nbU ns_nbV ns_weights ns_points ns_knotsU ns_knotsV ns_tpU ns_tpV ns_twU ns_twV]. rewrite !vsize_map. do 4 (split; [assumption|]). split; [|auto].
  apply Forall_forall. intros x Hx. apply in_map_iff in Hx. destruct Hx as (w & <- & Hw). unfold weights_within in WW. rewrite Forall_forall in WW. destruct (WW w Hw). lra.
Qed.
Lemma surface_error s t r : dsvalid s -> coords_within K (ns_points s) -> weights_within w0 W (ns_weights s) -> balanced (ns_degU s + ns_degV s) W w0 -> fin t -> (0 <= val t <= 1)%R -> fin r -> (0 <= val r <= 1)%R ->
  exists p s', ns_evaluate s t r = Ok (p, s') /\ close_pt p (surf_at (val_surface s) (val t) (val r)) (nurbs_error (ns_degU s + ns_degV s) K W w0).
Proof.
  intros V CW WW BA Ft Ht Fr Hr. pose proof (val_svalid s V WW) as VV. destruct (sevaluate_ok (val_surface s) (val t) (val r) VV Ht Hr) as (sR & ER & _ & _). set (Q := surf_at (val_surface s) (val t) (val r)) in *. clearbody Q.
  pose proof V as (A & B & CU & CV & DU & DV & T1 & T2 & T3 & T4). pose proof DU as (D1 & D2 & _). pose proof DV as (D3 & D4 & _). rewrite vals_size in D2, D4.
  destruct (span_both _ _ _ t CU DU Ft Ht) as (ku & F1 & F2 & Bu & Lu & Tu). destruct (span_both _ _ _ r CV DV Fr Hr) as (kv & F3 & F4 & Bv & Lv & Tv).
  unfold ns_evaluate in *. cbn [val_surface ns_degU ns_degV ns_nbU ns_nbV ns_closedU ns_closedV ns_weights ns_points ns_knotsU ns_knotsV ns_tpU ns_tpV ns_twU ns_twV] in ER. rewrite !vsize_map in ER.
  rewrite bind_massert_true in ER by (apply Z.eqb_eq; lia). rewrite bind_massert_true by (apply Z.eqb_eq; lia).
  change (map val (ns_knotsU s)) with (dvals (ns_knotsU s)) in ER. change (map val (ns_knotsV s)) with (dvals (ns_knotsV s)) in ER. rewrite F1, F3. change (val t) with (V64 t) in F2, ER. change (val r) with (V64 r) in F4, ER. rewrite F2, F4 in ER. cbn [bind] in *.
  rewrite !bind_massert_true in ER by (apply Z.eqb_eq; lia). rewrite !bind_massert_true by (apply Z.eqb_eq; lia).
  change (mkNS (ns_degU s) (ns_degV s) (ns_nbU s) (ns_nbV s) (ns_closedU s) (ns_closedV s) (dvals (ns_knotsU s)) (dvals (ns_knotsV s)) (map val (ns_weights s)) (map val_pt (ns_points s)) (map val_pt (ns_tpU s)) (map val_pt (ns_tpV s)) (map val (ns_twU s)) (map val (ns_twV s))) with (val_surface s) in ER.
  pose proof uu_pos as U0. assert (EE (ns_degU s) <= EE (ns_degU s + ns_degV s))%R as EM by (apply EE_mono; lia). pose proof (EE_half _ BA) as EH. pose proof (EE_pos (ns_degU s) ltac:(lia)) as EP0.
  match type of ER with (bind (for_ _ _ ?g ?q0) _) = _ => match goal with |- exists _ _, (bind (for_ _ _ ?f ?s0) _) = _ /\ _ =>
    destruct (for_rel (fun m x y => sized (ns_degU s) (fst x) (fst y) /\ sized (ns_degV s) (snd x) (snd y) /\ forall j, 0 <= j < m -> entry (EE (ns_degU s)) j (snd x) (snd y)) 0 (ns_degV s + 1) f g s0 q0) as ([sU sV] & [qU qV] & L1 & L2 & Z1 & Z2 & N1) end end.
  - lia.
  - unfold sized. cbn [fst snd]. rewrite !vsize_map. split; [lia|]. split; [lia|]. intros j Hj. lia.
  - intros j [xU xV] [yU yV] Hj (ZU & ZV & H). cbn [fst snd] in *. rewrite !bind_massert_true by (apply Z.leb_le || apply Z.ltb_lt; lia).
    destruct (row_sim s ku (j + kv - ns_degV s) xU yU) as (x1 & y1 & R1 & R2 & Z1 & N1); try assumption; try lia. rewrite R1, R2. cbn [bind].
    destruct (deboor_sim K W w0 HK HW (proj1 H0) (ns_knotsU s) (ns_degU s) ku t CU (clamped_unit _ _ _ DU) ltac:(lia) ltac:(lia) Ft Tu Lu (2 * uu)%R x1 y1 ltac:(lra) ltac:(unfold EE in *; lra) Z1 N1) as (x2 & y2 & G1 & G2 & Z2 & (p & w & a & v & g1 & g2 & g3 & g4 & NN)).
    unfold val. rewrite G1, G2. cbn [bind]. rewrite g1, g2, g3, g4. cbn [bind].
    destruct (put_sim (ns_degV s) j _ xV yV _ _ _ _ ZV ltac:(lia) NN) as (x' & y' & U1 & U2 & U3 & U4 & Z' & N & P). rewrite U1, U2, U3, U4. cbn [bind].
    do 2 eexists. split; [reflexivity|]. split; [reflexivity|]. destruct x', y'. cbn [fst snd]. split; [exact Z2|]. split; [exact Z'|].
    intros i Hi. destruct (Z.eq_dec i j) as [-> |Ne]; [exact N|]. apply P; [exact Ne|]. apply H. lia.
  - rewrite L1. rewrite L2 in ER. cbn [bind fst snd] in *.
    assert (EE (ns_degU s) + 13 * uu * IZR (ns_degV s) = EE (ns_degU s + ns_degV s))%R as EA by (unfold EE; rewrite plus_IZR; ring).
    destruct (deboor_sim K W w0 HK HW (proj1 H0) (ns_knotsV s) (ns_degV s) kv r CV (clamped_unit _ _ _ DV) ltac:(lia) ltac:(lia) Fr Tv Lv (EE (ns_degU s)) sV qV EP0 ltac:(lra) Z2 ltac:(intros j Hj; apply N1; lia)) as (s2 & q2 & G1 & G2 & Z3 & (p & w & a & v & g1 & g2 & g3 & g4 & NN)).
    rewrite G1. cbn [bind]. rewrite g1, g2. cbn [bind]. rewrite G2 in ER. cbn [bind] in ER. rewrite g3, g4 in ER. cbn [bind] in *. rewrite EA in NN.
    destruct (quot_near K W w0 HK HW (proj1 H0) _ p w a v (EE_pos (ns_degU s + ns_degV s) ltac:(lia)) (EE_balanced _ BA) NN) as (z & Ez & Cz). rewrite Ez. cbn [bind].
    do 2 eexists. split; [reflexivity|]. specialize (Cz _ (error_eq (ns_degU s + ns_degV s))).
    assert (v <> 0)%R as Nv by (destruct NN as (_ & _ & (_ & _ & _ & Hv)); lra).
    unfold pdiv in ER. rewrite !ndiv_R in ER by exact Nv. cbn [bind] in ER. injection ER as EP _. rewrite <- EP. exact Cz.
Qed.
End Sim.
