(** Surfaces: evaluation in an arithmetic whose division never stops the program, and in doubles. *)
From Coq Require Import ZArith List Bool Reals Lra Lia Psatz.
From Flocq Require Import Core IEEE754.Binary IEEE754.Bits IEEE754.BinarySingleNaN.
From Verif Require Import Base Num MGeometry MNurbs MNurbsSurface MStl MF64 SGeom SNurbs SSurface SF64 LBase LGeom LF64 LF64Ord LF64Arith LBlossom LNurbs LNurbs2 LNurbs3 LNurbs4 LBoxF64 LKnotF64 LEvalT LCurveF64 LUniformF64.
Import ListNotations.
Open Scope Z_scope.

Section Total.
Context {T : Type} {N : Num T}.
Hypothesis div_total : forall x y : T, exists q, ndiv x y = Ok q.
Notation temps := (list (Point3 T) * list T)%type.

Definition sready (s : NurbsSurface T) : Prop :=
  vsize (ns_points s) = ns_nbU s * ns_nbV s /\ vsize (ns_weights s) = ns_nbU s * ns_nbV s /\
  0 <= ns_degU s < ns_nbU s /\ 0 <= ns_degV s < ns_nbV s /\
  vsize (ns_knotsU s) = ns_nbU s + ns_degU s + 1 /\ vsize (ns_knotsV s) = ns_nbV s + ns_degV s + 1 /\
  ns_degU s < vsize (ns_tpU s) /\ ns_degU s < vsize (ns_twU s) /\ ns_degV s < vsize (ns_tpV s) /\ ns_degV s < vsize (ns_twV s).
Definition same_surf (s s' : NurbsSurface T) : Prop :=
  ns_degU s' = ns_degU s /\ ns_degV s' = ns_degV s /\ ns_nbU s' = ns_nbU s /\ ns_nbV s' = ns_nbV s /\ ns_closedU s' = ns_closedU s /\ ns_closedV s' = ns_closedV s /\
  ns_knotsU s' = ns_knotsU s /\ ns_knotsV s' = ns_knotsV s /\ ns_weights s' = ns_weights s /\ ns_points s' = ns_points s.

Lemma row_total (s : NurbsSurface T) ki iv t t' : vsize (ns_points s) = ns_nbU s * ns_nbV s -> vsize (ns_weights s) = ns_nbU s * ns_nbV s ->
  0 <= ns_degU s <= ki -> ki < ns_nbU s -> 0 <= iv < ns_nbV s -> agree_upto (ns_degU s) 0 t t' ->
  exists x y, ns_load_row s ki iv t = Ok x /\ ns_load_row s ki iv t' = Ok y /\
    vsize (fst x) = vsize (fst t) /\ vsize (snd x) = vsize (snd t) /\ agree_upto (ns_degU s) (ns_degU s + 1) x y.
Proof.
  intros Hp Hw Hd Hk Hv A. unfold ns_load_row.
  apply (for_inv2 (fun j x y => vsize (fst x) = vsize (fst t) /\ vsize (snd x) = vsize (snd t) /\ agree_upto (ns_degU s) j x y)); [lia|auto|].
  intros i x y Hi (S1 & S2 & B1 & B2 & B3 & B4 & B5). cbv zeta. rewrite !bind_massert_true by (apply Z.leb_le || apply Z.ltb_lt; lia).
  assert (0 <= i + ki - ns_degU s + ns_nbU s * iv < ns_nbU s * ns_nbV s) as Hr by nia.
  destruct (vget_in_range (ns_weights s) (i + ki - ns_degU s + ns_nbU s * iv) ltac:(lia)) as [w Ew]. rewrite Ew. cbn [bind].
  destruct (vget_in_range (ns_points s) (i + ki - ns_degU s + ns_nbU s * iv) ltac:(lia)) as [p Ep].
  pose proof (vset_in_range (snd x) i w ltac:(lia)) as V1. pose proof (vset_in_range (snd y) i w ltac:(lia)) as V2. rewrite V1, V2. cbn [bind]. rewrite Ep. cbn [bind].
  pose proof (vset_in_range (fst x) i (pmul p w) ltac:(lia)) as V3. pose proof (vset_in_range (fst y) i (pmul p w) ltac:(lia)) as V4. rewrite V3, V4. cbn [bind].
  do 2 eexists. split; [reflexivity|]. split; [reflexivity|]. cbn [fst snd].
  pose proof (vset_size _ _ _ _ V1). pose proof (vset_size _ _ _ _ V2). pose proof (vset_size _ _ _ _ V3). pose proof (vset_size _ _ _ _ V4).
  split; [congruence|]. split; [congruence|]. unfold agree_upto. cbn [fst snd]. do 4 (split; [lia|]).
  intros j Hj. rewrite (vget_vset _ _ _ _ j V1), (vget_vset _ _ _ _ j V2), (vget_vset _ _ _ _ j V3), (vget_vset _ _ _ _ j V4).
  destruct (Z.eqb_spec j i); [split; reflexivity|]. apply B5. lia.
Qed.
Lemma agree_less d k (x y : temps) : agree_upto d k x y -> agree_upto d 0 x y.
Proof. intros (A & B & C & D & _). unfold agree_upto. do 4 (split; [assumption|]). intros; lia. Qed.

Lemma sevaluate_total (s s' : NurbsSurface T) u v ku kv : sready s -> sready s' -> same_surf s s' ->
  find_knot_span (ns_knotsU s) u = Ok ku -> ns_degU s <= ku < ns_nbU s -> find_knot_span (ns_knotsV s) v = Ok kv -> ns_degV s <= kv < ns_nbV s ->
  exists p d d', ns_evaluate s u v = Ok (p, d) /\ ns_evaluate s' u v = Ok (p, d') /\ same_surf s d /\ sready d.
Proof.
  intros (R1 & R2 & R3 & R4 & R5 & R6 & R7 & R8 & R9 & R10) (R1' & R2' & R3' & R4' & R5' & R6' & R7' & R8' & R9' & R10') (S1 & S2 & S3 & S4 & S5 & S6 & S7 & S8 & S9 & S10) Fu Bu Fv Bv.
  unfold ns_evaluate. assert (forall k iv t, ns_load_row s' k iv t = ns_load_row s k iv t) as Er by (intros; unfold ns_load_row; rewrite S1, S3, S9, S10; reflexivity).
  rewrite S1, S2, S3, S4, S7, S8, S9, S10 in *. rewrite bind_massert_true by (apply Z.eqb_eq; lia). rewrite bind_massert_true by (apply Z.eqb_eq; lia). rewrite Fu, Fv. cbn [bind]. rewrite !bind_massert_true by (apply Z.eqb_eq; lia).
  set (I := fun (i : Z) (x y : temps * temps) =>
    vsize (fst (fst x)) = vsize (ns_tpU s) /\ vsize (snd (fst x)) = vsize (ns_twU s) /\ vsize (fst (snd x)) = vsize (ns_tpV s) /\ vsize (snd (snd x)) = vsize (ns_twV s) /\
    agree_upto (ns_degU s) 0 (fst x) (fst y) /\ agree_upto (ns_degV s) i (snd x) (snd y)).
  match goal with |- context [for_ 0 (ns_degV s + 1) ?b ?i0] => set (body := b); set (i1 := i0) end.
  match goal with |- context [for_ 0 (ns_degV s + 1) ?b ?i0] => lazymatch b with body => fail | _ => set (body2 := b) end | _ => idtac end.
  set (i2 := (ns_tpU s', ns_twU s', (ns_tpV s', ns_twV s'))).
  destruct (for_inv2 I 0 (ns_degV s + 1) body i1 i2) as (x & y & E1 & E2 & Z1 & Z2 & Z3 & Z4 & A1 & A2).
  - lia.
  - unfold I, i1, i2. cbn [fst snd]. do 4 (split; [reflexivity|]). split; (unfold agree_upto; cbn [fst snd]; do 4 (split; [lia|]); intros; lia).
  - intros i [xU xV] [yU yV] Hi (Z1 & Z2 & Z3 & Z4 & A1 & A2). unfold body. cbn [fst snd] in *. rewrite !bind_massert_true by (apply Z.leb_le || apply Z.ltb_lt; lia).
    destruct (row_total s ku (i + kv - ns_degV s) xU yU R1 R2 ltac:(lia) ltac:(lia) ltac:(lia) A1) as (a & b & Ea & Eb & Q1 & Q2 & A3). rewrite Ea, Eb. cbn [bind].
    destruct (deboor_total div_total (ns_knotsU s) (ns_degU s) ku u a b ltac:(lia) ltac:(lia) A3) as (a' & b' & Ea' & Eb' & Q3 & Q4 & A4). rewrite Ea', Eb'. cbn [bind].
    pose proof A4 as (C1 & C2 & C3 & C4 & C5). destruct (C5 (ns_degU s) ltac:(lia)) as [D1 D2]. rewrite <- D1, <- D2.
    destruct (vget_in_range (fst a') (ns_degU s) ltac:(lia)) as [pw G1]. destruct (vget_in_range (snd a') (ns_degU s) ltac:(lia)) as [w G2]. rewrite G1, G2. cbn [bind].
    pose proof A2 as (H1 & H2 & H3 & H4 & H5).
    pose proof (vset_in_range (fst xV) i pw ltac:(lia)) as V1. pose proof (vset_in_range (fst yV) i pw ltac:(lia)) as V2.
    pose proof (vset_in_range (snd xV) i w ltac:(lia)) as V3. pose proof (vset_in_range (snd yV) i w ltac:(lia)) as V4. rewrite V1, V2. cbn [bind]. rewrite ?G2. cbn [bind]. rewrite V3, V4. cbn [bind].
    do 2 eexists. split; [reflexivity|]. split; [reflexivity|]. unfold I. cbn [fst snd].
    pose proof (vset_size _ _ _ _ V1). pose proof (vset_size _ _ _ _ V2). pose proof (vset_size _ _ _ _ V3). pose proof (vset_size _ _ _ _ V4).
    do 4 (split; [congruence|]). split; [exact (agree_less _ _ _ _ A4)|]. unfold agree_upto. cbn [fst snd]. do 4 (split; [lia|]).
    intros j Hj. rewrite (vget_vset _ _ _ _ j V1), (vget_vset _ _ _ _ j V2), (vget_vset _ _ _ _ j V3), (vget_vset _ _ _ _ j V4).
    destruct (Z.eqb_spec j i); [split; reflexivity|]. apply H5. lia.
  - rewrite E1. assert (for_ 0 (ns_degV s + 1) body2 i2 = for_ 0 (ns_degV s + 1) body i2) as Eb by (apply for_ext; intros i [tU tV] Hi; unfold body, body2; rewrite Er; reflexivity).
    change (ns_tpU s', ns_twU s', (ns_tpV s', ns_twV s')) with i2. rewrite Eb, E2. cbn [bind]. destruct x as [xU xV], y as [yU yV]. cbn [fst snd] in *.
    destruct (deboor_total div_total (ns_knotsV s) (ns_degV s) kv v xV yV ltac:(lia) ltac:(lia) A2) as (a & b & Ea & Eb' & Q1 & Q2 & C1 & C2 & C3 & C4 & C5). rewrite Ea, Eb'. cbn [bind].
    destruct (C5 (ns_degV s) ltac:(lia)) as [D1 D2]. rewrite <- D1, <- D2.
    destruct (vget_in_range (fst a) (ns_degV s) ltac:(lia)) as [pw G1]. destruct (vget_in_range (snd a) (ns_degV s) ltac:(lia)) as [w G2]. rewrite G1, G2. cbn [bind].
    destruct (pdiv_total div_total pw w) as [q ->]. cbn [bind]. exists q. do 2 eexists. split; [reflexivity|]. split; [reflexivity|]. split; [repeat split|]. unfold sready. cbn. lia.
Qed.
End Total.

Lemma clamped_find (ks : list f64) p n (t : f64) : Forall (fun k : f64 => fin64 k = true) ks -> clamped (dvals ks) p n -> no_nan t ->
  exists ki, find_knot_span ks t = Ok ki /\ p <= ki < n.
Proof.
  intros C D Ht. destruct (clamped_sorted _ _ _ D) as (S & _ & K0 & K1). destruct D as (D1 & D2 & D3 & D4 & D5).
  destruct (find_span_double ks t C S) as (i & E1 & R & G & _); rewrite ?vals_size in *; [lia|exact K0|exact K1|exact Ht|].
  exists i. split; [exact E1|]. destruct (Z_lt_dec i p) as [L|L]; [rewrite !D4 in G by lia; lra|].
  destruct (Z_le_dec n i) as [L2|L2]; [rewrite !D5 in G by lia; lra|lia].
Qed.
Lemma dsvalid_ready s : dsvalid s -> sready s.
Proof. intros (A & B & C & C' & (D1 & D2 & _) & (D1' & D2' & _) & E). rewrite vals_size in *. unfold sready. lia. Qed.
Lemma sevaluate_double (s s' : NurbsSurface f64) (u v : f64) : dsvalid s -> dsvalid s' -> dssame s s' -> no_nan u -> no_nan v ->
  exists p d d', ns_evaluate s u v = Ok (p, d) /\ ns_evaluate s' u v = Ok (p, d') /\ dssame s d /\ dsvalid d.
Proof.
  intros V V' S Hu Hv. pose proof V as (A & B & C & C' & D & D' & E).
  destruct (clamped_find _ _ _ u C D Hu) as (ku & Fu & Bu). destruct (clamped_find _ _ _ v C' D' Hv) as (kv & Fv & Bv).
  destruct (sevaluate_total div64_total s s' u v ku kv (dsvalid_ready _ V) (dsvalid_ready _ V') S Fu Bu Fv Bv) as (p & d & d' & E1 & E2 & Sd & R).
  exists p, d, d'. split; [exact E1|]. split; [exact E2|]. split; [exact Sd|].
  destruct Sd as (S1 & S2 & S3 & S4 & S5 & S6 & S7 & S8 & S9 & S10). destruct R as (R1 & R2 & R3 & R4 & R5 & R6 & R7).
  unfold dsvalid. rewrite S1, S2, S3, S4, S7, S8, S9, S10 in *. do 6 (split; [assumption|]). lia.
Qed.

(** C44 for surfaces: the knots of a curve with the same degree and number of points. *)
Lemma uniform_scaled_double p n : 0 <= p < n -> n - p <= 2 ^ 53 -> exists ks : list f64, (do k <- uniform_knots p n; scale_knots k) = Ok ks /\
  Forall (fun k : f64 => fin64 k = true) ks /\ clamped (dvals ks) p n /\ tight (dvals ks) p n /\
  (forall i, p <= i <= n -> kn (dvals ks) i = round64 (IZR (i - p) / IZR (n - p))).
Proof.
  intros H Hb. destruct (set_uniform_double (mkNC p [] [] [] n [] []) H Hb) as (c' & E & F & C & T & K & _). unfold nc_set_uniform, nc_set_knots in E. cbn [nc_degree nc_nb] in *.
  destruct (uniform_knots p n) as [l|]; [|discriminate]. cbn [bind] in *. destruct (scale_knots l) as [ks|]; [|discriminate]. cbn [bind] in E. injection E as <-. cbn [nc_knots] in *.
  exists ks. auto.
Qed.
Section Uniform.
Variable s : NurbsSurface f64.
Lemma suniform_u_double : 0 <= ns_degU s < ns_nbU s -> ns_nbU s - ns_degU s <= 2 ^ 53 -> exists ks, ns_set_uniform_u s = Ok (mkNS (ns_degU s) (ns_degV s) (ns_nbU s) (ns_nbV s) (ns_closedU s) (ns_closedV s) ks (ns_knotsV s)
        (ns_weights s) (ns_points s) (ns_tpU s) (ns_tpV s) (ns_twU s) (ns_twV s)) /\
  Forall (fun k : f64 => fin64 k = true) ks /\ clamped (dvals ks) (ns_degU s) (ns_nbU s) /\ tight (dvals ks) (ns_degU s) (ns_nbU s).
Proof.
  intros H Hb. destruct (uniform_scaled_double _ _ H Hb) as (ks & E & F & C & T & _). exists ks. split; [|auto]. unfold ns_set_uniform_u, ns_set_knots_u.
  destruct (uniform_knots (ns_degU s) (ns_nbU s)) as [l|]; [|discriminate]. cbn [bind] in *. rewrite E. reflexivity.
Qed.
Lemma suniform_v_double : 0 <= ns_degV s < ns_nbV s -> ns_nbV s - ns_degV s <= 2 ^ 53 -> exists ks, ns_set_uniform_v s = Ok (mkNS (ns_degU s) (ns_degV s) (ns_nbU s) (ns_nbV s) (ns_closedU s) (ns_closedV s) (ns_knotsU s) ks
        (ns_weights s) (ns_points s) (ns_tpU s) (ns_tpV s) (ns_twU s) (ns_twV s)) /\
  Forall (fun k : f64 => fin64 k = true) ks /\ clamped (dvals ks) (ns_degV s) (ns_nbV s) /\ tight (dvals ks) (ns_degV s) (ns_nbV s).
Proof.
  intros H Hb. destruct (uniform_scaled_double _ _ H Hb) as (ks & E & F & C & T & _). exists ks. split; [|auto]. unfold ns_set_uniform_v, ns_set_knots_v.
  destruct (uniform_knots (ns_degV s) (ns_nbV s)) as [l|]; [|discriminate]. cbn [bind] in *. rewrite E. reflexivity.
Qed.
End Uniform.
Section UniformR.
Variable s : NurbsSurface R.
Lemma suniform_u_ok : 0 <= ns_degU s < ns_nbU s -> exists ks, ns_set_uniform_u s = Ok (mkNS (ns_degU s) (ns_degV s) (ns_nbU s) (ns_nbV s) (ns_closedU s) (ns_closedV s) ks (ns_knotsV s)
        (ns_weights s) (ns_points s) (ns_tpU s) (ns_tpV s) (ns_twU s) (ns_twV s)) /\
  clamped ks (ns_degU s) (ns_nbU s) /\ tight ks (ns_degU s) (ns_nbU s) /\
  (forall i, ns_degU s <= i <= ns_nbU s -> kn ks i = (IZR (i - ns_degU s) / IZR (ns_nbU s - ns_degU s))%R).
Proof.
  intros H. destruct (uniform_scaled _ _ H) as (ks & E & C & T & K). exists ks. split; [|auto]. unfold ns_set_uniform_u, ns_set_knots_u.
  destruct (uniform_knots (ns_degU s) (ns_nbU s)) as [l|]; [|discriminate]. cbn [bind] in *. rewrite E. reflexivity.
Qed.
Lemma suniform_v_ok : 0 <= ns_degV s < ns_nbV s -> exists ks, ns_set_uniform_v s = Ok (mkNS (ns_degU s) (ns_degV s) (ns_nbU s) (ns_nbV s) (ns_closedU s) (ns_closedV s) (ns_knotsU s) ks
        (ns_weights s) (ns_points s) (ns_tpU s) (ns_tpV s) (ns_twU s) (ns_twV s)) /\
  clamped ks (ns_degV s) (ns_nbV s) /\ tight ks (ns_degV s) (ns_nbV s) /\
  (forall i, ns_degV s <= i <= ns_nbV s -> kn ks i = (IZR (i - ns_degV s) / IZR (ns_nbV s - ns_degV s))%R).
Proof.
  intros H. destruct (uniform_scaled _ _ H) as (ks & E & C & T & K). exists ks. split; [|auto]. unfold ns_set_uniform_v, ns_set_knots_v.
  destruct (uniform_knots (ns_degV s) (ns_nbV s)) as [l|]; [|discriminate]. cbn [bind] in *. rewrite E. reflexivity.
Qed.
End UniformR.
(** A surface built through the interface. *)
Lemma sbuild_double (du dv nu nv : Z) (pts : list dpt) (ws : list f64) : 0 <= du < nu -> 0 <= dv < nv -> vsize pts = nu * nv -> vsize ws = nu * nv -> nu <= 2 ^ 53 -> nv <= 2 ^ 53 ->
  exists s, (do s <- ns_set_degree ns_new du dv; do s <- ns_set_uniform_u (ns_set_weights (ns_set_points s pts nu nv) ws); ns_set_uniform_v s) = Ok s /\ dsvalid s /\
    ns_points s = pts /\ ns_weights s = ws /\ ns_degU s = du /\ ns_degV s = dv.
Proof.
  unfold dpt in *. intros Hu Hv Hp Hw Bu Bv. unfold ns_set_degree.
  assert (forall A (d : A) p, 0 <= p -> vresize [] (p + 1) d = Ok (repeat d (Z.to_nat (p + 1)))) as VR.
  { intros A d p P0. unfold vresize. change (vsize (@nil A)) with 0. destruct (Z.ltb_spec (p + 1) 0); [lia|].
    rewrite firstn_nil. cbn [app length]. rewrite Nat.sub_0_r. reflexivity. }
  change (ns_tpU (@ns_new f64)) with (@nil (Point3 f64)). change (ns_twU (@ns_new f64)) with (@nil f64). change (ns_tpV (@ns_new f64)) with (@nil (Point3 f64)). change (ns_twV (@ns_new f64)) with (@nil f64). rewrite !VR by lia. cbn [bind].
  match goal with |- context [ns_set_uniform_u ?x] => destruct (suniform_u_double x) as (ku & E & F & C & _) end; [cbn; exact Hu|cbn [ns_set_weights ns_set_points ns_degU ns_nbU]; lia|].
  rewrite E. cbn [bind]. match goal with |- context [ns_set_uniform_v ?x] => destruct (suniform_v_double x) as (kv & E' & F' & C' & _) end; [cbn; exact Hv|cbn [ns_set_weights ns_set_points ns_degV ns_nbV]; lia|].
  rewrite E'. eexists. split; [reflexivity|]. cbn [ns_set_weights ns_set_points ns_degU ns_degV ns_nbU ns_nbV ns_tpU ns_tpV ns_twU ns_twV ns_points ns_weights] in *.
  split; [|repeat split]. unfold dsvalid. cbn [ns_points ns_weights ns_nbU ns_nbV ns_degU ns_degV ns_knotsU ns_knotsV ns_tpU ns_tpV ns_twU ns_twV]. do 6 (split; [assumption|]).
  unfold vsize. rewrite !repeat_length. lia.
Qed.
