(** Curves built through the API, and the statements of the curve properties in their final form. *)
From Coq Require Import ZArith List Bool Lia Reals Lra Permutation.
From Verif Require Import Base Num MGeometry MTransform MNurbs MNurbsRace SGeom SNurbs LBase LMesh LBlossom LNurbs LNurbs2 LNurbs3 LNurbs4 LNurbs5 LNurbs6.
Import ListNotations.
Open Scope Z_scope.

Lemma set_knots_ok (c : NurbsCurve R) ks : sorted ks -> 1 <= vsize ks -> (kn ks 0 < kn ks (vsize ks - 1))%R ->
  exists c', nc_set_knots c ks = Ok c' /\ vsize (nc_knots c') = vsize ks /\
    (forall i, 0 <= i < vsize ks -> kn (nc_knots c') i = ((kn ks i - kn ks 0) / (kn ks (vsize ks - 1) - kn ks 0))%R) /\
    sorted (nc_knots c') /\ kn (nc_knots c') 0 = 0%R /\ kn (nc_knots c') (vsize ks - 1) = 1%R /\
    Forall (fun k => 0 <= k <= 1)%R (nc_knots c') /\
    nc_set_knots c' (nc_knots c') = Ok c'.
Proof.
  intros S L H. set (a := kn ks 0) in *. set (b := kn ks (vsize ks - 1)) in *.
  assert (vsize (map (affine01 a b) ks) = vsize ks) as SZ by (unfold vsize; rewrite map_length; reflexivity).
  assert (forall i, 0 <= i < vsize ks -> kn (map (affine01 a b) ks) i = affine01 a b (kn ks i)) as K by (intros; apply kn_map; assumption).
  assert (sorted (map (affine01 a b) ks)) as S'.
  { intros i j Hi Hj. rewrite SZ in Hj. rewrite !K by lia. unfold affine01. apply Rmult_le_compat_r; [left; apply Rinv_0_lt_compat; lra|].
    specialize (S i j Hi Hj). lra. }
  assert (kn (map (affine01 a b) ks) 0 = 0%R) as K0 by (rewrite K by lia; unfold affine01; fold a; field; lra).
  assert (kn (map (affine01 a b) ks) (vsize ks - 1) = 1%R) as K1 by (rewrite K by lia; unfold affine01; fold b; field; lra).
  eexists. unfold nc_set_knots at 1. rewrite (scale_sorted ks S L H). cbn [bind]. split; [reflexivity|]. cbn [nc_knots].
  fold a b. split; [exact SZ|]. split; [exact K|]. split; [exact S'|]. split; [exact K0|]. split; [exact K1|]. split.
  - apply Forall_forall. intros k Hk. apply In_vget in Hk. destruct Hk as [i [Hi Ei]]. rewrite <- (kn_of _ _ _ Ei). rewrite SZ in *.
    pose proof (S' 0 i ltac:(lia) ltac:(lia)). pose proof (S' i (vsize ks - 1) ltac:(lia) ltac:(lia)). lra.
  - unfold nc_set_knots. cbn [nc_degree nc_weights nc_points nc_nb nc_tp nc_tw]. rewrite scale_id; [reflexivity|exact S'|lia|exact K0|rewrite SZ; exact K1].
Qed.

Lemma set_knots_constant (c : NurbsCurve R) ks k : ks <> [] -> (forall x, In x ks -> x = k) -> nc_set_knots c ks = Err FDivZero.
Proof.
  intros NE H. destruct (scale_knots_ok ks NE) as [mn [mx [I1 [I2 [_ [_ E]]]]]]. unfold nc_set_knots. rewrite E; [reflexivity|]. rewrite (H _ I1), (H _ I2). reflexivity.
Qed.

Lemma find_span_full ks t : sorted ks -> 2 <= vsize ks -> kn ks 0 = 0%R -> kn ks (vsize ks - 1) = 1%R ->
  exists i, find_knot_span ks t = Ok i /\ 0 <= i < vsize ks - 1 /\ (kn ks i < kn ks (i + 1))%R /\
    ((0 <= t <= 1)%R -> (kn ks i <= t <= kn ks (i + 1))%R) /\
    ((t < 0)%R -> forall j, 0 <= j < i -> kn ks j = kn ks (j + 1)) /\
    ((1 < t)%R -> forall j, i < j < vsize ks - 1 -> kn ks j = kn ks (j + 1)).
Proof.
  intros S L K0 K1. destruct (find_knot_span_ok ks t S L K0 K1) as [i [E [B I]]]. exists i. split; [exact E|]. split; [exact B|].
  destruct (in_span_lt _ _ _ I) as [I1 I2]. split; [exact I1|]. split; [|split].
  - intros T. rewrite clamp01_id in I2 by exact T. exact I2.
  - intros T j Hj. unfold clamp01 in I2. destruct (Rlt_dec t 0); [|lra].
    pose proof (S 0 j ltac:(lia) ltac:(lia)). pose proof (S j (j + 1) ltac:(lia) ltac:(lia)). pose proof (S (j + 1) i ltac:(lia) ltac:(lia)). lra.
  - intros T j Hj. unfold clamp01 in I2. destruct (Rlt_dec t 0); [lra|]. destruct (Rlt_dec 1 t); [|lra].
    pose proof (S (i + 1) j ltac:(lia) ltac:(lia)). pose proof (S j (j + 1) ltac:(lia) ltac:(lia)). pose proof (S (j + 1) (vsize ks - 1) ltac:(lia) ltac:(lia)). lra.
Qed.

Lemma nchg_cons a tl m : nchg (a :: tl) (S m) = (if chg (a :: tl) 0 then 1 else 0) + nchg tl m.
Proof.
  induction m as [|m IH]; [cbn; lia|]. change (nchg (a :: tl) (S (S m))) with (nchg (a :: tl) (S m) + (if chg (a :: tl) (Z.of_nat (S m)) then 1 else 0)).
  rewrite IH. cbn [nchg]. assert (chg (a :: tl) (Z.of_nat (S m)) = chg tl (Z.of_nat m)) as ->; [|lia].
  unfold chg, kn. replace (Z.to_nat (Z.of_nat (S m))) with (S m) by lia. replace (Z.to_nat (Z.of_nat (S m) + 1)) with (S (S m)) by lia.
  replace (Z.to_nat (Z.of_nat m)) with m by lia. replace (Z.to_nat (Z.of_nat m + 1)) with (S m) by lia. reflexivity.
Qed.
Lemma spans_e ks : e ks (vsize ks - 1) = spans ks.
Proof.
  unfold e, vsize. replace (Z.to_nat (Z.of_nat (length ks) - 1)) with (length ks - 1)%nat by lia.
  induction ks as [|a [|b tl] IH]; [reflexivity|reflexivity|].
  change (length (a :: b :: tl) - 1)%nat with (S (length tl)). rewrite nchg_cons.
  replace (length (b :: tl) - 1)%nat with (length tl) in IH by (cbn; lia). rewrite IH.
  change (spans (a :: b :: tl)) with ((if Req_EM_T a b then 0 else 1) + spans (b :: tl)). f_equal.
  unfold chg, kn, Z.to_nat, Pos.to_nat. cbn. destruct (Req_EM_T a b); reflexivity.
Qed.
Lemma elevate_2_spans c : valid c -> nc_degree c = 2 -> regular (nc_knots c) (nc_degree c) (vsize (nc_points c)) ->
  exists c', nc_degree_elevation c = Ok (true, c') /\ valid c' /\ nc_degree c' = 3 /\
    vsize (nc_points c') = vsize (nc_points c) + spans (nc_knots c) /\
    forall t, (0 <= t <= 1)%R -> point_of (nc_evaluate c' t) = point_of (nc_evaluate c t).
Proof. rewrite <- spans_e. apply elevate_2. Qed.

(** A curve built through the API. *)
Definition build (p : Z) (pts : list pt3) (ws : list R) : res (NurbsCurve R) :=
  do c <- nc_set_degree nc_new p; nc_set_uniform (nc_set_weights (nc_set_points c pts) ws).
Lemma build_ok p pts ws : 0 <= p < vsize pts -> vsize ws = vsize pts -> Forall (fun w => 0 < w)%R ws ->
  exists c, build p pts ws = Ok c /\ valid c /\ tight (nc_knots c) p (vsize pts) /\ (1 <= p -> regular (nc_knots c) p (vsize pts)) /\
    nc_degree c = p /\ nc_points c = pts /\ nc_weights c = ws.
Proof.
  intros H W F. unfold build. unfold nc_set_degree. 
  assert (forall A (d : A), vresize [] (p + 1) d = Ok (repeat d (Z.to_nat (p + 1)))) as VR.
  { intros A d. unfold vresize. change (vsize (@nil A)) with 0. destruct (Z.ltb_spec (p + 1) 0); [lia|].
    rewrite firstn_nil. cbn [app length]. rewrite Nat.sub_0_r. reflexivity. }
  change (nc_tp (@nc_new R)) with (@nil pt3). change (nc_tw (@nc_new R)) with (@nil R). rewrite !VR. cbn [bind].
  match goal with |- context [nc_set_uniform ?x] => destruct (set_uniform_ok x) as [c [E [C [T [K [D [W' [P [Nb [TP TW]]]]]]]]]] end.
  { cbn. exact H. }
  rewrite E. exists c. cbn [nc_set_weights nc_set_points nc_degree nc_nb nc_weights nc_points nc_tp nc_tw] in *. split; [reflexivity|].
  split; [|split; [exact T|split; [|auto]]].
  - unfold valid. rewrite P, W', D, Nb, TP, TW. split; [reflexivity|]. split; [exact W|]. split; [exact C|]. split; [exact F|]. unfold vsize. rewrite !repeat_length. lia.
  - intros P1 j Hj. destruct C as [C1 [C2 [C3 [C4 C5]]]].
    assert (0 < IZR (vsize pts - p))%R as Pos by (apply IZR_lt; lia).
    assert (forall i, 0 <= i <= vsize pts + p -> kn (nc_knots c) i = (IZR (Z.max 0 (Z.min (vsize pts - p) (i - p))) / IZR (vsize pts - p))%R) as KA.
    { intros i Hi. destruct (Z.ltb_spec i p); [|destruct (Z.ltb_spec (vsize pts) i)].
      - rewrite C4 by lia. rewrite Z.max_l by lia. unfold Rdiv. ring.
      - rewrite C5 by lia. rewrite Z.min_l, Z.max_r by lia. field. lra.
      - rewrite K by lia. rewrite Z.min_r, Z.max_r by lia. reflexivity. }
    rewrite !KA by lia. apply Rmult_lt_compat_r; [apply Rinv_0_lt_compat; exact Pos|]. apply IZR_lt. lia.
Qed.

(** Affine transforms of the program. *)
Lemma affine_translation (t : pt3) : affine3 (translation t).
Proof. exists (mkP 1 0 0)%R, (mkP 0 1 0)%R, (mkP 0 0 1)%R, t. intros p. unfold translation, padd, add3, scal3. cbn. f_equal; ring. Qed.
Lemma affine_scale x y z : affine3 (scale x y z).
Proof. exists (mkP x 0 0)%R, (mkP 0 y 0)%R, (mkP 0 0 z)%R, O3. intros p. unfold scale, add3, scal3, O3. cbn. f_equal; ring. Qed.
Lemma linear_affine (f : pt3 -> pt3) : (forall p, f p = add3 (add3 (scal3 (px p) (f (mkP 1 0 0))) (scal3 (py p) (f (mkP 0 1 0)))) (scal3 (pz p) (f (mkP 0 0 1))))%R -> affine3 f.
Proof. intros H. exists (f (mkP 1 0 0))%R, (f (mkP 0 1 0))%R, (f (mkP 0 0 1))%R, O3. intros p. rewrite H at 1. unfold add3, scal3, O3. cbn. f_equal; ring. Qed.
Lemma affine_mat (m : Mat R) : affine3 (mat_apply m).
Proof. apply linear_affine. intros p. unfold mat_apply, add3, scal3. cbn. f_equal; ring. Qed.
Lemma affine_quat (q : Quat R) : affine3 (quat_apply q).
Proof. apply linear_affine. intros p. unfold quat_apply, add3, scal3. cbn. f_equal; ring. Qed.
Lemma affine_euler (e : Euler R) : affine3 (euler_apply e).
Proof. apply linear_affine. intros p. unfold euler_apply, add3, scal3. cbn. f_equal; ring. Qed.

Lemma points_ref_valid c f : valid c -> valid (nc_points_ref c (map f (nc_points c))).
Proof. intros V. unfold valid, nc_points_ref. cbn. unfold vsize in *. rewrite map_length. exact V. Qed.

Lemma evaluate_affine c f t : valid c -> (0 <= t <= 1)%R -> affine3 f ->
  exists p, point_of (nc_evaluate c t) = Ok p /\ point_of (nc_evaluate (nc_points_ref c (map f (nc_points c))) t) = Ok (f p).
Proof.
  intros V T A. destruct (evaluate_nurbs c t V T) as [_ [c1 [E _]]]. destruct (evaluate_nurbs _ t (points_ref_valid c f V) T) as [_ [c2 [E2 _]]].
  exists (nurbs_at c t). rewrite E, E2, nurbs_affine by assumption. auto.
Qed.

Lemma transforms_affine (t : pt3) (x y z : R) (m : Mat R) (q : Quat R) (e : Euler R) :
  affine3 (translation t) /\ affine3 (scale x y z) /\ affine3 (mat_apply m) /\ affine3 (quat_apply q) /\ affine3 (euler_apply e).
Proof. auto using affine_translation, affine_scale, affine_mat, affine_quat, affine_euler. Qed.

Lemma evaluate_hull c t n d : valid c -> (0 <= t <= 1)%R -> (forall p, In p (nc_points c) -> dot3 n p <= d)%R ->
  exists p, point_of (nc_evaluate c t) = Ok p /\ (dot3 n p <= d)%R.
Proof.
  intros V T H. destruct (evaluate_nurbs c t V T) as [_ [c1 [E _]]]. exists (nurbs_at c t). rewrite E. split; [reflexivity|]. apply nurbs_hull; assumption.
Qed.
(** The bounding box of the control points contains the curve. *)
Lemma evaluate_box c t lo hi : valid c -> (0 <= t <= 1)%R ->
  (forall p, In p (nc_points c) -> px lo <= px p <= px hi /\ py lo <= py p <= py hi /\ pz lo <= pz p <= pz hi)%R ->
  exists p, point_of (nc_evaluate c t) = Ok p /\ (px lo <= px p <= px hi /\ py lo <= py p <= py hi /\ pz lo <= pz p <= pz hi)%R.
Proof.
  intros V T H. destruct (evaluate_nurbs c t V T) as [_ [c1 [E _]]]. exists (nurbs_at c t). rewrite E. split; [reflexivity|].
  pose proof (fun n d => nurbs_hull c t n d V T) as K. unfold dot3 in K.
  pose proof (K (mkP 1 0 0) (px hi))%R as A1. pose proof (K (mkP (-1) 0 0) (- px lo))%R as A2.
  pose proof (K (mkP 0 1 0) (py hi))%R as B1. pose proof (K (mkP 0 (-1) 0) (- py lo))%R as B2.
  pose proof (K (mkP 0 0 1) (pz hi))%R as C1. pose proof (K (mkP 0 0 (-1)) (- pz lo))%R as C2.
  cbn [px py pz] in *.
  specialize (A1 ltac:(intros p I; destruct (H p I) as [? [? ?]]; lra)). specialize (A2 ltac:(intros p I; destruct (H p I) as [? [? ?]]; lra)).
  specialize (B1 ltac:(intros p I; destruct (H p I) as [? [? ?]]; lra)). specialize (B2 ltac:(intros p I; destruct (H p I) as [? [? ?]]; lra)).
  specialize (C1 ltac:(intros p I; destruct (H p I) as [? [? ?]]; lra)). specialize (C2 ltac:(intros p I; destruct (H p I) as [? [? ?]]; lra)). lra.
Qed.

(** A degree 1 and a degree 0 curve for which degree_elevation lies. *)
Definition step0 : NurbsCurve R := mkNC 0 [0; 1]%R [1]%R [mkP 1 2 3]%R 1 [O3] [0]%R.
Lemma step0_valid : valid step0.
Proof.
  unfold valid, step0. cbn [nc_degree nc_knots nc_weights nc_points nc_nb nc_tp nc_tw].
  split; [reflexivity|]. split; [reflexivity|]. split.
  - split; [cbn; lia|]. split; [reflexivity|]. change (vsize [mkP 1 2 3]%R) with 1.
    split; [|split].
    + intros i j Hi Hj. assert (i = 0 /\ j = 0 \/ i = 0 /\ j = 1 \/ i = 1 /\ j = 1) as [[-> ->]|[[-> ->]|[-> ->]]] by lia; unfold kn, Z.to_nat, Pos.to_nat; cbn; lra.
    + intros i Hi. replace i with 0 by lia. reflexivity.
    + intros i Hi. replace i with 1 by lia. reflexivity.
  - split; [repeat constructor; lra|]. split; cbn; lia.
Qed.
Lemma elevation_lies : exists c c' p, valid c /\ nc_degree_elevation c = Ok (true, c') /\
  (forall t, (0 <= t <= 1)%R -> point_of (nc_evaluate c t) = Ok p) /\ (forall t, nc_evaluate c' t = Err FAssert).
Proof.
  destruct (elevate_0 step0 step0_valid eq_refl) as [c' [E [_ [_ H]]]]. exists step0, c', (mkP 1 2 3)%R. split; [exact step0_valid|]. split; [exact E|]. split; [|exact H].
  intros t T. destruct (evaluate_nurbs step0 t step0_valid T) as [D [c1 [E1 _]]]. rewrite E1. cbn [point_of bind fst]. f_equal.
  unfold nurbs_at, nurbs_den, nurbs_sum in *. cbn [step0 nc_points length sumZ nc_degree Z.to_nat basis cp cw nc_knots nc_weights] in *.
  cbn [cp cw nth Z.to_nat step0 nc_points nc_weights px py pz] in *. unfold cp, cw in *. cbn [nth Z.to_nat step0 nc_points nc_weights px py pz] in *.
  set (b := if in_span_dec [0%R; 1%R] 0 t then 1%R else 0%R) in *. assert (b <> 0)%R by lra. f_equal; field; lra.
Qed.

Lemma race_lies : exists c u p x0 sched x q, valid c /\ (0 <= u <= 1)%R /\ point_of (nc_evaluate c u) = Ok p /\
  th_start c u u = Ok x0 /\ th_run c sched x0 = Ok x /\ th_ra x = Some (Ok q) /\ th_rb x = Some (Ok q) /\ p <> q.
Proof.
  destruct race_half as [x0 [x [E1 [E2 [E3 E4]]]]]. destruct eval_half as [c' E]. do 7 eexists. split; [exact line01_valid|].
  split; [|split; [rewrite E; reflexivity|]]; [lra|]. split; [exact E1|]. split; [exact E2|]. split; [exact E3|]. split; [exact E4|]. intros K. injection K. lra.
Qed.

(** Running example: four points, degree 2, weights 1 2 1/2 1, uniform knots 0 0 0 1/2 1 1 1. *)
Definition ex_pts : list pt3 := [mkP 0 0 0; mkP 1 2 0; mkP 3 2 1; mkP 4 0 0]%R.
Definition ex_ws : list R := [1; 2; 1 / 2; 1]%R.
Lemma ex_curve p : p = 1 \/ p = 2 \/ p = 3 -> exists c, build p ex_pts ex_ws = Ok c /\ valid c /\ tight (nc_knots c) p 4 /\ regular (nc_knots c) p 4 /\
  nc_degree c = p /\ nc_points c = ex_pts /\ nc_weights c = ex_ws.
Proof.
  intros P. destruct (build_ok p ex_pts ex_ws) as [c [A [B [C [D E]]]]].
  - change (vsize ex_pts) with 4. lia.
  - reflexivity.
  - unfold ex_ws. repeat constructor; lra.
  - exists c. change (vsize ex_pts) with 4 in *. repeat (split; [first [assumption|apply D; lia]|]). exact E.
Qed.
