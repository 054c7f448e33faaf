(** Evaluation of valid NURBS surfaces. *)
From Coq Require Import ZArith List Bool Reals Lra Lia Permutation Psatz.
From Verif Require Import Base Num MGeometry MNurbs MNurbsSurface SGeom SNurbs SSurface LBase LBlossom LNurbs LNurbs2.
Import ListNotations.
Open Scope Z_scope.

(** Nested blossom of coefficients [f]. *)
Definition udb (s : NurbsSurface R) (f : Z -> Z -> R) (u : R) (iu j : Z) : R :=
  db (kn (ns_knotsU s)) (fun i => f i j) (ns_degU s) (repeat u (Z.to_nat (ns_degU s))) iu.
Definition sdb (s : NurbsSurface R) (f : Z -> Z -> R) (u v : R) (iu iv : Z) : R :=
  db (kn (ns_knotsV s)) (udb s f u iu) (ns_degV s) (repeat v (Z.to_nat (ns_degV s))) iv.
Definition shom (s : NurbsSurface R) (f : Z -> Z -> R) (i j : Z) : R := (scw s i j * f i j)%R.
Definition sX (s : NurbsSurface R) i j := px (scp s i j).
Definition sY (s : NurbsSurface R) i j := py (scp s i j).
Definition sZ (s : NurbsSurface R) i j := pz (scp s i j).

Lemma svalid_idx (s : NurbsSurface R) i j : 0 <= i < ns_nbU s -> 0 <= j < ns_nbV s -> 0 <= i + ns_nbU s * j < ns_nbU s * ns_nbV s.
Proof. intros Hi Hj. split; nia. Qed.

Lemma svalid_span s u v : svalid s -> (0 <= u <= 1)%R -> (0 <= v <= 1)%R -> exists iu iv,
  find_knot_span (ns_knotsU s) u = Ok iu /\ ns_degU s <= iu < ns_nbU s /\ in_span (ns_knotsU s) iu u /\
  find_knot_span (ns_knotsV s) v = Ok iv /\ ns_degV s <= iv < ns_nbV s /\ in_span (ns_knotsV s) iv v.
Proof.
  intros [_ [_ [CU [CV _]]]] HU HV. destruct (clamped_span _ _ _ u CU HU) as [iu [E1 [B1 I1]]]. destruct (clamped_span _ _ _ v CV HV) as [iv [E2 [B2 I2]]].
  exists iu, iv. auto 10.
Qed.

(** A choice of the two spans that contain the parameters. *)
Definition at_spans (s : NurbsSurface R) (u v : R) (iu iv : Z) : Prop :=
  ns_degU s <= iu < ns_nbU s /\ in_span (ns_knotsU s) iu u /\ ns_degV s <= iv < ns_nbV s /\ in_span (ns_knotsV s) iv v.

Lemma surf_sum_sdb s f u v iu iv : svalid s -> at_spans s u v iu iv -> surf_sum s f u v = sdb s (shom s f) u v iu iv.
Proof.
  intros [_ [_ [CU [CV _]]]] [B1 [I1 [B2 I2]]]. unfold surf_sum, sdb. rewrite <- (basis_sum _ _ _ iv v CV B2 I2).
  apply sumZ_ext. intros j Hj. f_equal. unfold udb. rewrite <- (basis_sum _ _ _ iu u CU B1 I1). apply sumZ_ext. intros i Hi. unfold shom. ring.
Qed.

Lemma scw_pos s i j : svalid s -> 0 <= i < ns_nbU s -> 0 <= j < ns_nbV s -> (0 < scw s i j)%R.
Proof.
  intros [V1 [V2 [_ [_ [F _]]]]] Hi Hj. pose proof (svalid_idx s i j Hi Hj). rewrite Forall_forall in F. apply F. unfold scw. apply nth_In. unfold vsize in *. lia.
Qed.

Lemma sdb_nonneg s f u v iu iv : svalid s -> at_spans s u v iu iv ->
  (forall i j, 0 <= i < ns_nbU s -> 0 <= j < ns_nbV s -> (0 <= f i j)%R) -> (0 <= sdb s f u v iu iv)%R.
Proof.
  intros [_ [_ [CU [CV _]]]] [B1 [I1 [B2 I2]]] F.
  destruct (in_span_lt _ _ _ I1) as [D1 [L1 U1]]. destruct (in_span_lt _ _ _ I2) as [D2 [L2 U2]].
  unfold sdb. apply (db_nonneg _ _ _ iv v (clamped_gap _ _ _ _ CV B2 D2)); try (destruct CU, CV; lia).
  - exact (clamped_lo _ _ _ _ _ CV B2 L2).
  - exact (clamped_hi _ _ _ _ _ CV B2 U2).
  - intros j Hj. unfold udb. apply (db_nonneg _ _ _ iu u (clamped_gap _ _ _ _ CU B1 D1)); try (destruct CU, CV; lia).
    + exact (clamped_lo _ _ _ _ _ CU B1 L1).
    + exact (clamped_hi _ _ _ _ _ CU B1 U1).
    + intros i Hi. apply F; destruct CU, CV; lia.
Qed.
Lemma sdb_pos s u v iu iv : svalid s -> at_spans s u v iu iv -> (0 < sdb s (scw s) u v iu iv)%R.
Proof.
  intros V [B1 [I1 [B2 I2]]]. pose proof V as [_ [_ [CU [CV _]]]].
  destruct (in_span_lt _ _ _ I1) as [D1 [L1 U1]]. destruct (in_span_lt _ _ _ I2) as [D2 [L2 U2]].
  unfold sdb. apply (db_pos _ _ _ iv v (clamped_gap _ _ _ _ CV B2 D2)).
  - destruct CV; lia.
  - exact (clamped_lo _ _ _ _ _ CV B2 L2).
  - exact (clamped_hi _ _ _ _ _ CV B2 U2).
  - intros j Hj. unfold udb. apply (db_pos _ _ _ iu u (clamped_gap _ _ _ _ CU B1 D1)).
    + destruct CU; lia.
    + exact (clamped_lo _ _ _ _ _ CU B1 L1).
    + exact (clamped_hi _ _ _ _ _ CU B1 U1).
    + intros i Hi. apply scw_pos; [exact V|destruct CU; lia|destruct CV; lia].
Qed.

Lemma surf_sum_ext s f g u v : (forall i j, 0 <= i < ns_nbU s -> 0 <= j < ns_nbV s -> f i j = g i j) -> surf_sum s f u v = surf_sum s g u v.
Proof.
  intros H. unfold surf_sum. apply sumZ_ext. intros j Hj. f_equal. apply sumZ_ext. intros i Hi. rewrite H by lia. reflexivity.
Qed.
Lemma surf_den_pos s u v : svalid s -> (0 <= u <= 1)%R -> (0 <= v <= 1)%R -> (0 < surf_den s u v)%R.
Proof.
  intros V HU HV. destruct (svalid_span s u v V HU HV) as [iu [iv [_ [B1 [I1 [_ [B2 I2]]]]]]].
  assert (at_spans s u v iu iv) as A by (split; [|split; [|split]]; assumption).
  pose proof (sdb_pos s u v iu iv V A) as P. unfold surf_den. rewrite (surf_sum_sdb s _ u v iu iv V A).
  replace (shom s (fun _ _ => 1%R)) with (shom s (fun _ _ => 1%R)) by reflexivity.
  enough (sdb s (shom s (fun _ _ => 1%R)) u v iu iv = sdb s (scw s) u v iu iv) as -> by exact P.
  unfold sdb. apply db_ext. intros j Hj. unfold udb. apply db_ext. intros i Hi. unfold shom. ring.
Qed.
Lemma surf_sum_nonneg s f u v : svalid s -> (0 <= u <= 1)%R -> (0 <= v <= 1)%R ->
  (forall i j, 0 <= i < ns_nbU s -> 0 <= j < ns_nbV s -> (0 <= f i j)%R) -> (0 <= surf_sum s f u v)%R.
Proof.
  intros V HU HV F. destruct (svalid_span s u v V HU HV) as [iu [iv [_ [B1 [I1 [_ [B2 I2]]]]]]].
  assert (at_spans s u v iu iv) as A by (split; [|split; [|split]]; assumption).
  rewrite (surf_sum_sdb s _ u v iu iv V A). apply (sdb_nonneg s _ u v iu iv V A). intros i j Hi Hj. unfold shom.
  apply Rmult_le_pos; [left; apply scw_pos; assumption|apply F; assumption].
Qed.
Lemma surf_sum_lin s x y z w f g h u v :
  surf_sum s (fun i j => x * f i j + y * g i j + z * h i j + w)%R u v =
  (x * surf_sum s f u v + y * surf_sum s g u v + z * surf_sum s h u v + w * surf_den s u v)%R.
Proof.
  unfold surf_den, surf_sum. rewrite <- !sumZ_scal, <- !sumZ_plus. apply sumZ_ext. intros j Hj.
  rewrite <- !(Rmult_comm (sumZ _ _ _)).
  transitivity (basis (ns_knotsV s) (Z.to_nat (ns_degV s)) j v * (x * sumZ (fun i => basis (ns_knotsU s) (Z.to_nat (ns_degU s)) i u * scw s i j * f i j) 0 (Z.to_nat (ns_nbU s))
    + y * sumZ (fun i => basis (ns_knotsU s) (Z.to_nat (ns_degU s)) i u * scw s i j * g i j) 0 (Z.to_nat (ns_nbU s))
    + z * sumZ (fun i => basis (ns_knotsU s) (Z.to_nat (ns_degU s)) i u * scw s i j * h i j) 0 (Z.to_nat (ns_nbU s))
    + w * sumZ (fun i => basis (ns_knotsU s) (Z.to_nat (ns_degU s)) i u * scw s i j * 1) 0 (Z.to_nat (ns_nbU s))))%R; [|ring].
  rewrite Rmult_comm. f_equal. rewrite <- !sumZ_scal, <- !sumZ_plus. apply sumZ_ext. intros i Hi. ring.
Qed.

Lemma load_row_ok s iu j tp tw : svalid s -> ns_degU s <= iu < ns_nbU s -> 0 <= j < ns_nbV s ->
  ns_degU s + 1 <= vsize tp -> ns_degU s + 1 <= vsize tw ->
  exists tp' tw', ns_load_row s iu j (tp, tw) = Ok (tp', tw') /\ vsize tp' = vsize tp /\ vsize tw' = vsize tw /\
    (forall k, 0 <= k <= ns_degU s -> vget tp' k = Ok (mkP (shom s (sX s) (k + iu - ns_degU s) j) (shom s (sY s) (k + iu - ns_degU s) j) (shom s (sZ s) (k + iu - ns_degU s) j))) /\
    (forall k, 0 <= k <= ns_degU s -> vget tw' k = Ok (scw s (k + iu - ns_degU s) j)).
Proof.
  intros V Hi Hj ST SW. pose proof V as [V1 [V2 [CU _]]]. set (p := ns_degU s) in *. unfold ns_load_row. fold p.
  match goal with |- context [for_ 0 (p + 1) ?b _] =>
  destruct (for_inv (fun m t => vsize (fst t) = vsize tp /\ vsize (snd t) = vsize tw /\
     (forall k, 0 <= k < m -> vget (fst t) k = Ok (mkP (shom s (sX s) (k + iu - p) j) (shom s (sY s) (k + iu - p) j) (shom s (sZ s) (k + iu - p) j))) /\
     (forall k, 0 <= k < m -> vget (snd t) k = Ok (scw s (k + iu - p) j))) 0 (p + 1) b (tp, tw)) as [[tp' tw'] [E [I1 [I2 [I3 I4]]]]] end.
  - destruct CU; lia.
  - cbn [fst snd]. repeat split; intros; lia.
  - intros m [t w] Hm [J1 [J2 [J3 J4]]]. cbn [fst snd] in *. cbv zeta.
    rewrite (massert_true (0 <=? m + iu - p)) by (apply Z.leb_le; lia). cbn [bind].
    rewrite (massert_true (m + iu - p <? ns_nbU s)) by (apply Z.ltb_lt; lia). cbn [bind].
    pose proof (svalid_idx s (m + iu - p) j ltac:(lia) Hj).
    rewrite (vget_nth (ns_weights s) 0%R) by lia. cbn [bind].
    match goal with |- context [vset w m ?x] => pose proof (vset_in_range w m x ltac:(lia)) as EW end. rewrite EW. cbn [bind].
    rewrite (vget_nth (ns_points s) O3) by lia. cbn [bind].
    match goal with |- context [vset t m ?x] => pose proof (vset_in_range t m x ltac:(lia)) as ET end. rewrite ET. cbn [bind].
    eexists. split; [reflexivity|]. cbn [fst snd].
    split; [rewrite (vset_size _ _ _ _ ET); exact J1|]. split; [rewrite (vset_size _ _ _ _ EW); exact J2|].
    split; intros k Hk; [rewrite (vget_vset _ _ _ _ k ET)|rewrite (vget_vset _ _ _ _ k EW)]; destruct (Z.eqb_spec k m) as [->|]; try reflexivity; [apply J3|apply J4]; lia.
  - exists tp', tw'. split; [exact E|]. cbn [fst snd] in *. split; [exact I1|]. split; [exact I2|]. split; intros; [apply I3|apply I4]; lia.
Qed.

Definition swith_temps (s : NurbsSurface R) a b c d := mkNS (ns_degU s) (ns_degV s) (ns_nbU s) (ns_nbV s) (ns_closedU s) (ns_closedV s) (ns_knotsU s) (ns_knotsV s)
  (ns_weights s) (ns_points s) a b c d.

Lemma sevaluate_ok s u v : svalid s -> (0 <= u <= 1)%R -> (0 <= v <= 1)%R -> exists s',
  ns_evaluate s u v = Ok (surf_at s u v, s') /\ same_sdata s s' /\ svalid s'.
Proof.
  intros V HU HV. destruct (svalid_span s u v V HU HV) as [iu [iv [E1 [B1 [I1 [E2 [B2 I2]]]]]]].
  assert (at_spans s u v iu iv) as A by (split; [|split; [|split]]; assumption).
  pose proof V as [V1 [V2 [CU [CV [F [T1 [T2 [T3 T4]]]]]]]]. pose proof CU as [C1 [C2 _]]. pose proof CV as [C1' [C2' _]].
  destruct (in_span_lt _ _ _ I1) as [D1 _]. destruct (in_span_lt _ _ _ I2) as [D2 _].
  pose proof (clamped_gap _ _ _ _ CU B1 D1) as G1. pose proof (clamped_gap _ _ _ _ CV B2 D2) as G2.
  unfold ns_evaluate. rewrite V1, V2, Z.eqb_refl. cbn [massert bind]. rewrite E1, E2. cbn [bind].
  rewrite (massert_true (ns_nbU s =? vsize (ns_knotsU s) - ns_degU s - 1)) by (apply Z.eqb_eq; lia).
  rewrite (massert_true (ns_nbV s =? vsize (ns_knotsV s) - ns_degV s - 1)) by (apply Z.eqb_eq; lia).
  cbn [massert bind].
  match goal with |- context [for_ 0 (ns_degV s + 1) ?b _] =>
  destruct (for_inv (fun m t => let '(tU, tV) := t in
     ns_degU s + 1 <= vsize (fst tU) /\ ns_degU s + 1 <= vsize (snd tU) /\ vsize (fst tV) = vsize (ns_tpV s) /\ vsize (snd tV) = vsize (ns_twV s) /\
     (forall k, 0 <= k < m -> vget (fst tV) k = Ok (mkP (udb s (shom s (sX s)) u iu (k + iv - ns_degV s)) (udb s (shom s (sY s)) u iu (k + iv - ns_degV s)) (udb s (shom s (sZ s)) u iu (k + iv - ns_degV s)))) /\
     (forall k, 0 <= k < m -> vget (snd tV) k = Ok (udb s (scw s) u iu (k + iv - ns_degV s))))
     0 (ns_degV s + 1) b ((ns_tpU s, ns_twU s), (ns_tpV s, ns_twV s))) as [[[tpU twU] [tpV twV]] [E [J1 [J2 [J3 [J4 [J5 J6]]]]]]] end.
  - lia.
  - cbn [fst snd]. repeat split; try assumption; intros; lia.
  - intros m [[a b] [c d]] Hm [K1 [K2 [K3 [K4 [K5 K6]]]]]. cbn [fst snd] in *. cbv zeta.
    rewrite (massert_true (0 <=? m + iv - ns_degV s)) by (apply Z.leb_le; lia). cbn [bind].
    rewrite (massert_true (m + iv - ns_degV s <? ns_nbV s)) by (apply Z.ltb_lt; lia). cbn [bind].
    destruct (load_row_ok s iu (m + iv - ns_degV s) a b V B1 ltac:(lia) K1 K2) as [a' [b' [EL [S1 [S2 [H1 H2]]]]]]. rewrite EL. cbn [bind].
    destruct (deboor_ok (ns_knotsU s) (ns_degU s) iu u (fun i => shom s (sX s) i (m + iv - ns_degV s)) (fun i => shom s (sY s) i (m + iv - ns_degV s))
       (fun i => shom s (sZ s) i (m + iv - ns_degV s)) (fun i => scw s i (m + iv - ns_degV s)) a' b') as [a2 [b2 [ED [S3 [S4 [H3 H4]]]]]]; try lia; try assumption.
    rewrite ED. cbn [bind fst snd]. rewrite H3. cbn [bind].
    match goal with |- context [vset c m ?x] => pose proof (vset_in_range c m x ltac:(lia)) as EC end. rewrite EC. cbn [bind]. rewrite H4. cbn [bind].
    match goal with |- context [vset d m ?x] => pose proof (vset_in_range d m x ltac:(lia)) as EDD end. rewrite EDD. cbn [bind].
    eexists. split; [reflexivity|]. cbv beta iota. cbn [fst snd].
    split; [lia|]. split; [lia|]. split; [rewrite (vset_size _ _ _ _ EC); exact K3|]. split; [rewrite (vset_size _ _ _ _ EDD); exact K4|].
    split; intros k Hk; [rewrite (vget_vset _ _ _ _ k EC)|rewrite (vget_vset _ _ _ _ k EDD)]; destruct (Z.eqb_spec k m) as [->|]; try reflexivity; [apply K5|apply K6]; lia.
  - rewrite E. cbn [bind fst snd] in *.
    destruct (deboor_ok (ns_knotsV s) (ns_degV s) iv v (udb s (shom s (sX s)) u iu) (udb s (shom s (sY s)) u iu) (udb s (shom s (sZ s)) u iu) (udb s (scw s) u iu) tpV twV) as [a [b [ED [S3 [S4 [H3 H4]]]]]]; try lia; try assumption.
    { intros j Hj. apply J5. lia. }
    { intros j Hj. apply J6. lia. }
    rewrite ED. cbn [bind fst snd]. rewrite H3, H4. cbn [bind].
    pose proof (sdb_pos s u v iu iv V A) as P.
    rewrite pdiv_R by (unfold sdb in P; lra). cbn [bind].
    eexists. split.
    { f_equal. f_equal. unfold surf_at, surf_den. rewrite !(surf_sum_sdb s _ u v iu iv V A). unfold hpt. cbn [px py pz].
      assert (sdb s (shom s (fun _ _ => 1%R)) u v iu iv = sdb s (scw s) u v iu iv) as ->.
      { unfold sdb. apply db_ext. intros j Hj. unfold udb. apply db_ext. intros i Hi. unfold shom. ring. }
      reflexivity. }
    split; [repeat split|]. unfold svalid. cbn [ns_points ns_weights ns_degU ns_degV ns_nbU ns_nbV ns_knotsU ns_knotsV ns_tpU ns_tpV ns_twU ns_twV].
    repeat (split; [assumption|]). repeat split; lia.
Qed.

Lemma ns_evaluate_formula s u v : svalid s -> (0 <= u <= 1)%R -> (0 <= v <= 1)%R -> spoint_of (ns_evaluate s u v) = Ok (surf_at s u v).
Proof. intros V HU HV. destruct (sevaluate_ok s u v V HU HV) as [s' [E _]]. rewrite E. reflexivity. Qed.

(** ** Convex hull, affine maps *)
Lemma surf_hull s u v n d : svalid s -> (0 <= u <= 1)%R -> (0 <= v <= 1)%R ->
  (forall i j, 0 <= i < ns_nbU s -> 0 <= j < ns_nbV s -> (dot3 n (scp s i j) <= d)%R) -> (dot3 n (surf_at s u v) <= d)%R.
Proof.
  intros V HU HV H. pose proof (surf_den_pos s u v V HU HV) as P.
  pose proof (surf_sum_nonneg s (fun i j => (- px n) * px (scp s i j) + (- py n) * py (scp s i j) + (- pz n) * pz (scp s i j) + d)%R u v V HU HV) as Q.
  rewrite surf_sum_lin in Q. specialize (Q ltac:(intros i j Hi Hj; pose proof (H i j Hi Hj) as K; unfold dot3 in K; lra)).
  unfold dot3, surf_at. cbn [px py pz]. apply (Rmult_le_reg_r (surf_den s u v)); [exact P|].
  match goal with |- (?L <= _)%R => replace L with (px n * surf_sum s (fun i j => px (scp s i j)) u v + py n * surf_sum s (fun i j => py (scp s i j)) u v + pz n * surf_sum s (fun i j => pz (scp s i j)) u v)%R end.
  - lra.
  - field. lra.
Qed.

Lemma svalid_map s f : svalid s -> svalid (ns_apply_transform s f).
Proof. intros V. unfold svalid, ns_apply_transform, ns_points_ref, ns_set_points. cbn [ns_points ns_weights ns_degU ns_degV ns_nbU ns_nbV ns_knotsU ns_knotsV ns_tpU ns_tpV ns_twU ns_twV]. rewrite vsize_map. exact V. Qed.
Lemma scp_map s f i j : svalid s -> 0 <= i < ns_nbU s -> 0 <= j < ns_nbV s -> scp (ns_apply_transform s f) i j = f (scp s i j).
Proof.
  intros V Hi Hj. pose proof (svalid_idx s i j Hi Hj) as B. destruct V as [V1 _]. unfold scp. cbn [ns_apply_transform ns_points_ref ns_set_points ns_points ns_nbU].
  pose proof (vget_map f (ns_points s) (i + ns_nbU s * j)) as E. rewrite (vget_nth (ns_points s) O3) in E by lia. rewrite (vget_nth (map f (ns_points s)) O3) in E by (rewrite vsize_map; lia). cbn [bind] in E. congruence.
Qed.
Lemma surf_sum_map s f g u v : surf_sum (ns_apply_transform s f) g u v = surf_sum s g u v.
Proof. reflexivity. Qed.
Lemma surf_affine s f u v : svalid s -> (0 <= u <= 1)%R -> (0 <= v <= 1)%R -> affine3 f ->
  surf_at (ns_apply_transform s f) u v = f (surf_at s u v).
Proof.
  intros V HU HV [a [b [c [d H]]]]. pose proof (surf_den_pos s u v V HU HV) as P.
  unfold surf_at at 1. unfold surf_den. rewrite !surf_sum_map. fold (surf_den s u v).
  rewrite H. unfold add3, scal3, surf_at. cbn [px py pz].
  f_equal.
  - rewrite (surf_sum_ext s _ (fun i j => px a * px (scp s i j) + px b * py (scp s i j) + px c * pz (scp s i j) + px d)%R); [rewrite surf_sum_lin; field; lra|].
    intros i j Hi Hj. rewrite (scp_map s f i j V Hi Hj), H. cbn. ring.
  - rewrite (surf_sum_ext s _ (fun i j => py a * px (scp s i j) + py b * py (scp s i j) + py c * pz (scp s i j) + py d)%R); [rewrite surf_sum_lin; field; lra|].
    intros i j Hi Hj. rewrite (scp_map s f i j V Hi Hj), H. cbn. ring.
  - rewrite (surf_sum_ext s _ (fun i j => pz a * px (scp s i j) + pz b * py (scp s i j) + pz c * pz (scp s i j) + pz d)%R); [rewrite surf_sum_lin; field; lra|].
    intros i j Hi Hj. rewrite (scp_map s f i j V Hi Hj), H. cbn. ring.
Qed.

(** ** Corners and borders *)
Lemma db_first ks p n f i : clamped ks p n -> p <= i < n -> in_span ks i 0 -> db (kn ks) f p (repeat 0%R (Z.to_nat p)) i = f (i - p).
Proof.
  intros C B I. destruct (in_span_lt _ _ _ I) as [D [L U]]. pose proof (clamped_gap _ _ _ _ C B D) as G. pose proof C as [C1 [C2 [C3 [C4 C5]]]].
  apply (db_dual _ f _ i G (i - p)); [lia|].
  replace (repeat 0%R (Z.to_nat p)) with (kseq (kn ks) (i - p + 1) (Z.to_nat p)); [reflexivity|].
  rewrite (kseq_ext _ (fun _ => 0%R)). { clear. generalize (i - p + 1). induction (Z.to_nat p); intros a; cbn; [reflexivity|f_equal; apply IHn]. }
  intros j Hj. pose proof (C3 0 j ltac:(lia) ltac:(lia)). pose proof (C3 j i ltac:(lia) ltac:(lia)). rewrite (C4 0) in * by lia. lra.
Qed.
Lemma db_last ks p n f i : clamped ks p n -> p <= i < n -> in_span ks i 1 -> db (kn ks) f p (repeat 1%R (Z.to_nat p)) i = f i.
Proof.
  intros C B I. destruct (in_span_lt _ _ _ I) as [D [L U]]. pose proof (clamped_gap _ _ _ _ C B D) as G. pose proof C as [C1 [C2 [C3 [C4 C5]]]].
  apply (db_dual _ f _ i G i); [lia|].
  replace (repeat 1%R (Z.to_nat p)) with (kseq (kn ks) (i + 1) (Z.to_nat p)); [reflexivity|].
  rewrite (kseq_ext _ (fun _ => 1%R)). { clear. generalize (i + 1). induction (Z.to_nat p); intros a; cbn; [reflexivity|f_equal; apply IHn]. }
  intros j Hj. pose proof (C3 (i + 1) j ltac:(lia) ltac:(lia)). pose proof (C3 j (n + p) ltac:(lia) ltac:(lia)). rewrite (C5 (n + p)) in * by lia. lra.
Qed.
Lemma tight_first ks p n i : clamped ks p n -> tight ks p n -> p <= i < n -> in_span ks i 0 -> i = p.
Proof.
  intros C [T1 T2] B I. destruct (in_span_lt _ _ _ I) as [D [L U]]. pose proof C as [C1 [C2 [C3 [C4 C5]]]].
  destruct (Z.eq_dec i p); [assumption|]. pose proof (C3 (p + 1) i ltac:(lia) ltac:(lia)). lra.
Qed.
Lemma tight_last ks p n i : clamped ks p n -> tight ks p n -> p <= i < n -> in_span ks i 1 -> i = n - 1.
Proof.
  intros C [T1 T2] B I. destruct (in_span_lt _ _ _ I) as [D [L U]]. pose proof C as [C1 [C2 [C3 [C4 C5]]]].
  destruct (Z.eq_dec i (n - 1)); [assumption|]. pose proof (C3 (i + 1) (n - 1) ltac:(lia) ltac:(lia)). lra.
Qed.

(** The end of a knot vector: parameter and control point index. *)
Definition end_at (n : Z) (last : bool) : Z := if last then n - 1 else 0.
Definition end_par (last : bool) : R := if last then 1%R else 0%R.
Lemma db_end ks p n f i (b : bool) : clamped ks p n -> tight ks p n -> p <= i < n -> in_span ks i (end_par b) ->
  db (kn ks) f p (repeat (end_par b) (Z.to_nat p)) i = f (end_at n b).
Proof.
  intros C T B I. destruct b; cbn [end_par end_at] in *.
  - rewrite (db_last ks p n f i C B I). f_equal. exact (tight_last _ _ _ _ C T B I).
  - rewrite (db_first ks p n f i C B I). f_equal. rewrite (tight_first _ _ _ _ C T B I). lia.
Qed.
Lemma surf_corner s bu bv : svalid s -> tight (ns_knotsU s) (ns_degU s) (ns_nbU s) -> tight (ns_knotsV s) (ns_degV s) (ns_nbV s) ->
  spoint_of (ns_evaluate s (end_par bu) (end_par bv)) = Ok (scp s (end_at (ns_nbU s) bu) (end_at (ns_nbV s) bv)).
Proof.
  intros V TU TV.
  assert (forall b, (0 <= end_par b <= 1)%R) as R01 by (intros []; cbn; lra).
  rewrite ns_evaluate_formula by auto. f_equal.
  destruct (svalid_span s (end_par bu) (end_par bv) V (R01 _) (R01 _)) as [iu [iv [_ [B1 [I1 [_ [B2 I2]]]]]]].
  assert (at_spans s (end_par bu) (end_par bv) iu iv) as A by (split; [|split; [|split]]; assumption).
  pose proof V as [_ [_ [CU [CV _]]]].
  assert (forall f, surf_sum s f (end_par bu) (end_par bv) = scw s (end_at (ns_nbU s) bu) (end_at (ns_nbV s) bv) * f (end_at (ns_nbU s) bu) (end_at (ns_nbV s) bv))%R as S.
  { intros f. rewrite (surf_sum_sdb s f _ _ iu iv V A). unfold sdb. rewrite (db_end _ _ _ _ iv bv CV TV B2 I2). unfold udb. rewrite (db_end _ _ _ _ iu bu CU TU B1 I1). reflexivity. }
  assert (0 < scw s (end_at (ns_nbU s) bu) (end_at (ns_nbV s) bv))%R as P.
  { apply scw_pos; [exact V| |]; [destruct bu|destruct bv]; cbn [end_at]; destruct CU, CV; lia. }
  unfold surf_at, surf_den. rewrite !S. destruct (scp s (end_at (ns_nbU s) bu) (end_at (ns_nbV s) bv)) as [x y z]. cbn [px py pz]. f_equal; field; lra.
Qed.
