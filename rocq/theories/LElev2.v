(** Degree elevation: exactly which curves and surfaces keep their shape; concrete curves that do not. *)
From Coq Require Import ZArith List Bool Reals Lra Lia Psatz.
From Verif Require Import Base Num MGeometry MNurbs MNurbsSurface MNurbsFactory SGeom SNurbs SSurface LBase LBlossom LNurbs LNurbs2 LNurbs3 LNurbs4 LNurbs5 LNurbs6 LNurbsEx LSurf LSurf2 LSurf3 LFactory LSurfFinal LElev.
Import ListNotations.
Open Scope Z_scope.

Lemma regular_dec ks p n : regular ks p n \/ ~ regular ks p n.
Proof.
  assert (forall m : nat, (forall j, 1 <= j <= Z.of_nat m -> (kn ks j < kn ks (j + p)%Z)%R) \/ exists j, 1 <= j <= Z.of_nat m /\ ~ (kn ks j < kn ks (j + p)%Z)%R) as H.
  { induction m as [|m [IH|[j [B IH]]]]; [left; intros; lia| |right; exists j; split; [lia|exact IH]].
    destruct (Rlt_dec (kn ks (Z.of_nat (S m))) (kn ks (Z.of_nat (S m) + p))) as [L|L].
    - left. intros j B. destruct (Z.eq_dec j (Z.of_nat (S m))) as [->|]; [exact L|]. apply IH. lia.
    - right. exists (Z.of_nat (S m)). split; [lia|exact L]. }
  destruct (H (Z.to_nat (n - 1))) as [G|[j [B G]]]; [left; intros j B; apply G; lia|right; intros Q; apply G, Q; lia].
Qed.

Lemma elevation_keeps_iff c : valid c ->
  ((exists c', nc_degree_elevation c = Ok (true, c') /\ forall t, (0 <= t <= 1)%R -> point_of (nc_evaluate c' t) = point_of (nc_evaluate c t)) <->
   ((nc_degree c = 1 \/ nc_degree c = 2) /\ regular (nc_knots c) (nc_degree c) (vsize (nc_points c)))).
Proof.
  intros V. split.
  - intros [c' [E H]]. destruct (V_facts c V) as [D0 _]. destruct (elevation_true c c' true E eq_refl) as [D _].
    assert (~ (nc_degree c = 0 \/ ~ regular (nc_knots c) (nc_degree c) (vsize (nc_points c)))) as NB.
    { intros B. destruct (elevation_lost c V D B) as [[_ [_ E']]|[c2 [E' L]]]; rewrite E in E'; [discriminate|]. injection E' as <-.
      specialize (H 0%R ltac:(lra)). rewrite L in H. rewrite (curve_point c 0%R V ltac:(lra)) in H. discriminate. }
    destruct (regular_dec (nc_knots c) (nc_degree c) (vsize (nc_points c))) as [G|G]; [|tauto]. split; [|exact G]. lia.
  - intros [[D|D] G].
    + destruct (elevate_1 c V D G) as [c' [E [_ [_ [_ H]]]]]. exists c'. auto.
    + destruct (elevate_2_spans c V D G) as [c' [E [_ [_ [_ H]]]]]. exists c'. auto.
Qed.
Lemma surface_u_keeps_iff s : svalid s -> ns_degU s < 3 ->
  ((exists s', ns_degree_elevation_u s = Ok (true, s') /\ forall u v, (0 <= u <= 1)%R -> (0 <= v <= 1)%R -> spoint_of (ns_evaluate s' u v) = spoint_of (ns_evaluate s u v)) <->
   (1 <= ns_degU s /\ regular (ns_knotsU s) (ns_degU s) (ns_nbU s))).
Proof.
  intros V D. split.
  - intros [s' [E H]]. pose proof V as [_ [_ [[C _] _]]].
    assert (~ (ns_degU s = 0 \/ ~ regular (ns_knotsU s) (ns_degU s) (ns_nbU s))) as NB.
    { intros B. destruct (lost_u s V D B) as [[_ [_ E']]|[c2 [E' L]]]; rewrite E in E'; [discriminate|]. injection E' as <-.
      specialize (H 0%R 0%R ltac:(lra) ltac:(lra)). rewrite L in H. rewrite (ns_evaluate_formula s 0%R 0%R V ltac:(lra) ltac:(lra)) in H. discriminate. }
    destruct (regular_dec (ns_knotsU s) (ns_degU s) (ns_nbU s)) as [G|G]; [|tauto]. split; [lia|exact G].
  - intros [D1 G]. destruct (elevate_u_ok s V ltac:(lia) G) as [s' [E [_ [_ [_ [_ H]]]]]]. exists s'. auto.
Qed.
Lemma surface_v_keeps_iff s : svalid s -> ns_degV s < 3 ->
  ((exists s', ns_degree_elevation_v s = Ok (true, s') /\ forall u v, (0 <= u <= 1)%R -> (0 <= v <= 1)%R -> spoint_of (ns_evaluate s' u v) = spoint_of (ns_evaluate s u v)) <->
   (1 <= ns_degV s /\ regular (ns_knotsV s) (ns_degV s) (ns_nbV s))).
Proof.
  intros V D. split.
  - intros [s' [E H]]. pose proof V as [_ [_ [_ [[C _] _]]]].
    assert (~ (ns_degV s = 0 \/ ~ regular (ns_knotsV s) (ns_degV s) (ns_nbV s))) as NB.
    { intros B. destruct (lost_v s V D B) as [[_ [_ E']]|[c2 [E' L]]]; rewrite E in E'; [discriminate|]. injection E' as <-.
      specialize (H 0%R 0%R ltac:(lra) ltac:(lra)). rewrite L in H. rewrite (ns_evaluate_formula s 0%R 0%R V ltac:(lra) ltac:(lra)) in H. discriminate. }
    destruct (regular_dec (ns_knotsV s) (ns_degV s) (ns_nbV s)) as [G|G]; [|tauto]. split; [lia|exact G].
  - intros [D1 G]. destruct (elevate_v_ok s V ltac:(lia) G) as [s' [E [_ [_ [_ [_ H]]]]]]. exists s'. auto.
Qed.

(** ** Concrete curves *)
(** Degree 2, first knot five times: the elevation divides by zero.  Degree 2, triple interior knot: the curve is lost. *)
Definition zeros5 : NurbsCurve R := mkNC 2 [0; 0; 0; 0; 0; 1 / 2; 1; 1; 1]%R [1; 1; 1; 1; 1; 1]%R
  [mkP 0 0 0; mkP 1 0 0; mkP 2 0 0; mkP 3 1 0; mkP 4 2 0; mkP 5 1 0]%R 6 [O3; O3; O3] [0; 0; 0]%R.
Definition halves3 : NurbsCurve R := mkNC 2 [0; 0; 0; 1 / 2; 1 / 2; 1 / 2; 1; 1; 1]%R [1; 1; 1; 1; 1; 1]%R
  [mkP 0 0 0; mkP 1 0 0; mkP 2 0 0; mkP 3 1 0; mkP 4 2 0; mkP 5 1 0]%R 6 [O3; O3; O3] [0; 0; 0]%R.

Ltac idx9 i := let H := fresh in assert (i = 0 \/ i = 1 \/ i = 2 \/ i = 3 \/ i = 4 \/ i = 5 \/ i = 6 \/ i = 7 \/ i = 8) as H by lia;
  destruct H as [->|[->|[->|[->|[->|[->|[->|[->| ->]]]]]]]].
Lemma zeros5_valid : valid zeros5.
Proof.
  unfold valid, zeros5. cbn [nc_degree nc_knots nc_weights nc_points nc_nb nc_tp nc_tw]. change (vsize (_ :: _ :: _ :: _ :: _ :: [mkP 5 1 0]%R)) with 6.
  split; [reflexivity|]. split; [reflexivity|]. split; [|split; [repeat constructor; lra|split; vm_compute; discriminate]].
  split; [lia|]. split; [reflexivity|]. split; [|split].
  - intros i j Hi Hj. idx9 i; idx9 j; try lia; unfold kn, Z.to_nat, Pos.to_nat; cbn; lra.
  - intros i Hi. idx9 i; try lia; reflexivity.
  - intros i Hi. idx9 i; try lia; reflexivity.
Qed.
Lemma halves3_valid : valid halves3.
Proof.
  unfold valid, halves3. cbn [nc_degree nc_knots nc_weights nc_points nc_nb nc_tp nc_tw]. change (vsize (_ :: _ :: _ :: _ :: _ :: [mkP 5 1 0]%R)) with 6.
  split; [reflexivity|]. split; [reflexivity|]. split; [|split; [repeat constructor; lra|split; vm_compute; discriminate]].
  split; [lia|]. split; [reflexivity|]. split; [|split].
  - intros i j Hi Hj. idx9 i; idx9 j; try lia; unfold kn, Z.to_nat, Pos.to_nat; cbn; lra.
  - intros i Hi. idx9 i; try lia; reflexivity.
  - intros i Hi. idx9 i; try lia; reflexivity.
Qed.
Ltac reqs := repeat match goal with |- context [Reqb ?a ?b] =>
  first [assert (Reqb a b = true) as -> by (unfold Reqb; destruct (Req_EM_T a b); [reflexivity|lra])
        |assert (Reqb a b = false) as -> by (unfold Reqb; destruct (Req_EM_T a b); [lra|reflexivity])] end.
Lemma zeros5_div : nc_degree_elevation zeros5 = Err FDivZero.
Proof.
  unfold nc_degree_elevation. change (3 <=? nc_degree zeros5) with false. cbn [nc_knots zeros5].
  assert (elevate_knots (T := R) [0; 0; 0; 0; 0; 1 / 2; 1; 1; 1]%R = Ok ([0; 0; 0; 0; 0; 0; 1 / 2; 1 / 2; 1; 1; 1; 1]%R, [5; 1; 3])) as ->.
  { set (h := (1 / 2)%R). assert (0 < h < 1)%R by (unfold h; lra). clearbody h. cbv -[Reqb IZR]. reqs. reflexivity. }
  cbn [bind]. change (nc_degree zeros5 =? 1) with false. change (nc_degree zeros5 =? 2) with true. cbv iota.
  assert (elevate2 zeros5 [5; 1; 3] = Err FDivZero) as ->; [|reflexivity].
  cbv -[Req_EM_T Rdiv Rmult Rplus Rminus Ropp IZR].
  repeat match goal with |- context [Req_EM_T ?a ?b] => destruct (Req_EM_T a b); [try (exfalso; lra)|try (exfalso; lra)] end; reflexivity.
Qed.
Lemma halves3_irregular : ~ regular (nc_knots halves3) 2 6.
Proof. intros G. specialize (G 3 ltac:(lia)). revert G. unfold kn, halves3. cbn [nc_knots]. change (Z.to_nat 3) with 3%nat. change (Z.to_nat (3 + 2)) with 5%nat. cbn [nth]. lra. Qed.
Lemma halves3_lost : exists c', nc_degree_elevation halves3 = Ok (true, c') /\ forall t, nc_evaluate c' t = Err FAssert.
Proof.
  destruct (elevation_lost halves3 halves3_valid) as [[_ [E _]]|H]; [cbn; lia| | |exact H].
  - right. exact halves3_irregular.
  - exfalso. revert E. unfold kn, halves3. cbn [nc_knots]. change (Z.to_nat 3) with 3%nat. cbn [nth]. lra.
Qed.

(** Extrusions of these curves: valid surfaces. *)
Lemma strip_u c : valid c -> exists s, ne_extrude c (mkP 0 0 1)%R ns_new = Ok s /\ svalid s /\ ns_degU s = nc_degree c /\ ns_knotsU s = nc_knots c /\ ns_nbU s = vsize (nc_points c).
Proof. intros V. destruct (extrude_ok c (mkP 0 0 1)%R ns_new V) as [s [E [VS [[_ [D [K [N _]]]] _]]]]. exists s. auto. Qed.
Lemma strip_halves3 : exists s s', ne_extrude halves3 (mkP 0 0 1)%R ns_new = Ok s /\ svalid s /\ ns_degree_elevation_u s = Ok (true, s') /\ forall u v, ns_evaluate s' u v = Err FAssert.
Proof.
  destruct (strip_u halves3 halves3_valid) as [s [E [V [D [K N]]]]]. exists s.
  destruct (lost_u s V) as [[_ [H _]]|[s' [E' H]]].
  - rewrite D. cbn. lia.
  - right. rewrite D, K, N. exact halves3_irregular.
  - exfalso. revert H. rewrite K. unfold kn, halves3. cbn [nc_knots]. change (Z.to_nat 3) with 3%nat. cbn [nth]. lra.
  - exists s'. auto.
Qed.
