(** Surfaces of revolution. *)
From Coq Require Import ZArith List Bool Reals Lra Lia Permutation Psatz.
From Verif Require Import Base Num MGeometry MNurbs MNurbsSurface MNurbsFactory SGeom SNurbs SSurface LBase LBlossom LNurbs LNurbs2 LNurbs3 LSurf LSurf2.
Import ListNotations.
Open Scope Z_scope.

(** ** Concrete knot vectors *)
Lemma adjacent_sorted ks : (forall i, 0 <= i -> i + 1 < vsize ks -> (kn ks i <= kn ks (i + 1))%R) -> sorted ks.
Proof.
  intros H i j Hi. replace j with (i + Z.of_nat (Z.to_nat (j - i))) by lia. induction (Z.to_nat (j - i)); intros L.
  - replace (i + Z.of_nat 0) with i by lia. lra.
  - specialize (IHn ltac:(lia)). specialize (H (i + Z.of_nat n) ltac:(lia) ltac:(lia)). replace (i + Z.of_nat (S n)) with (i + Z.of_nat n + 1) by lia. lra.
Qed.
Lemma clamped_of ks p n : 0 <= p < n -> vsize ks = n + p + 1 -> (forall i, 0 <= i -> i + 1 < vsize ks -> (kn ks i <= kn ks (i + 1))%R) ->
  (forall i, 0 <= i <= p -> kn ks i = 0%R) -> (forall i, n <= i <= n + p -> kn ks i = 1%R) -> clamped ks p n.
Proof.
  intros H1 H2 H3 H4 H5. split; [exact H1|]. split; [exact H2|]. split; [|split; assumption]. intros i j Hi Hj. apply (adjacent_sorted ks H3); [exact Hi|]. rewrite H2. exact Hj.
Qed.
Ltac kcase := unfold kn, Z.to_nat, Pos.to_nat; cbn; lra.

Definition ck : list R := [0; 0; 0; 1 / 4; 1 / 4; 1 / 2; 1 / 2; 3 / 4; 3 / 4; 1; 1; 1]%R.
Lemma ck_circle : @circle_knots R RNum = ck.
Proof. reflexivity. Qed.
Lemma ck_clamped : clamped ck 2 9.
Proof.
  apply clamped_of; [lia|reflexivity| | |].
  - intros i H1 H2. change (vsize ck) with 12 in H2.
    assert (i = 0 \/ i = 1 \/ i = 2 \/ i = 3 \/ i = 4 \/ i = 5 \/ i = 6 \/ i = 7 \/ i = 8 \/ i = 9 \/ i = 10) as K by lia.
    repeat (destruct K as [->|K]; [unfold ck; kcase|]). subst i. unfold ck. kcase.
  - intros i H. assert (i = 0 \/ i = 1 \/ i = 2) as K by lia. repeat (destruct K as [->|K]; [reflexivity|]). subst i. reflexivity.
  - intros i H. assert (i = 9 \/ i = 10 \/ i = 11) as K by lia. repeat (destruct K as [->|K]; [reflexivity|]). subst i. reflexivity.
Qed.
(** The four quarters of the circle knots. *)
Lemma ck_span i t : 2 <= i < 9 -> in_span ck i t -> exists q, 0 <= q < 4 /\ i = 2 + 2 * q /\
  kn ck (i - 1) = (IZR q / 4)%R /\ kn ck i = (IZR q / 4)%R /\ kn ck (i + 1) = (IZR (q + 1) / 4)%R /\ kn ck (i + 2) = (IZR (q + 1) / 4)%R.
Proof.
  intros B I. destruct (in_span_lt _ _ _ I) as [L _].
  assert (i = 2 \/ i = 3 \/ i = 4 \/ i = 5 \/ i = 6 \/ i = 7 \/ i = 8) as K by lia.
  destruct K as [->|[->|[->|[->|[->|[->| ->]]]]]]; unfold ck, kn, Z.to_nat, Pos.to_nat in *; cbn in *; try (exfalso; lra).
  - exists 0. repeat split; try lia; unfold Z.to_nat, Pos.to_nat; cbn; lra.
  - exists 1. repeat split; try lia; unfold Z.to_nat, Pos.to_nat; cbn; lra.
  - exists 2. repeat split; try lia; unfold Z.to_nat, Pos.to_nat; cbn; lra.
  - exists 3. repeat split; try lia; unfold Z.to_nat, Pos.to_nat; cbn; lra.
Qed.

Lemma db_bez2 k f i a b t : k (i - 1) = a -> k i = a -> k (i + 1) = b -> k (i + 2) = b -> (a < b)%R ->
  let s := ((t - a) / (b - a))%R in
  (db k f 2 [t; t] i = (1 - s) * (1 - s) * f (i - 2)%Z + 2 * s * (1 - s) * f (i - 1)%Z + s * s * f i)%R.
Proof.
  intros K1 K2 K3 K4 L s. cbn [db length Z.of_nat Pos.of_succ_nat]. replace (i + 2 - 1) with (i + 1) by lia. replace (i - 1 + 2 - 0) with (i + 1) by lia. replace (i + 2 - 0) with (i + 2) by lia. replace (i - 1 - 1) with (i - 2) by lia.
  rewrite K1, K2, K3, K4. fold s. ring.
Qed.

(** ** Appending blocks of equal size *)
Lemma append_blocks {A B} (fa : Z -> list A) (fb : Z -> list B) m n body : 0 <= n -> 0 <= m ->
  (forall j, 0 <= j < n -> vsize (fa j) = m /\ vsize (fb j) = m) ->
  (forall j pw, 0 <= j < n -> body j pw = Ok (fst pw ++ fa j, snd pw ++ fb j)) ->
  exists P W, for_ 0 n body ([], []) = Ok (P, W) /\ vsize P = m * n /\ vsize W = m * n /\
    forall i j, 0 <= i < m -> 0 <= j < n -> vget P (i + m * j) = vget (fa j) i /\ vget W (i + m * j) = vget (fb j) i.
Proof.
  intros N0 M0 S HB.
  destruct (for_inv (fun k pw => vsize (fst pw) = m * k /\ vsize (snd pw) = m * k /\
    forall i j, 0 <= i < m -> 0 <= j < k -> vget (fst pw) (i + m * j) = vget (fa j) i /\ vget (snd pw) (i + m * j) = vget (fb j) i) 0 n body ([], [])) as [[P W] [E [I1 [I2 I3]]]].
  - lia.
  - cbn [fst snd]. split; [cbn; lia|]. split; [cbn; lia|]. intros; lia.
  - intros k [P W] Hk [J1 [J2 J3]]. cbn [fst snd] in *. rewrite HB by lia. cbn [fst snd]. destruct (S k Hk) as [S1 S2].
    eexists. split; [reflexivity|]. cbn [fst snd]. rewrite !vsize_app. split; [lia|]. split; [lia|]. intros i j Hi Hj.
    destruct (Z.eq_dec j k) as [->|].
    + rewrite !vget_app_r by lia. split; f_equal; lia.
    + rewrite !vget_app_l by nia. apply J3; lia.
  - exists P, W. auto.
Qed.

(** ** The revolved surface *)
Definition h2 : R := (1 / sqrt 2)%R.
Lemma sqrt2_pos : (0 < sqrt 2)%R. Proof. apply sqrt_lt_R0. lra. Qed.
Lemma h2_sq : (h2 * h2 = 1 / 2)%R.
Proof. unfold h2. pose proof sqrt2_pos as P. pose proof (sqrt_sqrt 2 ltac:(lra)) as Q. rewrite <- Q at 3. field. lra. Qed.
Lemma h2_pos : (0 < h2)%R. Proof. unfold h2. apply Rdiv_lt_0_compat; [lra|apply sqrt2_pos]. Qed.

Definition rev_of (c : NurbsCurve R) (s : NurbsSurface R) : Prop :=
  svalid s /\ ns_degU s = 2 /\ ns_degV s = nc_degree c /\ ns_nbU s = 9 /\ ns_nbV s = vsize (nc_points c) /\
  ns_knotsU s = ck /\ ns_knotsV s = nc_knots c /\
  forall j, 0 <= j < vsize (nc_points c) -> let ring := revolve_ring (cp c j) (cw c j) (cw c j * h2)%R in
    forall i, 0 <= i < 9 -> scp s i j = nth (Z.to_nat i) (fst ring) O3 /\ scw s i j = nth (Z.to_nat i) (snd ring) 0%R.

Lemma is_closed_ok (c : NurbsCurve R) tol : exists b, nc_is_closed c tol = Ok b.
Proof.
  unfold nc_is_closed. destruct (Z.leb_spec (vsize (nc_points c)) 1); [eexists; reflexivity|].
  destruct (vget_in_range (nc_points c) 0 ltac:(lia)) as [x ->]. destruct (vget_in_range (nc_points c) (vsize (nc_points c) - 1) ltac:(lia)) as [y ->]. eexists. reflexivity.
Qed.

Lemma revolve_ok c s0 : valid c -> exists s, nr_revolve c s0 = Ok s /\ rev_of c s /\ ns_closedU s = true.
Proof.
  intros V. pose proof V as [V1 [V2 [C [F [T1 T2]]]]]. pose proof C as [C1 _]. set (n := vsize (nc_points c)) in *.
  unfold nr_revolve. fold n.
  match goal with |- context [for_ 0 n ?b _] =>
  destruct (append_blocks (fun j => fst (revolve_ring (cp c j) (cw c j) (cw c j * h2)%R)) (fun j => snd (revolve_ring (cp c j) (cw c j) (cw c j * h2)%R)) 9 n b) as [P [W [E [SP [SW G]]]]] end; try lia.
  - intros j Hj. split; reflexivity.
  - intros j pw Hj. destruct (cp_get c j V Hj) as [-> ->]. cbn [bind]. unfold nsqrt, n2, nofZ, ndiv. cbn [RNum].
    pose proof sqrt2_pos. destruct (Rlt_dec 2 0); [lra|]. cbn [bind]. destruct (Req_EM_T (sqrt 2) 0); [lra|]. cbn [bind].
    replace (cw c j / sqrt 2)%R with (cw c j * h2)%R by (unfold h2; field; lra). reflexivity.
  - rewrite E. cbn [bind fst snd].
    destruct (set_degree_s (ns_clear s0) 2 (nc_degree c) ltac:(lia) ltac:(lia)) as [a [b [d [e [ED SS]]]]]. rewrite ED. cbn [bind].
    unfold ns_set_points. cbn [ns_clear ns_degU ns_degV ns_nbU ns_nbV ns_closedU ns_closedV ns_knotsU ns_knotsV ns_weights ns_points ns_tpU ns_tpV ns_twU ns_twV].
    unfold ns_set_knots_u. rewrite ck_circle, (clamped_scale _ _ _ ck_clamped). cbn [bind]. cbn [ns_degU ns_degV ns_nbU ns_nbV ns_closedU ns_closedV ns_knotsU ns_knotsV ns_weights ns_points ns_tpU ns_tpV ns_twU ns_twV]. unfold ns_set_knots_v. rewrite (clamped_scale _ _ _ C). cbn [bind].
    destruct (is_closed_ok c default_tol) as [cl ->]. cbn [bind].
    unfold ns_set_weights. cbn [ns_degU ns_degV ns_nbU ns_nbV ns_closedU ns_closedV ns_knotsU ns_knotsV ns_weights ns_points ns_tpU ns_tpV ns_twU ns_twV]. unfold ns_set_closed_u. cbn [ns_degU ns_degV ns_nbU ns_nbV ns_closedU ns_closedV ns_knotsU ns_knotsV ns_weights ns_points ns_tpU ns_tpV ns_twU ns_twV]. unfold ns_set_closed_v. cbn [ns_degU ns_degV ns_nbU ns_nbV ns_closedU ns_closedV ns_knotsU ns_knotsV ns_weights ns_points ns_tpU ns_tpV ns_twU ns_twV].
    eexists. split; [reflexivity|]. unfold rev_of, svalid, nc_nb_points, scp, scw.
    cbn [ns_degU ns_degV ns_nbU ns_nbV ns_closedU ns_closedV ns_knotsU ns_knotsV ns_weights ns_points ns_tpU ns_tpV ns_twU ns_twV]. fold n.
    split; [|reflexivity]. split; [|repeat (split; [reflexivity|])].
    + split; [exact SP|]. split; [exact SW|]. split; [exact ck_clamped|]. split; [exact C|]. split; [|lia].
      apply Forall_vget. intros k x Gx. pose proof (vget_range _ _ _ Gx) as B. destruct (split_index 9 k ltac:(lia) ltac:(lia)) as [i [j [-> [Bi Bj]]]].
      destruct (G i j Bi ltac:(lia)) as [_ A]. rewrite A in Gx. pose proof (cw_pos c j V ltac:(fold n; lia)) as PW. pose proof h2_pos.
      assert (0 < cw c j * h2)%R as PD by (apply Rmult_lt_0_compat; lra).
      apply vget_In in Gx. cbn in Gx. repeat (destruct Gx as [<-|Gx]; [assumption|]). destruct Gx.
    + intros j Hj i Hi. destruct (G i j Hi Hj) as [A1 A2]. rewrite (vget_nth P O3) in A1 by lia. rewrite (vget_nth W 0%R) in A2 by lia.
      rewrite (vget_nth _ O3) in A1 by (change (vsize (fst (revolve_ring (cp c j) (cw c j) (cw c j * h2)%R))) with 9; lia).
      rewrite (vget_nth _ 0%R) in A2 by (change (vsize (snd (revolve_ring (cp c j) (cw c j) (cw c j * h2)%R))) with 9; lia).
      split; congruence.
Qed.

(** Unnormalised cosine and sine of the quarter arc at local parameter [s]. *)
Definition aD (s : R) : R := ((1 - s) * (1 - s) + 2 * s * (1 - s) * h2 + s * s)%R.
Definition aC (s : R) : R := ((1 - s) * (1 - s) + 2 * s * (1 - s) * h2)%R.
Definition aS (s : R) : R := (2 * s * (1 - s) * h2 + s * s)%R.
Lemma arc_circle s : (aC s * aC s + aS s * aS s = aD s * aD s)%R.
Proof.
  unfold aC, aS, aD. pose proof h2_sq as H. apply Rminus_diag_uniq.
  match goal with |- ?L = _ => replace L with (4 * (s * (1 - s)) * (s * (1 - s)) * (h2 * h2) - 2 * (s * (1 - s)) * (s * (1 - s)))%R by ring end.
  rewrite H. field.
Qed.
Lemma aD_pos s : (0 <= s <= 1)%R -> (0 < aD s)%R.
Proof.
  intros H. unfold aD. pose proof h2_pos as P. assert (0 <= s * (1 - s) * h2)%R by (apply Rmult_le_pos; [apply Rmult_le_pos; lra|lra]).
  assert (0 <= (1 - 2 * s) * (1 - 2 * s))%R by apply Rle_0_sqr. lra.
Qed.

(** Cosine and sine after [q] quarters. *)
Definition qc (q : Z) (s : R) : R := if q =? 0 then aC s else if q =? 1 then (- aS s)%R else if q =? 2 then (- aC s)%R else aS s.
Definition qs (q : Z) (s : R) : R := if q =? 0 then aS s else if q =? 1 then aC s else if q =? 2 then (- aS s)%R else (- aC s)%R.

Lemma rev_sums c s u v q : valid c -> rev_of c s -> (0 <= v <= 1)%R -> 0 <= q < 4 -> 
  in_span ck (2 + 2 * q) u -> kn ck (2 + 2 * q - 1) = (IZR q / 4)%R -> kn ck (2 + 2 * q) = (IZR q / 4)%R ->
  kn ck (2 + 2 * q + 1) = (IZR (q + 1) / 4)%R -> kn ck (2 + 2 * q + 2) = (IZR (q + 1) / 4)%R ->
  let t := ((u - IZR q / 4) / (IZR (q + 1) / 4 - IZR q / 4))%R in
  surf_den s u v = (aD t * nurbs_den c v)%R /\
  surf_sum s (sX s) u v = (qc q t * nurbs_sum c (fun j => px (cp c j)) v + qs q t * nurbs_sum c (fun j => py (cp c j)) v)%R /\
  surf_sum s (sY s) u v = (qc q t * nurbs_sum c (fun j => py (cp c j)) v - qs q t * nurbs_sum c (fun j => px (cp c j)) v)%R /\
  surf_sum s (sZ s) u v = (aD t * nurbs_sum c (fun j => pz (cp c j)) v)%R.
Proof.
  intros V [VS [DU [DV [NU [NV [KU [KV G]]]]]]] HV Q I K1 K2 K3 K4 t.
  destruct (valid_span c v V HV) as [iv [_ [B2 I2]]].
  assert (at_spans s u v (2 + 2 * q) iv) as A by (unfold at_spans; rewrite DU, NU, KU, KV, DV, NV; split; [lia|split; [exact I|split; assumption]]).
  unfold surf_den. rewrite !(surf_sum_sdb s _ u v _ _ VS A). unfold nurbs_den. rewrite !(nurbs_sum_ev c _ v iv V B2 I2).
  assert (forall f j, udb s f u (2 + 2 * q) j = (1 - t) * (1 - t) * f (2 * q)%Z j + 2 * t * (1 - t) * f (2 * q + 1)%Z j + t * t * f (2 * q + 2)%Z j)%R as U.
  { intros f j. unfold udb. rewrite DU, KU. change (repeat u (Z.to_nat 2)) with [u; u].
    rewrite (db_bez2 (kn ck) (fun i => f i j) _ (IZR q / 4)%R (IZR (q + 1) / 4)%R u K1 K2 K3 K4).
    2:{ rewrite plus_IZR. lra. }
    fold t. replace (2 + 2 * q - 2) with (2 * q) by lia. replace (2 + 2 * q - 1) with (2 * q + 1) by lia. replace (2 + 2 * q) with (2 * q + 2) by lia. reflexivity. }
  assert (forall f x y (g h : Z -> R), (forall j, 0 <= j < vsize (nc_points c) -> udb s (shom s f) u (2 + 2 * q) j = (x * (cw c j * g j) + y * (cw c j * h j))%R) ->
     sdb s (shom s f) u v (2 + 2 * q) iv = (x * ev c (fun j => (cw c j * g j)%R) v iv + y * ev c (fun j => (cw c j * h j)%R) v iv)%R) as L.
  { intros f x y g h H. unfold sdb, ev. rewrite KV, DV. rewrite <- db_lin. apply db_ext. rewrite repeat_length. intros j Hj. apply H. pose proof V as [_ [_ [[C1 _] _]]]. lia. }
  assert (q = 0 \/ q = 1 \/ q = 2 \/ q = 3) as QQ by lia.
  split; [|split; [|split]].
  - rewrite (L _ (aD t) 0%R (fun _ => 1%R) (fun _ => 0%R)).
    + ring_simplify. reflexivity.
    + intros j Hj. rewrite U. pose proof (G j Hj) as GJ. cbv zeta in GJ. unfold shom. destruct QQ as [->|[->|[->| ->]]]; 
      match goal with |- context [scw s (?a * ?b + 1) j] => destruct (GJ (a * b) ltac:(lia)) as [_ ->]; destruct (GJ (a * b + 1) ltac:(lia)) as [_ ->]; destruct (GJ (a * b + 2) ltac:(lia)) as [_ ->] end;
      cbn [Z.mul Z.add Pos.mul Pos.add Pos.succ Pos.add_carry]; unfold Z.to_nat, Pos.to_nat; cbn [Pos.iter_op Nat.add nth snd revolve_ring]; unfold aD; ring.
  - apply L. intros j Hj. rewrite U. pose proof (G j Hj) as GJ. cbv zeta in GJ. unfold shom, sX. destruct QQ as [->|[->|[->| ->]]]; 
      match goal with |- context [scw s (?a * ?b + 1) j] => destruct (GJ (a * b) ltac:(lia)) as [-> ->]; destruct (GJ (a * b + 1) ltac:(lia)) as [-> ->]; destruct (GJ (a * b + 2) ltac:(lia)) as [-> ->] end;
      cbn [Z.mul Z.add Pos.mul Pos.add Pos.succ Pos.add_carry]; unfold Z.to_nat, Pos.to_nat; cbn [Pos.iter_op Nat.add nth fst snd revolve_ring]; unfold diag, quarter, padd, qc, qs, aC, aS; cbn; ring.
  - replace (qc q t * ev c (fun j => cw c j * py (cp c j)) v iv - qs q t * ev c (fun j => cw c j * px (cp c j)) v iv)%R with (qc q t * ev c (fun j => cw c j * py (cp c j)) v iv + (- qs q t) * ev c (fun j => cw c j * px (cp c j)) v iv)%R by ring.
    apply L. intros j Hj. rewrite U. pose proof (G j Hj) as GJ. cbv zeta in GJ. unfold shom, sY. destruct QQ as [->|[->|[->| ->]]]; 
      match goal with |- context [scw s (?a * ?b + 1) j] => destruct (GJ (a * b) ltac:(lia)) as [-> ->]; destruct (GJ (a * b + 1) ltac:(lia)) as [-> ->]; destruct (GJ (a * b + 2) ltac:(lia)) as [-> ->] end;
      cbn [Z.mul Z.add Pos.mul Pos.add Pos.succ Pos.add_carry]; unfold Z.to_nat, Pos.to_nat; cbn [Pos.iter_op Nat.add nth fst snd revolve_ring]; unfold diag, quarter, padd, qc, qs, aC, aS; cbn; ring.
  - rewrite (L _ (aD t) 0%R (fun j => pz (cp c j)) (fun _ => 0%R)).
    + ring_simplify. reflexivity.
    + intros j Hj. rewrite U. pose proof (G j Hj) as GJ. cbv zeta in GJ. unfold shom, sZ. destruct QQ as [->|[->|[->| ->]]]; 
      match goal with |- context [scw s (?a * ?b + 1) j] => destruct (GJ (a * b) ltac:(lia)) as [-> ->]; destruct (GJ (a * b + 1) ltac:(lia)) as [-> ->]; destruct (GJ (a * b + 2) ltac:(lia)) as [-> ->] end;
      cbn [Z.mul Z.add Pos.mul Pos.add Pos.succ Pos.add_carry]; unfold Z.to_nat, Pos.to_nat; cbn [Pos.iter_op Nat.add nth fst snd revolve_ring]; unfold diag, quarter, padd, aD; cbn; ring.
Qed.

Lemma quarter_unit q s : (qc q s * qc q s + qs q s * qs q s = aD s * aD s)%R.
Proof. pose proof (arc_circle s). unfold qc, qs. destruct (q =? 0), (q =? 1), (q =? 2); lra. Qed.

(** The quarter that contains [u] and the local parameter. *)
Lemma ck_local u : (0 <= u <= 1)%R -> exists q t, 0 <= q < 4 /\ (0 <= t <= 1)%R /\ in_span ck (2 + 2 * q) u /\
  kn ck (2 + 2 * q - 1) = (IZR q / 4)%R /\ kn ck (2 + 2 * q) = (IZR q / 4)%R /\
  kn ck (2 + 2 * q + 1) = (IZR (q + 1) / 4)%R /\ kn ck (2 + 2 * q + 2) = (IZR (q + 1) / 4)%R /\
  t = ((u - IZR q / 4) / (IZR (q + 1) / 4 - IZR q / 4))%R.
Proof.
  intros U. destruct (clamped_span ck 2 9 u ck_clamped U) as [i [_ [B I]]]. destruct (ck_span i u B I) as [q [Q [-> [K1 [K2 [K3 K4]]]]]].
  destruct (in_span_lt _ _ _ I) as [_ [L R]]. rewrite K2 in L. rewrite K3 in R. rewrite plus_IZR in R.
  exists q, ((u - IZR q / 4) / (IZR (q + 1) / 4 - IZR q / 4))%R. split; [exact Q|]. split; [|auto 10].
  rewrite plus_IZR. replace ((IZR q + 1) / 4 - IZR q / 4)%R with (1 / 4)%R by field. lra.
Qed.

Lemma revolve_turn c s u : valid c -> rev_of c s -> (0 <= u <= 1)%R -> exists cs sn, (cs * cs + sn * sn = 1)%R /\
  forall v, (0 <= v <= 1)%R -> surf_at s u v = turn_z cs sn (nurbs_at c v).
Proof.
  intros V RO U. destruct (ck_local u U) as [q [t [Q [T [I [K1 [K2 [K3 [K4 ET]]]]]]]]]. pose proof (aD_pos t T) as PD.
  exists (qc q t / aD t)%R, (qs q t / aD t)%R. split.
  - pose proof (quarter_unit q t) as E. replace (qc q t / aD t * (qc q t / aD t) + qs q t / aD t * (qs q t / aD t))%R with ((qc q t * qc q t + qs q t * qs q t) / (aD t * aD t))%R by (field; lra). rewrite E. field. lra.
  - intros v HV. destruct (rev_sums c s u v q V RO HV Q I K1 K2 K3 K4) as [E1 [E2 [E3 E4]]]. rewrite <- ET in *.
    destruct (evaluate_nurbs c v V HV) as [PN _]. unfold surf_at. fold (sX s) (sY s) (sZ s). rewrite E1, E2, E3, E4.
    unfold turn_z, nurbs_at. cbn [px py pz]. f_equal; field; lra.
Qed.

(** Every direction of the open quarter is reached. *)
Lemma arc_onto c s : (0 < c)%R -> (0 <= s)%R -> (c * c + s * s = 1)%R -> exists t, (0 <= t < 1)%R /\ (aC t = c * aD t)%R /\ (aS t = s * aD t)%R.
Proof.
  intros HC HS E. assert (c <= 1)%R as C1 by nra. assert (s < 1)%R as S1 by nra.
  set (a := sqrt (1 - c)). set (b := sqrt (1 - s)).
  assert (a * a = 1 - c)%R as EA by (apply sqrt_sqrt; lra). assert (b * b = 1 - s)%R as EB by (apply sqrt_sqrt; lra).
  assert (0 <= a)%R as PA by apply sqrt_pos. assert (0 < b)%R as PB by (apply sqrt_lt_R0; lra).
  assert (2 * h2 * (a * b) = 1 - a * a - b * b)%R as EH.
  { pose proof h2_pos as HP. pose proof h2_sq as HQ.
    assert (0 <= a * b)%R as AB by (apply Rmult_le_pos; lra).
    assert (0 <= 2 * h2 * (a * b))%R as L by (apply Rmult_le_pos; lra).
    assert (0 <= 1 - a * a - b * b)%R as M by (rewrite EA, EB; nra).
    assert ((2 * h2 * (a * b)) * (2 * h2 * (a * b)) = (1 - a * a - b * b) * (1 - a * a - b * b))%R as SQ.
    { replace ((2 * h2 * (a * b)) * (2 * h2 * (a * b)))%R with (4 * (h2 * h2) * ((a * a) * (b * b)))%R by ring. rewrite HQ, EA, EB.
      apply Rminus_diag_uniq. match goal with |- ?L = _ => replace L with (1 - (c * c + s * s))%R by field end. rewrite E. ring. }
    apply Rsqr_inj; [exact L|exact M|exact SQ]. }
  exists (a / (a + b))%R. set (t := (a / (a + b))%R).
  assert (t * (a + b) = a)%R as ET by (unfold t; field; lra). assert ((1 - t) * (a + b) = b)%R as ET' by lra.
  assert (0 < a + b)%R as PS by lra. assert (0 < (a + b) * (a + b))%R as PS2 by nra.
  assert (aD t * ((a + b) * (a + b)) = 1)%R as ED.
  { unfold aD. replace (((1 - t) * (1 - t) + 2 * t * (1 - t) * h2 + t * t) * ((a + b) * (a + b)))%R with
      (((1 - t) * (a + b)) * ((1 - t) * (a + b)) + 2 * h2 * ((t * (a + b)) * ((1 - t) * (a + b))) + (t * (a + b)) * (t * (a + b)))%R by ring.
    rewrite ET, ET', EH. ring. }
  split; [split|split].
  - unfold t. apply Rmult_le_pos; [lra|left; apply Rinv_0_lt_compat; lra].
  - apply (Rmult_lt_reg_r (a + b)); lra.
  - apply (Rmult_eq_reg_r ((a + b) * (a + b))); [|lra]. rewrite Rmult_assoc, ED. unfold aC.
    replace (((1 - t) * (1 - t) + 2 * t * (1 - t) * h2) * ((a + b) * (a + b)))%R with (((1 - t) * (a + b)) * ((1 - t) * (a + b)) + 2 * h2 * ((t * (a + b)) * ((1 - t) * (a + b))))%R by ring.
    rewrite ET, ET', EH. lra.
  - apply (Rmult_eq_reg_r ((a + b) * (a + b))); [|lra]. rewrite Rmult_assoc, ED. unfold aS.
    replace ((2 * t * (1 - t) * h2 + t * t) * ((a + b) * (a + b)))%R with (2 * h2 * ((t * (a + b)) * ((1 - t) * (a + b))) + (t * (a + b)) * (t * (a + b)))%R by ring.
    rewrite ET, ET', EH. lra.
Qed.
Lemma unit_quarter cs sn : (cs * cs + sn * sn = 1)%R -> exists q t, 0 <= q < 4 /\ (0 <= t < 1)%R /\ (qc q t = cs * aD t)%R /\ (qs q t = sn * aD t)%R.
Proof.
  intros E.
  assert ((0 < cs /\ 0 <= sn) \/ (cs <= 0 /\ 0 < sn) \/ (cs < 0 /\ sn <= 0) \/ (0 <= cs /\ sn < 0))%R as K.
  { destruct (Rlt_dec 0 cs), (Rlt_dec 0 sn); try lra; destruct (Rlt_dec cs 0), (Rlt_dec sn 0); try lra; replace cs with 0%R in * by lra; replace sn with 0%R in * by lra; lra. }
  destruct K as [[A B]|[[A B]|[[A B]|[A B]]]].
  - destruct (arc_onto cs sn A B E) as [t [T [E1 E2]]]. exists 0, t. split; [lia|]. split; [exact T|]. split; [exact E1|exact E2].
  - destruct (arc_onto sn (- cs) B ltac:(lra) ltac:(lra)) as [t [T [E1 E2]]]. exists 1, t. split; [lia|]. split; [exact T|]. cbn. lra.
  - destruct (arc_onto (- cs) (- sn) ltac:(lra) ltac:(lra) ltac:(lra)) as [t [T [E1 E2]]]. exists 2, t. split; [lia|]. split; [exact T|]. cbn. lra.
  - destruct (arc_onto (- sn) cs ltac:(lra) A ltac:(lra)) as [t [T [E1 E2]]]. exists 3, t. split; [lia|]. split; [exact T|]. cbn. lra.
Qed.
Lemma ck_at q t : 0 <= q < 4 -> (0 <= t < 1)%R -> let u := ((IZR q + t) / 4)%R in (0 <= u <= 1)%R /\ in_span ck (2 + 2 * q) u /\
  kn ck (2 + 2 * q - 1) = (IZR q / 4)%R /\ kn ck (2 + 2 * q) = (IZR q / 4)%R /\
  kn ck (2 + 2 * q + 1) = (IZR (q + 1) / 4)%R /\ kn ck (2 + 2 * q + 2) = (IZR (q + 1) / 4)%R /\
  t = ((u - IZR q / 4) / (IZR (q + 1) / 4 - IZR q / 4))%R.
Proof.
  intros Q T u. assert (q = 0 \/ q = 1 \/ q = 2 \/ q = 3) as QQ by lia. unfold u. clear u.
  destruct QQ as [->|[->|[->| ->]]]; unfold in_span, ck, kn, Z.to_nat, Pos.to_nat; cbn; (split; [lra|]; split; [left; split; lra|]; repeat (split; [lra|]); field).
Qed.
Lemma revolve_covers c s cs sn : valid c -> rev_of c s -> (cs * cs + sn * sn = 1)%R -> exists u, (0 <= u <= 1)%R /\
  forall v, (0 <= v <= 1)%R -> surf_at s u v = turn_z cs sn (nurbs_at c v).
Proof.
  intros V RO E. destruct (unit_quarter cs sn E) as [q [t [Q [T [EC ES]]]]]. destruct (ck_at q t Q T) as [U [I [K1 [K2 [K3 [K4 ET]]]]]].
  set (u := ((IZR q + t) / 4)%R) in *. exists u. split; [exact U|]. intros v HV. pose proof (aD_pos t ltac:(lra)) as PD.
  destruct (rev_sums c s u v q V RO HV Q I K1 K2 K3 K4) as [E1 [E2 [E3 E4]]]. rewrite <- ET in *.
  destruct (evaluate_nurbs c v V HV) as [PN _]. unfold surf_at. fold (sX s) (sY s) (sZ s). rewrite E1, E2, E3, E4, EC, ES.
  unfold turn_z, nurbs_at. cbn [px py pz]. f_equal; field; lra.
Qed.
