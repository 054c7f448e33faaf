(** Uniform knots and knot insertion. *)
From Coq Require Import ZArith List Bool Reals Lra Lia Permutation Psatz.
From Verif Require Import Base Num MGeometry MNurbs SGeom SNurbs LBase LBlossom LNurbs LNurbs2.
Import ListNotations.
Open Scope Z_scope.

(** ** Loops that push *)
Lemma vget_tab {A} (f : Z -> A) n j : 0 <= j < n -> vget (map f (zrange 0 n)) j = Ok (f j).
Proof.
  intros H. rewrite vget_map. rewrite (vget_nth _ 0).
  2:{ rewrite vsize_zrange. lia. }
  do 2 f_equal. unfold zrange. rewrite (nth_indep _ 0 (0 + Z.of_nat 0)).
  2:{ rewrite map_length, seq_length. lia. }
  rewrite (map_nth (fun k => 0 + Z.of_nat k)). rewrite seq_nth by lia. lia.
Qed.
Lemma vsize_tab {A} (f : Z -> A) n : 0 <= n -> vsize (map f (zrange 0 n)) = n.
Proof. intros. rewrite vsize_map, vsize_zrange. lia. Qed.
Lemma kn_tab f n j : 0 <= j < n -> kn (map f (zrange 0 n)) j = f j.
Proof. intros H. apply kn_of. apply vget_tab. exact H. Qed.

Lemma for_push_pair {A B} (a : Z -> A) (b : Z -> B) n body : 0 <= n ->
  (forall i s, 0 <= i < n -> body i s = Ok (vpush (fst s) (a i), vpush (snd s) (b i))) ->
  for_ 0 n body ([], []) = Ok (map a (zrange 0 n), map b (zrange 0 n)).
Proof.
  intros H0 H. destruct (for_inv (fun i s => s = (map a (zrange 0 i), map b (zrange 0 i))) 0 n body ([], [])) as [s [E ->]].
  - lia.
  - rewrite zrange_empty by lia. reflexivity.
  - intros i s Hi ->. rewrite H by lia. eexists. split; [reflexivity|]. cbn [fst snd].
    rewrite zrange_last by lia. rewrite !map_app. reflexivity.
  - exact E.
Qed.

(** An in-place loop [v[i] = f(i, v[i])]. *)
Lemma for_mapi {A} (f : Z -> A -> res A) (g : Z -> A -> A) (v : list A) (body : Z -> list A -> res (list A)) :
  (forall i x, vget v i = Ok x -> f i x = Ok (g i x)) ->
  (forall i w, body i w = (do x <- vget w i; do y <- f i x; vset w i y)) ->
  exists w, for_ 0 (vsize v) body v = Ok w /\ vsize w = vsize v /\ (forall i x, vget v i = Ok x -> vget w i = Ok (g i x)).
Proof.
  intros H HB.
  destruct (for_inv (fun i w => vsize w = vsize v /\ (forall j x, 0 <= j < i -> vget v j = Ok x -> vget w j = Ok (g j x)) /\
     (forall j, i <= j < vsize v -> vget w j = vget v j)) 0 (vsize v) body v) as [w [E [I1 [I2 I3]]]].
  - apply vsize_nonneg.
  - split; [reflexivity|]. split; [intros; lia|auto].
  - intros i w Hi [J1 [J2 J3]]. destruct (vget_in_range v i Hi) as [x Ex]. rewrite HB. rewrite (J3 i) by lia. rewrite Ex. cbn [bind].
    rewrite (H i x Ex). cbn [bind].
    pose proof (vset_in_range w i (g i x) ltac:(lia)) as Ew. eexists. split; [exact Ew|].
    split; [rewrite (vset_size _ _ _ _ Ew); exact J1|].
    split; [intros j y Hj Ey|intros j Hj]; rewrite (vget_vset _ _ _ _ j Ew).
    + destruct (Z.eqb_spec j i) as [->|].
      * congruence.
      * apply J2; [lia|exact Ey].
    + destruct (Z.eqb_spec j i); [lia|]. apply J3. lia.
  - exists w. split; [exact E|]. split; [exact I1|]. intros i x Ex. apply I2; [|exact Ex]. exact (vget_range _ _ _ Ex).
Qed.

Lemma unhomogenize_ok (p : list pt3) (w : list R) : vsize w = vsize p -> Forall (fun x => 0 < x)%R w ->
  exists q, unhomogenize p w = Ok q /\ vsize q = vsize p /\
   (forall i x v, vget p i = Ok x -> vget w i = Ok v -> vget q i = Ok (mkP (px x / v) (py x / v) (pz x / v))%R).
Proof.
  intros L F. unfold unhomogenize.
  destruct (for_mapi (fun i x => do v <- vget w i; pdiv x v) (fun i x => let v := kn w i in mkP (px x / v) (py x / v) (pz x / v))%R p
    (fun i p => do x <- vget p i; do v <- vget w i; do q <- pdiv x v; vset p i q)) as [q [E [S H]]].
  - intros i x Ex. pose proof (vget_range _ _ _ Ex). rewrite (vget_kn w i) by lia. cbn [bind]. apply pdiv_R.
    rewrite Forall_forall in F. specialize (F (kn w i) (vget_In _ _ _ (vget_kn w i ltac:(lia)))). lra.
  - intros i v. destruct (vget v i); cbn [bind]; [|reflexivity]. destruct (vget w i); reflexivity.
  - exists q. split; [exact E|]. split; [exact S|]. intros i x v Ex Ev. rewrite (H i x Ex). rewrite (kn_of _ _ _ Ev). reflexivity.
Qed.

(** A curve given by homogeneous lists: its coefficients are those lists. *)
Lemma hom_coeffs (c : NurbsCurve R) (P : list pt3) (W : list R) j x v :
  vsize (nc_points c) = vsize P -> nc_weights c = W ->
  (forall i x v, vget P i = Ok x -> vget W i = Ok v -> vget (nc_points c) i = Ok (mkP (px x / v) (py x / v) (pz x / v))%R) ->
  vget P j = Ok x -> vget W j = Ok v -> (0 < v)%R ->
  cw c j = v /\ hx c j = px x /\ hy c j = py x /\ hz c j = pz x.
Proof.
  intros S EW H Ex Ev Pv. assert (cw c j = v) as Ecw. { unfold cw. rewrite EW. exact (kn_of _ _ _ Ev). }
  assert (cp c j = mkP (px x / v) (py x / v) (pz x / v))%R as Ecp.
  { specialize (H j x v Ex Ev). pose proof (vget_range _ _ _ H) as Rg. rewrite (vget_nth (nc_points c) O3 j Rg) in H. injection H as H. exact H. }
  split; [exact Ecw|]. unfold hx, hy, hz. rewrite Ecw, Ecp. cbn [px py pz]. repeat split; field; lra.
Qed.

(** ** Insertion in a list *)
Lemma vinsert_ok (ks : list R) i u : 0 <= i <= vsize ks -> exists ks', vinsert ks i u = Ok ks' /\ Permutation ks' (u :: ks) /\ vsize ks' = vsize ks + 1 /\
  (forall j, 0 <= j < i -> kn ks' j = kn ks j) /\ kn ks' i = u /\ (forall j, i < j <= vsize ks -> kn ks' j = kn ks (j - 1)).
Proof.
  intros H. unfold vinsert. destruct (Z.ltb_spec i 0); [lia|]. destruct (Z.ltb_spec (vsize ks) i); [lia|]. cbn [orb].
  eexists. split; [reflexivity|]. split.
  { rewrite <- Permutation_middle. apply perm_skip. rewrite firstn_skipn. reflexivity. }
  unfold vsize in *.
  assert (length (firstn (Z.to_nat i) ks) = Z.to_nat i) as LF by (rewrite firstn_length; lia).
  split. { rewrite app_length. cbn [length]. rewrite LF, skipn_length. lia. }
  unfold kn. split; [|split].
  - intros j Hj. rewrite app_nth1 by lia. rewrite <- (firstn_skipn (Z.to_nat i) ks) at 2. rewrite app_nth1 by lia. reflexivity.
  - rewrite app_nth2 by lia. rewrite LF, Nat.sub_diag. reflexivity.
  - intros j Hj. rewrite app_nth2 by lia. rewrite LF. replace (Z.to_nat j - Z.to_nat i)%nat with (S (Z.to_nat (j - 1) - Z.to_nat i)) by lia. cbn [nth].
    rewrite <- (firstn_skipn (Z.to_nat i) ks) at 2. rewrite app_nth2 by lia. rewrite LF. reflexivity.
Qed.

(** ** Boehm's formula *)
Section Insert.
Variables (k k' : Z -> R) (p s : Z) (u : R).
(** [k'] is [k] with [u] inserted after index [s]. *)
Hypothesis K1 : forall j, j <= s -> k' j = k j.
Hypothesis K2 : k' (s + 1) = u.
Hypothesis K3 : forall j, s + 1 < j -> k' j = k (j - 1).
Hypothesis P0 : 0 <= p.

Definition boehm (f : Z -> R) (j : Z) : R :=
  if j <=? s - p then f j else if s + 1 <=? j then f (j - 1)
  else let al := ((u - k j) / (k (j + p)%Z - k j))%R in (al * f j + (1 - al) * f (j - 1)%Z)%R.

Lemma boehm_blossom f i i' j : gap k p i -> (s - p < j <= s -> (k j < k (j + p)%Z)%R) -> (i' = i /\ i <= s \/ i' = i + 1 /\ s <= i) ->
  i' - p <= j <= i' -> boehm f j = db k f p (kseq k' (j + 1) (Z.to_nat p)) i.
Proof.
  intros G D Hi Hj. unfold boehm. destruct (Z.leb_spec j (s - p)); [|destruct (Z.leb_spec (s + 1) j)].
  - symmetry. apply (db_dual k f p i G j); [lia|]. rewrite (kseq_ext k' k); [reflexivity|]. intros m Hm. apply K1. lia.
  - symmetry. apply (db_dual k f p i G (j - 1)); [lia|].
    replace (kseq k' (j + 1) (Z.to_nat p)) with (kseq k (j - 1 + 1) (Z.to_nat p)); [reflexivity|].
    replace (j - 1 + 1) with j by lia.
    assert (forall n a, s + 1 < a + 1 -> kseq k a n = kseq k' (a + 1) n) as K.
    { induction n; intros a Ha; cbn; [reflexivity|]. rewrite K3 by lia. replace (a + 1 - 1) with a by lia. f_equal. apply IHn. lia. }
    apply K. lia.
  - specialize (D ltac:(lia)). cbv zeta. set (al := ((u - k j) / (k (j + p)%Z - k j))%R).
    assert (1 <= p) as P1 by lia.
    assert (Permutation (kseq k' (j + 1) (Z.to_nat p)) (u :: kseq k (j + 1) (Z.to_nat (p - 1)))) as Q.
    { replace (Z.to_nat p) with (Z.to_nat (s - j) + (1 + Z.to_nat (p - 1 - (s - j))))%nat by lia. rewrite kseq_app. cbn [Nat.add kseq].
      replace (j + 1 + Z.of_nat (Z.to_nat (s - j))) with (s + 1) by lia. rewrite K2.
      rewrite <- Permutation_middle. apply perm_skip.
      replace (Z.to_nat (p - 1)) with (Z.to_nat (s - j) + Z.to_nat (p - 1 - (s - j)))%nat by lia. rewrite kseq_app.
      replace (j + 1 + Z.of_nat (Z.to_nat (s - j))) with (s + 1) by lia.
      rewrite (kseq_ext k' k (Z.to_nat (s - j)) (j + 1)) by (intros m Hm; apply K1; lia).
      apply Permutation_app_head.
      assert (forall n a, s + 1 < a + 1 -> kseq k a n = kseq k' (a + 1) n) as K.
      { induction n; intros a Ha; cbn; [reflexivity|]. rewrite K3 by lia. replace (a + 1 - 1) with a by lia. f_equal. apply IHn. lia. }
      rewrite (K _ (s + 1)) by lia. reflexivity. }
    rewrite (db_perm k f p i G _ _ Q) by (rewrite kseq_length; lia).
    assert (u = (1 - al) * k j + al * k (j + p)%Z)%R as EU by (unfold al; field; lra).
    rewrite EU at 1. rewrite db_affine.
    rewrite (db_dual k f p i G (j - 1) (k j :: _)); [|lia|].
    2:{ replace (Z.to_nat p) with (S (Z.to_nat (p - 1))) by lia. cbn [kseq]. replace (j - 1 + 1) with j by lia. reflexivity. }
    rewrite (db_dual k f p i G j (k (j + p) :: _)); [|lia|].
    2:{ replace (Z.to_nat p) with (S (Z.to_nat (p - 1))) by lia. rewrite kseq_snoc. replace (j + 1 + Z.of_nat (Z.to_nat (p - 1))) with (j + p) by lia. apply Permutation_cons_append. }
    ring.
Qed.
End Insert.

Section InsertKnot.
Variables (c : NurbsCurve R) (u : R).
Hypothesis V : valid c.
Hypothesis U : (0 <= u <= 1)%R.
Let p := nc_degree c.
Let n := vsize (nc_points c).
Let k := kn (nc_knots c).

Lemma insert_knot_ok : exists s c', p <= s < n /\ in_span (nc_knots c) s u /\
  nc_insert_knot c u = Ok c' /\ nc_degree c' = p /\ vsize (nc_points c') = n + 1 /\ nc_nb c' = n + 1 /\
  Permutation (nc_knots c') (u :: nc_knots c) /\ vsize (nc_knots c') = vsize (nc_knots c) + 1 /\
  (forall j, 0 <= j <= s -> kn (nc_knots c') j = k j) /\ kn (nc_knots c') (s + 1) = u /\
  (forall j, s + 1 < j <= vsize (nc_knots c) -> kn (nc_knots c') j = k (j - 1)) /\
  valid c' /\
  (forall j, 0 <= j < n + 1 -> cw c' j = boehm k p s u (cw c) j /\ hx c' j = boehm k p s u (hx c) j /\
     hy c' j = boehm k p s u (hy c) j /\ hz c' j = boehm k p s u (hz c) j).
Proof.
  destruct (valid_span c u V U) as [s [E [B I]]]. fold p n in B.
  pose proof V as [V1 [V2 [C [F [T1 T2]]]]]. fold p n in V1, V2, C, T1, T2. pose proof C as [C1 [C2 [C3 [C4 C5]]]].
  destruct (in_span_lt _ _ _ I) as [I1 [I2 I3]].
  assert (forall i, s - p < i <= s -> (k i <= u <= k (i + p)%Z)%R /\ (k i < k (i + p)%Z)%R) as AL.
  { intros i Hi. pose proof (C3 i s ltac:(lia) ltac:(lia)). pose proof (C3 (s + 1) (i + p) ltac:(lia) ltac:(lia)). unfold k. lra. }
  exists s.
  set (P := map (fun j => mkP (boehm k p s u (hx c) j) (boehm k p s u (hy c) j) (boehm k p s u (hz c) j)) (zrange 0 (n + 1))).
  set (W := map (boehm k p s u (cw c)) (zrange 0 (n + 1))).
  assert (vsize P = n + 1) as SP by (apply vsize_tab; lia). assert (vsize W = n + 1) as SW by (apply vsize_tab; lia).
  assert (for_ 0 (vsize (nc_points c) + 1) (fun i s0 => insert_point c u s i s0) ([], []) = Ok (P, W)) as EL.
  { apply for_push_pair; [fold n; lia|]. intros i st Hi. fold n in Hi. unfold insert_point. fold p.
    unfold boehm. destruct (Z.leb_spec i (s - p)); [|destruct (Z.leb_spec (s + 1) i)].
    - rewrite (vget_nth (nc_points c) O3) by (fold n; lia). rewrite (vget_nth (nc_weights c) 0%R) by lia. reflexivity.
    - rewrite (vget_nth (nc_points c) O3) by (fold n; lia). rewrite (vget_nth (nc_weights c) 0%R) by lia. reflexivity.
    - rewrite (vget_kn (nc_knots c) i), (vget_kn (nc_knots c) (i + p)) by lia. cbn [bind]. fold k.
      destruct (AL i ltac:(lia)) as [A1 A2]. unfold ndiv, RNum at 1. cbn [nsub RNum].
      destruct (Req_EM_T (k (i + p)%Z - k i) 0) as [Z0|_]; [lra|]. cbn [bind].
      rewrite (vget_nth (nc_points c) O3 i), (vget_nth (nc_points c) O3 (i - 1)) by (fold n; lia).
      rewrite (vget_nth (nc_weights c) 0%R i), (vget_nth (nc_weights c) 0%R (i - 1)) by lia. cbn [bind fst snd].
      unfold padd, pmul, n1. cbn [nadd nmul nsub nofZ RNum px py pz]. do 3 f_equal.
      unfold cw. ring. }
  assert (Forall (fun w => 0 < w)%R W) as FW.
  { unfold W. rewrite Forall_forall. intros w Hw. apply in_map_iff in Hw. destruct Hw as [j [<- Hj]]. apply in_zrange in Hj.
    unfold boehm. destruct (Z.leb_spec j (s - p)); [|destruct (Z.leb_spec (s + 1) j)].
    - apply (cw_pos c j V). fold n. lia.
    - apply (cw_pos c (j - 1) V). fold n. lia.
    - cbv zeta. destruct (AL j ltac:(lia)) as [A1 A2]. pose proof (cw_pos c j V ltac:(fold n; lia)). pose proof (cw_pos c (j - 1) V ltac:(fold n; lia)).
      set (al := ((u - k j) / (k (j + p)%Z - k j))%R). assert (0 <= al <= 1)%R as A.
      { unfold al. split; [apply Rmult_le_pos; [lra|left; apply Rinv_0_lt_compat; lra]|]. apply (Rmult_le_reg_r (k (j + p)%Z - k j)); [lra|]. unfold Rdiv. rewrite Rmult_assoc, Rinv_l by lra. lra. }
      nra. }
  destruct (unhomogenize_ok P W ltac:(lia) FW) as [q [EQ [SQ HQ]]].
  destruct (vinsert_ok (nc_knots c) (s + 1) u ltac:(lia)) as [ks' [EK [PK [SK [KA [KB KC]]]]]].
  assert (clamped ks' p (n + 1)) as C'.
  { split; [lia|]. split; [lia|].
    assert (forall j, 0 <= j < n + 1 + p + 1 -> kn ks' j = if j <=? s then k j else if j =? s + 1 then u else k (j - 1)) as KK.
    { intros j Hj. destruct (Z.leb_spec j s); [apply KA; lia|]. destruct (Z.eqb_spec j (s + 1)) as [->|]; [exact KB|apply KC; lia]. }
    split; [|split].
    - intros i j Hi Hj. rewrite !KK by lia. destruct (Z.leb_spec i s), (Z.leb_spec j s); try lia.
      + apply C3; lia.
      + destruct (Z.eqb_spec j (s + 1)).
        * pose proof (C3 i s ltac:(lia) ltac:(lia)). unfold k. lra.
        * apply C3; lia.
      + destruct (Z.eqb_spec i (s + 1)), (Z.eqb_spec j (s + 1)); try lia; try lra.
        * pose proof (C3 (s + 1) (j - 1) ltac:(lia) ltac:(lia)). unfold k. lra.
        * apply C3; lia.
    - intros i Hi. rewrite KA by lia. apply C4. lia.
    - intros i Hi. rewrite KC by lia. apply C5. lia. }
  exists (mkNC p ks' W q (n + 1) (nc_tp c) (nc_tw c)).
  split; [exact B|]. split; [exact I|]. split.
  { unfold nc_insert_knot. rewrite E. cbn [bind]. rewrite EL. cbn [bind fst snd]. rewrite EQ. cbn [bind]. rewrite EK. cbn [bind].
    unfold nc_set_knots. rewrite (clamped_scale _ _ _ C'). cbn [bind]. unfold nc_set_points, nc_set_weights. cbn [nc_degree nc_knots nc_weights nc_points nc_nb nc_tp nc_tw].
    rewrite SQ, SP. reflexivity. }
  cbn [nc_degree nc_knots nc_weights nc_points nc_nb nc_tp nc_tw].
  split; [reflexivity|]. split; [lia|]. split; [reflexivity|]. split; [exact PK|]. split; [exact SK|]. split; [intros; apply KA; lia|]. split; [exact KB|]. split; [intros; apply KC; lia|].
  split.
  { unfold valid. cbn [nc_degree nc_knots nc_weights nc_points nc_nb nc_tp nc_tw]. rewrite SQ, SP. split; [reflexivity|]. split; [exact SW|]. split; [exact C'|]. split; [exact FW|]. split; assumption. }
  intros j Hj.
  pose proof (vget_tab (fun j => mkP (boehm k p s u (hx c) j) (boehm k p s u (hy c) j) (boehm k p s u (hz c) j)) (n + 1) j Hj) as GP.
  pose proof (vget_tab (boehm k p s u (cw c)) (n + 1) j Hj) as GW. fold P in GP. fold W in GW.
  rewrite Forall_forall in FW.
  apply (hom_coeffs (mkNC p ks' W q (n + 1) (nc_tp c) (nc_tw c)) P W j _ _ ltac:(cbn; lia) eq_refl HQ GP GW). exact (FW _ (vget_In _ _ _ GW)).
Qed.
End InsertKnot.

(** Two valid curves with the same blossoms have the same points. *)
Lemma same_ev c c' t i i' : valid c -> valid c' -> (0 <= t <= 1)%R ->
  nc_degree c <= i < vsize (nc_points c) -> in_span (nc_knots c) i t ->
  nc_degree c' <= i' < vsize (nc_points c') -> in_span (nc_knots c') i' t ->
  ev c' (cw c') t i' = ev c (cw c) t i -> ev c' (hx c') t i' = ev c (hx c) t i ->
  ev c' (hy c') t i' = ev c (hy c) t i -> ev c' (hz c') t i' = ev c (hz c) t i ->
  same_hom c c' t.
Proof.
  intros V V' T B I B' I' EW EX EY EZ. unfold same_hom.
  rewrite (proj2 (ev_point_nurbs c t i V B I)), (proj2 (ev_point_nurbs c' t i' V' B' I')).
  rewrite !(nurbs_sum_ev c _ t i V B I), !(nurbs_sum_ev c' _ t i' V' B' I'). auto.
Qed.
Lemma same_hom_points c c' t : valid c -> valid c' -> (0 <= t <= 1)%R -> same_hom c c' t ->
  point_of (nc_evaluate c' t) = point_of (nc_evaluate c t).
Proof.
  intros V V' T [H1 [H2 [H3 H4]]]. destruct (evaluate_nurbs c t V T) as [_ [d [E _]]]. destruct (evaluate_nurbs c' t V' T) as [_ [d' [E' _]]].
  rewrite E, E'. cbn [point_of bind fst]. unfold nurbs_at. rewrite H1, H2, H3, H4. reflexivity.
Qed.

(** C50 *)
Lemma insert_knot_hom c u : valid c -> (0 <= u <= 1)%R -> exists c', nc_insert_knot c u = Ok c' /\ valid c' /\
  nc_degree c' = nc_degree c /\ vsize (nc_points c') = vsize (nc_points c) + 1 /\ Permutation (nc_knots c') (u :: nc_knots c) /\
  (tight (nc_knots c) (nc_degree c) (vsize (nc_points c)) -> (0 < u < 1)%R -> tight (nc_knots c') (nc_degree c') (vsize (nc_points c'))) /\
  forall t, (0 <= t <= 1)%R -> same_hom c c' t.
Proof.
  intros V U. destruct (insert_knot_ok c u V U) as [s [c' [B [I [E [D [SP [_ [PK [SK [KA [KB [KC [V' H]]]]]]]]]]]]]].
  exists c'. split; [exact E|]. split; [exact V'|]. split; [exact D|]. split; [exact SP|]. split; [exact PK|].
  pose proof V as [V1 [V2 [C [F [T1 T2]]]]]. pose proof C as [C1 [C2 [C3 [C4 C5]]]]. destruct (in_span_lt _ _ _ I) as [I1 [I2 I3]].
  split.
  { intros [Q1 Q2] U'. unfold tight. rewrite D, SP. split.
    - destruct (Z.eq_dec s (nc_degree c)) as [Es|].
      + rewrite <- Es, KB. lra.
      + rewrite KA by lia. exact Q1.
    - destruct (Z.eq_dec s (vsize (nc_points c) - 1)) as [Es|].
      + replace (vsize (nc_points c) + 1 - 1) with (s + 1) by lia. rewrite KB. lra.
      + rewrite KC by lia. replace (vsize (nc_points c) + 1 - 1 - 1) with (vsize (nc_points c) - 1) by lia. exact Q2. }
  intros t T. destruct (valid_span c' t V' T) as [i' [_ [B' I']]]. rewrite D, SP in B'.
  set (i := if i' <=? s then i' else i' - 1).
  assert (i' = i /\ i <= s \/ i' = i + 1 /\ s <= i) as Hi. { unfold i. destruct (Z.leb_spec i' s); lia. }
  assert (nc_degree c <= i < vsize (nc_points c)) as Bi. { unfold i. destruct (Z.leb_spec i' s); lia. }
  assert (in_span (nc_knots c) i t) as Ii.
  { unfold in_span in I' |- *. unfold i. destruct (Z.leb_spec i' s).
    - rewrite KA in I' by lia. destruct (Z.eq_dec i' s) as [->|].
      + rewrite KB in I'. lra.
      + rewrite KA in I' by lia. exact I'.
    - replace (i' - 1 + 1) with i' by lia. rewrite (KC (i' + 1)) in I' by lia. replace (i' + 1 - 1) with i' in I' by lia.
      destruct (Z.eq_dec i' (s + 1)) as [->|].
      + rewrite KB in I'. replace (s + 1 - 1) with s by lia. lra.
      + rewrite KC in I' by lia. exact I'. }
  pose proof (valid_gap c i t V Bi Ii) as G. pose proof (valid_gap c' i' t V' ltac:(rewrite D, SP; lia) I') as G'. rewrite D in G'.
  assert (forall f f', (forall j, 0 <= j < vsize (nc_points c) + 1 -> f' j = boehm (kn (nc_knots c)) (nc_degree c) s u f j) -> ev c' f' t i' = ev c f t i) as K.
  { intros f f' Hf. unfold ev. rewrite D. apply blossom_transfer; try assumption; [lia| |rewrite repeat_length; lia].
    intros j Hj. rewrite Hf by lia. apply (boehm_blossom _ (kn (nc_knots c')) _ _ _) with (i' := i'); try assumption; try lia.
    - intros m Hm. destruct (Z.leb_spec 0 m); [apply KA; lia|]. unfold kn. replace (Z.to_nat m) with (Z.to_nat 0) by lia. apply (KA 0). lia.
    - intros m Hm. destruct (Z.leb_spec m (vsize (nc_knots c))); [apply KC; lia|]. unfold vsize in *. unfold kn. rewrite !nth_overflow by lia. reflexivity.
    - intros Hs. pose proof (C3 j s ltac:(lia) ltac:(lia)). pose proof (C3 (s + 1) (j + nc_degree c) ltac:(lia) ltac:(lia)). lra. }
  apply (same_ev c c' t i i' V V' T Bi Ii); [lia|exact I'| | | |]; apply K; intros j Hj; apply (H j Hj).
Qed.

Lemma insert_knot_keeps c u : valid c -> (0 <= u <= 1)%R -> exists c', nc_insert_knot c u = Ok c' /\ valid c' /\
  nc_degree c' = nc_degree c /\ vsize (nc_points c') = vsize (nc_points c) + 1 /\ Permutation (nc_knots c') (u :: nc_knots c) /\
  (tight (nc_knots c) (nc_degree c) (vsize (nc_points c)) -> (0 < u < 1)%R -> tight (nc_knots c') (nc_degree c') (vsize (nc_points c'))) /\
  forall t, (0 <= t <= 1)%R -> point_of (nc_evaluate c' t) = point_of (nc_evaluate c t).
Proof.
  intros V U. destruct (insert_knot_hom c u V U) as [c' [H1 [H2 [H3 [H4 [H5 [H6 H7]]]]]]]. exists c'. repeat (split; [assumption|]).
  intros t T. apply same_hom_points; auto.
Qed.
