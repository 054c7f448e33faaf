(** Uniform knots, polylines, and the knots of degree elevation. *)
From Coq Require Import ZArith List Bool Reals Lra Lia Permutation Psatz.
From Verif Require Import Base Num MGeometry MNurbs SGeom SNurbs LBase LBlossom LNurbs LNurbs2 LNurbs3.
Import ListNotations.
Open Scope Z_scope.

(** ** Uniform knots *)
Lemma for_push {A} (f : Z -> A) a b l : for_ a b (fun i ks => Ok (vpush ks (f i))) l = Ok (l ++ map f (zrange a b)).
Proof.
  rewrite (for_fold a b (fun i ks => vpush ks (f i))). f_equal. generalize (zrange a b). intros r. revert l.
  induction r as [|x r IH]; intros l; cbn; [now rewrite app_nil_r|]. rewrite IH. unfold vpush. rewrite <- app_assoc. reflexivity.
Qed.
Lemma zrange_shift a b d : zrange (a + d) (b + d) = map (fun i => i + d) (zrange a b).
Proof. unfold zrange. rewrite map_map. replace (b + d - (a + d)) with (b - a) by lia. apply map_ext. intros. lia. Qed.

Definition unif (p n i : Z) : R := IZR (Z.max 0 (Z.min (i - p) (n - p))).

Lemma uniform_knots_ok p n : 0 <= p < n -> uniform_knots p n = Ok (map (unif p n) (zrange 0 (n + p + 1))).
Proof.
  intros H. unfold uniform_knots. rewrite (for_push (fun _ => n0)). cbn [bind]. rewrite (for_push (fun i => nofZ i)). cbn [bind].
  rewrite (for_push (fun _ => nofZ (n - p))). f_equal. cbn [app].
  rewrite (zrange_app 0 (p + 1) (n + p + 1)) by lia. rewrite (zrange_app (p + 1) n (n + p + 1)) by lia. rewrite !map_app. rewrite <- app_assoc. f_equal; [|f_equal].
  - apply map_ext_in. intros i Hi. apply in_zrange in Hi. unfold unif. replace (Z.max 0 _) with 0 by lia. reflexivity.
  - replace (zrange (p + 1) n) with (zrange (1 + p) (n - p + p)) by (f_equal; lia). rewrite zrange_shift, map_map.
    apply map_ext_in. intros i Hi. apply in_zrange in Hi. unfold unif. replace (Z.max 0 _) with i by lia. reflexivity.
  - replace (zrange n (n + p + 1)) with (zrange (0 + n) (p + 1 + n)) by (f_equal; lia). rewrite zrange_shift, map_map.
    apply map_ext_in. intros i Hi. apply in_zrange in Hi. unfold unif. replace (Z.max 0 _) with (n - p) by lia. reflexivity.
Qed.

Lemma uniform_scaled p n : 0 <= p < n -> exists ks, (do k <- uniform_knots p n; scale_knots k) = Ok ks /\ clamped ks p n /\ tight ks p n /\
  (forall i, p <= i <= n -> kn ks i = (IZR (i - p) / IZR (n - p))%R).
Proof.
  intros H. rewrite (uniform_knots_ok p n H). cbn [bind]. set (l := map (unif p n) (zrange 0 (n + p + 1))).
  assert (vsize l = n + p + 1) as L by (apply vsize_tab; lia).
  assert (forall j, 0 <= j < n + p + 1 -> kn l j = unif p n j) as K by (intros; apply kn_tab; lia).
  assert (0 < IZR (n - p))%R as Pos by (apply IZR_lt; lia).
  assert (unif p n 0 = 0%R) as U0 by (unfold unif; f_equal; lia).
  assert (unif p n (n + p) = IZR (n - p)) as U1 by (unfold unif; f_equal; lia).
  rewrite scale_sorted.
  - rewrite L, !K by lia. replace (n + p + 1 - 1) with (n + p) by lia. rewrite U0, U1. eexists. split; [reflexivity|].
    assert (forall j, 0 <= j < n + p + 1 -> kn (map (affine01 0 (IZR (n - p))) l) j = (unif p n j / IZR (n - p))%R) as KK.
    { intros j Hj. rewrite kn_map by lia. rewrite K by lia. unfold affine01. field. lra. }
    split; [|split].
    + split; [lia|]. split; [rewrite vsize_map; exact L|]. split; [|split].
      * intros i j Hi Hj. rewrite !KK by lia. apply Rmult_le_compat_r; [left; apply Rinv_0_lt_compat; lra|]. apply IZR_le. lia.
      * intros i Hi. rewrite KK by lia. unfold unif. replace (Z.max 0 _) with 0 by lia. field. lra.
      * intros i Hi. rewrite KK by lia. unfold unif. replace (Z.max 0 _) with (n - p) by lia. field. lra.
    + split; rewrite KK by lia.
      * apply Rlt_gt, Rmult_lt_0_compat; [|apply Rinv_0_lt_compat; lra]. apply IZR_lt. lia.
      * apply (Rmult_lt_reg_r (IZR (n - p))); [lra|]. unfold Rdiv. rewrite Rmult_assoc, Rinv_l by lra. rewrite Rmult_1_l, Rmult_1_r. apply IZR_lt. lia.
    + intros i Hi. rewrite KK by lia. unfold unif. replace (Z.max 0 _) with (i - p) by lia. reflexivity.
  - intros i j Hi Hj. rewrite !K by lia. apply IZR_le. lia.
  - lia.
  - rewrite !K by lia. rewrite L. replace (n + p + 1 - 1) with (n + p) by lia. rewrite U0, U1. exact Pos.
Qed.

(** C44 *)
Lemma set_uniform_ok c : 0 <= nc_degree c < nc_nb c -> exists c', nc_set_uniform c = Ok c' /\
  clamped (nc_knots c') (nc_degree c) (nc_nb c) /\ tight (nc_knots c') (nc_degree c) (nc_nb c) /\
  (forall i, nc_degree c <= i <= nc_nb c -> kn (nc_knots c') i = (IZR (i - nc_degree c) / IZR (nc_nb c - nc_degree c))%R) /\
  nc_degree c' = nc_degree c /\ nc_weights c' = nc_weights c /\ nc_points c' = nc_points c /\ nc_nb c' = nc_nb c /\ nc_tp c' = nc_tp c /\ nc_tw c' = nc_tw c.
Proof.
  intros H. destruct (uniform_scaled _ _ H) as [ks [E [C [T K]]]]. unfold nc_set_uniform, nc_set_knots.
  destruct (uniform_knots (nc_degree c) (nc_nb c)) as [k|]; [|discriminate]. cbn [bind] in *. rewrite E. cbn [bind].
  eexists. split; [reflexivity|]. cbn. repeat (split; [assumption || reflexivity|]). reflexivity.
Qed.

Lemma vget_push_last {A} (v : list A) x : vget (vpush v x) (vsize v) = Ok x.
Proof. unfold vpush. rewrite vget_app_r by lia. rewrite Z.sub_diag. reflexivity. Qed.

(** ** Knots of degree elevation *)
Section Elevate.
Variable ks : list R.
Hypothesis S : sorted ks.
Let N := vsize ks.
Hypothesis N1 : 1 <= N.
Let k := kn ks.

Definition chg (j : Z) : bool := if Req_EM_T (kn ks j) (kn ks (j + 1)) then false else true.
Lemma chg_true j : 0 <= j < N - 1 -> chg j = true -> (k j < k (j + 1)%Z)%R.
Proof. intros H. unfold chg. destruct (Req_EM_T (kn ks j) (kn ks (j + 1))); [discriminate|]. pose proof (S j (j + 1) ltac:(lia) ltac:(fold N; lia)). unfold k. lra. Qed.
Lemma chg_false j : chg j = false -> k j = k (j + 1).
Proof. unfold chg. destruct (Req_EM_T (kn ks j) (kn ks (j + 1))); [auto|discriminate]. Qed.
Lemma chg_lt j : (k j < k (j + 1)%Z)%R -> chg j = true.
Proof. unfold chg, k. destruct (Req_EM_T (kn ks j) (kn ks (j + 1))); [lra|auto]. Qed.

(** Number of changes before index [j]. *)
Fixpoint nchg (j : nat) : Z := match j with O => 0 | Datatypes.S j' => nchg j' + (if chg (Z.of_nat j') then 1 else 0) end.
Definition e (j : Z) : Z := nchg (Z.to_nat j).
Lemma e_0 : e 0 = 0. Proof. reflexivity. Qed.
Lemma e_S j : 0 <= j -> e (j + 1) = e j + (if chg j then 1 else 0).
Proof. intros H. unfold e. replace (Z.to_nat (j + 1)) with (Datatypes.S (Z.to_nat j)) by lia. cbn [nchg]. rewrite Z2Nat.id by lia. reflexivity. Qed.
Lemma e_mono i j : 0 <= i <= j -> e i <= e j.
Proof.
  intros H. replace j with (i + Z.of_nat (Z.to_nat (j - i))) by lia. induction (Z.to_nat (j - i)).
  - replace (i + Z.of_nat 0) with i by lia. lia.
  - replace (i + Z.of_nat (Datatypes.S n)) with (i + Z.of_nat n + 1) by lia. rewrite e_S by lia. destruct (chg (i + Z.of_nat n)); lia.
Qed.
Lemma e_nonneg j : 0 <= e j.
Proof. destruct (Z.leb_spec 0 j); [apply (e_mono 0 j); lia|]. unfold e. replace (Z.to_nat j) with O by lia. cbn. lia. Qed.
(** Position of the first copy of knot [j] in the elevated vector. *)
Definition pos (j : Z) : Z := j + e j.
Lemma pos_S j : 0 <= j -> pos (j + 1) = pos j + 1 + (if chg j then 1 else 0).
Proof. intros H. unfold pos. rewrite e_S by lia. lia. Qed.
Lemma pos_mono i j : 0 <= i <= j -> pos i <= pos j.
Proof. intros H. unfold pos. pose proof (e_mono i j H). lia. Qed.
(** Two change indices with the same rank are the same. *)
Lemma e_inj i j : 0 <= i -> 0 <= j -> chg i = true -> chg j = true -> e i = e j -> i = j.
Proof.
  intros Hi Hj Ci Cj E. destruct (Z.lt_trichotomy i j) as [L|[L|L]]; [|exact L|]; exfalso.
  - pose proof (e_mono (i + 1) j ltac:(lia)). rewrite e_S, Ci in H by lia. lia.
  - pose proof (e_mono (j + 1) i ltac:(lia)). rewrite e_S, Cj in H by lia. lia.
Qed.

(** [r] is the length of the run of equal knots that ends at [j]. *)
Definition run_end (j r : Z) : Prop := 1 <= r <= j + 1 /\ (forall x, j - r < x < j -> chg x = false) /\ (j - r = -1 \/ 0 <= j - r /\ chg (j - r) = true).

Lemma elevate_knots_ok : exists ek km, elevate_knots ks = Ok (ek, km) /\
  vsize ek = N + e (N - 1) + 1 /\ sorted ek /\
  (forall j, 0 <= j < N -> kn ek (pos j) = k j) /\
  (forall j, 0 <= j < N -> (j < N - 1 -> chg j = true) -> kn ek (pos j + 1) = k j) /\
  vsize km = e (N - 1) + 1 /\
  (forall l, 0 <= l <= e (N - 1) -> exists j r, 0 <= j < N /\ (j < N - 1 -> chg j = true) /\ (l < e (N - 1) -> j < N - 1) /\ (l = e (N - 1) -> j = N - 1) /\ e j = l /\ vget km l = Ok r /\ run_end j r).
Proof.
  set (body := fun (i : Z) (s : list R * list Z * Z) =>
    let '(ek, km, l) := s in
    do a <- vget ks i;
    do b <- vget ks (i + 1);
    let ek := vpush ek a in
    if negb (neqb a b) then Ok (vpush ek a, vpush km l, 0 + 1) else Ok (ek, km, l + 1)).
  destruct (for_inv (fun i s => let '(ek, km, l) := s in
     vsize ek = pos i /\ vsize km = e i /\
     sorted ek /\ (forall m, 0 <= m < vsize ek -> (kn ek m <= k i)%R) /\
     (forall j, 0 <= j < i -> kn ek (pos j) = k j /\ (chg j = true -> kn ek (pos j + 1) = k j)) /\
     (forall m, 0 <= m < e i -> exists j r, 0 <= j < i /\ chg j = true /\ e j = m /\ vget km m = Ok r /\ run_end j r) /\
     run_end i l) 0 (N - 1) body ([], [], 1)) as [[[ek km] l] [E [I1 [I2 [I3 [I4 [I5 [I6 I7]]]]]]]].
  - lia.
  - split; [reflexivity|]. split; [reflexivity|]. split; [intros i j A B; change (vsize (@nil R)) with 0 in B; lia|].
    split; [intros m Hm; change (vsize (@nil R)) with 0 in Hm; lia|]. split; [intros; lia|]. split; [intros m Hm; rewrite e_0 in Hm; lia|].
    split; [lia|]. split; [intros; lia|left; lia].
  - intros i [[ek km] l] Hi [J1 [J2 [J3 [J4 [J5 [J6 J7]]]]]].
    pose proof (e_nonneg i) as E0. pose proof (vsize_nonneg ek) as EN.
    assert (forall x, (forall m, 0 <= m < vsize ek -> (kn ek m <= x)%R) -> forall j, 0 <= j < vsize (vpush ek x) -> kn (vpush ek x) j = if j =? pos i then x else kn ek j) as PU.
    { intros x _ j Hj. unfold vpush in *. rewrite vsize_app in Hj. change (vsize [x]) with 1 in Hj. destruct (Z.eqb_spec j (pos i)) as [->|].
      - apply kn_of. unfold vpush. rewrite <- J1. apply vget_push_last.
      - apply kn_of. rewrite vget_app_l by lia. apply vget_kn. lia. }
    assert (forall ek' x, sorted ek' -> (forall m, 0 <= m < vsize ek' -> (kn ek' m <= x)%R) -> sorted (vpush ek' x) /\ vsize (vpush ek' x) = vsize ek' + 1 /\
       kn (vpush ek' x) (vsize ek') = x /\ (forall m, 0 <= m < vsize ek' -> kn (vpush ek' x) m = kn ek' m)) as PS.
    { intros ek' x So Hx. assert (vsize (vpush ek' x) = vsize ek' + 1) as Sz by (unfold vpush; rewrite vsize_app; reflexivity).
      assert (kn (vpush ek' x) (vsize ek') = x) as A by (apply kn_of; apply vget_push_last).
      assert (forall m, 0 <= m < vsize ek' -> kn (vpush ek' x) m = kn ek' m) as B.
      { intros m Hm. apply kn_of. unfold vpush. rewrite vget_app_l by lia. apply vget_kn. lia. }
      repeat split; try assumption. intros a b Hab Hb. rewrite Sz in Hb. destruct (Z.eq_dec b (vsize ek')) as [->|].
      - rewrite A. destruct (Z.eq_dec a (vsize ek')) as [->|]; [rewrite A; lra|]. rewrite B by lia. apply Hx. lia.
      - rewrite !B by lia. apply So; lia. }
    clear PU.
    unfold body. rewrite (vget_kn ks i), (vget_kn ks (i + 1)) by (fold N; lia). cbn [bind]. fold k.
    change (neqb (k i) (k (i + 1))) with (if Req_EM_T (k i) (k (i + 1)) then true else false).
    assert (negb (if Req_EM_T (k i) (k (i + 1)) then true else false) = chg i) as -> by (unfold chg, k; destruct (Req_EM_T (kn ks i) (kn ks (i + 1))); reflexivity).
    destruct (PS ek (k i) J3 J4) as [Q1 [Q2 [Q3 Q4]]].
    assert (forall m, 0 <= m < vsize (vpush ek (k i)) -> (kn (vpush ek (k i)) m <= k i)%R) as Q5.
    { intros m Hm. destruct (Z.eq_dec m (vsize ek)) as [->|]; [rewrite Q3; lra|]. rewrite Q4 by lia. apply J4. lia. }
    pose proof (S i (i + 1) ltac:(lia) ltac:(fold N; lia)) as Si. fold k in Si.
    destruct (chg i) eqn:Ch.
    + destruct (PS (vpush ek (k i)) (k i) Q1 Q5) as [R1 [R2 [R3 R4]]].
      eexists. split; [reflexivity|]. cbv beta iota.
      rewrite pos_S, e_S, Ch by lia.
      split; [lia|]. split; [unfold vpush; rewrite vsize_app; change (vsize [l]) with 1; lia|]. split; [exact R1|].
      split. { intros m Hm. destruct (Z.eq_dec m (vsize (vpush ek (k i)))) as [->|]; [rewrite R3; lra|]. rewrite R4 by lia. specialize (Q5 m ltac:(lia)). lra. }
      split.
      { intros j Hj. destruct (Z.eq_dec j i) as [->|].
        - split; [|intros _]; rewrite <- J1; [rewrite R4 by lia; exact Q3|]. rewrite <- Q2. exact R3.
        - destruct (J5 j ltac:(lia)) as [A B]. pose proof (pos_mono (j + 1) i ltac:(lia)) as PM. rewrite pos_S in PM by lia.
          pose proof (e_nonneg j). assert (0 <= pos j) by (unfold pos; lia).
          destruct (chg j) eqn:Cj in *; (split; [rewrite R4, Q4 by lia; exact A|]); [|discriminate].
          intros _. rewrite R4, Q4 by lia. exact (B eq_refl). }
      split.
      { intros m Hm. destruct (Z.eq_dec m (e i)) as [->|].
        - exists i, l. repeat split; try lia; try assumption; try (apply J7). rewrite <- J2. apply vget_push_last.
        - destruct (J6 m ltac:(lia)) as [j [r [A [B [C [D F]]]]]]. exists j, r. repeat split; try lia; try assumption; try apply F.
          unfold vpush. rewrite vget_app_l by lia. exact D. }
      split; [lia|]. split; [intros; lia|]. right. replace (i + 1 - (0 + 1)) with i by lia. split; [lia|exact Ch].
    + eexists. split; [reflexivity|]. cbv beta iota.
      rewrite pos_S, e_S, Ch by lia.
      split; [lia|]. split; [lia|]. split; [exact Q1|].
      split. { intros m Hm. specialize (Q5 m Hm). lra. }
      split.
      { intros j Hj. destruct (Z.eq_dec j i) as [->|].
        - split; [rewrite <- J1; exact Q3|congruence].
        - destruct (J5 j ltac:(lia)) as [A B]. pose proof (pos_mono (j + 1) i ltac:(lia)) as PM. rewrite pos_S in PM by lia.
          pose proof (e_nonneg j). assert (0 <= pos j) by (unfold pos; lia).
          destruct (chg j) eqn:Cj in *; (split; [rewrite Q4 by lia; exact A|]); [|discriminate].
          intros _. rewrite Q4 by lia. exact (B eq_refl). }
      split.
      { intros m Hm. rewrite Z.add_0_r in Hm. destruct (J6 m Hm) as [j [r [A [B [C [D F]]]]]]. exists j, r. repeat split; try lia; try assumption; apply F. }
      destruct J7 as [K1 [K2 K3]]. split; [lia|]. replace (i + 1 - (l + 1)) with (i - l) by lia.
      split; [|exact K3]. intros x Hx. destruct (Z.eq_dec x i) as [->|]; [exact Ch|apply K2; lia].
  - unfold elevate_knots. fold N. change (for_ 0 (N - 1) _ _) with (for_ 0 (N - 1) body ([], [], 1)). rewrite E. cbn [bind].
    rewrite (vget_kn ks (N - 1)) by (fold N; lia). cbn [bind]. fold k.
    exists (vpush (vpush ek (k (N - 1))) (k (N - 1))), (vpush km l). split; [reflexivity|].
    assert (forall (ek' : list R) x, vsize (vpush ek' x) = vsize ek' + 1 /\
       kn (vpush ek' x) (vsize ek') = x /\ (forall m, 0 <= m < vsize ek' -> kn (vpush ek' x) m = kn ek' m)) as PS.
    { intros ek' x. split; [unfold vpush; rewrite vsize_app; reflexivity|]. split; [apply kn_of; apply vget_push_last|].
      intros m Hm. apply kn_of. unfold vpush. rewrite vget_app_l by lia. apply vget_kn. lia. }
    set (z := k (N - 1)) in *. destruct (PS ek z) as [A1 [A2 A3]]. destruct (PS (vpush ek z) z) as [B1 [B2 B3]].
    pose proof (e_nonneg (N - 1)) as E0. pose proof (vsize_nonneg ek) as EN. unfold pos in I1.
    split; [lia|]. split.
    { assert (forall m, 0 <= m < vsize (vpush (vpush ek z) z) -> (m < vsize ek /\ kn (vpush (vpush ek z) z) m = kn ek m) \/ (vsize ek <= m /\ kn (vpush (vpush ek z) z) m = z)) as K.
      { intros m Hm. destruct (Z.eq_dec m (vsize (vpush ek z))) as [->|]; [right; split; [lia|exact B2]|]. rewrite B3 by lia.
        destruct (Z.eq_dec m (vsize ek)) as [->|]; [right; split; [lia|exact A2]|]. rewrite A3 by lia. left. split; [lia|reflexivity]. }
      intros a b Hab Hb. destruct (K a ltac:(lia)) as [[a1 ->]|[a1 ->]], (K b ltac:(lia)) as [[b1 ->]|[b1 ->]]; try lia; try lra.
      - apply I3; lia.
      - apply I4. lia. }
    split; [|split; [|split]].
    + intros j Hj. destruct (Z.eq_dec j (N - 1)) as [->|].
      * unfold pos. rewrite <- I1. rewrite B3 by lia. exact A2.
      * destruct (I5 j ltac:(lia)) as [A _]. pose proof (pos_mono (j + 1) (N - 1) ltac:(lia)) as PM. rewrite pos_S in PM by lia. pose proof (e_nonneg j). unfold pos in *.
        assert (j + e j < vsize ek) by (destruct (chg j); lia). rewrite B3, A3 by lia. exact A.
    + intros j Hj Cj. destruct (Z.eq_dec j (N - 1)) as [->|].
      * unfold pos. rewrite <- I1, <- A1. exact B2.
      * specialize (Cj ltac:(lia)). destruct (I5 j ltac:(lia)) as [_ A]. pose proof (pos_mono (j + 1) (N - 1) ltac:(lia)) as PM. rewrite pos_S, Cj in PM by lia. pose proof (e_nonneg j). unfold pos in *.
        rewrite B3, A3 by lia. exact (A Cj).
    + unfold vpush. rewrite vsize_app. change (vsize [l]) with 1. lia.
    + intros m Hm. destruct (Z.eq_dec m (e (N - 1))) as [->|].
      * exists (N - 1), l. repeat split; try lia; try apply I7. rewrite <- I2. apply vget_push_last.
      * destruct (I6 m ltac:(lia)) as [j [r [A [B [C [D F]]]]]]. exists j, r. repeat split; try lia; try assumption; try (intros; assumption); try apply F.
        unfold vpush. rewrite vget_app_l by lia. exact D.
Qed.
End Elevate.
