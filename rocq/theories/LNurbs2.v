(** Evaluation of valid NURBS curves: the Cox-de Boor formula, end points, affine maps, convex hull. *)
From Coq Require Import ZArith List Bool Reals Lra Lia Permutation Psatz.
From Verif Require Import Base Num MGeometry MNurbs SGeom SNurbs LBase LBlossom LNurbs.
Import ListNotations.
Open Scope Z_scope.

(** Homogeneous coefficients of a curve. *)
Definition hx (c : NurbsCurve R) (j : Z) : R := (cw c j * px (cp c j))%R.
Definition hy (c : NurbsCurve R) (j : Z) : R := (cw c j * py (cp c j))%R.
Definition hz (c : NurbsCurve R) (j : Z) : R := (cw c j * pz (cp c j))%R.
(** The homogeneous value of coefficients [f] on span [i] of curve [c]. *)
Definition ev (c : NurbsCurve R) (f : Z -> R) (t : R) (i : Z) : R :=
  db (kn (nc_knots c)) f (nc_degree c) (repeat t (Z.to_nat (nc_degree c))) i.

Lemma nc_load_ok c i tp tw : valid c -> nc_degree c <= i < vsize (nc_points c) ->
  nc_degree c + 1 <= vsize tp -> nc_degree c + 1 <= vsize tw ->
  exists tp' tw', nc_load c i (tp, tw) = Ok (tp', tw') /\ vsize tp' = vsize tp /\ vsize tw' = vsize tw /\
    (forall j, 0 <= j <= nc_degree c -> vget tp' j = Ok (mkP (hx c (j + i - nc_degree c)) (hy c (j + i - nc_degree c)) (hz c (j + i - nc_degree c)))) /\
    (forall j, 0 <= j <= nc_degree c -> vget tw' j = Ok (cw c (j + i - nc_degree c))).
Proof.
  intros [V1 [V2 [[V3 V3'] _]]] Hi ST SW. set (p := nc_degree c) in *. unfold nc_load. fold p.
  match goal with |- context [for_ 0 (p + 1) ?b _] =>
  destruct (for_inv (fun m s => vsize (fst s) = vsize tp /\ vsize (snd s) = vsize tw /\
     (forall j, 0 <= j < m -> vget (fst s) j = Ok (mkP (hx c (j + i - p)) (hy c (j + i - p)) (hz c (j + i - p)))) /\
     (forall j, 0 <= j < m -> vget (snd s) j = Ok (cw c (j + i - p)))) 0 (p + 1) b (tp, tw)) as [[tp' tw'] [E [I1 [I2 [I3 I4]]]]] end.
  - lia.
  - cbn [fst snd]. repeat split; intros; lia.
  - intros m [t w] Hm [J1 [J2 [J3 J4]]]. cbn [fst snd] in *. cbv zeta.
    rewrite (massert_true (0 <=? m + i - p)) by (apply Z.leb_le; lia). cbn [bind].
    rewrite (massert_true (m + i - p <? nc_nb c)) by (apply Z.ltb_lt; lia). cbn [bind].
    rewrite (vget_nth (nc_weights c) 0%R) by lia. cbn [bind].
    pose proof (vset_in_range w m (nth (Z.to_nat (m + i - p)) (nc_weights c) 0%R) ltac:(lia)) as EW. rewrite EW. cbn [bind].
    rewrite (vget_nth (nc_points c) O3) by lia. cbn [bind].
    match goal with |- context [vset t m ?x] => pose proof (vset_in_range t m x ltac:(lia)) as ET end. rewrite ET. cbn [bind].
    eexists. split; [reflexivity|]. cbn [fst snd].
    split; [rewrite (vset_size _ _ _ _ ET); exact J1|]. split; [rewrite (vset_size _ _ _ _ EW); exact J2|].
    split; intros j Hj; [rewrite (vget_vset _ _ _ _ j ET)|rewrite (vget_vset _ _ _ _ j EW)]; destruct (Z.eqb_spec j m) as [->|]; try reflexivity; [apply J3|apply J4]; lia.
  - exists tp', tw'. split; [exact E|]. cbn [fst snd] in *. split; [exact I1|]. split; [exact I2|]. split; intros; [apply I3|apply I4]; lia.
Qed.

Lemma cw_pos c j : valid c -> 0 <= j < vsize (nc_points c) -> (0 < cw c j)%R.
Proof.
  intros [V1 [V2 [_ [F _]]]] H. rewrite Forall_forall in F. apply F. unfold cw. apply nth_In. unfold vsize in *. lia.
Qed.

Definition with_temps (c : NurbsCurve R) tp tw := mkNC (nc_degree c) (nc_knots c) (nc_weights c) (nc_points c) (nc_nb c) tp tw.

Lemma valid_span c t : valid c -> (0 <= t <= 1)%R -> exists i, find_knot_span (nc_knots c) t = Ok i /\
  nc_degree c <= i < vsize (nc_points c) /\ in_span (nc_knots c) i t.
Proof. intros V T. apply clamped_span; [apply V|exact T]. Qed.
Lemma valid_gap c i t : valid c -> nc_degree c <= i < vsize (nc_points c) -> in_span (nc_knots c) i t -> gap (kn (nc_knots c)) (nc_degree c) i.
Proof. intros V B I. eapply clamped_gap; [apply V|exact B|]. apply (in_span_lt _ _ _ I). Qed.

Lemma ev_nonneg c f t i : valid c -> nc_degree c <= i < vsize (nc_points c) -> in_span (nc_knots c) i t ->
  (forall j, i - nc_degree c <= j <= i -> (0 <= f j)%R) -> (0 <= ev c f t i)%R.
Proof.
  intros V B I F. pose proof (valid_gap c i t V B I) as G. destruct (in_span_lt _ _ _ I) as [_ [L U]].
  destruct V as [_ [_ [C _]]]. pose proof C as [C1 _]. unfold ev. apply (db_nonneg _ _ _ i t G); try lia.
  - exact (clamped_lo _ _ _ _ _ C B L).
  - exact (clamped_hi _ _ _ _ _ C B U).
  - intros m Hm. apply F. lia.
Qed.
Lemma ev_pos c t i : valid c -> nc_degree c <= i < vsize (nc_points c) -> in_span (nc_knots c) i t -> (0 < ev c (cw c) t i)%R.
Proof.
  intros V B I. pose proof (valid_gap c i t V B I) as G. destruct (in_span_lt _ _ _ I) as [_ [L U]].
  pose proof V as [_ [_ [C _]]]. unfold ev. apply (db_pos _ _ _ i t G).
  - destruct C; lia.
  - exact (clamped_lo _ _ _ _ _ C B L).
  - exact (clamped_hi _ _ _ _ _ C B U).
  - intros m Hm. apply (cw_pos c m V). lia.
Qed.

Definition ev_point (c : NurbsCurve R) (t : R) (i : Z) : pt3 :=
  let w := ev c (cw c) t i in (mkP (ev c (hx c) t i / w) (ev c (hy c) t i / w) (ev c (hz c) t i / w))%R.

Lemma pdiv_R (p : pt3) (w : R) : w <> 0%R -> pdiv p w = Ok (mkP (px p / w) (py p / w) (pz p / w))%R.
Proof. intros H. unfold pdiv. cbn. destruct (Req_EM_T w 0); [contradiction|reflexivity]. Qed.

Lemma evaluate_ok c t : valid c -> (0 <= t <= 1)%R -> exists i tp tw,
  nc_degree c <= i < vsize (nc_points c) /\ in_span (nc_knots c) i t /\
  nc_evaluate c t = Ok (ev_point c t i, with_temps c tp tw) /\ valid (with_temps c tp tw).
Proof.
  intros V T. destruct (valid_span c t V T) as [i [E [B I]]]. pose proof (valid_gap c i t V B I) as G.
  pose proof V as [V1 [V2 [C [F [T1 T2]]]]]. pose proof C as [C1 [C2 _]].
  destruct (nc_load_ok c i (nc_tp c) (nc_tw c) V B T1 T2) as [tp [tw [E1 [S1 [S2 [H1 H2]]]]]].
  destruct (deboor_ok (nc_knots c) (nc_degree c) i t (hx c) (hy c) (hz c) (cw c) tp tw) as [tp' [tw' [E2 [S3 [S4 [H3 H4]]]]]]; try lia; try assumption.
  exists i, tp', tw'. split; [exact B|]. split; [exact I|]. split.
  - unfold nc_evaluate. rewrite V1. rewrite V2, Z.eqb_refl. cbn [massert bind].
    rewrite (massert_true (vsize (nc_points c) =? vsize (nc_knots c) - nc_degree c - 1)) by (apply Z.eqb_eq; lia). cbn [bind].
    rewrite E. cbn [bind]. rewrite E1. cbn [bind]. rewrite E2. cbn [bind fst snd]. rewrite H3, H4. cbn [bind].
    rewrite pdiv_R. 2:{ pose proof (ev_pos c t i V B I) as P. unfold ev in P. lra. }
    cbn [bind]. unfold with_temps. rewrite V1. reflexivity.
  - repeat split; cbn; try assumption; try lia; apply C.
Qed.

(** ** Cox-de Boor *)
Lemma sumZ_ext f g n : forall a, (forall j, a <= j < a + Z.of_nat n -> f j = g j) -> sumZ f a n = sumZ g a n.
Proof. induction n; intros a H; cbn [sumZ]; [reflexivity|]. rewrite (H a) by lia. rewrite (IHn (a + 1)); [reflexivity|]. intros. apply H. lia. Qed.
Lemma sumZ_app f n : forall a m, sumZ f a (n + m) = (sumZ f a n + sumZ f (a + Z.of_nat n) m)%R.
Proof.
  induction n; intros a m; cbn [sumZ Nat.add].
  - rewrite Z.add_0_r. ring.
  - rewrite IHn. replace (a + 1 + Z.of_nat n) with (a + Z.of_nat (S n)) by lia. ring.
Qed.
Lemma sumZ_last f n a : sumZ f a (S n) = (sumZ f a n + f (a + Z.of_nat n)%Z)%R.
Proof. replace (S n) with (n + 1)%nat by lia. rewrite sumZ_app. cbn [sumZ]. ring. Qed.
Lemma sumZ_zero f n : forall a, (forall j, a <= j < a + Z.of_nat n -> f j = 0%R) -> sumZ f a n = 0%R.
Proof. induction n; intros a H; cbn [sumZ]; [reflexivity|]. rewrite (H a) by lia. rewrite (IHn (a + 1)); [ring|]. intros. apply H. lia. Qed.
Lemma sumZ_plus f g n : forall a, sumZ (fun j => (f j + g j)%R) a n = (sumZ f a n + sumZ g a n)%R.
Proof. induction n; intros a; cbn [sumZ]; [ring|]. rewrite IHn. ring. Qed.
Lemma sumZ_shift f n : forall a b, sumZ (fun j => f (j + b)) a n = sumZ f (a + b) n.
Proof. induction n; intros a b; cbn [sumZ]; [reflexivity|]. rewrite IHn. replace (a + 1 + b) with (a + b + 1) by lia. reflexivity. Qed.
Lemma sumZ_scal x f n : forall a, sumZ (fun j => (x * f j)%R) a n = (x * sumZ f a n)%R.
Proof. induction n; intros a; cbn [sumZ]; [ring|]. rewrite IHn. ring. Qed.

Section Basis.
Variables (ks : list R) (p n i : Z) (t : R).
Hypothesis C : clamped ks p n.
Hypothesis B : p <= i < n.
Hypothesis I : in_span ks i t.

Lemma basis_support q : forall j, 0 <= j -> j + Z.of_nat q < n + p -> (j < i - Z.of_nat q \/ i < j) -> basis ks q j t = 0%R.
Proof.
  destruct (clamped_sorted _ _ _ C) as [S _]. destruct C as [C1 [C2 _]].
  induction q; intros j H0 H1 H2; cbn [basis].
  - destruct (in_span_dec ks j t) as [K|K]; [|reflexivity]. exfalso.
    pose proof (span_unique ks t j i S ltac:(lia) ltac:(lia) ltac:(lia) ltac:(lia) K I). lia.
  - rewrite (IHq j), (IHq (j + 1)) by lia. ring.
Qed.
Lemma basis_zero : basis ks 0 i t = 1%R.
Proof. cbn [basis]. destruct (in_span_dec ks i t); [reflexivity|contradiction]. Qed.

(** The partial sums of the Cox-de Boor recursion follow de Boor's triangle. *)
Lemma basis_db f : forall q, Z.of_nat q <= p ->
  sumZ (fun j => (basis ks q j t * db (kn ks) f p (repeat t (Z.to_nat (p - Z.of_nat q))) j)%R) (i - Z.of_nat q) (S q) =
  db (kn ks) f p (repeat t (Z.to_nat p)) i.
Proof.
  pose proof (clamped_gap ks p n i C B (proj1 (in_span_lt _ _ _ I))) as G. pose proof C as [C1 [C2 _]].
  induction q; intros HQ.
  - cbn [sumZ]. replace (i - Z.of_nat 0) with i by lia. rewrite basis_zero. replace (p - Z.of_nat 0) with p by lia. ring.
  - rewrite <- IHq by lia. rewrite Nat2Z.inj_succ in *.
    set (e := db (kn ks) f p (repeat t (Z.to_nat (p - Z.succ (Z.of_nat q))))).
    set (A := fun j => ((t - kn ks j) / (kn ks (j + Z.of_nat (S q)) - kn ks j))%R).
    set (N := fun j => basis ks q j t).
    set (g1 := fun j => (frac (t - kn ks j) (kn ks (j + Z.of_nat (S q)) - kn ks j) * N j * e j)%R).
    set (g2 := fun j => (frac (kn ks (j + Z.of_nat (S q)) - t) (kn ks (j + Z.of_nat (S q)) - kn ks j) * N j * e (j - 1)%Z)%R).
    assert (forall j, 0 <= j -> j + Z.of_nat q < n + p -> (j < i - Z.of_nat q \/ i < j) -> N j = 0%R) as Z0 by exact (basis_support q).
    transitivity (sumZ (fun j => (g1 j + g2 (j + 1)%Z)%R) (i - Z.succ (Z.of_nat q)) (S (S q))).
    { apply sumZ_ext. intros j Hj. cbn [basis]. unfold g1, g2, N. replace (j + 1 - 1) with j by lia.
      replace (j + 1 + Z.of_nat (S q)) with (j + Z.of_nat (S q) + 1) by lia. fold (e j). ring. }
    rewrite sumZ_plus. rewrite (sumZ_shift g2).
    change (sumZ g1 (i - Z.succ (Z.of_nat q)) (S (S q))) with (g1 (i - Z.succ (Z.of_nat q))%Z + sumZ g1 (i - Z.succ (Z.of_nat q) + 1) (S q))%R.
    replace (i - Z.succ (Z.of_nat q) + 1) with (i - Z.of_nat q) by lia.
    rewrite (sumZ_last g2).
    replace (g1 (i - Z.succ (Z.of_nat q))) with 0%R by (unfold g1; rewrite Z0 by lia; ring).
    replace (g2 (i - Z.of_nat q + Z.of_nat (S q))) with 0%R by (unfold g2; rewrite Z0 by lia; ring).
    rewrite Rplus_0_l, Rplus_0_r, <- sumZ_plus. apply sumZ_ext. intros j Hj.
    replace (Z.to_nat (p - Z.of_nat q)) with (S (Z.to_nat (p - Z.succ (Z.of_nat q)))) by lia.
    cbn [repeat db]. rewrite repeat_length. fold (e j). fold (e (j - 1)). fold (N j).
    replace (j + p - Z.of_nat (Z.to_nat (p - Z.succ (Z.of_nat q)))) with (j + Z.of_nat (S q)) by lia.
    unfold g1, g2, frac. pose proof (G j (j + Z.of_nat (S q)) ltac:(lia) ltac:(lia)) as GG.
    destruct (Req_EM_T (kn ks (j + Z.of_nat (S q)) - kn ks j) 0); [lra|]. field. lra.
Qed.

Lemma basis_sum f : sumZ (fun j => (basis ks (Z.to_nat p) j t * f j)%R) 0 (Z.to_nat n) = db (kn ks) f p (repeat t (Z.to_nat p)) i.
Proof.
  pose proof C as [C1 [C2 _]].
  replace (Z.to_nat n) with (Z.to_nat (i - p) + (S (Z.to_nat p) + Z.to_nat (n - i - 1)))%nat by lia.
  rewrite sumZ_app, sumZ_app.
  rewrite (sumZ_zero _ (Z.to_nat (i - p))). 2:{ intros j Hj. rewrite basis_support by lia. ring. }
  rewrite (sumZ_zero _ (Z.to_nat (n - i - 1))). 2:{ intros j Hj. rewrite basis_support by lia. ring. }
  rewrite <- (basis_db f (Z.to_nat p)) by lia.
  replace (0 + Z.of_nat (Z.to_nat (i - p))) with (i - Z.of_nat (Z.to_nat p)) by lia.
  replace (Z.to_nat (p - Z.of_nat (Z.to_nat p))) with 0%nat by lia. cbn [repeat db]. ring.
Qed.
End Basis.

Lemma nurbs_sum_ev c f t i : valid c -> nc_degree c <= i < vsize (nc_points c) -> in_span (nc_knots c) i t ->
  nurbs_sum c f t = ev c (fun j => (cw c j * f j)%R) t i.
Proof.
  intros V B I. unfold nurbs_sum, ev. pose proof V as [V1 [V2 [C _]]].
  rewrite <- (basis_sum _ _ _ i t C B I (fun j => (cw c j * f j)%R)).
  unfold vsize. rewrite Nat2Z.id. apply sumZ_ext. intros. ring.
Qed.

Lemma ev_point_nurbs c t i : valid c -> nc_degree c <= i < vsize (nc_points c) -> in_span (nc_knots c) i t ->
  ev_point c t i = nurbs_at c t /\ nurbs_den c t = ev c (cw c) t i.
Proof.
  intros V B I.
  assert (nurbs_den c t = ev c (cw c) t i) as D.
  { unfold nurbs_den. rewrite (nurbs_sum_ev c _ t i V B I). unfold ev. apply db_ext. intros. ring. }
  split; [|exact D]. unfold nurbs_at, ev_point. rewrite D. rewrite !(nurbs_sum_ev c _ t i V B I). reflexivity.
Qed.

(** C45, C47 *)
Lemma evaluate_nurbs c t : valid c -> (0 <= t <= 1)%R -> (0 < nurbs_den c t)%R /\
  exists c', nc_evaluate c t = Ok (nurbs_at c t, c') /\ same_data c c' /\ valid c'.
Proof.
  intros V T. destruct (evaluate_ok c t V T) as [i [tp [tw [B [I [E V']]]]]]. destruct (ev_point_nurbs c t i V B I) as [P D].
  split; [rewrite D; exact (ev_pos c t i V B I)|]. rewrite P in E. exists (with_temps c tp tw). split; [exact E|]. split; [|exact V'].
  repeat split.
Qed.


Lemma nurbs_sum_lin c x y z w f g h t i : valid c -> nc_degree c <= i < vsize (nc_points c) -> in_span (nc_knots c) i t ->
  nurbs_sum c (fun j => (x * f j + y * g j + z * h j + w)%R) t =
  (x * nurbs_sum c f t + y * nurbs_sum c g t + z * nurbs_sum c h t + w * nurbs_den c t)%R.
Proof.
  intros V B I. unfold nurbs_den. rewrite !(nurbs_sum_ev c _ t i V B I). unfold ev.
  transitivity (db (kn (nc_knots c)) (fun j => (1 * (1 * (x * (cw c j * f j) + y * (cw c j * g j)) + z * (cw c j * h j)) + w * (cw c j * 1))%R)
    (nc_degree c) (repeat t (Z.to_nat (nc_degree c))) i).
  { apply db_ext. intros. ring. }
  rewrite (db_lin (kn (nc_knots c)) (fun j => (1 * (x * (cw c j * f j) + y * (cw c j * g j)) + z * (cw c j * h j))%R) (fun j => (cw c j * 1)%R)).
  rewrite (db_lin (kn (nc_knots c)) (fun j => (x * (cw c j * f j) + y * (cw c j * g j))%R) (fun j => (cw c j * h j)%R)).
  rewrite (db_lin (kn (nc_knots c)) (fun j => (cw c j * f j)%R) (fun j => (cw c j * g j)%R)). ring.
Qed.

Lemma valid_map c f : valid c -> valid (nc_points_ref c (map f (nc_points c))).
Proof.
  intros [V1 [V2 [C [F [T1 T2]]]]]. unfold valid, nc_points_ref. cbn. rewrite vsize_map. repeat split; try assumption; apply C.
Qed.

Lemma cp_map c f j : 0 <= j < vsize (nc_points c) -> cp (nc_points_ref c (map f (nc_points c))) j = f (cp c j).
Proof.
  intros H. unfold cp, nc_points_ref. cbn [nc_points]. rewrite (nth_indep _ O3 (f O3)) by (rewrite map_length; unfold vsize in H; lia).
  apply map_nth.
Qed.

Lemma nurbs_sum_map c f g t : nurbs_sum (nc_points_ref c (map f (nc_points c))) g t = nurbs_sum c g t.
Proof. unfold nurbs_sum, nc_points_ref, cw. cbn [nc_points nc_knots nc_degree nc_weights]. rewrite map_length. reflexivity. Qed.
Lemma nurbs_sum_ext c f g t : (forall j, 0 <= j < vsize (nc_points c) -> f j = g j) -> nurbs_sum c f t = nurbs_sum c g t.
Proof. intros H. unfold nurbs_sum. apply sumZ_ext. intros j Hj. rewrite H by (unfold vsize; lia). reflexivity. Qed.

(** C48 *)
Lemma nurbs_affine c f t : valid c -> (0 <= t <= 1)%R -> affine3 f ->
  nurbs_at (nc_points_ref c (map f (nc_points c))) t = f (nurbs_at c t).
Proof.
  intros V T [a [b [d [e A]]]]. destruct (valid_span c t V T) as [i [_ [B I]]].
  pose proof (proj1 (evaluate_nurbs c t V T)) as D.
  unfold nurbs_at at 1. unfold nurbs_den at 1 2 3. rewrite !nurbs_sum_map. fold (nurbs_den c t).
  assert (forall (g : pt3 -> R) x y z w, (forall p, g (f p) = x * px p + y * py p + z * pz p + w)%R ->
    nurbs_sum c (fun j => g (cp (nc_points_ref c (map f (nc_points c))) j)) t =
    (x * nurbs_sum c (fun j => px (cp c j)) t + y * nurbs_sum c (fun j => py (cp c j)) t + z * nurbs_sum c (fun j => pz (cp c j)) t + w * nurbs_den c t)%R) as K.
  { intros g x y z w H. rewrite <- (nurbs_sum_lin c x y z w _ _ _ t i V B I). apply nurbs_sum_ext. intros j Hj. rewrite (cp_map c f j Hj). apply H. }
  rewrite (K px (px a) (px b) (px d) (px e)) by (intros p; rewrite A; cbn; ring).
  rewrite (K py (py a) (py b) (py d) (py e)) by (intros p; rewrite A; cbn; ring).
  rewrite (K pz (pz a) (pz b) (pz d) (pz e)) by (intros p; rewrite A; cbn; ring).
  rewrite A. unfold nurbs_at, add3, scal3. cbn [px py pz]. f_equal; field; lra.
Qed.

(** C49 *)
Lemma nurbs_hull c t n d : valid c -> (0 <= t <= 1)%R ->
  (forall p, In p (nc_points c) -> dot3 n p <= d)%R -> (dot3 n (nurbs_at c t) <= d)%R.
Proof.
  intros V T H. destruct (valid_span c t V T) as [i [_ [B I]]]. pose proof (proj1 (evaluate_nurbs c t V T)) as D.
  pose proof (nurbs_sum_lin c (px n) (py n) (pz n) (- d)%R (fun j => px (cp c j)) (fun j => py (cp c j)) (fun j => pz (cp c j)) t i V B I) as L.
  assert (nurbs_sum c (fun j => (px n * px (cp c j) + py n * py (cp c j) + pz n * pz (cp c j) + - d)%R) t <= 0)%R as K.
  { rewrite (nurbs_sum_ev c _ t i V B I). 
    match goal with |- (ev c ?f t i <= 0)%R => set (F := f) end.
    pose proof (ev_nonneg c (fun j => ((-1) * F j)%R) t i V B I) as N.
    assert (forall j, i - nc_degree c <= j <= i -> (0 <= -1 * F j)%R) as NF.
    { intros j Hj. unfold F. destruct (proj2 (proj2 V)) as [[P0 _] _].
      assert (In (cp c j) (nc_points c)) as IN by (apply nth_In; unfold vsize in B; lia).
      specialize (H _ IN). unfold dot3 in H. pose proof (cw_pos c j V ltac:(lia)). nra. }
    specialize (N NF). unfold ev in *. rewrite (db_scal _ F) in N. lra. }
  rewrite L in K. unfold nurbs_at, dot3. cbn [px py pz].
  set (X := nurbs_sum c (fun j => px (cp c j)) t) in *. set (Y := nurbs_sum c (fun j => py (cp c j)) t) in *. set (Z := nurbs_sum c (fun j => pz (cp c j)) t) in *. set (W := nurbs_den c t) in *.
  apply (Rmult_le_reg_r W); [exact D|]. replace ((px n * (X / W) + py n * (Y / W) + pz n * (Z / W)) * W)%R with (px n * X + py n * Y + pz n * Z)%R by (field; lra). lra.
Qed.

(** C46 *)
Lemma ev_first c f i : valid c -> nc_degree c <= i < vsize (nc_points c) -> in_span (nc_knots c) i 0 -> ev c f 0 i = f (i - nc_degree c).
Proof.
  intros V B I. pose proof (valid_gap c i 0 V B I) as G. destruct (in_span_lt _ _ _ I) as [_ [L U]]. pose proof V as [_ [_ [C _]]]. pose proof C as [C1 [C2 [C3 [C4 C5]]]].
  unfold ev. apply (db_dual _ f _ i G (i - nc_degree c)); [lia|].
  replace (repeat 0%R (Z.to_nat (nc_degree c))) with (kseq (kn (nc_knots c)) (i - nc_degree c + 1) (Z.to_nat (nc_degree c))); [reflexivity|].
  rewrite (kseq_ext _ (fun _ => 0%R)). { clear. generalize (i - nc_degree c + 1). induction (Z.to_nat (nc_degree c)); intros a; cbn; [reflexivity|f_equal; apply IHn]. }
  intros j Hj. pose proof (C3 0 j ltac:(lia) ltac:(lia)). pose proof (C3 j i ltac:(lia) ltac:(lia)). rewrite (C4 0) in * by lia. lra.
Qed.
Lemma ev_last c f i : valid c -> nc_degree c <= i < vsize (nc_points c) -> in_span (nc_knots c) i 1 -> ev c f 1 i = f i.
Proof.
  intros V B I. pose proof (valid_gap c i 1 V B I) as G. destruct (in_span_lt _ _ _ I) as [_ [L U]]. pose proof V as [_ [_ [C _]]]. pose proof C as [C1 [C2 [C3 [C4 C5]]]].
  unfold ev. apply (db_dual _ f _ i G i); [lia|].
  replace (repeat 1%R (Z.to_nat (nc_degree c))) with (kseq (kn (nc_knots c)) (i + 1) (Z.to_nat (nc_degree c))); [reflexivity|].
  rewrite (kseq_ext _ (fun _ => 1%R)). { clear. generalize (i + 1). induction (Z.to_nat (nc_degree c)); intros a; cbn; [reflexivity|f_equal; apply IHn]. }
  intros j Hj. pose proof (C3 (i + 1) j ltac:(lia) ltac:(lia)). pose proof (C3 j (vsize (nc_points c) + nc_degree c) ltac:(lia) ltac:(lia)). rewrite (C5 (vsize (nc_points c) + nc_degree c)) in * by lia. lra.
Qed.

Lemma ev_point_unit c t i j : valid c -> 0 <= j < vsize (nc_points c) -> (forall f, ev c f t i = f j) -> ev_point c t i = cp c j.
Proof.
  intros V H E. unfold ev_point. rewrite !E. unfold hx, hy, hz. pose proof (cw_pos c j V H). destruct (cp c j) as [x y z]. cbn [px py pz]. f_equal; field; lra.
Qed.

Lemma curve_ends c : valid c -> tight (nc_knots c) (nc_degree c) (vsize (nc_points c)) ->
  point_of (nc_evaluate c 0%R) = Ok (cp c 0) /\ point_of (nc_evaluate c 1%R) = Ok (cp c (vsize (nc_points c) - 1)).
Proof.
  intros V [T0 T1]. pose proof V as [V1 [V2 [C _]]]. pose proof C as [C1 [C2 [C3 [C4 C5]]]]. split.
  - destruct (evaluate_ok c 0 V ltac:(lra)) as [i [tp [tw [B [I [E _]]]]]]. rewrite E. cbn [point_of bind fst]. f_equal.
    assert (i = nc_degree c) as ->.
    { destruct (in_span_lt _ _ _ I) as [D [L U]]. destruct (Z.eq_dec i (nc_degree c)); [assumption|]. pose proof (C3 (nc_degree c + 1) i ltac:(lia) ltac:(lia)). lra. }
    apply (ev_point_unit c _ _ 0 V ltac:(lia)). intros f. rewrite (ev_first c f _ V B I). f_equal. lia.
  - destruct (evaluate_ok c 1 V ltac:(lra)) as [i [tp [tw [B [I [E _]]]]]]. rewrite E. cbn [point_of bind fst]. f_equal.
    assert (i = vsize (nc_points c) - 1) as ->.
    { destruct (in_span_lt _ _ _ I) as [D [L U]]. destruct (Z.eq_dec i (vsize (nc_points c) - 1)); [assumption|]. pose proof (C3 (i + 1) (vsize (nc_points c) - 1) ltac:(lia) ltac:(lia)). lra. }
    apply (ev_point_unit c _ _ (vsize (nc_points c) - 1) V ltac:(lia)). intros f. apply (ev_last c f _ V B I).
Qed.
