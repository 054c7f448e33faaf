(** Knot scaling, span search and evaluation of NURBS curves over the reals. *)
From Coq Require Import ZArith List Bool Reals Lra Lia Permutation Psatz.
From Verif Require Import Base Num MGeometry MNurbs SGeom SNurbs LBase LBlossom.
Import ListNotations.
Open Scope Z_scope.

Lemma vget_nth {A} (v : list A) d i : 0 <= i < vsize v -> vget v i = Ok (nth (Z.to_nat i) v d).
Proof.
  intros H. apply vget_Ok. split; [lia|]. apply nth_error_nth'. unfold vsize in H. lia.
Qed.
Lemma vget_kn ks i : 0 <= i < vsize ks -> vget ks i = Ok (kn ks i).
Proof. apply vget_nth. Qed.
Lemma kn_of ks i x : vget ks i = Ok x -> kn ks i = x.
Proof. intros H. pose proof (vget_range _ _ _ H). rewrite vget_kn in H by assumption. injection H as <-. reflexivity. Qed.

(** An in-place loop [v[i] = f(v[i])]. *)
Lemma for_map {A} (f : A -> res A) (g : A -> A) (v : list A) : (forall x, In x v -> f x = Ok (g x)) ->
  for_ 0 (vsize v) (fun i v => do x <- vget v i; do y <- f x; vset v i y) v = Ok (map g v).
Proof.
  intros H.
  destruct (for_inv (fun i w => vsize w = vsize v /\ (forall j, 0 <= j < i -> vget w j = vget (map g v) j) /\
     (forall j, i <= j < vsize v -> vget w j = vget v j)) 0 (vsize v)
     (fun i v => do x <- vget v i; do y <- f x; vset v i y) v) as [w [E [I1 [I2 I3]]]].
  - apply vsize_nonneg.
  - split; [reflexivity|]. split; [intros; lia|auto].
  - intros i w Hi [J1 [J2 J3]]. destruct (vget_in_range v i Hi) as [x Ex]. rewrite (J3 i) by lia. rewrite Ex. cbn [bind].
    rewrite (H x (vget_In _ _ _ Ex)). cbn [bind].
    pose proof (vset_in_range w i (g x) ltac:(lia)) as Ew. eexists. split; [exact Ew|].
    split; [rewrite (vset_size _ _ _ _ Ew); exact J1|].
    split; intros j Hj; rewrite (vget_vset _ _ _ _ j Ew).
    + destruct (Z.eqb_spec j i) as [->|].
      * rewrite vget_map, Ex. reflexivity.
      * apply J2. lia.
    + destruct (Z.eqb_spec j i); [lia|]. apply J3. lia.
  - rewrite E. f_equal. apply vget_ext; [rewrite vsize_map; exact I1|]. intros j Hj. apply I2. lia.
Qed.

(** ** Knot scaling *)
Lemma nmin_R a b : nmin a b = Rmin a b.
Proof. unfold nmin. cbn. unfold Rltb. destruct (Rlt_dec b a); unfold Rmin; destruct (Rle_dec a b); lra. Qed.
Lemma nmax_R a b : nmax a b = Rmax a b.
Proof. unfold nmax. cbn. unfold Rltb. destruct (Rlt_dec a b); unfold Rmax; destruct (Rle_dec a b); lra. Qed.

Definition affine01 (mn mx v : R) : R := ((v - mn) / (mx - mn))%R.

Lemma scale_knots_ok ks : ks <> [] -> exists mn mx, In mn ks /\ In mx ks /\ (forall v, In v ks -> mn <= v <= mx)%R /\
  (mn < mx -> scale_knots ks = Ok (map (affine01 mn mx) ks))%R /\
  (mn = mx -> scale_knots ks = Err FDivZero).
Proof.
  intros NE. destruct ks as [|k0 tl] eqn:EK; [congruence|]. rewrite <- EK in *. clear NE.
  assert (vget ks 0 = Ok k0) as E0 by (rewrite EK; reflexivity).
  assert (1 <= vsize ks) as SZ by (rewrite EK, vsize_cons; pose proof (vsize_nonneg tl); lia).
  unfold scale_knots. rewrite E0. cbn [bind].
  destruct (for_inv (fun i mm => In (fst mm) ks /\ In (snd mm) ks /\ (forall j v, 0 <= j < i -> vget ks j = Ok v -> (fst mm <= v <= snd mm)%R))
    1 (vsize ks) (fun i mm => do v <- vget ks i; Ok (nmin (fst mm) v, nmax (snd mm) v)) (k0, k0)) as [[mn mx] [E [I1 [I2 I3]]]].
  - exact SZ.
  - cbn [fst snd]. repeat split; try (apply (vget_In _ _ _ E0)); replace j with 0 in * by lia; rewrite E0 in H0; injection H0 as <-; lra.
  - intros i [a b] Hi [J1 [J2 J3]]. destruct (vget_in_range ks i ltac:(lia)) as [v Ev]. rewrite Ev. cbn [bind fst snd].
    eexists. split; [reflexivity|]. cbn [fst snd]. rewrite nmin_R, nmax_R. cbn [fst snd] in J1, J2, J3.
    split; [unfold Rmin; destruct (Rle_dec a v); [exact J1|exact (vget_In _ _ _ Ev)]|].
    split; [unfold Rmax; destruct (Rle_dec b v); [exact (vget_In _ _ _ Ev)|exact J2]|].
    intros j x Hj Ex. destruct (Z.eq_dec j i) as [->|].
    + rewrite Ev in Ex. injection Ex as <-. split; [apply Rmin_r|apply Rmax_r].
    + specialize (J3 j x ltac:(lia) Ex). pose proof (Rmin_l a v). pose proof (Rmax_l b v). lra.
  - rewrite E. cbn [bind fst snd] in *. exists mn, mx. split; [exact I1|]. split; [exact I2|].
    split. { intros v Hv. destruct (In_vget _ _ Hv) as [j [Hj Ej]]. exact (I3 j v Hj Ej). }
    split.
    + intros L. apply (for_map (fun v => ndiv (v - mn)%R (mx - mn)%R)). intros x _. cbn. destruct (Req_EM_T (mx - mn) 0); [lra|reflexivity].
    + intros ->. rewrite for_step by lia. rewrite E0. cbn. destruct (Req_EM_T (mx - mx) 0); [reflexivity|lra].
Qed.


Lemma kn_map f ks i : 0 <= i < vsize ks -> kn (map f ks) i = f (kn ks i).
Proof. intros H. apply kn_of. rewrite vget_map, (vget_kn ks i H). reflexivity. Qed.

Lemma scale_sorted ks : sorted ks -> 1 <= vsize ks -> (kn ks 0 < kn ks (vsize ks - 1))%R ->
  scale_knots ks = Ok (map (affine01 (kn ks 0) (kn ks (vsize ks - 1))) ks).
Proof.
  intros S L H. destruct (scale_knots_ok ks) as [mn [mx [I1 [I2 [I3 [I4 _]]]]]]. { intros ->. cbn in L. lia. }
  pose proof (I3 _ (vget_In _ _ _ (vget_kn ks 0 ltac:(lia)))) as B0. pose proof (I3 _ (vget_In _ _ _ (vget_kn ks (vsize ks - 1) ltac:(lia)))) as B1.
  apply In_vget in I1, I2. destruct I1 as [a [Ha Ea]]. destruct I2 as [b [Hb Eb]].
  pose proof (S 0 a ltac:(lia) ltac:(lia)) as S0. rewrite (kn_of _ _ _ Ea) in S0.
  pose proof (S b (vsize ks - 1) ltac:(lia) ltac:(lia)) as S1. rewrite (kn_of _ _ _ Eb) in S1.
  replace mn with (kn ks 0) in * by lra. replace mx with (kn ks (vsize ks - 1)) in * by lra. apply I4. lra.
Qed.

Lemma scale_id ks : sorted ks -> 1 <= vsize ks -> kn ks 0 = 0%R -> kn ks (vsize ks - 1) = 1%R -> scale_knots ks = Ok ks.
Proof.
  intros S L H0 H1. rewrite scale_sorted by (try assumption; lra). f_equal. rewrite H0, H1.
  transitivity (map (fun x : R => x) ks); [|apply map_id]. apply map_ext. intros x. unfold affine01. field.
Qed.

Lemma clamped_sorted ks p n : clamped ks p n -> sorted ks /\ 1 <= vsize ks /\ kn ks 0 = 0%R /\ kn ks (vsize ks - 1) = 1%R.
Proof.
  intros [H1 [H2 [H3 [H4 H5]]]]. split; [intros i j A B; apply H3; lia|]. split; [lia|]. split; [apply H4; lia|]. apply H5. lia.
Qed.
Lemma clamped_scale ks p n : clamped ks p n -> scale_knots ks = Ok ks.
Proof. intros H. destruct (clamped_sorted _ _ _ H) as [A [B [C D]]]. apply scale_id; assumption. Qed.

(** ** Span search *)
Lemma Rltb_true x y : Rltb x y = true <-> (x < y)%R.
Proof. unfold Rltb. destruct (Rlt_dec x y); split; intros; try lra; try discriminate; reflexivity. Qed.
Lemma Rleb_true x y : Rleb x y = true <-> (x <= y)%R.
Proof. unfold Rleb. destruct (Rle_dec x y); split; intros; try lra; try discriminate; reflexivity. Qed.

Definition spanb (a b t : R) : bool := if Rltb t 1 then Rleb a t && Rltb t b else Rltb a t && Rleb t b.
Lemma spanb_true ks i t : spanb (kn ks i) (kn ks (i + 1)) t = true <-> in_span ks i t.
Proof.
  unfold spanb, in_span. destruct (Rltb t 1) eqn:E.
  - apply Rltb_true in E. rewrite andb_true_iff, Rleb_true, Rltb_true. lra.
  - assert (~ (t < 1)%R) by (intros K; apply Rltb_true in K; congruence). rewrite andb_true_iff, Rleb_true, Rltb_true. lra.
Qed.

Lemma find_span_loop_ok ks t n : forall i, 0 <= i -> i + Z.of_nat n < vsize ks ->
  exists r, find_span_loop ks t n i = Ok r /\
   ((r = -1 /\ forall j, i <= j < i + Z.of_nat n -> ~ in_span ks j t) \/
    (i <= r < i + Z.of_nat n /\ in_span ks r t /\ forall j, i <= j < r -> ~ in_span ks j t)).
Proof.
  induction n; intros i Hi HL; cbn [find_span_loop].
  - exists (-1). split; [reflexivity|]. left. split; [reflexivity|]. intros; lia.
  - rewrite (vget_kn ks i), (vget_kn ks (i + 1)) by lia. cbn [bind].
    change (if nltb t n1 then nleb (kn ks i) t && nltb t (kn ks (i + 1)) else nltb (kn ks i) t && nleb t (kn ks (i + 1)))
      with (spanb (kn ks i) (kn ks (i + 1)) t).
    destruct (spanb (kn ks i) (kn ks (i + 1)) t) eqn:E.
    + exists i. split; [reflexivity|]. right. split; [lia|]. split; [apply spanb_true; exact E|]. intros; lia.
    + assert (~ in_span ks i t) as NI by (rewrite <- spanb_true; congruence).
      destruct (IHn (i + 1) ltac:(lia) ltac:(lia)) as [r [Er [[-> H]|[H1 [H2 H3]]]]]; exists r || exists (-1); (split; [exact Er|]).
      * left. split; [reflexivity|]. intros j Hj. destruct (Z.eq_dec j i) as [->|]; [exact NI|apply H; lia].
      * right. split; [lia|]. split; [exact H2|]. intros j Hj. destruct (Z.eq_dec j i) as [->|]; [exact NI|apply H3; lia].
Qed.

Definition clamp01 (t : R) : R := if Rlt_dec t 0 then 0%R else if Rlt_dec 1 t then 1%R else t.
Lemma clamp01_id t : (0 <= t <= 1)%R -> clamp01 t = t.
Proof. intros H. unfold clamp01. destruct (Rlt_dec t 0); [lra|]. destruct (Rlt_dec 1 t); [lra|reflexivity]. Qed.
Lemma clamp01_range t : (0 <= clamp01 t <= 1)%R.
Proof. unfold clamp01. destruct (Rlt_dec t 0); [lra|]. destruct (Rlt_dec 1 t); lra. Qed.

Lemma find_knot_span_total ks t : exists r, find_knot_span ks t = Ok r /\ -1 <= r /\ (2 <= vsize ks -> r < vsize ks - 1) /\
  (2 <= vsize ks -> (r = -1 /\ forall j, 0 <= j < vsize ks - 1 -> ~ in_span ks j (clamp01 t)) \/
     (0 <= r /\ in_span ks r (clamp01 t))).
Proof.
  unfold find_knot_span. destruct (Z.ltb_spec (vsize ks) 2).
  - exists 0. split; [reflexivity|]. split; [lia|]. split; intros; lia.
  - cbv zeta. set (t' := if nltb n1 _ then _ else _).
    assert (t' = clamp01 t) as ->.
    { unfold t', clamp01. cbn. unfold Rltb. destruct (Rlt_dec t 0); [destruct (Rlt_dec 1 0); lra|destruct (Rlt_dec 1 t); reflexivity]. }
    destruct (find_span_loop_ok ks (clamp01 t) (Z.to_nat (vsize ks - 1)) 0 ltac:(lia) ltac:(lia)) as [r [E [[-> D]|[D1 [D2 D3]]]]].
    + exists (-1). split; [exact E|]. split; [lia|]. split; [lia|]. intros _. left. split; [reflexivity|]. intros j Hj. apply D. lia.
    + exists r. split; [exact E|]. split; [lia|]. split; [lia|]. intros _. right. split; [lia|exact D2].
Qed.

Lemma crossing (P : Z -> Prop) (D : forall i, {P i} + {~ P i}) n : P 0 -> ~ P (Z.of_nat n) -> exists i, 0 <= i < Z.of_nat n /\ P i /\ ~ P (i + 1).
Proof.
  induction n; intros H0 H1; [contradiction|]. rewrite Nat2Z.inj_succ in H1. destruct (D (Z.of_nat n)) as [Y|Y].
  - exists (Z.of_nat n). split; [lia|]. split; [exact Y|exact H1].
  - destruct (IHn H0 Y) as [i [A B]]. exists i. split; [lia|exact B].
Qed.

Lemma span_exists ks t : 2 <= vsize ks -> kn ks 0 = 0%R -> kn ks (vsize ks - 1) = 1%R -> (0 <= t <= 1)%R ->
  exists i, 0 <= i < vsize ks - 1 /\ in_span ks i t.
Proof.
  intros L K0 K1 T. destruct (Rlt_dec t 1) as [T1|T1].
  - destruct (crossing (fun i => kn ks i <= t)%R (fun i => Rle_dec _ _) (Z.to_nat (vsize ks - 1))) as [i [A [B C]]].
    + lra.
    + rewrite Z2Nat.id by lia. lra.
    + exists i. split; [lia|]. left. lra.
  - destruct (crossing (fun i => kn ks i < 1)%R (fun i => Rlt_dec _ _) (Z.to_nat (vsize ks - 1))) as [i [A [B C]]].
    + lra.
    + rewrite Z2Nat.id by lia. lra.
    + exists i. split; [lia|]. right. lra.
Qed.

Lemma span_unique ks t i j : sorted ks -> 0 <= i -> 0 <= j -> i < vsize ks - 1 -> j < vsize ks - 1 -> in_span ks i t -> in_span ks j t -> i = j.
Proof.
  intros S I0 J0 I1 J1 Hi Hj. destruct (Z.lt_trichotomy i j) as [L|[L|L]]; [|exact L|]; exfalso.
  - pose proof (S (i + 1) j ltac:(lia) ltac:(lia)). unfold in_span in *. lra.
  - pose proof (S (j + 1) i ltac:(lia) ltac:(lia)). unfold in_span in *. lra.
Qed.

Lemma find_knot_span_ok ks t : sorted ks -> 2 <= vsize ks -> kn ks 0 = 0%R -> kn ks (vsize ks - 1) = 1%R ->
  exists i, find_knot_span ks t = Ok i /\ 0 <= i < vsize ks - 1 /\ in_span ks i (clamp01 t).
Proof.
  intros S L K0 K1. destruct (find_knot_span_total ks t) as [r [E [R1 [R2 R3]]]]. specialize (R2 L). 
  destruct (R3 L) as [[-> H]|[H1 H2]].
  - destruct (span_exists ks (clamp01 t) L K0 K1 (clamp01_range t)) as [i [A B]]. destruct (H i A B).
  - exists r. split; [exact E|]. split; [lia|exact H2].
Qed.

Lemma in_span_lt ks i t : in_span ks i t -> (kn ks i < kn ks (i + 1) /\ kn ks i <= t <= kn ks (i + 1))%R.
Proof. unfold in_span. lra. Qed.

Lemma clamped_span ks p n t : clamped ks p n -> (0 <= t <= 1)%R ->
  exists i, find_knot_span ks t = Ok i /\ p <= i < n /\ in_span ks i t.
Proof.
  intros C T. destruct (clamped_sorted _ _ _ C) as [S [L [K0 K1]]]. destruct C as [H1 [H2 [H3 [H4 H5]]]].
  destruct (find_knot_span_ok ks t S ltac:(lia) K0 K1) as [i [E [B I]]]. rewrite (clamp01_id t T) in I.
  exists i. split; [exact E|]. split; [|exact I]. destruct (in_span_lt _ _ _ I) as [D _].
  split.
  - destruct (Z_lt_le_dec i p); [|lia]. rewrite (H4 i), (H4 (i + 1)) in D by lia. lra.
  - destruct (Z_lt_le_dec i n); [lia|]. rewrite (H5 i), (H5 (i + 1)) in D by lia. lra.
Qed.

Lemma clamped_gap ks p n i : clamped ks p n -> p <= i < n -> (kn ks i < kn ks (i + 1))%R -> gap (kn ks) p i.
Proof.
  intros [H1 [H2 [H3 _]]] B D j m Hj Hm. pose proof (H3 j i ltac:(lia) ltac:(lia)). pose proof (H3 (i + 1) m ltac:(lia) ltac:(lia)). lra.
Qed.
Lemma clamped_lo ks p n i t : clamped ks p n -> p <= i < n -> (kn ks i <= t)%R -> forall j, i - p < j <= i -> (kn ks j <= t)%R.
Proof. intros [H1 [H2 [H3 _]]] B D j Hj. pose proof (H3 j i ltac:(lia) ltac:(lia)). lra. Qed.
Lemma clamped_hi ks p n i t : clamped ks p n -> p <= i < n -> (t <= kn ks (i + 1))%R -> forall m, i < m <= i + p -> (t <= kn ks m)%R.
Proof. intros [H1 [H2 [H3 _]]] B D j Hj. pose proof (H3 (i + 1) j ltac:(lia) ltac:(lia)). lra. Qed.

(** ** The de Boor loops *)
Definition hpt (k cx cy cz : Z -> R) (p : Z) (us : list R) (j : Z) : pt3 :=
  mkP (db k cx p us j) (db k cy p us j) (db k cz p us j).

Lemma deboor_ok ks p i u cx cy cz cc tp tw : 0 <= p -> p <= i -> i + p < vsize ks -> gap (kn ks) p i ->
  p + 1 <= vsize tp -> p + 1 <= vsize tw ->
  (forall j, 0 <= j <= p -> vget tp j = Ok (mkP (cx (j + i - p)) (cy (j + i - p)) (cz (j + i - p)))) ->
  (forall j, 0 <= j <= p -> vget tw j = Ok (cc (j + i - p))) ->
  exists tp' tw', deboor ks p i u (tp, tw) = Ok (tp', tw') /\ vsize tp' = vsize tp /\ vsize tw' = vsize tw /\
    vget tp' p = Ok (hpt (kn ks) cx cy cz p (repeat u (Z.to_nat p)) i) /\ vget tw' p = Ok (db (kn ks) cc p (repeat u (Z.to_nat p)) i).
Proof.
  intros P0 PI IL G ST SW HT HW. unfold deboor. set (k := kn ks).
  destruct (for_inv (fun r s => vsize (fst s) = vsize tp /\ vsize (snd s) = vsize tw /\
      (forall j, r - 1 <= j <= p -> vget (fst s) j = Ok (hpt k cx cy cz p (repeat u (Z.to_nat (r - 1))) (j + i - p))) /\
      (forall j, r - 1 <= j <= p -> vget (snd s) j = Ok (db k cc p (repeat u (Z.to_nat (r - 1))) (j + i - p))))
    1 (p + 1) (fun r s => for_ 0 (p - r + 1) (fun m s => deboor_step ks p i u r (p - m) s) s) (tp, tw)) as [[tp' tw'] [E [I1 [I2 [I3 I4]]]]].
  - lia.
  - cbn [fst snd]. split; [reflexivity|]. split; [reflexivity|]. split; intros j Hj.
    + apply HT. lia.
    + apply HW. lia.
  - intros r [t0 w0] Hr [J1 [J2 [J3 J4]]]. cbn [fst snd] in *.
    destruct (for_inv (fun m s => vsize (fst s) = vsize tp /\ vsize (snd s) = vsize tw /\
      (forall j, r - 1 <= j <= p - m -> vget (fst s) j = Ok (hpt k cx cy cz p (repeat u (Z.to_nat (r - 1))) (j + i - p))) /\
      (forall j, r - 1 <= j <= p - m -> vget (snd s) j = Ok (db k cc p (repeat u (Z.to_nat (r - 1))) (j + i - p))) /\
      (forall j, p - m < j <= p -> vget (fst s) j = Ok (hpt k cx cy cz p (repeat u (Z.to_nat r)) (j + i - p))) /\
      (forall j, p - m < j <= p -> vget (snd s) j = Ok (db k cc p (repeat u (Z.to_nat r)) (j + i - p))))
      0 (p - r + 1) (fun m s => deboor_step ks p i u r (p - m) s) (t0, w0)) as [[t1 w1] [E1 [K1 [K2 [K3 [K4 [K5 K6]]]]]]].
    + lia.
    + cbn [fst snd]. split; [exact J1|]. split; [exact J2|]. split; [intros; apply J3; lia|]. split; [intros; apply J4; lia|]. split; intros; lia.
    + intros m [t1 w1] Hm [K1 [K2 [K3 [K4 [K5 K6]]]]]. cbn [fst snd] in *.
      unfold deboor_step. set (j := p - m) in *.
      rewrite (vget_kn ks (j + i - p)) by lia. cbn [bind]. rewrite (vget_kn ks (j + 1 + i - r)) by lia. cbn [bind].
      pose proof (G (j + i - p) (j + 1 + i - r) ltac:(lia) ltac:(lia)) as GG. fold k in GG.
      unfold ndiv, RNum at 1. fold k. cbn [nsub RNum].
      destruct (Req_EM_T (k (j + 1 + i - r)%Z - k (j + i - p)%Z) 0) as [Z0|_]; [lra|]. cbn [bind].
      rewrite (K3 (j - 1)), (K3 j) by lia. cbn [bind].
      rewrite (vset_in_range t1 j) by lia. cbn [bind].
      rewrite (K4 (j - 1)), (K4 j) by lia. cbn [bind].
      rewrite (vset_in_range w1 j) by lia. cbn [bind].
      eexists. split; [reflexivity|]. cbn [fst snd].
      set (al := ((u - k (j + i - p)%Z) / (k (j + 1 + i - r)%Z - k (j + i - p)%Z))%R).
      assert (forall cf, db k cf p (repeat u (Z.to_nat r)) (j + i - p) =
        (1 - al) * db k cf p (repeat u (Z.to_nat (r - 1))) (j + i - p - 1) + al * db k cf p (repeat u (Z.to_nat (r - 1))) (j + i - p))%R as DB.
      { intros cf. replace (Z.to_nat r) with (S (Z.to_nat (r - 1))) by lia. cbn [repeat db]. rewrite repeat_length.
        replace (j + i - p + p - Z.of_nat (Z.to_nat (r - 1))) with (j + 1 + i - r) by lia. reflexivity. }
      match goal with |- context [list_set t1 (Z.to_nat j) ?x] => pose proof (vset_in_range t1 j x ltac:(lia)) as V1 end.
      match goal with |- context [list_set w1 (Z.to_nat j) ?x] => pose proof (vset_in_range w1 j x ltac:(lia)) as V2 end.
      split; [rewrite (vset_size _ _ _ _ V1); exact K1|]. split; [rewrite (vset_size _ _ _ _ V2); exact K2|].
      replace (j - 1 + i - p) with (j + i - p - 1) in * by lia.
      split; [|split; [|split]]; intros q Hq; rewrite ?(vget_vset _ _ _ _ q V1), ?(vget_vset _ _ _ _ q V2); destruct (Z.eqb_spec q j) as [->|NE]; try lia.
      * apply K3. lia.
      * apply K4. lia.
      * unfold hpt. rewrite !DB. unfold padd, pmul, hpt. cbn [px py pz nadd nmul nsub RNum n1 nofZ]. unfold n1. cbn [nofZ RNum]. reflexivity.
      * apply K5. lia.
      * rewrite DB. unfold n1. cbn [nadd nmul nsub RNum nofZ]. f_equal. ring.
      * apply K6. lia.
    + exists (t1, w1). split; [exact E1|]. cbn [fst snd] in *. split; [exact K1|]. split; [exact K2|].
      replace (r + 1 - 1) with r by lia. split; intros j Hj; [apply K5|apply K6]; lia.
  - exists tp', tw'. split; [exact E|]. cbn [fst snd] in *. split; [exact I1|]. split; [exact I2|].
    replace (p + 1 - 1) with p in * by lia. specialize (I3 p ltac:(lia)). specialize (I4 p ltac:(lia)).
    replace (p + i - p) with i in * by lia. split; [exact I3|exact I4].
Qed.
