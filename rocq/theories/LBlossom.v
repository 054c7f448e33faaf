(** De Boor's triangle over the reals: symmetry, duality, and the blossoming principle. *)
From Coq Require Import ZArith List Bool Reals Lra Lia Permutation Psatz.
Import ListNotations.
Open Scope R_scope.

Notation zlen l := (Z.of_nat (length l)).

(** De Boor's triangle with one parameter per stage; the head of the list is the last stage. *)
Fixpoint db (k c : Z -> R) (p : Z) (us : list R) (j : Z) : R :=
  match us with
  | [] => c j
  | u :: us' =>
      let al := (u - k j) / (k (j + p - zlen us')%Z - k j) in
      (1 - al) * db k c p us' (j - 1) + al * db k c p us' j
  end.

(** The [n] knots from index [a]. *)
Fixpoint kseq (k : Z -> R) (a : Z) (n : nat) : list R :=
  match n with O => [] | S n' => k a :: kseq k (a + 1) n' end.

Lemma kseq_length k n : forall a, length (kseq k a n) = n.
Proof. induction n; intros; cbn; auto. Qed.
Lemma kseq_snoc k n : forall a, kseq k a (S n) = kseq k a n ++ [k (a + Z.of_nat n)%Z].
Proof.
  induction n; intros a.
  - cbn. do 2 f_equal. lia.
  - change (kseq k a (S (S n))) with (k a :: kseq k (a + 1) (S n)). rewrite IHn. cbn [kseq app]. do 3 f_equal. f_equal. lia.
Qed.
Lemma kseq_app k n : forall a m, kseq k a (n + m) = kseq k a n ++ kseq k (a + Z.of_nat n) m.
Proof.
  induction n; intros a m; cbn [kseq app Nat.add].
  - f_equal. lia.
  - f_equal. rewrite IHn. f_equal. f_equal. lia.
Qed.
Lemma kseq_ext k k' n : forall a, (forall j, (a <= j < a + Z.of_nat n)%Z -> k j = k' j) -> kseq k a n = kseq k' a n.
Proof.
  induction n; intros a H; cbn; [reflexivity|]. f_equal; [apply H; lia|]. apply IHn. intros j Hj. apply H. lia.
Qed.

Section Span.
Variables (k c : Z -> R) (p i : Z).
(** Span [i]: knots up to [i] are below knots after [i]. *)
Definition gap := forall j m, (i - p < j <= i)%Z -> (i < m <= i + p)%Z -> k j < k m.

Lemma db_ext c' us : forall j, (forall m, (j - zlen us <= m <= j)%Z -> c m = c' m) -> db k c p us j = db k c' p us j.
Proof.
  induction us as [|u us IH]; intros j H; cbn [db length] in *.
  - apply H. lia.
  - rewrite (IH (j - 1)%Z), (IH j); [reflexivity| |]; intros m Hm; apply H; rewrite Nat2Z.inj_succ in *; lia.
Qed.

Lemma db_affine s x y us j :
  db k c p (((1 - s) * x + s * y) :: us) j = (1 - s) * db k c p (x :: us) j + s * db k c p (y :: us) j.
Proof. cbn [db]. unfold Rdiv. ring. Qed.

Hypothesis G : gap.

Lemma db_swap u v us j : (zlen us + 2 <= p)%Z -> (i - p + zlen us + 2 <= j <= i)%Z ->
  db k c p (u :: v :: us) j = db k c p (v :: u :: us) j.
Proof.
  intros HL HJ. cbn [db length]. rewrite Nat2Z.inj_succ. unfold Z.succ.
  replace (j - 1 + p - zlen us)%Z with (j + p - (zlen us + 1))%Z by lia.
  pose proof (G j (j + p - (zlen us + 1))%Z ltac:(lia) ltac:(lia)) as G1.
  pose proof (G (j - 1)%Z (j + p - (zlen us + 1))%Z ltac:(lia) ltac:(lia)) as G2.
  pose proof (G j (j + p - zlen us)%Z ltac:(lia) ltac:(lia)) as G3.
  set (d := k (j + p - zlen us)%Z) in *. set (e := k (j + p - (zlen us + 1))%Z) in *. set (b := k j) in *. set (a := k (j - 1)%Z) in *.
  generalize (db k c p us (j - 1 - 1)) (db k c p us (j - 1)) (db k c p us j). intros x y z.
  field. lra.
Qed.

Lemma db_perm us vs : Permutation us vs -> forall j, (zlen us <= p)%Z -> (i - p + zlen us <= j <= i)%Z ->
  db k c p us j = db k c p vs j.
Proof.
  induction 1 as [|u us vs P IH|u v us|us vs ws P1 IH1 P2 IH2]; intros j HL HJ.
  - reflexivity.
  - cbn [db]. pose proof (Permutation_length P) as L. rewrite <- L. cbn [length] in HL, HJ. rewrite Nat2Z.inj_succ in *. rewrite !IH by lia. reflexivity.
  - apply db_swap; cbn [length] in *; rewrite !Nat2Z.inj_succ in *; lia.
  - rewrite IH1 by assumption. pose proof (Permutation_length P1) as L. apply IH2; rewrite <- L; assumption.
Qed.

(** Descending knots reach the left corner, ascending knots the right corner of the triangle. *)
Lemma db_up : forall n j a, (Z.of_nat n <= p)%Z -> (i - p + Z.of_nat n <= j <= i)%Z -> (a = j + p - Z.of_nat n + 1)%Z ->
  db k c p (kseq k a n) j = c j.
Proof.
  induction n; intros j a HL HJ HA.
  - reflexivity.
  - cbn [kseq db]. rewrite kseq_length. rewrite Nat2Z.inj_succ in *.
    replace (j + p - Z.of_nat n)%Z with a by lia.
    pose proof (G j a ltac:(lia) ltac:(lia)) as G1.
    replace ((k a - k j) / (k a - k j)) with 1 by (field; lra).
    rewrite (IHn j (a + 1)%Z) by lia. ring.
Qed.
Lemma db_down : forall n us j, (Z.of_nat n + zlen us <= p)%Z -> (i - p + Z.of_nat n + zlen us <= j <= i)%Z ->
  db k c p (rev (kseq k (j - Z.of_nat n + 1) n) ++ us) j = db k c p us (j - Z.of_nat n).
Proof.
  induction n; intros us j HL HJ.
  - cbn [kseq rev app]. f_equal. lia.
  - rewrite kseq_snoc, rev_app_distr. cbn [rev app db]. rewrite Nat2Z.inj_succ in *.
    replace (j - Z.succ (Z.of_nat n) + 1 + Z.of_nat n)%Z with j by lia.
    replace ((k j - k j) / _) with 0 by (unfold Rdiv; ring).
    replace (j - Z.succ (Z.of_nat n) + 1)%Z with (j - 1 - Z.of_nat n + 1)%Z by lia.
    rewrite (IHn us (j - 1)%Z) by lia. rewrite Rminus_0_r, Rmult_1_l, Rmult_0_l, Rplus_0_r. f_equal. lia.
Qed.

(** Duality: the blossom at p consecutive knots is the control coefficient. *)
Lemma db_dual j us : (i - p <= j <= i)%Z -> Permutation us (kseq k (j + 1) (Z.to_nat p)) -> db k c p us i = c j.
Proof.
  intros HJ P.
  assert (Permutation us (rev (kseq k (j + 1) (Z.to_nat (i - j))) ++ kseq k (i + 1) (Z.to_nat (p - (i - j))))) as Q.
  { rewrite P. replace (Z.to_nat p) with (Z.to_nat (i - j) + Z.to_nat (p - (i - j)))%nat by lia.
    rewrite kseq_app. apply Permutation_app; [apply Permutation_rev|]. replace (j + 1 + Z.of_nat (Z.to_nat (i - j)))%Z with (i + 1)%Z by lia. reflexivity. }
  assert (zlen us = p) as L by (rewrite (Permutation_length P), kseq_length; lia).
  rewrite (db_perm _ _ Q) by lia.
  replace (j + 1)%Z with (i - Z.of_nat (Z.to_nat (i - j)) + 1)%Z by lia.
  rewrite db_down by (rewrite kseq_length; lia).
  rewrite db_up by lia. f_equal. lia.
Qed.
End Span.

(** Symmetric multi-affine functions of [p] arguments. *)
Definition mab (F : list R -> R) (p : Z) : Prop :=
  (forall us vs, Permutation us vs -> zlen us = p -> F us = F vs) /\
  (forall s x y us, (zlen us + 1 = p)%Z -> F (((1 - s) * x + s * y) :: us) = (1 - s) * F (x :: us) + s * F (y :: us)).

Lemma db_mab k c p i : gap k p i -> mab (fun us => db k c p us i) p.
Proof.
  intros G. split.
  - intros us vs P L. apply (db_perm k c p i G us vs P); lia.
  - intros. apply db_affine.
Qed.

(** Blossoming principle: a symmetric multi-affine [F] whose values at the knots are the
    coefficients is computed by de Boor's triangle. *)
Lemma blossom F k c p i : gap k p i -> (0 <= p)%Z -> mab F p ->
  (forall j, (i - p <= j <= i)%Z -> c j = F (kseq k (j + 1) (Z.to_nat p))) ->
  forall us j, (zlen us <= p)%Z -> (i - p + zlen us <= j <= i)%Z ->
  db k c p us j = F (us ++ kseq k (j + 1) (Z.to_nat (p - zlen us))).
Proof.
  intros G P0 [Sy Af] H. induction us as [|u us IH]; intros j HL HJ.
  - cbn [db app length]. rewrite H by (cbn in HJ; lia). do 2 f_equal. cbn. lia.
  - cbn [db length] in *. rewrite Nat2Z.inj_succ in *.
    rewrite !IH by lia.
    set (n := Z.to_nat (p - Z.succ (zlen us))).
    replace (Z.to_nat (p - zlen us)) with (S n) by lia.
    pose proof (G j (j + p - zlen us)%Z ltac:(lia) ltac:(lia)) as G1.
    rewrite (Sy (us ++ kseq k (j - 1 + 1) (S n)) (k j :: us ++ kseq k (j + 1) n)).
    2:{ cbn [kseq]. replace (j - 1 + 1)%Z with j by lia. symmetry. apply Permutation_middle. }
    2:{ rewrite app_length, kseq_length. lia. }
    rewrite (Sy (us ++ kseq k (j + 1) (S n)) (k (j + p - zlen us)%Z :: us ++ kseq k (j + 1) n)).
    2:{ rewrite kseq_snoc. replace (j + 1 + Z.of_nat n)%Z with (j + p - zlen us)%Z by lia. rewrite app_assoc. symmetry. apply Permutation_cons_append. }
    2:{ rewrite app_length, kseq_length. lia. }
    rewrite <- Af by (rewrite app_length, kseq_length; lia). cbn [app]. f_equal. f_equal. field. lra.
Qed.

(** Two nets that agree at the knots of the second describe the same segment. *)
Lemma blossom_transfer k c p i k' c' i' : gap k p i -> gap k' p i' -> (0 <= p)%Z ->
  (forall j, (i' - p <= j <= i')%Z -> c' j = db k c p (kseq k' (j + 1) (Z.to_nat p)) i) ->
  forall us, zlen us = p -> db k' c' p us i' = db k c p us i.
Proof.
  intros G G' P0 H us L.
  rewrite (blossom (fun us => db k c p us i) k' c' p i' G' P0 (db_mab k c p i G) H us i') by lia.
  cbv beta. f_equal. rewrite L. replace (Z.to_nat (p - p)) with 0%nat by lia. cbn. apply app_nil_r.
Qed.

(** Linearity, positivity. *)
Lemma db_lin k c d p x y us : forall j, db k (fun m => x * c m + y * d m) p us j = x * db k c p us j + y * db k d p us j.
Proof. induction us as [|u us IH]; intros j; cbn [db]; [reflexivity|]. rewrite !IH. ring. Qed.
Lemma db_const k p x us : forall j, db k (fun _ => x) p us j = x.
Proof. induction us as [|u us IH]; intros j; cbn [db]; [reflexivity|]. rewrite !IH. ring. Qed.
Lemma db_scal k c p x us : forall j, db k (fun m => x * c m) p us j = x * db k c p us j.
Proof. induction us as [|u us IH]; intros j; cbn [db]; [reflexivity|]. rewrite !IH. ring. Qed.

Lemma db_nonneg k c p i t : gap k p i -> (forall j, (i - p < j <= i)%Z -> k j <= t) -> (forall m, (i < m <= i + p)%Z -> t <= k m) ->
  forall n j, (Z.of_nat n <= p)%Z -> (i - p + Z.of_nat n <= j <= i)%Z -> (forall m, (j - Z.of_nat n <= m <= j)%Z -> 0 <= c m) ->
  0 <= db k c p (repeat t n) j.
Proof.
  intros G Lo Hi. induction n; intros j HL HJ H; cbn [repeat db].
  - apply H. lia.
  - rewrite repeat_length. rewrite Nat2Z.inj_succ in *.
    pose proof (G j (j + p - Z.of_nat n)%Z ltac:(lia) ltac:(lia)) as G1.
    pose proof (Lo j ltac:(lia)) as L1. pose proof (Hi (j + p - Z.of_nat n)%Z ltac:(lia)) as H1.
    pose proof (IHn (j - 1)%Z ltac:(lia) ltac:(lia) ltac:(intros; apply H; lia)) as I1.
    pose proof (IHn j ltac:(lia) ltac:(lia) ltac:(intros; apply H; lia)) as I2.
    set (al := (t - k j) / _). assert (0 <= al <= 1) as A.
    { unfold al. split; [apply Rmult_le_pos; [lra|left; apply Rinv_0_lt_compat; lra]|]. apply (Rmult_le_reg_r (k (j + p - Z.of_nat n)%Z - k j)); [lra|]. unfold Rdiv. rewrite Rmult_assoc, Rinv_l by lra. lra. }
    nra.
Qed.
Lemma db_pos k c p i t : gap k p i -> (0 <= p)%Z -> (forall j, (i - p < j <= i)%Z -> k j <= t) -> (forall m, (i < m <= i + p)%Z -> t <= k m) ->
  (forall m, (i - p <= m <= i)%Z -> 0 < c m) -> 0 < db k c p (repeat t (Z.to_nat p)) i.
Proof.
  intros G P0 Lo Hi H.
  assert (exists e, 0 < e /\ forall m, (i - p <= m <= i)%Z -> e <= c m) as [e [E1 E2]].
  { clear - H P0. assert (forall n, (Z.of_nat n <= p)%Z -> exists e, 0 < e /\ forall m, (i - Z.of_nat n <= m <= i)%Z -> e <= c m) as K.
    { induction n; intros L.
      - exists (c i). split; [apply H; lia|]. intros m Hm. replace m with i by lia. lra.
      - destruct IHn as [e [A B]]; [lia|]. exists (Rmin e (c (i - Z.of_nat (S n))%Z)). split.
        + apply Rmin_glb_lt; [exact A|]. apply H. lia.
        + intros m Hm. destruct (Z.eq_dec m (i - Z.of_nat (S n))) as [->|]; [apply Rmin_r|].
          eapply Rle_trans; [apply Rmin_l|]. apply B. lia. }
    destruct (K (Z.to_nat p) ltac:(lia)) as [e [A B]]. exists e. split; [exact A|]. intros m Hm. apply B. lia. }
  pose proof (db_nonneg k (fun m => 1 * c m + (-1) * e) p i t G Lo Hi (Z.to_nat p) i ltac:(lia) ltac:(lia)) as K.
  assert (forall m, (i - Z.of_nat (Z.to_nat p) <= m <= i)%Z -> 0 <= 1 * c m + (-1) * e) as K2.
  { intros m Hm. specialize (E2 m ltac:(lia)). lra. }
  specialize (K K2). rewrite (db_lin k c (fun _ => e) p 1 (-1)) in K. rewrite db_const in K. lra.
Qed.
