(** Round solids: the volume of a solid of revolution made of flat sectors. *)
From Coq Require Import ZArith List Bool Lia Reals Lra Psatz.
From Verif Require Import Base Num MGeometry MKernel MMesh MMeshRun MMeasure MUtil MMeshFactory SMesh SReach SGeom SMeasure SMeshFac LBase LMesh LReach LGeom LMeasure LMeasure2 LMeshFac LMeshFac2 LMeshFac3 LMeshFac4 LMeshFac5.
Import ListNotations.
Open Scope R_scope.

(** ** Sums *)
Definition rsum (f : Z -> R) (l : list Z) : R := sumR (map f l).
Lemma rsum_cons f i l : rsum f (i :: l) = f i + rsum f l. Proof. reflexivity. Qed.
Lemma rsum_app f u v : rsum f (u ++ v) = rsum f u + rsum f v.
Proof. unfold rsum. rewrite map_app. apply sumR_app. Qed.
Lemma rsum_ext f g l : (forall i, In i l -> f i = g i) -> rsum f l = rsum g l.
Proof. intros H. unfold rsum. f_equal. apply map_ext_in. exact H. Qed.
Lemma rsum_plus f g l : rsum (fun i => f i + g i) l = rsum f l + rsum g l.
Proof. induction l as [|i l IH]; [cbn; ring|]. rewrite !rsum_cons, IH. ring. Qed.
Lemma rsum_scal c f l : rsum (fun i => c * f i) l = c * rsum f l.
Proof. induction l as [|i l IH]; [cbn; ring|]. rewrite !rsum_cons, IH. ring. Qed.
Lemma rsum_const c a b : (a <= b)%Z -> rsum (fun _ => c) (zrange a b) = IZR (b - a) * c.
Proof.
  intros H. rewrite <- (Z2Nat.id (b - a)) by lia. replace b with (a + Z.of_nat (Z.to_nat (b - a)))%Z at 1 by lia. generalize (Z.to_nat (b - a)). clear.
  induction n as [|n IH]; [rewrite zrange_empty by lia; cbn; ring|].
  replace (a + Z.of_nat (S n))%Z with (a + Z.of_nat n + 1)%Z by lia. rewrite zrange_last by lia. rewrite rsum_app, IH. unfold rsum at 1. cbn [map sumR fold_right].
  rewrite Nat2Z.inj_succ, succ_IZR. ring.
Qed.
Lemma rsum_last f a b : (a <= b)%Z -> rsum f (zrange a (b + 1)) = rsum f (zrange a b) + f b.
Proof. intros H. rewrite zrange_last by lia. rewrite rsum_app. cbn. ring. Qed.
Lemma rsum_tele f a b : (a <= b)%Z -> rsum (fun i => f (i + 1)%Z - f i) (zrange a b) = f b - f a.
Proof.
  intros H. replace b with (a + Z.of_nat (Z.to_nat (b - a)))%Z by lia. generalize (Z.to_nat (b - a)). clear.
  induction n as [|n IH]; [rewrite zrange_empty by lia; replace (a + Z.of_nat 0)%Z with a by lia; cbn; ring|].
  replace (a + Z.of_nat (S n))%Z with (a + Z.of_nat n + 1)%Z by lia. rewrite rsum_last, IH by lia. ring.
Qed.
Lemma rem_last n : (0 < n)%Z -> Z.rem (n - 1 + 1) n = 0%Z.
Proof. intros H. replace (n - 1 + 1)%Z with n by lia. apply Z.rem_same. lia. Qed.
Lemma rem_inner i n : (0 <= i < n - 1)%Z -> Z.rem (i + 1) n = (i + 1)%Z.
Proof. intros H. apply Z.rem_small. lia. Qed.
(** Around a cycle: the inner steps and the closing one. *)
Lemma rsum_cycle_split (g : Z -> Z -> R) n : (0 < n)%Z ->
  rsum (fun i => g i (Z.rem (i + 1) n)) (zrange 0 n) = rsum (fun i => g i (i + 1)%Z) (zrange 0 (n - 1)) + g (n - 1)%Z 0%Z.
Proof.
  intros H. assert (zrange 0 n = zrange 0 (n - 1 + 1)) as -> by (f_equal; lia). rewrite rsum_last by lia. f_equal.
  - apply rsum_ext. intros i Hi. apply in_zrange in Hi. rewrite rem_inner by lia. reflexivity.
  - replace (n - 1 + 1)%Z with n by lia. rewrite Z.rem_same by lia. reflexivity.
Qed.
Lemma rsum_cycle_tele f n : rsum (fun i => f (Z.rem (i + 1) n) - f i) (zrange 0 n) = 0.
Proof.
  destruct (Z.le_gt_cases n 0); [rewrite zrange_empty by lia; reflexivity|].
  rewrite (rsum_cycle_split (fun i k => f k - f i)) by lia. rewrite rsum_tele by lia. ring.
Qed.

(** ** Volumes of lists of triangles *)
Definition msum (vs : list pt3) (ts : list triple) : R := sumR (map vol_tri (tri_list vs ts)).
Lemma msum_app vs u v : msum vs (u ++ v) = msum vs u + msum vs v.
Proof. unfold msum, tri_list. rewrite !map_app. apply sumR_app. Qed.
Lemma msum_flat vs h l : msum vs (flat_map h l) = rsum (fun i => msum vs (h i)) l.
Proof. induction l as [|i l IH]; [reflexivity|]. cbn [flat_map]. rewrite msum_app, IH. reflexivity. Qed.
Definition at_ (vs : list pt3) (i : Z) : pt3 := nth (Z.to_nat i) vs O3.
Definition v6 (p q r : pt3) : R := det3 p q r / 6.
Lemma msum_1 vs x y z : msum vs [(x, y, z)] = tetra_vol (at_ vs x) (at_ vs y) (at_ vs z).
Proof. unfold msum, at_. cbn. ring. Qed.
Lemma msum_quad vs x y z w : msum vs (quad_ts x y z w) = tetra_vol (at_ vs x) (at_ vs y) (at_ vs z) + tetra_vol (at_ vs z) (at_ vs w) (at_ vs x).
Proof. unfold msum, at_. cbn. ring. Qed.

(** ** Looking up vertices in a grid *)
Lemma at_block (h : Z -> list pt3) B n tl i j : (forall k, len (h k) = B) -> (0 <= i < n)%Z -> (0 <= j < B)%Z ->
  at_ (flat_map h (zrange 0 n) ++ tl) (i * B + j) = at_ (h i) j.
Proof.
  intros HB Hi Hj. unfold at_. replace n with (i + Z.of_nat (S (Z.to_nat (n - i - 1))))%Z by lia.
  assert (0 <= i)%Z as H0 by lia. clear Hi. rewrite <- (Z2Nat.id i) at 1 2 by lia.
  assert (forall a b c, (a <= b <= c)%Z -> zrange a c = zrange a b ++ zrange b c) as SP.
  { intros a b c Hc. replace c with (b + Z.of_nat (Z.to_nat (c - b)))%Z by lia. generalize (Z.to_nat (c - b)). induction n0 as [|k IH].
    - replace (b + Z.of_nat 0)%Z with b by lia. rewrite (zrange_empty b b) by lia. rewrite app_nil_r. reflexivity.
    - replace (b + Z.of_nat (S k))%Z with (b + Z.of_nat k + 1)%Z by lia. rewrite !zrange_last by lia. rewrite IH, app_assoc. reflexivity. }
  rewrite (Z2Nat.id i) by lia. rewrite (SP 0%Z i) by lia. rewrite flat_map_app, <- app_assoc.
  pose proof (len_flat h B (zrange 0 i) (fun k _ => HB k)) as L. rewrite len_zrange in L. unfold len in L.
  rewrite app_nth2 by nia. replace (Z.to_nat (i * B + j) - length (flat_map h (zrange 0 i)))%nat with (Z.to_nat j) by nia.
  rewrite (SP i (i + 1)%Z) by lia. rewrite flat_map_app. assert (zrange i (i + 1) = [i]) as -> by (rewrite zrange_last by lia; rewrite zrange_empty by lia; reflexivity).
  cbn [flat_map]. rewrite app_nil_r, <- app_assoc. specialize (HB i). unfold len in HB. apply app_nth1. lia.
Qed.
Lemma at_tail (h : Z -> list pt3) B n tl j : (forall k, len (h k) = B) -> (0 <= n)%Z -> (0 <= j)%Z -> (0 <= B)%Z ->
  at_ (flat_map h (zrange 0 n) ++ tl) (n * B + j) = at_ tl j.
Proof.
  intros HB Hn Hj HB0. unfold at_. pose proof (len_flat h B (zrange 0 n) (fun k _ => HB k)) as L. rewrite len_zrange in L. unfold len in L.
  rewrite app_nth2 by nia. f_equal. nia.
Qed.
Lemma at_row (f : Z -> pt3) a b j : (0 <= j < b - a)%Z -> at_ (flat_map (fun k => [f k]) (zrange a b)) j = f (a + j)%Z.
Proof.
  intros H. unfold at_. assert (forall l, flat_map (fun k => [f k]) l = map f l) as -> by (induction l; cbn; [reflexivity|f_equal; assumption]).
  unfold zrange. rewrite map_map.
  erewrite nth_indep; [|rewrite map_length, seq_length; lia]. rewrite (map_nth (fun x => f (a + Z.of_nat x)%Z) _ 0%nat), seq_nth by lia. f_equal. lia.
Qed.
