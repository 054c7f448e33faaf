(** Corners, meshes and the smooth sphere in doubles. *)
From Coq Require Import ZArith List Bool Reals Lra Lia Psatz.
From Flocq Require Import Core IEEE754.Binary IEEE754.Bits IEEE754.BinarySingleNaN.
From Verif Require Import Base Num MGeometry MKernel MMesh MMeshRun MMeasure MUtil MMeshFactory MBezier MStl MF64 SMesh SReach SGeom SMeasure SMeshFac SBezier SErr SErrN SPatch
  LBase LReach LGeom LMeasure LMeshFac2 LMeshFac4 LMeshFac7 LF64 LF64Arith LBezier LBezier2 LBezier3 LBezier5 LF64Ord LErr1 LErr2 LErr3 LErrT LErrF LErrR LErr10 LPatch LPatch2.
Import ListNotations.
Open Scope R_scope.

Lemma mul01 (a x : f64) al X : is_val a al -> (al = 0 \/ al = 1) -> is_val x X -> is_val (b64_mult mode_NE a x) (al * X) /\ is_val (b64_mult mode_NE x a) (al * X).
Proof.
  intros A [-> | ->] H; [rewrite Rmult_0_l; exact (mul_v0 a x X A H)|rewrite Rmult_1_l; exact (mul_v1 a x X A H)].
Qed.
Lemma n0_v : is_val n0 0. Proof. destruct (ofZ_ok 0 ltac:(lia)) as [A B]. split; [exact B|exact A]. Qed.
Lemma dbl_v (x : f64) k : (-900 <= k <= 900)%Z -> fits k x -> is_val (b64_mult mode_NE n2 x) (V64 (b64_mult mode_NE n2 x)).
Proof.
  intros Hk [F B]. split; [|reflexivity]. apply (dbl_l k ltac:(lia) x (V64 x)). split; [|exact B]. eapply ap_weak; [apply (ap_exact k x); split; assumption| |apply Rle_refl]. apply Rmult_le_pos; [apply Rlt_le, uu_pos|apply bpow_ge_0].
Qed.
Lemma add0 (x y : f64) X Y : is_val x X -> is_val y Y -> (X = 0 \/ Y = 0) -> is_val (b64_plus mode_NE x y) (X + Y).
Proof. intros A B [-> | ->]; [rewrite Rplus_0_l; apply (add_v0 y x Y B A)|rewrite Rplus_0_r; apply (add_v0 x y X A B)]. Qed.

Section Corner.
Variables (k : Z) (q : QBT f64).
Hypothesis Hk : (-900 <= k <= 900)%Z.
Hypothesis HP : Forall (fits_pt k) [qP1 q; qP2 q; qP3 q; qC12 q; qC13 q; qC23 q].
Hypothesis HW : patch_units q.
Lemma unit_w w : In w [qw1 q; qw2 q; qw3 q; qw12 q; qw13 q; qw23 q] -> w = n1.
Proof. intros H. unfold patch_units in HW. rewrite Forall_forall in HW. apply HW, H. Qed.
Variables (s u v : f64) (S0 U V : R).
Hypothesis Is : is_val s S0.
Hypothesis Iu : is_val u U.
Hypothesis Iv : is_val v V.
Hypothesis one : (S0 = 1 /\ U = 0 /\ V = 0) \/ (S0 = 0 /\ U = 1 /\ V = 0) \/ (S0 = 0 /\ U = 0 /\ V = 1).
Let s01 : S0 = 0 \/ S0 = 1. Proof. lra. Qed.
Let u01 : U = 0 \/ U = 1. Proof. lra. Qed.
Let v01 : V = 0 \/ V = 1. Proof. lra. Qed.
Lemma fits_v (x : f64) : fits k x -> is_val x (V64 x). Proof. intros [F _]. split; [exact F|reflexivity]. Qed.
Lemma zero_mul x a b : (a = 0 \/ b = 0) -> a * (b * x) = 0. Proof. intros [-> | ->]; ring. Qed.
Lemma corner_num (f : Point3 f64 -> f64) : (forall p, fits_pt k p -> fits k (f p)) ->
  is_val (num6 q s u v f) (S0 * V64 (f (qP1 q)) + U * V64 (f (qP2 q)) + V * V64 (f (qP3 q))).
Proof.
  intros Hf. unfold num6. cbv zeta. rewrite !(unit_w (qw1 q)), !(unit_w (qw2 q)), !(unit_w (qw3 q)), !(unit_w (qw12 q)), !(unit_w (qw13 q)), !(unit_w (qw23 q)) by (cbn; tauto).
  assert (forall P, In P [qP1 q; qP2 q; qP3 q; qC12 q; qC13 q; qC23 q] -> is_val (b64_mult mode_NE n1 (f P)) (V64 (f P)) /\ fits k (b64_mult mode_NE n1 (f P))) as W.
  { intros P H. rewrite Forall_forall in HP. pose proof (Hf P (HP P H)) as F. destruct (mul_v1 _ _ _ n1_v (fits_v _ F)) as [G _]. split; [exact G|]. destruct G as [G1 G2]. split; [exact G1|]. refine (eq_ind_r (fun z => Rabs z <= bpow radix2 k) _ G2). apply F. }
  assert (forall P x X, In P [qP1 q; qP2 q; qP3 q; qC12 q; qC13 q; qC23 q] -> is_val x X -> (X = 0 \/ X = 1) -> is_val (b64_mult mode_NE x (b64_mult mode_NE x (b64_mult mode_NE n1 (f P)))) (X * V64 (f P))) as Q1.
  { intros P x X H Ix Hx. replace (X * V64 (f P)) with (X * (X * V64 (f P))) by (destruct Hx; subst; ring). apply (mul01 x _ X _ Ix Hx). apply (mul01 x _ X _ Ix Hx). apply (W P H). }
  assert (forall P x y X Y, In P [qP1 q; qP2 q; qP3 q; qC12 q; qC13 q; qC23 q] -> is_val x X -> is_val y Y -> (X = 0 \/ X = 1) -> (Y = 0 \/ Y = 1) -> (Y = 0 \/ X = 0) ->
    is_val (b64_mult mode_NE y (b64_mult mode_NE x (b64_mult mode_NE n2 (b64_mult mode_NE n1 (f P))))) 0) as Q2.
  { intros P x y X Y H Ix Iy Hx Hy Z. rewrite <- (zero_mul (V64 (b64_mult mode_NE n2 (b64_mult mode_NE n1 (f P)))) Y X Z). apply (mul01 y _ Y _ Iy Hy). apply (mul01 x _ X _ Ix Hx). apply (dbl_v _ k Hk). apply (W P H). }
  replace (S0 * V64 (f (qP1 q)) + U * V64 (f (qP2 q)) + V * V64 (f (qP3 q))) with (S0 * V64 (f (qP1 q)) + U * V64 (f (qP2 q)) + V * V64 (f (qP3 q)) + 0 + 0 + 0) by ring.
  repeat apply add0; try (apply Q1; [cbn; tauto|assumption|assumption]); try (right; reflexivity).
  - destruct one as [(-> & -> & ->)|[(-> & -> & ->)|(-> & -> & ->)]]; [right|left|left]; ring.
  - destruct one as [(-> & -> & ->)|[(-> & -> & ->)|(-> & -> & ->)]]; [right|right|left]; ring.
  - apply (Q2 _ s u S0 U); try assumption; [cbn; tauto|lra].
  - apply (Q2 _ s v S0 V); try assumption; [cbn; tauto|lra].
  - apply (Q2 _ u v U V); try assumption; [cbn; tauto|lra].
Qed.
Lemma corner_den : is_val (den6 q s u v) 1.
Proof.
  unfold den6. cbv zeta. rewrite !(unit_w (qw1 q)), !(unit_w (qw2 q)), !(unit_w (qw3 q)), !(unit_w (qw12 q)), !(unit_w (qw13 q)), !(unit_w (qw23 q)) by (cbn; tauto).
  assert (is_val (b64_mult mode_NE (n1 : f64) n2) 2) as T2. { destruct two_ap as (F & E & _). apply (mul_v1 n1 n2 2 n1_v). split; [exact F|]. revert E. unfold Rabs. destruct Rcase_abs; lra. }
  assert (forall x X, is_val x X -> (X = 0 \/ X = 1) -> is_val (b64_mult mode_NE (b64_mult mode_NE n1 x) x) X) as Q1.
  { intros x X Ix Hx. replace X with (X * (X * 1)) at 1 by (destruct Hx; subst; ring). apply (mul01 x _ X _ Ix Hx). apply (mul01 x _ X _ Ix Hx). exact n1_v. }
  assert (forall x y X Y, is_val x X -> is_val y Y -> (X = 0 \/ X = 1) -> (Y = 0 \/ Y = 1) -> (Y = 0 \/ X = 0) -> is_val (b64_mult mode_NE (b64_mult mode_NE (b64_mult mode_NE n1 n2) x) y) 0) as Q2.
  { intros x y X Y Ix Iy Hx Hy Z. rewrite <- (zero_mul 2 Y X Z). apply (mul01 y _ Y _ Iy Hy). apply (mul01 x _ X _ Ix Hx). exact T2. }
  replace 1 with (S0 + U + V + 0 + 0 + 0) by lra.
  repeat apply add0; try (apply Q1; assumption); try (right; reflexivity); try lra.
  - apply (Q2 s u S0 U); try assumption; lra.
  - apply (Q2 s v S0 V); try assumption; lra.
  - apply (Q2 u v U V); try assumption; lra.
Qed.
Lemma corner_eval (v0 : f64) P : (if (v0 =? - n1)%num then (n1 - s - u)%num else v0) = v ->
  (S0 = 1 /\ P = qP1 q) \/ (U = 1 /\ P = qP2 q) \/ (V = 1 /\ P = qP3 q) -> exists p, qbt_eval q s u v0 = Ok p /\ same_place p P.
Proof.
  intros Ev HPt. unfold qbt_eval. rewrite Ev. cbv zeta. pose proof corner_den as DD.
  pose proof (corner_num px (fun p H => proj1 H)) as N1. pose proof (corner_num py (fun p H => proj1 (proj2 H))) as N2. pose proof (corner_num pz (fun p H => proj2 (proj2 H))) as N3.
  assert (forall f : Point3 f64 -> f64, S0 * V64 (f (qP1 q)) + U * V64 (f (qP2 q)) + V * V64 (f (qP3 q)) = V64 (f P)) as EP.
  { intros f. destruct HPt as [[? ->]|[[? ->]|[? ->]]]; destruct one as [(-> & -> & ->)|[(-> & -> & ->)|(-> & -> & ->)]]; try lra. }
  rewrite EP in N1, N2, N3.
  match goal with |- exists _, pdiv ?a ?b = _ /\ _ => assert (pt_v a (val_pt P)) as PV end.
  { unfold padd, pmul. cbn [px py pz nadd nmul F64Num]. split; [exact N1|]. split; [exact N2|exact N3]. }
  match goal with |- exists _, pdiv ?a ?b = _ /\ _ => destruct (quot_v a b (val_pt P) PV DD) as (z & Ez & Vz) end.
  exists z. split; [exact Ez|apply place, Vz].
Qed.
End Corner.
Lemma corners_exact k (q : QBT f64) : (-900 <= k <= 900)%Z -> Forall (fits_pt k) [qP1 q; qP2 q; qP3 q; qC12 q; qC13 q; qC23 q] -> patch_units q ->
  exists p1 p2 p3, qbt_eval q n1 n0 (- n1)%num = Ok p1 /\ same_place p1 (qP1 q) /\ qbt_eval q n0 n1 (- n1)%num = Ok p2 /\ same_place p2 (qP2 q) /\ qbt_eval q n0 n0 (- n1)%num = Ok p3 /\ same_place p3 (qP3 q).
Proof.
  intros Hk HP HW.
  assert (forall (s u : f64) S0 U, is_val s S0 -> is_val u U -> (S0 = 0 \/ S0 = 1) -> (U = 0 \/ U = 1) -> S0 + U <= 1 -> is_val (n1 - s - u)%num (1 - S0 - U)) as TH.
  { intros s u S0 U Is Iu H1 H2 H3. pose proof (one_minus s S0 Is H1) as A. change (n1 - s - u)%num with (b64_minus mode_NE (b64_minus mode_NE n1 s) u).
    destruct H1 as [-> | ->].
    - replace (1 - 0) with 1 in * by ring. apply (one_minus_gen _ _ U A Iu H2).
    - assert (U = 0) as -> by lra. destruct A as [A1 A2], Iu as [u1 u2]. destruct (sub_e _ _ (bpow radix2 0) A1 u1) as [E F]; [rewrite A2, u2; replace (1 - 1 - 0) with 0 by ring; rewrite Rabs_R0; apply bpow_ge_0|apply bpow_le; lia|].
      split; [exact F|]. rewrite E, A2, u2. replace (1 - 1 - 0) with 0 by ring. apply round64_0. }
  destruct (corner_eval k q Hk HP HW n1 n0 _ 1 0 _ n1_v n0_v (TH _ _ _ _ n1_v n0_v (or_intror eq_refl) (or_introl eq_refl) ltac:(lra)) ltac:(lra) (- n1)%num (qP1 q) ltac:(rewrite minus_one; reflexivity) (or_introl (conj eq_refl eq_refl))) as (p1 & E1 & S1).
  destruct (corner_eval k q Hk HP HW n0 n1 _ 0 1 _ n0_v n1_v (TH _ _ _ _ n0_v n1_v (or_introl eq_refl) (or_intror eq_refl) ltac:(lra)) ltac:(lra) (- n1)%num (qP2 q) ltac:(rewrite minus_one; reflexivity) (or_intror (or_introl (conj eq_refl eq_refl)))) as (p2 & E2 & S2).
  destruct (corner_eval k q Hk HP HW n0 n0 (n1 - n0 - n0)%num 0 0 (1 - 0 - 0) n0_v n0_v (TH _ _ _ _ n0_v n0_v (or_introl eq_refl) (or_introl eq_refl) ltac:(lra)) ltac:(lra) (- n1)%num (qP3 q) ltac:(rewrite minus_one; reflexivity) (or_intror (or_intror (conj (ltac:(ring) : 1 - 0 - 0 = 1) eq_refl)))) as (p3 & E3 & S3).
  exists p1, p2, p3. auto 10.
Qed.

(** The grid of add_to_mesh. *)
Lemma quo_pos a n : (0 <= a <= n)%Z -> (1 <= n <= 2 ^ 50)%Z -> 0 <= V64 (dv (nofZ a : f64) n).
Proof.
  intros Ha Hn. change (dv (nofZ a : f64) n) with (b64_div mode_NE (f64_ofZ a) (f64_ofZ n)). destruct (ofZ_ok a ltac:(lia)) as [Ea Fa]. destruct (ofZ_ok n ltac:(lia)) as [En Fn].
  assert (0 <= IZR a) as I0 by (apply IZR_le; lia). assert (IZR a <= IZR n) as I1 by (apply IZR_le; lia). assert (1 <= IZR n) as N1 by (apply IZR_le; lia).
  assert (0 <= IZR a / IZR n <= 1) as B. { assert (0 < / IZR n) by (apply Rinv_0_lt_compat; lra). unfold Rdiv. assert (IZR n * / IZR n = 1) by (field; lra). split; nra. }
  destruct (div_e (f64_ofZ a) (f64_ofZ n) (bpow radix2 0) Fa) as [E F]; [rewrite En; lra|rewrite Ea, En; change (bpow radix2 0) with 1; apply Rabs_le; lra|apply bpow_le; lia|].
  rewrite E, Ea, En. apply round64_nonneg, B.
Qed.
Definition grid_eval (q : QBT f64) (n a b : Z) : Point3 f64 := match qbt_eval q (dv (nofZ a) n) (dv (nofZ b) n) (- n1)%num with Ok p => p | Err _ => zero_pt end.
Lemma grid_eval_ok k i j (q : QBT f64) n a b : patch_sizes k i j -> patch_within k i j q -> (1 <= n <= 2 ^ 50)%Z -> on_grid n a b ->
  qbt_eval q (dv (nofZ a) n) (dv (nofZ b) n) (- n1)%num = Ok (grid_eval q n a b) /\ close_pt (grid_eval q n a b) (patch_pt (val_patch q) (IZR a / IZR n) (IZR b / IZR n)) (patch_err k i j).
Proof.
  intros HS HP Hn G. pose proof G as (G1 & G2 & G3). destruct (gpos_range n a b ltac:(lia) G) as (A & B & C).
  pose proof (quo_e a n ltac:(lia) Hn) as Qa. pose proof (quo_e b n ltac:(lia) Hn) as Qb. rewrite dv_R in Qa, Qb by lia.
  destruct (eval_near k i j q _ _ _ _ HS HP Qa Qb (quo_pos a n ltac:(lia) Hn) (quo_pos b n ltac:(lia) Hn) A B C) as (p & E & N). unfold grid_eval. rewrite E. auto.
Qed.
Lemma mesh_doubles k i j (q : QBT f64) n (m : Mesh f64) a : patch_sizes k i j -> patch_within k i j q -> (1 <= n <= 2 ^ 50)%Z -> reach m -> shows m a ->
  exists m' ps ts, qbt_add_to_mesh q m n = Ok m' /\ reach m' /\ shows m' (with_tris (with_verts a ps) ts) /\
    Forall2 (fun p x => close_pt p x (patch_err k i j)) ps (grid n (fun x y => patch_pt (val_patch q) (IZR x / IZR n) (IZR y / IZR n))) /\
    len ts = patch_count n /\
    forall t, In t ts -> exists i1 j1 i2 j2 i3 j3, on_grid n i1 j1 /\ on_grid n i2 j2 /\ on_grid n i3 j3 /\
      t = (nb_vertices m + rank n i1 j1, nb_vertices m + rank n i2 j2, nb_vertices m + rank n i3 j3)%Z /\
      ((i2 - i1) * (j3 - j1) - (i3 - i1) * (j2 - j1) = -1)%Z.
Proof.
  intros HS HP Hn R S. destruct (add_to_mesh_ok q n (grid_eval q n) m a ltac:(lia)) as (m' & E & R' & S'); [|split; assumption|].
  - intros x y G. exists (dv (nofZ x) n), (dv (nofZ y) n). split; [reflexivity|]. split; [reflexivity|]. apply (grid_eval_ok k i j q n x y HS HP Hn G).
  - exists m', (gridz n (grid_eval q n)), (patch_tris n (nb_vertices m)). split; [exact E|]. split; [exact R'|]. split; [exact S'|]. split; [|split; [apply patch_tris_len; lia|]].
    + rewrite <- gridz_grid. unfold gridz. apply Forall2_flat. intros x Hx. apply in_zrange in Hx.
      assert (forall l, (forall y, In y l -> on_grid n x y) -> Forall2 (fun p z => close_pt p z (patch_err k i j)) (map (grid_eval q n x) l) (map (fun y => patch_pt (val_patch q) (IZR x / IZR n) (IZR y / IZR n)) l)) as L.
      { induction l as [|y l IH]; intros H; [constructor|]. cbn [map]. constructor; [apply (grid_eval_ok k i j q n x y HS HP Hn), H; left; reflexivity|apply IH; intros z Hz; apply H; right; exact Hz]. }
      apply L. intros y Hy. apply in_zrange in Hy. unfold on_grid. lia.
    + intros t Ht. destruct (patch_tris_cells n _ t Ht) as (i1 & j1 & i2 & j2 & i3 & j3 & G1 & G2 & G3 & Et & D & _). exists i1, j1, i2, j2, i3, j3. tauto.
Qed.
