(** Rotations by degrees in doubles. *)
From Coq Require Import ZArith List Bool Reals Lra Lia Psatz.
From Flocq Require Import Core Relative IEEE754.Binary IEEE754.Bits IEEE754.BinarySingleNaN.
From Verif Require Import Base Num MGeometry MTransform MStl MF64 SMesh SGeom SMeasure SDegrees SErr SErrN SErrT SErrD
  LBase LGeom LTransform LDegrees LF64 LF64Arith LErr1 LErr2 LF64Ord LErr3 LErr4 LErr5 LErr6 LErrEx LErrT.
Import ListNotations.
Open Scope R_scope.

Lemma uu_53 : bpow radix2 (-53) = 1 * uu. Proof. unfold uu. ring. Qed.
Lemma correct_trig_good : good_trig correct_trig.
Proof.
  assert (forall y, -1 <= y <= 1 -> stored (bpow radix2 (-53)) (nearest64 y) y) as H.
  { intros y Hy. assert (Rabs y <= bpow radix2 0) as By by (change (bpow radix2 0) with 1; apply Rabs_le; exact Hy).
    pose proof (Binary.binary_normalize_correct 53 1024 eq_refl eq_refl mode_NE (ZnearestE (scaled_mantissa radix2 (FLT_exp (-1074) 53) y)) (cexp radix2 (FLT_exp (-1074) 53) y) false) as C.
    fold (nearest64 y) in C.
    change (F2R (Float radix2 (ZnearestE (scaled_mantissa radix2 (FLT_exp (-1074) 53) y)) (cexp radix2 (FLT_exp (-1074) 53) y))) with (round64 y) in C.
    change (round radix2 (SpecFloat.fexp 53 1024) (round_mode mode_NE) (round64 y)) with (round64 (round64 y)) in C.
    assert (round64 (round64 y) = round64 y) as I. { apply round_generic; [apply valid_rnd_N|]. apply generic_format_round; [apply FLT_exp_valid; reflexivity|apply valid_rnd_N]. }
    rewrite I in C. assert (Rabs (round64 y) <= bpow radix2 0) as R1 by (apply round64_bound; [apply fmt_bpow; lia|exact By]).
    rewrite Rlt_bool_true in C. 2:{ eapply Rle_lt_trans; [exact R1|apply bpow_lt; lia]. }
    destruct C as (C1 & C2 & _). split; [split; [exact C2|]|].
    - unfold val. rewrite C1. exact R1.
    - unfold val. rewrite C1. eapply Rle_trans; [apply (round64_err y 0 ltac:(lia) By)|apply bpow_le; lia]. }
  intros x _. split; apply H; [apply COS_bound|apply SIN_bound].
Qed.

(** The factor from degrees to radians. *)
Definition d64_f : f64 := match deg_to_rad with Ok d => d | Err _ => n0 end.
Lemma d64_ff : B2FF 53 1024 d64_f = F754_finite false 5030569068109444 (-58).
Proof. vm_compute. reflexivity. Qed.
Lemma d64_ok : deg_to_rad = Ok d64_f.
Proof.
  unfold d64_f. assert ((match deg_to_rad (T := f64) with Ok _ => true | Err _ => false end) = true) as H by (vm_compute; reflexivity).
  destruct deg_to_rad; [reflexivity|discriminate].
Qed.
Lemma d64 : exists d : f64, deg_to_rad = Ok d /\ ap d kdeg (0.006 * uu) (bpow radix2 (-5)).
Proof.
  exists d64_f. split; [exact d64_ok|].
  assert (V64 d64_f = 5030569068109444 * / 288230376151711744) as E.
  { change (Binary.B2R 53 1024 d64_f = 5030569068109444 * / 288230376151711744). rewrite <- FF2R_B2FF, d64_ff. reflexivity. }
  split; [|rewrite E].
  - change (Binary.is_finite 53 1024 d64_f = true). rewrite <- Binary.is_finite_B2FF, d64_ff. reflexivity.
  - rewrite uu_val. unfold kdeg. change (bpow radix2 (-5)) with (/ 32). split; apply Rabs_le; lra.
Qed.
Lemma angle_e (x d : f64) : fits 9 x -> ap d kdeg (0.006 * uu) (bpow radix2 (-5)) -> ap (b64_mult mode_NE x d) (V64 x * kdeg) (11.1 * uu) (bpow radix2 4).
Proof.
  intros Hx Hd. eapply ap_weak; [apply (ap_mul x d _ _ _ _ _ _ (/ 32) 4 (ap_exact 9 x Hx) Hd); [| |lia]| |lra].
  - unfold kdeg. apply Rabs_le. lra.
  - rewrite <- bpow_plus. right. reflexivity.
  - change (bpow radix2 9) with 512. change (bpow radix2 (4 - 54)) with (bpow radix2 (3 + -53)). rewrite bpow_plus. fold uu. change (bpow radix2 3) with 8. pose proof uu_pos. lra.
Qed.
Lemma cos_lip a b : Rabs (cos a - cos b) <= Rabs (a - b) /\ Rabs (sin a - sin b) <= Rabs (a - b).
Proof.
  pose proof (chord a b) as C. assert (forall x y, x * x <= y * y -> Rabs x <= Rabs y) as A. { intros x y H. apply Rsqr_le_abs_0. exact H. }
  pose proof (Rle_0_sqr (cos a - cos b)) as P. pose proof (Rle_0_sqr (sin a - sin b)) as Q. unfold Rsqr in P, Q. split; apply A; lra.
Qed.
Lemma stored_move d e x y z : stored d x y -> Rabs (y - z) <= e -> stored (d + e) x z.
Proof. intros [F H] L. split; [exact F|]. replace (val x - z) with (val x - y + (y - z)) by ring. eapply Rle_trans; [apply Rabs_triang|lra]. Qed.
Section Trigs.
Variable TR : Trig f64.
Hypothesis G : good_trig TR.
Lemma trig_e (x : f64) a c b : ap x a (c * uu) (bpow radix2 b) -> (b <= 10)%Z -> stored ((c + 1) * uu) (ncos x) (cos a) /\ stored ((c + 1) * uu) (nsin x) (sin a).
Proof.
  intros (F & E & B) Hb. assert (fits 10 x) as Hx. { split; [exact F|]. eapply Rle_trans; [exact B|apply bpow_le; exact Hb]. }
  destruct (G x Hx) as [C S]. destruct (cos_lip (val x) a) as [LC LS]. change (V64 x) with (val x) in E.
  replace ((c + 1) * uu) with (bpow radix2 (-53) + c * uu) by (rewrite uu_53; ring).
  split; eapply stored_move; eauto; lra.
Qed.

(** ** Euler angles *)
Lemma euler_entries (y p r : f64) : fits 9 y -> fits 9 p -> fits 9 r -> exists e, euler_set y p r = Ok e /\
  stored_euler (13 * bpow radix2 (-53)) e (val y * kdeg) (val p * kdeg) (val r * kdeg).
Proof.
  intros Hy Hp Hr. destruct d64 as (d & E & A). unfold euler_set. rewrite E. cbn [bind]. eexists. split; [reflexivity|].
  assert (forall x, fits 9 x -> stored (13 * bpow radix2 (-53)) (ncos (b64_mult mode_NE x d)) (cos (val x * kdeg)) /\ stored (13 * bpow radix2 (-53)) (nsin (b64_mult mode_NE x d)) (sin (val x * kdeg))) as H.
  { intros x Hx. assert (forall z w, stored ((11.1 + 1) * uu) z w -> stored (13 * bpow radix2 (-53)) z w) as W.
    { intros z w [F L]. split; [exact F|]. eapply Rle_trans; [exact L|]. fold uu. pose proof uu_pos. lra. }
    destruct (trig_e _ _ _ _ (angle_e x d Hx A) ltac:(lia)) as [C S]. split; apply W; assumption. }
  destruct (H y Hy), (H p Hp), (H r Hr). repeat split; first [apply H0 | apply H1 | apply H2 | apply H3 | apply H4 | apply H5].
Qed.
Lemma near_place (q : Point3 f64) (P : pt3) e : close_pt q P e -> dist3 (val_pt q) P <= 1.75 * e.
Proof. intros ((_ & A) & (_ & B) & (_ & C)). unfold dist3. apply len3_in_cube; [split; [exact A|split; assumption]|]. eapply Rle_trans; [apply Rabs_pos|exact A]. Qed.
Lemma exact_euler_R a b c : exists e, euler_set a b c = Ok e /\ forall p, exact_euler (a * kdeg) (b * kdeg) (c * kdeg) p = euler_apply e p.
Proof. unfold euler_set. rewrite deg_to_rad_R. cbn [bind]. eexists. split; [reflexivity|]. intros p. reflexivity. Qed.
Lemma euler_degrees64 (y p r : f64) : fits 9 y -> fits 9 p -> fits 9 r -> exists e, euler_set y p r = Ok e /\
  forall k v, (-900 <= k <= 900)%Z -> fits_pt k v -> finite_points [euler_apply e v] /\
  dist3 (val_pt (euler_apply e v)) (turn_deg (mkP 0 0 1) (- val r) (turn_deg (mkP 1 0 0) (- val p) (mirror_y (turn_deg (mkP 0 1 0) (val y) (val_pt v)))))
    <= slack (val y) (len3 (val_pt v)) + slack (val p) (len3 (val_pt v)) + slack (val r) (len3 (val_pt v)) + 325 * bpow radix2 (k - 53).
Proof.
  intros Hy Hp Hr. destruct (euler_entries y p r Hy Hp Hr) as (e & E & St). exists e. split; [exact E|]. intros k v Hk Hv.
  pose proof (euler_err k Hk 13 e _ _ _ v ltac:(lra) St Hv) as C. split.
  - destruct C as ((A & _) & (B & _) & (D & _)). constructor; [|constructor]. auto.
  - destruct (euler_degrees (val y) (val p) (val r)) as (e' & E' & D). destruct (exact_euler_R (val y) (val p) (val r)) as (e2 & E2 & X). rewrite E' in E2. injection E2 as <-.
    pose proof (near_place _ _ _ C) as L. rewrite X in L. specialize (D (val_pt v)).
    eapply Rle_trans; [apply (dist3_triangle _ (euler_apply e' (val_pt v)))|]. pose proof (bpow_gt_0 radix2 (k - 53)). lra.
Qed.

(** ** Angle and axis *)
Lemma mul0 x y X Y c d i j e : aps 0 x X c i -> aps 0 y Y d j -> Rabs Y <= 1 -> (0 <= i <= 9)%Z -> (0 <= j <= 9)%Z -> bpow radix2 i * d + c + bpow radix2 (i + j) / 2 <= e ->
  aps 0 (b64_mult mode_NE x y) (X * Y) e (i + j).
Proof.
  intros Hx Hy HY Hi Hj L. apply aps_unit in Hx, Hy. pose proof uu_pos. pose proof (bSe 0 (i + j)) as Q.
  eapply ap_weak; [apply (ap_mul x y _ _ _ _ _ _ 1 (0 + (i + j)) Hx Hy HY); [|lia]| |].
  - rewrite Z.add_0_l, bpow_plus. lra.
  - rewrite Q. change (bpow radix2 0) with 1. rewrite !Rmult_1_r. replace (bpow radix2 i * (d * uu) + 1 * (c * uu) + bpow radix2 (i + j) / 2 * uu) with ((bpow radix2 i * d + c + bpow radix2 (i + j) / 2) * uu) by ring.
    apply Rmult_le_compat_r; lra.
  - rewrite bS. lra.
Qed.
Lemma ap_aps0 x X c i : ap x X (c * uu) (bpow radix2 i) -> aps 0 x X c i.
Proof. intros H. unfold aps. change (bpow radix2 0) with 1. rewrite !Rmult_1_r. exact H. Qed.
Lemma one_f : ap (n1 : f64) 1 (0 * uu) (bpow radix2 0).
Proof. destruct (ofZ_exact 1 ltac:(vm_compute; discriminate)) as [E F]. split; [exact F|]. change (V64 n1) with (V64 (f64_ofZ 1)). rewrite E. change (bpow radix2 0) with 1. rewrite Rminus_diag_eq, Rabs_R0, Rabs_R1 by reflexivity. lra. Qed.

(** Rows of a quaternion with inexact entries. *)
Lemma q_row2 k a b c v1 v2 v3 v A B C : (-900 <= k <= 900)%Z -> ap a A (248 * uu) (bpow radix2 3) -> ap b B (248 * uu) (bpow radix2 3) -> ap c C (248 * uu) (bpow radix2 3) -> fits k v1 -> fits k v2 -> fits k v3 -> fits k v ->
  close_to (b64_plus mode_NE (b64_mult mode_NE n2 (b64_plus mode_NE (b64_plus mode_NE (b64_mult mode_NE a v1) (b64_mult mode_NE b v2)) (b64_mult mode_NE c v3))) v)
    (2 * (A * V64 v1 + B * V64 v2 + C * V64 v3) + V64 v) (1660 * bpow radix2 (k - 53)).
Proof.
  intros Hk HA HB HC H1 H2 H3 Hv.
  pose proof (q_term k a v1 A 248 3 Hk HA H1 ltac:(lia)) as t1. pose proof (q_term k b v2 B 248 3 Hk HB H2 ltac:(lia)) as t2. pose proof (q_term k c v3 C 248 3 Hk HC H3 ltac:(lia)) as t3.
  assert (bpow radix2 3 + bpow radix2 3 <= bpow radix2 4) as L1 by (pows; lra). pose proof (aps_add k Hk _ _ _ _ _ _ _ _ 4 t1 t2 L1 ltac:(lia)) as s1.
  assert (bpow radix2 4 + bpow radix2 3 <= bpow radix2 5) as L2 by (pows; lra). pose proof (aps_add k Hk _ _ _ _ _ _ _ _ 5 s1 t3 L2 ltac:(lia)) as s2.
  pose proof (aps_dbl k _ _ _ _ Hk s2 ltac:(lia)) as d. change (5 + 1)%Z with 6%Z in d.
  assert (bpow radix2 6 + bpow radix2 0 <= bpow radix2 7) as L3 by (pows; lra). pose proof (aps_add k Hk _ _ _ _ _ _ _ _ 7 d (aps_fits k v Hv) L3 ltac:(lia)) as f.
  eapply (aps_close k); [exact f|]. pows. lra.
Qed.
Definition q_close (q : Quat f64) (Q : Quat R) : Prop :=
  (aps 0 (qa q) (qa Q) 40 1 /\ Rabs (qa Q) <= 1) /\ (aps 0 (qb q) (qb Q) 40 1 /\ Rabs (qb Q) <= 1) /\ (aps 0 (qc q) (qc Q) 40 1 /\ Rabs (qc Q) <= 1) /\ (aps 0 (qd q) (qd Q) 40 1 /\ Rabs (qd Q) <= 1).
Lemma quat_err2 k q Q p : (-900 <= k <= 900)%Z -> q_close q Q -> fits_pt k p -> close_pt (quat_apply q p) (quat_apply Q (val_pt p)) (1660 * bpow radix2 (k - 53)).
Proof.
  intros Hk (HA & HB & HC & HD) (P1 & P2 & P3). destruct q as [a b c d], Q as [A B C D]. cbn [qa qb qc qd] in *.
  assert (forall x X y Y, aps 0 x X 40 1 /\ Rabs X <= 1 -> aps 0 y Y 40 1 /\ Rabs Y <= 1 -> aps 0 (b64_mult mode_NE x y) (X * Y) 122 2) as pr.
  { intros x X y Y [Hx _] [Hy BY]. exact (mul0 _ _ _ _ 40 40 1 1 122 Hx Hy BY ltac:(lia) ltac:(lia) ltac:(change (1 + 1)%Z with 2%Z; pows; lra)). }
  assert (forall x X, aps 0 x X 40 1 /\ Rabs X <= 1 -> aps 0 (b64_mult mode_NE (b64_opp x) x) (- X * X) 122 2) as sq.
  { intros x X H. apply pr; [|exact H]. destruct H as [H B1]. split; [|rewrite Rabs_Ropp; exact B1]. apply opp_ap. exact H. }
  assert (forall x y X Y, aps 0 x X 122 2 -> aps 0 y Y 122 2 -> ap (b64_plus mode_NE x y) (X + Y) (248 * uu) (bpow radix2 3) /\ ap (b64_minus mode_NE x y) (X - Y) (248 * uu) (bpow radix2 3)) as su.
  { intros x y X Y Hx' Hy. assert (bpow radix2 2 + bpow radix2 2 <= bpow radix2 3) as L by (pows; lra). pose proof uu_pos. split.
    - eapply ap_weak; [exact (aps_unit _ _ _ _ (aps_add 0 ltac:(lia) _ _ _ _ _ _ _ _ 3 Hx' Hy L ltac:(lia)))| |]; pows; lra.
    - eapply ap_weak; [exact (aps_unit _ _ _ _ (aps_sub 0 ltac:(lia) _ _ _ _ _ _ _ _ 3 Hx' Hy L ltac:(lia)))| |]; pows; lra. }
  split; [|split].
  - apply q_row2; try assumption; first [refine (proj1 (su _ _ _ _ _ _)) | refine (proj2 (su _ _ _ _ _ _))]; first [refine (sq _ _ _) | refine (pr _ _ _ _ _ _)]; assumption.
  - apply q_row2; try assumption; first [refine (proj1 (su _ _ _ _ _ _)) | refine (proj2 (su _ _ _ _ _ _))]; first [refine (sq _ _ _) | refine (pr _ _ _ _ _ _)]; assumption.
  - apply q_row2; try assumption; first [refine (proj1 (su _ _ _ _ _ _)) | refine (proj2 (su _ _ _ _ _ _))]; first [refine (sq _ _ _) | refine (pr _ _ _ _ _ _)]; assumption.
Qed.

Variables (angle : f64) (axis : Point3 f64) (u : pt3).
Hypothesis Ha : fits 9 angle.
Hypothesis Hu : len3 u = 1.
Hypothesis Hx : close_pt axis u (11 * bpow radix2 (-53)).
Lemma u_cube : Rabs (px u) <= 1 /\ Rabs (py u) <= 1 /\ Rabs (pz u) <= 1.
Proof. rewrite <- Hu. apply comp_le. Qed.
Lemma axis_e : aps 0 (px axis) (px u) 11 1 /\ aps 0 (py axis) (py u) 11 1 /\ aps 0 (pz axis) (pz u) 11 1.
Proof.
  destruct Hx as (A & B & C). destruct u_cube as (U1 & U2 & U3). assert (11 * uu <= 1) by (rewrite uu_val; lra).
  split; [|split]; apply ap_aps0; apply entry_ap; assumption.
Qed.
Lemma mat_entries : exists m mR, mat_from_angle_axis angle axis = Ok m /\ mat_from_angle_axis (val angle) u = Ok mR /\
  stored_matrix (125 * bpow radix2 (-53)) m (mkP (m0 mR) (m1 mR) (m2 mR)) (mkP (m3 mR) (m4 mR) (m5 mR)) (mkP (m6 mR) (m7 mR) (m8 mR)).
Proof.
  destruct d64 as (d & E & A). unfold mat_from_angle_axis. rewrite E. rewrite deg_to_rad_R. cbn [bind]. eexists. eexists. split; [reflexivity|]. split; [reflexivity|].
  destruct (trig_e _ _ _ _ (angle_e angle d Ha A) ltac:(lia)) as [C S]. apply stored_ap in C, S. apply ap_aps0 in C, S.
  apply (aps_mono 0 _ _ _ _ 13) in C; [|lra]. apply (aps_mono 0 _ _ _ _ 13) in S; [|lra].
  destruct axis_e as (V1 & V2 & V3). destruct u_cube as (U1 & U2 & U3). change (V64 angle) with (val angle) in *.
  set (c := ncos (b64_mult mode_NE angle d)) in *. set (s := nsin (b64_mult mode_NE angle d)) in *. 
  pose proof (COS_bound (val angle * kdeg)) as CB. pose proof (SIN_bound (val angle * kdeg)) as SB. set (K := cos (val angle * kdeg)) in *. set (L := sin (val angle * kdeg)) in *.
  assert (aps 0 (b64_minus mode_NE n1 c) (1 - K) 14 1) as T2.
  { eapply aps_mono; [apply (aps_sub 0 ltac:(lia) _ _ _ _ _ _ _ _ 1 (ap_aps0 _ _ _ _ one_f) C); [pows; lra|lia]|pows; lra]. }
  assert (forall v V, aps 0 v V 11 1 -> Rabs V <= 1 -> Rabs (V * V) <= 1) as SQ. { intros v V _ H. rewrite Rabs_mult. pose proof (Rabs_pos V). nra. }
  assert (forall v V, aps 0 v V 11 1 -> Rabs V <= 1 -> aps 0 (b64_plus mode_NE c (b64_mult mode_NE (b64_minus mode_NE n1 c) (b64_mult mode_NE v v))) (K + (1 - K) * (V * V)) 125 4) as DI.
  { intros v V Hv HV. pose proof (mul0 v v V V 11 11 1 1 35 Hv Hv HV ltac:(lia) ltac:(lia) ltac:(change (1 + 1)%Z with 2%Z; pows; lra)) as Q. change (1 + 1)%Z with 2%Z in Q.
    pose proof (mul0 _ _ _ _ 14 35 1 2 88 T2 Q (SQ v V Hv HV) ltac:(lia) ltac:(lia) ltac:(change (1 + 2)%Z with 3%Z; pows; lra)) as P. change (1 + 2)%Z with 3%Z in P.
    eapply aps_mono; [apply (aps_add 0 ltac:(lia) _ _ _ _ _ _ _ _ 4 C P); [pows; lra|lia]|pows; lra]. }
  assert (forall v V w W, aps 0 v V 11 1 -> aps 0 w W 11 1 -> Rabs V <= 1 -> Rabs W <= 1 -> aps 0 (b64_mult mode_NE (b64_mult mode_NE (b64_minus mode_NE n1 c) v) w) ((1 - K) * V * W) 86 3) as OF.
  { intros v V w W Hv Hw HV HW. pose proof (mul0 _ _ _ _ 14 11 1 1 38 T2 Hv HV ltac:(lia) ltac:(lia) ltac:(change (1 + 1)%Z with 2%Z; pows; lra)) as Q. change (1 + 1)%Z with 2%Z in Q.
    exact (mul0 _ _ _ _ 38 11 2 1 86 Q Hw HW ltac:(lia) ltac:(lia) ltac:(change (2 + 1)%Z with 3%Z; pows; lra)). }
  assert (forall v V, aps 0 v V 11 1 -> Rabs V <= 1 -> aps 0 (b64_mult mode_NE s v) (L * V) 25 1) as SI.
  { intros v V Hv HV. exact (mul0 _ _ _ _ 13 11 0 1 25 S Hv HV ltac:(lia) ltac:(lia) ltac:(change (0 + 1)%Z with 1%Z; pows; lra)). }
  assert (forall x X y Y, aps 0 x X 86 3 -> aps 0 y Y 25 1 -> aps 0 (b64_plus mode_NE x y) (X + Y) 119 4 /\ aps 0 (b64_minus mode_NE x y) (X - Y) 119 4) as PM.
  { intros x X y Y X1 Y1. split; (eapply aps_mono; [first [apply (aps_add 0 ltac:(lia) _ _ _ _ _ _ _ _ 4 X1 Y1) | apply (aps_sub 0 ltac:(lia) _ _ _ _ _ _ _ _ 4 X1 Y1)]; [pows; lra|lia]|pows; lra]). }
  assert (forall r X c i, aps 0 r X c i -> c <= 125 -> close_to r X (125 * bpow radix2 (-53))) as FI.
  { intros r X c0 i H Hc. exact (aps_close 0 r X c0 i 125 H Hc). }
  split; [|split]; (split; [|split]); cbn [m0 m1 m2 m3 m4 m5 m6 m7 m8 px py pz];
    first [refine (FI _ _ _ _ (DI _ _ _ _) _) | refine (FI _ _ _ _ (proj1 (PM _ _ _ _ (OF _ _ _ _ _ _ _ _) (SI _ _ _ _))) _) | refine (FI _ _ _ _ (proj2 (PM _ _ _ _ (OF _ _ _ _ _ _ _ _) (SI _ _ _ _))) _)]; first [assumption | lra].
Qed.
Lemma mat_rows (m : Mat R) p : rows (mkP (m0 m) (m1 m) (m2 m)) (mkP (m3 m) (m4 m) (m5 m)) (mkP (m6 m) (m7 m) (m8 m)) p = mat_apply m p.
Proof. unfold rows, mat_apply, dot3. cbn. apply P_eq; ring. Qed.
Lemma matrix_degrees64 : exists m, mat_from_angle_axis angle axis = Ok m /\
  forall k v, (-900 <= k <= 900)%Z -> fits_pt k v -> finite_points [mat_apply m v] /\
  dist3 (val_pt (mat_apply m v)) (turn_deg u (val angle) (val_pt v)) <= slack (val angle) (len3 (val_pt v)) + 675 * bpow radix2 (k - 53).
Proof.
  destruct mat_entries as (m & mR & E & ER & St). exists m. split; [exact E|]. intros k v Hk Hv.
  destruct (mat_rod (val angle) u) as [m' [E' H']]. rewrite ER in E'. injection E' as <-.
  assert (isometry (rows (mkP (m0 mR) (m1 mR) (m2 mR)) (mkP (m3 mR) (m4 mR) (m5 mR)) (mkP (m6 mR) (m7 mR) (m8 mR)))) as I.
  { intros p q. rewrite !mat_rows, !H'. apply rodrigues_dist. exact Hu. }
  assert (125 * bpow radix2 (-53) <= 1) as B by (fold uu; rewrite uu_val; lra).
  destruct (matrix_iso k 125 m _ _ _ v v Hk I B St Hv Hv) as [C _]. split.
  - destruct C as ((A & _) & (D & _) & (F & _)). constructor; [|constructor]. auto.
  - pose proof (near_place _ _ _ C) as L. rewrite mat_rows in L. destruct (angle_axis_degrees (val angle) u Hu) as (m2 & q2 & E2 & _ & D). rewrite ER in E2. injection E2 as <-. destruct (D (val_pt v)) as [D1 _].
    eapply Rle_trans; [apply (dist3_triangle _ (mat_apply mR (val_pt v)))|]. pose proof (bpow_gt_0 radix2 (k - 53)). lra.
Qed.
Lemma half_angle d : ap d kdeg (0.006 * uu) (bpow radix2 (-5)) -> ap (b64_mult mode_NE (b64_mult mode_NE angle d) (nlit 1 2)) (V64 angle * kdeg * (1 / 2)) (12 * uu) (bpow radix2 3).
Proof.
  intros A. destruct half_e as [E F]. assert (ap (nlit 1 2 : f64) (1 / 2) 0 (/ 2)) as H. { split; [exact F|]. change (V64 (nlit 1 2 : f64) = / 2) in E. rewrite E. replace (/ 2 - 1 / 2) with 0 by lra. rewrite Rabs_R0, Rabs_pos_eq by lra. lra. }
  eapply ap_weak; [apply (ap_mul _ _ _ _ _ _ _ _ (1 / 2) 3 (angle_e angle d Ha A) H); [rewrite Rabs_pos_eq; lra| |lia]| |lra].
  - change (bpow radix2 4) with 16. change (bpow radix2 3) with 8. lra.
  - change (bpow radix2 (3 - 54)) with (bpow radix2 (2 + -53)). rewrite bpow_plus. fold uu. change (bpow radix2 2) with 4. pose proof uu_pos. lra.
Qed.
Lemma quat_entries : exists q Q, quat_from_angle_axis angle axis = Ok q /\ quat_from_angle_axis (val angle) u = Ok Q /\ q_close q Q.
Proof.
  destruct d64 as (d & E & A). unfold quat_from_angle_axis. rewrite E. rewrite deg_to_rad_R. cbn [bind]. eexists. eexists. split; [reflexivity|]. split; [reflexivity|].
  destruct (trig_e _ _ _ _ (half_angle d A) ltac:(lia)) as [C S]. apply stored_ap in C, S. apply ap_aps0 in C, S.
  apply (aps_mono 0 _ _ _ _ 13) in C; [|lra]. apply (aps_mono 0 _ _ _ _ 13) in S; [|lra].
  destruct axis_e as (V1 & V2 & V3). destruct u_cube as (U1 & U2 & U3). change (V64 angle) with (val angle) in *.
  pose proof (COS_bound (val angle * kdeg * (1 / 2))) as CB. pose proof (SIN_bound (val angle * kdeg * (1 / 2))) as SB.
  assert (forall v V, aps 0 v V 11 1 -> Rabs V <= 1 -> aps 0 (b64_mult mode_NE v (nsin (b64_mult mode_NE (b64_mult mode_NE angle d) (nlit 1 2)))) (V * sin (val angle * kdeg * (1 / 2))) 40 1 /\ Rabs (V * sin (val angle * kdeg * (1 / 2))) <= 1) as P.
  { intros v V Hv HV. assert (Rabs (sin (val angle * kdeg * (1 / 2))) <= 1) as HS by (apply Rabs_le; exact SB). split.
    - exact (mul0 _ _ _ _ 11 13 1 0 40 Hv S HS ltac:(lia) ltac:(lia) ltac:(change (1 + 0)%Z with 1%Z; pows; lra)).
    - rewrite Rabs_mult. pose proof (Rabs_pos V). pose proof (Rabs_pos (sin (val angle * kdeg * (1 / 2)))). nra. }
  split; [|split; [|split]]; cbn [qa qb qc qd]; [|exact (P _ _ V1 U1)|exact (P _ _ V2 U2)|exact (P _ _ V3 U3)].
  split; [|apply Rabs_le; exact CB]. eapply ap_weak; [exact C| |]; change (bpow radix2 0) with 1; change (bpow radix2 1) with 2; pose proof uu_pos; lra.
Qed.
Lemma quaternion_degrees64 : exists q, quat_from_angle_axis angle axis = Ok q /\
  forall k v, (-900 <= k <= 900)%Z -> fits_pt k v -> finite_points [quat_apply q v] /\
  dist3 (val_pt (quat_apply q v)) (turn_deg u (val angle) (val_pt v)) <= slack (val angle) (len3 (val_pt v)) + 2910 * bpow radix2 (k - 53).
Proof.
  destruct quat_entries as (q & Q & E & ER & St). exists q. split; [exact E|]. intros k v Hk Hv. pose proof (quat_err2 k q Q v Hk St Hv) as C. split.
  - destruct C as ((A & _) & (D & _) & (F & _)). constructor; [|constructor]. auto.
  - pose proof (near_place _ _ _ C) as L. destruct (angle_axis_degrees (val angle) u Hu) as (m2 & q2 & _ & E2 & D). rewrite ER in E2. injection E2 as <-. destruct (D (val_pt v)) as [_ D1].
    eapply Rle_trans; [apply (dist3_triangle _ (quat_apply Q (val_pt v)))|]. pose proof (bpow_gt_0 radix2 (k - 53)). lra.
Qed.
End Trigs.

(** ** A normalised axis *)
Lemma direction_unit w : 0 < len3 w -> len3 (direction w) = 1.
Proof.
  intros H. unfold direction. pose proof (len3_sq w) as S. assert (len3 (mkP (px w / len3 w) (py w / len3 w) (pz w / len3 w)) * len3 (mkP (px w / len3 w) (py w / len3 w) (pz w / len3 w)) = 1) as Q.
  { rewrite len3_sq. unfold dot3 in *. cbn [px py pz]. replace 1 with (len3 w * len3 w / (len3 w * len3 w)) by (field; lra). rewrite S at 1. field. lra. }
  pose proof (len3_nonneg (mkP (px w / len3 w) (py w / len3 w) (pz w / len3 w))). nra.
Qed.
Lemma unit_axis (w a : Point3 f64) : unit_close a w -> close_pt a (direction (val_pt w)) (11 * bpow radix2 (-53)).
Proof. intros H. exact H. Qed.
Lemma about64 (TR : Trig f64) (angle : f64) (k : Z) (w : Point3 f64) : good_trig TR -> fits 9 angle -> (k <= 450)%Z -> fits_pt k w -> bpow radix2 (-450) <= len3 (val_pt w) ->
  exists a m q, normalized w = Ok a /\ mat_from_angle_axis angle a = Ok m /\ quat_from_angle_axis angle a = Ok q /\
  forall j v, (-900 <= j <= 900)%Z -> fits_pt j v -> finite_points [mat_apply m v; quat_apply q v] /\
  dist3 (val_pt (mat_apply m v)) (turn_deg (direction (val_pt w)) (val angle) (val_pt v)) <= slack (val angle) (len3 (val_pt v)) + 675 * bpow radix2 (j - 53) /\
  dist3 (val_pt (quat_apply q v)) (turn_deg (direction (val_pt w)) (val angle) (val_pt v)) <= slack (val angle) (len3 (val_pt v)) + 2910 * bpow radix2 (j - 53).
Proof.
  intros G Ha Hk Hw Hl. destruct (normalized_err k w Hk Hw Hl) as (a & _ & N & _ & U & _).
  assert (len3 (direction (val_pt w)) = 1) as L. { apply direction_unit. pose proof (bpow_gt_0 radix2 (-450)). lra. }
  destruct (matrix_degrees64 TR G angle a _ Ha L (unit_axis w a U)) as (m & Em & Dm). destruct (quaternion_degrees64 TR G angle a _ Ha L (unit_axis w a U)) as (q & Eq & Dq).
  exists a, m, q. split; [exact N|]. split; [exact Em|]. split; [exact Eq|]. intros j v Hj Hv. destruct (Dm j v Hj Hv) as [A B]. destruct (Dq j v Hj Hv) as [C D].
  split; [|split; assumption]. constructor; [inversion A; assumption|exact C].
Qed.
Lemma degrees_case : good_trig correct_trig /\ fits 9 (f64_ofZ 90) /\ val (f64_ofZ 90) = 90 /\ fits_pt 2 (dp 1 (-2) 3) /\ bpow radix2 (-450) <= len3 (val_pt (dp 1 (-2) 3)).
Proof.
  split; [exact correct_trig_good|]. destruct (ofZ_exact 90 ltac:(vm_compute; discriminate)) as [E F]. destruct (dp_fits 1 (-2) 3 2) as [F3 E3]; [lia|vm_compute; discriminate|vm_compute; discriminate|vm_compute; discriminate|].
  split; [split; [exact F|unfold val; rewrite E; change (bpow radix2 9) with 512; rewrite Rabs_pos_eq; lra]|]. split; [exact E|]. split; [exact F3|]. rewrite E3.
  apply Rle_trans with 1; [change 1 with (bpow radix2 0); apply bpow_le; lia|]. pose proof (comp_le (mkP 1 (-2) 3)) as [C _]. cbn [px] in C. rewrite Rabs_R1 in C. exact C.
Qed.
Lemma axis_case : len3 (mkP 0 0 1) = 1 /\ close_pt (dp 0 0 1) (mkP 0 0 1) (11 * bpow radix2 (-53)).
Proof.
  split; [unfold len3, dot3; cbn; replace (0 * 0 + 0 * 0 + 1 * 1) with 1 by ring; apply sqrt_1|].
  destruct (dp_fits 0 0 1 1) as [(F1 & F2 & F3) E]; [lia|vm_compute; discriminate|vm_compute; discriminate|vm_compute; discriminate|]. pose proof (f_equal px E) as E1. pose proof (f_equal py E) as E2. pose proof (f_equal pz E) as E3. cbn [px py pz] in E1, E2, E3. pose proof (bpow_gt_0 radix2 (-53)).
  assert (forall x y, fits 1 x -> val x = y -> close_to x y (11 * bpow radix2 (-53))) as C. { intros x y [F _] <-. split; [exact F|]. rewrite Rminus_diag_eq, Rabs_R0 by reflexivity. lra. }
  split; [|split]; apply C; assumption.
Qed.
