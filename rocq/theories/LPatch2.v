(** Points of quadratic patches in doubles: eval, add_to_mesh, the smooth sphere. *)
From Coq Require Import ZArith List Bool Reals Lra Lia Psatz.
From Flocq Require Import Core IEEE754.Binary IEEE754.Bits IEEE754.BinarySingleNaN.
From Verif Require Import Base Num MGeometry MKernel MMesh MMeshRun MMeasure MUtil MMeshFactory MBezier MStl MF64 SMesh SReach SGeom SMeasure SMeshFac SBezier SErr SErrN SPatch
  LBase LReach LGeom LMeasure LMeshFac4 LMeshFac7 LF64 LF64Arith LBezier LBezier2 LBezier3 LF64Ord LErr1 LErr2 LErr3 LErrT LErrR LPatch.
Import ListNotations.
Open Scope R_scope.

(** The mean of points with coordinates up to K has coordinates up to K. *)
Lemma wmean (m1 m2 m3 m4 m5 m6 a1 a2 a3 a4 a5 a6 K D : R) : 0 <= m1 -> 0 <= m2 -> 0 <= m3 -> 0 <= m4 -> 0 <= m5 -> 0 <= m6 -> 0 < D -> D = m1 + m2 + m3 + m4 + m5 + m6 ->
  Rabs a1 <= K -> Rabs a2 <= K -> Rabs a3 <= K -> Rabs a4 <= K -> Rabs a5 <= K -> Rabs a6 <= K ->
  Rabs ((m1 * a1 + m2 * a2 + m3 * a3 + m4 * a4 + m5 * a5 + m6 * a6) / D) <= K.
Proof.
  intros G1 G2 G3 G4 G5 G6 HD ED A1 A2 A3 A4 A5 A6. unfold Rdiv. rewrite Rabs_mult, (Rabs_pos_eq (/ D)) by (apply Rlt_le, Rinv_0_lt_compat; exact HD).
  apply (Rmult_le_reg_r D); [exact HD|]. rewrite Rmult_assoc, Rinv_l, Rmult_1_r by lra.
  assert (forall m a, 0 <= m -> Rabs a <= K -> Rabs (m * a) <= m * K) as X by (intros m a Hm Ha; rewrite Rabs_mult, (Rabs_pos_eq m) by exact Hm; apply Rmult_le_compat_l; assumption).
  pose proof (X _ _ G1 A1) as Y1. pose proof (X _ _ G2 A2) as Y2. pose proof (X _ _ G3 A3) as Y3. pose proof (X _ _ G4 A4) as Y4. pose proof (X _ _ G5 A5) as Y5. pose proof (X _ _ G6 A6) as Y6.
  rewrite ED. apply Rabs_le. apply Rabs_le_inv in Y1, Y2, Y3, Y4, Y5, Y6. lra.
Qed.

Lemma patch_x (q : QBT R) s u v : let D := mass (masses q s u v) in
  D = qw1 q * s ^ 2 + qw2 q * u ^ 2 + qw3 q * v ^ 2 + qw12 q * (2 * s * u) + qw13 q * (2 * s * v) + qw23 q * (2 * u * v) /\
  forall c : pt3 -> R, (c = px \/ c = py \/ c = pz) -> c (mean (masses q s u v)) =
    (qw1 q * s ^ 2 * c (qP1 q) + qw2 q * u ^ 2 * c (qP2 q) + qw3 q * v ^ 2 * c (qP3 q) + qw12 q * (2 * s * u) * c (qC12 q) + qw13 q * (2 * s * v) * c (qC13 q) + qw23 q * (2 * u * v) * c (qC23 q)) / D.
Proof.
  intros D. assert (D = qw1 q * s ^ 2 + qw2 q * u ^ 2 + qw3 q * v ^ 2 + qw12 q * (2 * s * u) + qw13 q * (2 * s * v) + qw23 q * (2 * u * v)) as ED by (unfold D; unm; cbn [sumR]; ring).
  split; [exact ED|]. intros c Hc. unfold mean. fold D. clearbody D. unfold masses. cbn [bernstein_tri combine map fst snd combo]. unfold scal3, add3, O3, Rdiv.
  destruct Hc as [-> |[-> | ->]]; cbn [px py pz]; ring.
Qed.

Section Eval.
Variables (k i j : Z) (q : QBT f64).
Hypothesis HS : patch_sizes k i j.
Hypothesis HP : patch_within k i j q.
Variables (s u v : f64) (S0 U V : R).
Hypothesis Hs : parm s S0.
Hypothesis Hu : parm u U.
Hypothesis Hv : parm v V.
Hypothesis S0p : 0 <= S0.
Hypothesis Up : 0 <= U.
Hypothesis Vp : 0 <= V.
Hypothesis Hsum : S0 + U + V = 1.

Lemma weight_coef (w : f64) : fin w /\ bpow radix2 i <= val w <= bpow radix2 j -> coef j w (val w).
Proof.
  intros (F & A & B). pose proof (bpow_gt_0 radix2 i). assert (Rabs (val w) <= bpow radix2 j) as C by (rewrite Rabs_pos_eq; lra). split; [|exact C].
  eapply ap_weak; [apply (ap_exact j w); split; assumption| |lra]. apply Rmult_le_pos; [apply Rlt_le, uu_pos|apply bpow_ge_0].
Qed.
Lemma point_coef (w x : f64) : fin w /\ bpow radix2 i <= val w <= bpow radix2 j -> fits k x -> coef (k + j) (b64_mult mode_NE w x) (val w * val x).
Proof.
  intros Hw Fx. destruct (weight_coef w Hw) as [_ Bw]. destruct Hw as [Fw _]. destruct HS as (K1 & K2 & K3 & K4). split.
  - eapply ap_weak; [apply (ap_mul w x (val w) (val x) 0 0 (bpow radix2 j) (bpow radix2 k) (bpow radix2 k) (k + j))| |apply Rle_refl].
    + apply (ap_exact j w). split; assumption.
    + apply (ap_exact k x Fx).
    + apply Fx.
    + rewrite <- bpow_plus. apply bpow_le. lia.
    + lia.
    + unfold uu. rewrite <- bpow_plus, !Rmult_0_r, !Rplus_0_l. apply bpow_le. lia.
  - rewrite bpow_plus, Rmult_comm. apply abs_prod; [apply Fx|exact Bw].
Qed.

Definition num6 (f : Point3 f64 -> f64) : f64 :=
  let t x y w P := b64_mult mode_NE y (b64_mult mode_NE x (b64_mult mode_NE w (f P))) in
  let t2 x y w P := b64_mult mode_NE y (b64_mult mode_NE x (b64_mult mode_NE n2 (b64_mult mode_NE w (f P)))) in
  b64_plus mode_NE (b64_plus mode_NE (b64_plus mode_NE (b64_plus mode_NE (b64_plus mode_NE (t s s (qw1 q) (qP1 q)) (t u u (qw2 q) (qP2 q))) (t v v (qw3 q) (qP3 q)))
    (t2 s u (qw12 q) (qC12 q))) (t2 s v (qw13 q) (qC13 q))) (t2 u v (qw23 q) (qC23 q)).
Definition den6 : f64 :=
  let t x y w := b64_mult mode_NE (b64_mult mode_NE w x) y in
  let t2 x y w := b64_mult mode_NE (b64_mult mode_NE (b64_mult mode_NE w n2) x) y in
  b64_plus mode_NE (b64_plus mode_NE (b64_plus mode_NE (b64_plus mode_NE (b64_plus mode_NE (t s s (qw1 q)) (t u u (qw2 q))) (t v v (qw3 q)))
    (t2 s u (qw12 q))) (t2 s v (qw13 q))) (t2 u v (qw23 q)).

Lemma six_w w : In w [qw1 q; qw2 q; qw3 q; qw12 q; qw13 q; qw23 q] -> fin w /\ bpow radix2 i <= val w <= bpow radix2 j.
Proof. intros H. destruct HP as [_ W]. rewrite Forall_forall in W. apply W, H. Qed.
Lemma six_p P : In P [qP1 q; qP2 q; qP3 q; qC12 q; qC13 q; qC23 q] -> fits_pt k P.
Proof. intros H. destruct HP as [W _]. rewrite Forall_forall in W. apply W, H. Qed.

Let Q := val_patch q.
Let D := mass (masses Q S0 U V).
Lemma den_ap : exists E, ap den6 E (88 * (uu * bpow radix2 j)) (32 * bpow radix2 j) /\ E = D.
Proof.
  destruct HS as (K1 & K2 & K3 & K4). eexists. split.
  - apply (six_sum j ltac:(lia)); [apply sq_r|apply sq_r|apply sq_r|apply mx_r|apply mx_r|apply mx_r]; try lia; try eassumption; apply weight_coef, six_w; cbn; tauto.
  - unfold D. rewrite (proj1 (patch_x Q S0 U V)). unfold Q. cbn. ring.
Qed.
Lemma num_ap (f : Point3 f64 -> f64) (g : pt3 -> R) : (forall p, In p [qP1 q; qP2 q; qP3 q; qC12 q; qC13 q; qC23 q] -> fits k (f p)) ->
  exists E, ap (num6 f) E (88 * (uu * bpow radix2 (k + j))) (32 * bpow radix2 (k + j)) /\
    E = val (qw1 q) * S0 ^ 2 * val (f (qP1 q)) + val (qw2 q) * U ^ 2 * val (f (qP2 q)) + val (qw3 q) * V ^ 2 * val (f (qP3 q)) +
        val (qw12 q) * (2 * S0 * U) * val (f (qC12 q)) + val (qw13 q) * (2 * S0 * V) * val (f (qC13 q)) + val (qw23 q) * (2 * U * V) * val (f (qC23 q)).
Proof.
  intros H. destruct HS as (K1 & K2 & K3 & K4). eexists. split.
  - apply (six_sum (k + j) ltac:(lia)); [apply sq_l|apply sq_l|apply sq_l|apply mx_l|apply mx_l|apply mx_l]; try lia; try eassumption; (apply point_coef; [apply six_w; cbn; tauto|apply H; cbn; tauto]).
  - ring.
Qed.
Lemma D_low : bpow radix2 i <= D.
Proof.
  unfold D. rewrite (proj1 (patch_x Q S0 U V)). unfold Q. cbn [val_patch qw1 qw2 qw3 qw12 qw13 qw23].
  pose proof (fun w H => proj1 (proj2 (six_w w H))) as W. cbn in W.
  set (w0 := bpow radix2 i) in *. assert (w0 = w0 * S0 ^ 2 + w0 * U ^ 2 + w0 * V ^ 2 + w0 * (2 * S0 * U) + w0 * (2 * S0 * V) + w0 * (2 * U * V)) as E.
  { replace (w0 * S0 ^ 2 + w0 * U ^ 2 + w0 * V ^ 2 + w0 * (2 * S0 * U) + w0 * (2 * S0 * V) + w0 * (2 * U * V)) with (w0 * (S0 + U + V) ^ 2) by ring. rewrite Hsum. ring. }
  rewrite E. pose proof (Rmult_le_pos _ _ S0p Up). pose proof (Rmult_le_pos _ _ S0p Vp). pose proof (Rmult_le_pos _ _ Up Vp).
  repeat apply Rplus_le_compat; apply Rmult_le_compat_r; try (apply pow2_ge_0); try lra; apply W; tauto.
Qed.
Lemma coord_close (f : Point3 f64 -> f64) (c : pt3 -> R) : (c = px \/ c = py \/ c = pz) -> (forall p, c (val_pt p) = val (f p)) -> (forall p, fits_pt k p -> fits k (f p)) ->
  V64 den6 <> 0 /\ close_to (b64_div mode_NE (num6 f) den6) (c (mean (masses Q S0 U V))) (patch_err k i j).
Proof.
  intros Hc Ec Fc. destruct HS as (K1 & K2 & K3 & K4). destruct den_ap as (E & A & ->). destruct (num_ap f c (fun p H => Fc p (six_p p H))) as (N & B & EN). pose proof D_low as DL.
  pose proof (bpow_gt_0 radix2 i) as I0. pose proof (bpow_gt_0 radix2 k) as KK. pose proof (bpow_gt_0 radix2 j) as JJ. pose proof uu_pos as U0.
  assert (c (mean (masses Q S0 U V)) = N / D) as EQ. { rewrite (proj2 (patch_x Q S0 U V) c Hc). fold D. unfold Q. cbn [val_patch qw1 qw2 qw3 qw12 qw13 qw23 qP1 qP2 qP3 qC12 qC13 qC23]. rewrite !Ec, <- EN. reflexivity. }
  rewrite EQ. assert (bpow radix2 j <= 1099511627776 * bpow radix2 i) as JI. { change 1099511627776 with (bpow radix2 40). rewrite <- bpow_plus. apply bpow_le. lia. }
  assert (Rabs (N / D) <= bpow radix2 k) as NK.
  { rewrite EN. pose proof (fun w H => Rle_trans _ _ _ (Rlt_le _ _ I0) (proj1 (proj2 (six_w w H)))) as W. cbn in W. pose proof (fun p H => proj2 (Fc p (six_p p H))) as X. cbn in X.
    pose proof (Rmult_le_pos _ _ S0p Up). pose proof (Rmult_le_pos _ _ S0p Vp). pose proof (Rmult_le_pos _ _ Up Vp).
    apply wmean; try (apply X; tauto); try (apply Rmult_le_pos; [apply W; tauto|try apply pow2_ge_0; lra]); [lra|]. unfold D. rewrite (proj1 (patch_x Q S0 U V)). unfold Q. reflexivity. }
  assert (ap (num6 f) N (88 * (uu * bpow radix2 (k + j))) (Rabs (V64 (num6 f)))) as B' by (destruct B as (b1 & b2 & _); split; [exact b1|split; [exact b2|apply Rle_refl]]).
  assert (ap den6 D (88 * (uu * bpow radix2 j)) (Rabs (V64 den6))) as A' by (destruct A as (b1 & b2 & _); split; [exact b1|split; [exact b2|apply Rle_refl]]).
  assert (88 * (uu * bpow radix2 j) <= bpow radix2 i / 8) as SM. { rewrite uu_val. lra. }
  rewrite bpow_plus in B'.
  destruct (quot_ap _ _ _ _ _ _ _ (bpow radix2 i) k B' A' (conj I0 DL) ltac:(lra) NK eq_refl ltac:(lia)) as [NZ CL].
  - replace ((88 * (uu * (bpow radix2 k * bpow radix2 j)) + bpow radix2 k * (88 * (uu * bpow radix2 j))) * 2) with (bpow radix2 k * (4 * (88 * (uu * bpow radix2 j)))) by ring. apply Rmult_le_compat_l; lra.
  - split; [exact NZ|]. destruct CL as [F C]. split; [exact F|]. eapply Rle_trans; [exact C|].
    unfold patch_err. replace (k + j - i - 44)%Z with (k + (j + (- i + (9 + -53))))%Z by lia. rewrite !bpow_plus. fold uu. change (bpow radix2 9) with 512. rewrite bpow_opp.
    set (x := bpow radix2 k) in *. set (y := bpow radix2 j) in *. set (z := bpow radix2 i) in *.
    assert (1 <= y * / z) as YZ. { apply (Rmult_le_reg_r z); [exact I0|]. rewrite Rmult_assoc, Rinv_l, Rmult_1_l, Rmult_1_r by lra. apply bpow_le. lia. }
    replace ((88 * (uu * (x * y)) + x * (88 * (uu * y))) * 2 / z + uu * x) with ((uu * x) * (352 * (y * / z) + 1)) by (field; lra).
    replace (x * (y * (/ z * (512 * uu)))) with ((uu * x) * (512 * (y * / z))) by ring. apply Rmult_le_compat_l; [apply Rmult_le_pos; lra|lra].
Qed.
Lemma eval_sel (v0 : f64) : (if (v0 =? - n1)%num then (n1 - s - u)%num else v0) = v -> exists p, qbt_eval q s u v0 = Ok p /\ close_pt p (mean (masses Q S0 U V)) (patch_err k i j).
Proof.
  intros Ev. unfold qbt_eval. rewrite Ev. cbv zeta.
  destruct (coord_close px px (or_introl eq_refl) (fun p => eq_refl) (fun p H => proj1 H)) as [NZ C1].
  destruct (coord_close py py (or_intror (or_introl eq_refl)) (fun p => eq_refl) (fun p H => proj1 (proj2 H))) as [_ C2].
  destruct (coord_close pz pz (or_intror (or_intror eq_refl)) (fun p => eq_refl) (fun p H => proj2 (proj2 H))) as [_ C3].
  unfold pdiv, padd, pmul. cbn [px py pz ndiv nadd nmul F64Num bind]. unfold num6, den6 in C1, C2, C3. cbv beta zeta in C1, C2, C3.
  eexists. split; [reflexivity|]. split; [exact C1|]. split; [exact C2|exact C3].
Qed.
End Eval.

(** The third parameter, 1 - s - u as computed. *)
Lemma third_ap (s u : f64) S0 U : ap s S0 (/ 2 * uu) 1 -> ap u U (/ 2 * uu) 1 -> 0 <= V64 s -> 0 <= V64 u -> 0 <= S0 -> 0 <= U -> S0 + U <= 1 ->
  parm s S0 /\ parm u U /\ parm (n1 - s - u)%num (1 - S0 - U).
Proof.
  intros As Au Ps Pu PS PU H. pose proof uu_pos as U0. split; [split; [eapply ap_weak; [exact As|lra|lra]|rewrite Rabs_pos_eq; lra]|]. split; [split; [eapply ap_weak; [exact Au|lra|lra]|rewrite Rabs_pos_eq; lra]|].
  split; [|rewrite Rabs_pos_eq; lra]. change (n1 - s - u)%num with (b64_minus mode_NE (b64_minus mode_NE (f64_ofZ 1) s) u).
  destruct As as (Fs & Es & Bs). destruct Au as (Fu & Eu & Bu). apply Rabs_le_inv in Bs, Bu. destruct (ofZ_ok 1 ltac:(lia)) as [E1 F1].
  assert (Rabs (V64 (f64_ofZ 1) - V64 s) <= bpow radix2 0) as B1 by (rewrite E1; change (bpow radix2 0) with 1; apply Rabs_le; lra).
  destruct (sub_e _ _ _ F1 Fs B1 (le1000 0 ltac:(lia))) as [Et Ft]. destruct (rounded_pow _ _ 0 Et ltac:(lia) B1) as [Tb Te]. set (t := b64_minus mode_NE (f64_ofZ 1) s) in *.
  assert (0 <= V64 t) as Pt by (rewrite Et; apply round64_nonneg; rewrite E1; lra). rewrite E1 in Te. change (bpow radix2 0) with 1 in Tb. apply Rabs_le_inv in Tb.
  assert (Rabs (V64 t - V64 u) <= bpow radix2 0) as B2 by (change (bpow radix2 0) with 1; apply Rabs_le; lra).
  destruct (sub_e _ _ _ Ft Fu B2 (le1000 0 ltac:(lia))) as [Ev Fv]. destruct (rounded_pow _ _ 0 Ev ltac:(lia) B2) as [Vb Ve]. change (bpow radix2 0) with 1 in Vb.
  split; [exact Fv|]. split; [|exact Vb]. assert (bpow radix2 (0 - 54) = / 2 * uu) as P54 by (change (0 - 54)%Z with (-1 + -53)%Z; rewrite bpow_plus; reflexivity). rewrite P54 in Te, Ve.
  apply Rabs_le_inv in Es, Eu, Te, Ve. apply Rabs_le. lra.
Qed.
Lemma minus_one : ((- n1) =? - n1)%num = true :> bool. Proof. vm_compute. reflexivity. Qed.

(** C120 *)
Lemma eval_near k i j (q : QBT f64) (s u : f64) S0 U : patch_sizes k i j -> patch_within k i j q -> ap s S0 (/ 2 * uu) 1 -> ap u U (/ 2 * uu) 1 -> 0 <= V64 s -> 0 <= V64 u -> 0 <= S0 -> 0 <= U -> S0 + U <= 1 ->
  exists p, qbt_eval q s u (- n1)%num = Ok p /\ close_pt p (patch_pt (val_patch q) S0 U) (patch_err k i j).
Proof.
  intros HS HP As Au Ps Pu PS PU H. destruct (third_ap s u S0 U As Au Ps Pu PS PU H) as (A & B & C). unfold patch_pt.
  apply (eval_sel k i j q HS HP s u (n1 - s - u)%num S0 U (1 - S0 - U) A B C PS PU ltac:(lra) ltac:(ring)). rewrite minus_one. reflexivity.
Qed.
Lemma fin_ap (s : f64) : fin s -> 0 <= val s <= 1 -> ap s (val s) (/ 2 * uu) 1.
Proof. intros F [A B]. pose proof uu_pos. split; [exact F|]. fold (val s). rewrite Rminus_diag_eq, Rabs_R0 by reflexivity. split; [lra|rewrite Rabs_pos_eq; lra]. Qed.
Lemma eval_doubles k i j (q : QBT f64) (s u : f64) : patch_sizes k i j -> patch_within k i j q -> fin s -> fin u -> 0 <= val s -> 0 <= val u -> val s + val u <= 1 ->
  exists p, qbt_eval q s u (- n1)%num = Ok p /\ close_pt p (patch_pt (val_patch q) (val s) (val u)) (patch_err k i j).
Proof. intros HS HP Fs Fu Ps Pu H. apply eval_near; try assumption; apply fin_ap; try assumption; lra. Qed.
(** Three parameters given. *)
Lemma eval_given k i j (q : QBT f64) (s u v : f64) : patch_sizes k i j -> patch_within k i j q -> fin s -> fin u -> fin v -> 0 <= val s -> 0 <= val u -> 0 <= val v -> val s + val u + val v = 1 ->
  exists p, qbt_eval q s u v = Ok p /\ close_pt p (patch_pt (val_patch q) (val s) (val u)) (patch_err k i j).
Proof.
  intros HS HP Fs Fu Fv Ps Pu Pv H. pose proof uu_pos. assert (forall x, fin x -> 0 <= val x <= 1 -> parm x (val x)) as G by (intros x Fx Hx; split; [eapply ap_weak; [apply fin_ap; assumption|lra|lra]|rewrite Rabs_pos_eq; lra]).
  unfold patch_pt. replace (1 - val s - val u) with (val v) by lra. apply (eval_sel k i j q HS HP s u v (val s) (val u) (val v)); try assumption; try (apply G; [assumption|lra]).
  assert ((v =? - n1)%num = false) as ->; [|reflexivity]. change (f64_eqb v (- n1)%num = false). destruct (f64_eqb v (- n1)%num) eqn:E; [|reflexivity]. exfalso.
  assert (val v = -1) as Q; [|lra].
  apply eqb64 in E. destruct E as (_ & _ & E). destruct (ofZ_ok 1 ltac:(lia)) as [E1 F1]. rewrite !ext_fin in E; [|change (fin64 (b64_opp (f64_ofZ 1)) = true); rewrite <- F1; apply Binary.is_finite_Bopp|exact Fv].
  change (val v = V64 (b64_opp (f64_ofZ 1))) in E. rewrite E. transitivity (- V64 (f64_ofZ 1)); [apply Binary.B2R_Bopp|rewrite E1; reflexivity].
Qed.
