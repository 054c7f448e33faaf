(** The de Boor scheme in doubles follows the one in reals. *)
From Coq Require Import ZArith List Bool Reals Lra Lia Psatz.
From Flocq Require Import Core IEEE754.Binary IEEE754.Bits IEEE754.BinarySingleNaN.
From Verif Require Import Base Num MGeometry MNurbs MStl MF64 SGeom SNurbs SF64 SErr LBase LGeom LNurbs LF64 LF64Arith LKnotF64 LErr1 LErr2 LErr7.
Import ListNotations.
Open Scope Z_scope.

Lemma for_rel {S1 S2} (R : Z -> S1 -> S2 -> Prop) a b (f : Z -> S1 -> res S1) (g : Z -> S2 -> res S2) s1 s2 : a <= b -> R a s1 s2 ->
  (forall i x y, a <= i < b -> R i x y -> exists x' y', f i x = Ok x' /\ g i y = Ok y' /\ R (i + 1) x' y') ->
  exists x y, for_ a b f s1 = Ok x /\ for_ a b g s2 = Ok y /\ R b x y.
Proof.
  intros L H0 St.
  assert (forall n k x y, k + Z.of_nat n = b -> a <= k -> R k x y -> exists x' y', for_ k b f x = Ok x' /\ for_ k b g y = Ok y' /\ R b x' y') as K.
  { induction n as [|n IH]; intros k x y Hk La Hr.
    - replace b with k in * by lia. rewrite !for_empty by lia. eauto.
    - rewrite !for_step by lia. destruct (St k x y ltac:(lia) Hr) as (x' & y' & E1 & E2 & Hr'). rewrite E1, E2. cbn [bind]. apply IH; [lia|lia|exact Hr']. }
  apply (K (Z.to_nat (b - a)) a); [lia|lia|exact H0].
Qed.
Lemma ndiv_R (x y : R) : y <> 0%R -> ndiv x y = Ok (x / y)%R.
Proof. intros H. cbn. destruct (Req_EM_T y 0); [contradiction|reflexivity]. Qed.

Section Sim.
(** Coordinates up to K, weights between w0 and W. *)
Variables (K W w0 : R).
Hypothesis HK : (bpow radix2 (-400) <= K <= bpow radix2 400)%R.
Hypothesis HW : (bpow radix2 (-400) <= W <= bpow radix2 400)%R.
Hypothesis H0 : (0 < w0)%R.
Lemma range_ok S : (bpow radix2 (-800) <= S <= bpow radix2 800 -> 16 * eta <= uu * S /\ S <= bpow radix2 900)%R.
Proof.
  intros [L U]. split.
  - apply Rle_trans with (uu * bpow radix2 (-800))%R; [|apply Rmult_le_compat_l; [apply Rlt_le, uu_pos|exact L]]. unfold uu, eta. change 16%R with (bpow radix2 4). rewrite <- !bpow_plus. apply bpow_le. lia.
  - eapply Rle_trans; [exact U|]. apply bpow_le. lia.
Qed.
Lemma W_ok : (16 * eta <= uu * W /\ W <= bpow radix2 900)%R.
Proof. apply range_ok. pose proof (bpow_le radix2 (-800) (-400) ltac:(lia)). pose proof (bpow_le radix2 400 800 ltac:(lia)). lra. Qed.
Lemma K_ok : (16 * eta <= uu * K /\ K <= bpow radix2 900)%R.
Proof. apply range_ok. pose proof (bpow_le radix2 (-800) (-400) ltac:(lia)). pose proof (bpow_le radix2 400 800 ltac:(lia)). lra. Qed.
Lemma KW_ok : (16 * eta <= uu * (K * W) /\ K * W <= bpow radix2 900)%R.
Proof.
  apply range_ok. pose proof (bpow_gt_0 radix2 (-400)). change (-800) with (-400 + -400). change 800 with (400 + 400). rewrite !bpow_plus. split; apply Rmult_le_compat; lra.
Qed.
Lemma K_pos : (0 < K)%R. Proof. pose proof (bpow_gt_0 radix2 (-400)). lra. Qed.
Lemma W_pos : (0 < W)%R. Proof. pose proof (bpow_gt_0 radix2 (-400)). lra. Qed.

Lemma eq_near e S r x y : near e S r x -> x = y -> near e S r y. Proof. intros H ->. exact H. Qed.
Definition near_pt (e : R) (p : Point3 f64) (q : pt3) : Prop := near e (K * W) (px p) (px q) /\ near e (K * W) (py p) (py q) /\ near e (K * W) (pz p) (pz q).
Definition tame (q : pt3) (w : R) : Prop := (Rabs (px q) <= w * K /\ Rabs (py q) <= w * K /\ Rabs (pz q) <= w * K /\ w0 <= w <= W)%R.
Definition pair_near (e : R) (p : Point3 f64) (w : f64) (q : pt3) (v : R) : Prop := near_pt e p q /\ near e W w v /\ tame q v.
Lemma pair_weak e e' p w q v : (e <= e')%R -> pair_near e p w q v -> pair_near e' p w q v.
Proof.
  intros H ((A & B & C) & D & T). pose proof K_pos. pose proof W_pos. assert (0 <= K * W)%R by nra.
  split; [|split; [|exact T]]; [split; [|split]|]; (eapply near_weak; [..|eassumption]; lra).
Qed.
Lemma tame_KW q v : tame q v -> (Rabs (px q) <= K * W /\ Rabs (py q) <= K * W /\ Rabs (pz q) <= K * W /\ Rabs v <= W)%R.
Proof. intros (A & B & C & D). pose proof K_pos. assert (v * K <= K * W)%R by nra. repeat split; try lra. rewrite Rabs_pos_eq; lra. Qed.
Lemma conv_abs a b A c d : (0 <= A <= 1 -> Rabs a <= c -> Rabs b <= d -> Rabs ((1 - A) * a + A * b) <= c * (1 - A) + d * A)%R.
Proof. intros HA Ha Hb. rewrite (Rmult_comm (1 - A)), (Rmult_comm A). eapply Rle_trans; [apply Rabs_triang|]. rewrite !Rabs_mult, (Rabs_pos_eq A), (Rabs_pos_eq (1 - A)) by lra. apply Rplus_le_compat; apply Rmult_le_compat_r; lra. Qed.
Lemma pair_comb e (t k0 k1 : f64) p w q v p' w' q' v' : (0 <= e <= 1)%R ->
  fin64 t = true -> fin64 k0 = true -> fin64 k1 = true -> (0 <= V64 k0 <= V64 t)%R -> (V64 t <= V64 k1 <= 1)%R -> (V64 k0 < V64 k1)%R ->
  pair_near e p w q v -> pair_near e p' w' q' v' ->
  let A := ((V64 t - V64 k0) / (V64 k1 - V64 k0))%R in
  let al := b64_div mode_NE (b64_minus mode_NE t k0) (b64_minus mode_NE k1 k0) in
  pair_near (e + 13 * uu) (padd (pmul p (nsub n1 al)) (pmul p' al)) (nadd (nmul w (nsub n1 al)) (nmul w' al)) (padd (pmul q (1 - A)%R) (pmul q' A)) (v * (1 - A) + v' * A)%R.
Proof.
  intros He Ft F0 F1 B0 B1 L ((A1 & A2 & A3) & A4 & T1) ((C1 & C2 & C3) & C4 & T2) A al.
  destruct (alpha_err t k0 k1 Ft F0 F1 B0 B1 L) as (HA & Fa & Fb & Ra & Rb & Ea & Eb & Es). fold A al in HA, Fa, Fb, Ra, Rb, Ea, Eb, Es.
  destruct (tame_KW _ _ T1) as (X1 & X2 & X3 & X4). destruct (tame_KW _ _ T2) as (Y1 & Y2 & Y3 & Y4). destruct KW_ok as [O1 O2]. destruct W_ok as [O3 O4].
  split; [split; [|split]|split].
  - refine (eq_near _ _ _ _ _ (comb_near_l (K * W) O1 O2 (px p) (px p') al (b64_minus mode_NE n1 al) (px q) (px q') A e A1 C1 X1 Y1 He HA Fa Fb Ra Rb Ea Eb Es) _). cbn [padd pmul px py pz nadd nmul nsub n1 RNum]. ring.
  - refine (eq_near _ _ _ _ _ (comb_near_l (K * W) O1 O2 (py p) (py p') al (b64_minus mode_NE n1 al) (py q) (py q') A e A2 C2 X2 Y2 He HA Fa Fb Ra Rb Ea Eb Es) _). cbn [padd pmul px py pz nadd nmul nsub n1 RNum]. ring.
  - refine (eq_near _ _ _ _ _ (comb_near_l (K * W) O1 O2 (pz p) (pz p') al (b64_minus mode_NE n1 al) (pz q) (pz q') A e A3 C3 X3 Y3 He HA Fa Fb Ra Rb Ea Eb Es) _). cbn [padd pmul px py pz nadd nmul nsub n1 RNum]. ring.
  - exact (comb_near W O3 O4 w w' al (b64_minus mode_NE n1 al) v v' A e A4 C4 X4 Y4 He HA Fa Fb Ra Rb Ea Eb Es).
  - destruct T1 as (P1 & P2 & P3 & P4). destruct T2 as (Q1 & Q2 & Q3 & Q4). unfold tame. cbn [padd pmul px py pz nadd nmul RNum].
    replace ((v * (1 - A) + v' * A) * K)%R with (v * K * (1 - A) + v' * K * A)%R by ring.
    split; [apply conv_abs; assumption|]. split; [apply conv_abs; assumption|]. split; [apply conv_abs; assumption|]. nra.
Qed.

(** Entry [j] of the temporaries. *)
Notation temps := (list (Point3 f64) * list f64)%type.
Notation rtemps := (list pt3 * list R)%type.
Definition entry (e : R) (j : Z) (s : temps) (r : rtemps) : Prop :=
  exists p w q v, vget (fst s) j = Ok p /\ vget (snd s) j = Ok w /\ vget (fst r) j = Ok q /\ vget (snd r) j = Ok v /\ pair_near e p w q v.
Definition sized (d : Z) (s : temps) (r : rtemps) : Prop := d < vsize (fst s) /\ d < vsize (snd s) /\ d < vsize (fst r) /\ d < vsize (snd r).

Section Knots.
Variables (ks : list f64) (d ki : Z) (t : f64).
Hypothesis Kf : Forall (fun k : f64 => fin64 k = true) ks.
Hypothesis Ks : forall i j, 0 <= i <= j -> j < vsize ks -> (0 <= kn (dvals ks) i <= kn (dvals ks) j /\ kn (dvals ks) j <= 1)%R.
Hypothesis Hd : 0 <= d <= ki.
Hypothesis Hi : ki + d < vsize ks.
Hypothesis Ft : fin64 t = true.
Hypothesis Ht : (kn (dvals ks) ki <= V64 t <= kn (dvals ks) (ki + 1))%R.
Hypothesis Hlt : (kn (dvals ks) ki < kn (dvals ks) (ki + 1))%R.

Lemma step_sim e r j s q : (0 <= e <= 1)%R -> 1 <= r <= j -> j <= d -> sized d s q -> entry e (j - 1) s q -> entry e j s q ->
  exists s' q', deboor_step ks d ki t r j s = Ok s' /\ deboor_step (dvals ks) d ki (V64 t) r j q = Ok q' /\ sized d s' q' /\ entry (e + 13 * uu) j s' q' /\
    (forall i E, i <> j -> entry E i s q -> entry E i s' q').
Proof.
  intros He Hr Hj (Z1 & Z2 & Z3 & Z4) (p1 & w1 & q1 & v1 & G1 & G2 & G3 & G4 & N1) (p2 & w2 & q2 & v2 & G5 & G6 & G7 & G8 & N2). destruct s as [tp tw], q as [tp' tw']. cbn [fst snd] in *. unfold deboor_step.
  destruct (vget_in_range ks (j + ki - d) ltac:(lia)) as [k0 E0]. destruct (vget_in_range ks (j + 1 + ki - r) ltac:(lia)) as [k1 E1].
  rewrite E0, E1, (vals_get _ _ _ E0), (vals_get _ _ _ E1). cbn [bind].
  pose proof (vals_kn _ _ _ E0) as V0. pose proof (vals_kn _ _ _ E1) as V1.
  destruct (Ks (j + ki - d) ki ltac:(lia) ltac:(lia)) as [S1 S2]. destruct (Ks (ki + 1) (j + 1 + ki - r) ltac:(lia) ltac:(lia)) as [S3 S4]. rewrite V0 in S1. rewrite V1 in S3, S4.
  assert (fin64 k0 = true) as F0 by (rewrite Forall_forall in Kf; apply Kf; eapply vget_In; eassumption).
  assert (fin64 k1 = true) as F1 by (rewrite Forall_forall in Kf; apply Kf; eapply vget_In; eassumption).
  pose proof (pair_comb e t k0 k1 _ _ _ _ _ _ _ _ He Ft F0 F1 ltac:(lra) ltac:(lra) ltac:(lra) N1 N2) as PC. cbv zeta in PC.
  rewrite ndiv_R by (cbn; lra). change (nsub (V64 t) (V64 k0)) with (V64 t - V64 k0)%R. change (nsub (V64 k1) (V64 k0)) with (V64 k1 - V64 k0)%R.
  set (A := ((V64 t - V64 k0) / (V64 k1 - V64 k0))%R) in *.
  change (ndiv (nsub t k0) (nsub k1 k0)) with (Ok (b64_div mode_NE (b64_minus mode_NE t k0) (b64_minus mode_NE k1 k0))). set (al := b64_div mode_NE (b64_minus mode_NE t k0) (b64_minus mode_NE k1 k0)) in *.
  cbn [bind]. rewrite G1, G3, G5, G7. cbn [bind].
  match goal with |- context [vset tp j ?x] => set (np := x) in *; pose proof (vset_in_range tp j np ltac:(lia)) as U1 end.
  match goal with |- context [vset tp' j ?x] => set (nq := x) in *; pose proof (vset_in_range tp' j nq ltac:(lia)) as U2 end. rewrite U1, U2. cbn [bind].
  rewrite G2, G4, G6, G8. cbn [bind].
  match goal with |- context [vset tw j ?x] => set (nw := x) in *; pose proof (vset_in_range tw j nw ltac:(lia)) as U3 end.
  match goal with |- context [vset tw' j ?x] => set (nv := x) in *; pose proof (vset_in_range tw' j nv ltac:(lia)) as U4 end. rewrite U3, U4. cbn [bind].
  do 2 eexists. split; [reflexivity|]. split; [reflexivity|].
  pose proof (vset_size _ _ _ _ U1). pose proof (vset_size _ _ _ _ U2). pose proof (vset_size _ _ _ _ U3). pose proof (vset_size _ _ _ _ U4).
  split; [unfold sized; cbn [fst snd]; lia|]. split.
  - exists np, nw, nq, nv. cbn [fst snd]. rewrite (vget_vset _ _ _ _ j U1), (vget_vset _ _ _ _ j U2), (vget_vset _ _ _ _ j U3), (vget_vset _ _ _ _ j U4), Z.eqb_refl. do 4 (split; [reflexivity|]). exact PC.
  - intros i E Ne (a1 & a2 & a3 & a4 & g1 & g2 & g3 & g4 & NN). exists a1, a2, a3, a4. cbn [fst snd] in *.
    rewrite (vget_vset _ _ _ _ i U1), (vget_vset _ _ _ _ i U2), (vget_vset _ _ _ _ i U3), (vget_vset _ _ _ _ i U4). destruct (Z.eqb_spec i j); [contradiction|]. auto.
Qed.
Lemma entry_weak e e' j s q : (e <= e')%R -> entry e j s q -> entry e' j s q.
Proof. intros H (p & w & a & v & A & B & C & D & N). exists p, w, a, v. do 4 (split; [assumption|]). eapply pair_weak; eassumption. Qed.
Lemma deboor_sim e s q : (0 <= e)%R -> (e + 13 * uu * IZR d <= 1)%R -> sized d s q -> (forall j, 0 <= j <= d -> entry e j s q) ->
  exists s' q', deboor ks d ki t s = Ok s' /\ deboor (dvals ks) d ki (V64 t) q = Ok q' /\ sized d s' q' /\ entry (e + 13 * uu * IZR d) d s' q'.
Proof.
  intros He Hs SZ EN. unfold deboor. pose proof uu_pos as U0.
  destruct (for_rel (fun r s q => sized d s q /\ forall j, 0 <= j <= d -> entry (e + 13 * uu * IZR (r - 1)) j s q) 1 (d + 1)
    (fun r s => for_ 0 (d - r + 1) (fun m s => deboor_step ks d ki t r (d - m) s) s) (fun r s => for_ 0 (d - r + 1) (fun m s => deboor_step (dvals ks) d ki (V64 t) r (d - m) s) s) s q) as (s' & q' & E1 & E2 & Z & H).
  - lia.
  - split; [exact SZ|]. intros j Hj. eapply entry_weak; [|apply EN; exact Hj]. change (1 - 1) with 0. lra.
  - intros r x y Hr [Z H]. set (E := (e + 13 * uu * IZR (r - 1))%R) in *.
    assert (0 <= IZR (r - 1))%R as I0 by (apply IZR_le; lia). assert (IZR (r - 1) <= IZR d)%R as I1 by (apply IZR_le; lia).
    assert (0 <= E <= 1)%R as EB. { unfold E. assert (0 <= 13 * uu * IZR (r - 1) <= 13 * uu * IZR d)%R by (split; [apply Rmult_le_pos; lra|apply Rmult_le_compat_l; lra]). lra. }
    assert ((e + 13 * uu * IZR (r + 1 - 1)) = E + 13 * uu)%R as EE. { unfold E. rewrite !minus_IZR, plus_IZR. ring. }
    destruct (for_rel (fun m s q => sized d s q /\ (forall j, 0 <= j <= d - m -> entry E j s q) /\ (forall j, d - m < j <= d -> entry (E + 13 * uu) j s q)) 0 (d - r + 1)
      (fun m s => deboor_step ks d ki t r (d - m) s) (fun m s => deboor_step (dvals ks) d ki (V64 t) r (d - m) s) x y) as (x' & y' & E1 & E2 & Z' & H1 & H2).
    + lia.
    + split; [exact Z|]. split; [intros j Hj; apply H; lia|intros j Hj; lia].
    + intros m a b Hm (Za & Ha & Hb). destruct (step_sim E r (d - m) a b EB ltac:(lia) ltac:(lia) Za (Ha (d - m - 1) ltac:(lia)) (Ha (d - m) ltac:(lia))) as (a' & b' & S1 & S2 & S3 & S4 & S5).
      exists a', b'. split; [exact S1|]. split; [exact S2|]. split; [exact S3|]. split.
      * intros j Hj. apply S5; [lia|]. apply Ha. lia.
      * intros j Hj. destruct (Z.eq_dec j (d - m)) as [-> |Ne]; [exact S4|]. apply S5; [exact Ne|]. apply Hb. lia.
    + exists x', y'. split; [exact E1|]. split; [exact E2|]. split; [exact Z'|]. intros j Hj. rewrite EE. destruct (Z_le_dec j (r - 1)) as [L|L]; [|apply H2; lia]. eapply entry_weak; [|apply H1; lia]. lra.
  - exists s', q'. split; [exact E1|]. split; [exact E2|]. split; [exact Z|]. replace d with (d + 1 - 1) at 1 by lia. apply H. lia.
Qed.
End Knots.

(** The quotient at the end. *)
Lemma quot_near e p w q v : (0 <= e)%R -> (e * W <= w0 / 2)%R -> pair_near e p w q v ->
  exists z, pdiv p w = Ok z /\ (forall E, E = (uu * K * 4 + 4 * e * K * W / w0)%R -> close_to (px z) (px q / v) E /\ close_to (py z) (py q / v) E /\ close_to (pz z) (pz q / v) E).
Proof.
  intros He Hw ((A1 & A2 & A3) & [Fw Ew] & (T1 & T2 & T3 & T4)). pose proof K_pos as KP. pose proof W_pos as WP. pose proof uu_pos as U0. pose proof eta_pos as N0. destruct K_ok as [K1 K2].
  assert (w0 / 2 <= V64 w)%R as WL. { apply Rabs_le_inv in Ew. lra. }
  assert (forall x X, near e (K * W) x X -> (Rabs X <= v * K)%R -> close_to (b64_div mode_NE x w) (X / v) (uu * K * 4 + 4 * e * K * W / w0)%R) as Q.
  { intros x X [Fx Ex] BX. set (P := (X / v)%R). assert (X = P * v)%R as EX by (unfold P; field; lra).
    assert (Rabs P <= K)%R as BP. { unfold P, Rdiv. rewrite Rabs_mult, Rabs_inv, (Rabs_pos_eq v) by lra. apply Rmult_le_reg_r with v; [lra|]. rewrite Rmult_assoc, Rinv_l by lra. lra. }
    assert (Rabs (V64 x / V64 w - P) <= 4 * e * K * W / w0)%R as D.
    { replace (V64 x / V64 w - P)%R with (((V64 x - X) - P * (V64 w - v)) / V64 w)%R by (rewrite EX; field; lra).
      unfold Rdiv at 1. rewrite Rabs_mult, Rabs_inv, (Rabs_pos_eq (V64 w)) by lra.
      assert (Rabs (V64 x - X - P * (V64 w - v)) <= 2 * (e * (K * W)))%R as N. { eapply Rle_trans; [apply Rabs_triang|]. rewrite Rabs_Ropp, Rabs_mult. assert (Rabs P * Rabs (V64 w - v) <= K * (e * W))%R by (apply Rmult_le_compat; auto using Rabs_pos). lra. }
      assert (/ V64 w <= 2 / w0)%R as I. { replace (2 / w0)%R with (/ (w0 / 2))%R by (field; lra). apply Rinv_le_contravar; lra. }
      apply Rle_trans with (2 * (e * (K * W)) * (2 / w0))%R; [|apply Req_le; field; lra]. apply Rmult_le_compat; [apply Rabs_pos|apply Rlt_le, Rinv_0_lt_compat; lra|exact N|exact I]. }
    assert (4 * e * K * W / w0 <= 2 * K)%R as D2. { unfold Rdiv. apply Rmult_le_reg_r with w0; [lra|]. rewrite Rmult_assoc, Rinv_l by lra. nra. }
    assert (Rabs (V64 x / V64 w) <= 3 * K)%R as B. { replace (V64 x / V64 w)%R with ((V64 x / V64 w - P) + P)%R by ring. eapply Rle_trans; [apply Rabs_triang|]. lra. }
    destruct (div_e x w _ Fx ltac:(lra) B) as [E F]. { pose proof (big4 K K2). lra. }
    pose proof (rounded_rel _ _ _ E B) as RR. split; [exact F|]. change val with (fun x : f64 => V64 x). cbv beta. fold P.
    replace (V64 (b64_div mode_NE x w) - P)%R with ((V64 (b64_div mode_NE x w) - V64 x / V64 w) + (V64 x / V64 w - P))%R by ring. eapply Rle_trans; [apply Rabs_triang|]. nra. }
  eexists. split; [reflexivity|]. intros E ->. cbn [px py pz]. split; [apply Q; assumption|]. split; apply Q; assumption.
Qed.
(** A control point times its weight. *)
Lemma load_near (p : Point3 f64) (w : f64) : fin64 (px p) = true -> fin64 (py p) = true -> fin64 (pz p) = true -> fin64 w = true ->
  (Rabs (V64 (px p)) <= K -> Rabs (V64 (py p)) <= K -> Rabs (V64 (pz p)) <= K -> w0 <= V64 w <= W ->
  pair_near (2 * uu) (pmul p w) w (pmul (val_pt p) (val w)) (val w))%R.
Proof.
  intros F1 F2 F3 Fw B1 B2 B3 Bw. pose proof K_pos as KP. pose proof W_pos as WP. pose proof uu_pos as U0. pose proof eta_pos as N0. destruct KW_ok as [K1 K2].
  assert (forall x, fin64 x = true -> (Rabs (V64 x) <= K)%R -> near (2 * uu) (K * W) (b64_mult mode_NE w x) (V64 w * V64 x)%R /\ (Rabs (V64 w * V64 x) <= V64 w * K)%R) as M.
  { intros x Fx Bx. assert (Rabs (V64 w * V64 x) <= V64 w * K)%R as B. { rewrite Rabs_mult, (Rabs_pos_eq (V64 w)) by lra. apply Rmult_le_compat_l; lra. }
    assert (Rabs (V64 w * V64 x) <= K * W)%R as B'. { eapply Rle_trans; [exact B|]. rewrite Rmult_comm. apply Rmult_le_compat_l; lra. }
    split; [|exact B]. destruct (mul_e w x _ Fw Fx B') as [E F]. { pose proof (big4 _ K2). nra. } split; [exact F|]. pose proof (rounded_rel _ _ _ E B'). nra. }
  destruct (M _ F1 B1) as [M1 L1]. destruct (M _ F2 B2) as [M2 L2]. destruct (M _ F3 B3) as [M3 L3].
  split; [split; [exact M1|split; [exact M2|exact M3]]|]. split; [|split; [exact L1|split; [exact L2|split; [exact L3|exact Bw]]]].
  split; [exact Fw|]. unfold val. rewrite Rminus_diag_eq, Rabs_R0 by reflexivity. nra.
Qed.
End Sim.
