(** The ends of curves and the corners of surfaces with unit weights are exact in doubles. *)
From Coq Require Import ZArith List Bool Reals Lra Lia Psatz.
From Flocq Require Import Core IEEE754.Binary IEEE754.Bits IEEE754.BinarySingleNaN.
From Verif Require Import Base Num MGeometry MNurbs MNurbsSurface MStl MF64 SGeom SNurbs SSurface SF64 SErr SErrN LBase LGeom LNurbs LNurbs2 LSurf LF64 LF64Ord LF64Arith LKnotF64 LCurveF64 LSurfF64 LErr1 LErr2 LErr7 LErr8 LErr9.
Import ListNotations.
Open Scope Z_scope.

(** A finite double of value [x]. *)
Definition is_val (r : f64) (x : R) : Prop := fin64 r = true /\ V64 r = x.
Lemma fin_lt (x : f64) : (Rabs (V64 x) < bpow radix2 1024)%R. Proof. exact (Binary.abs_B2R_lt_emax 53 1024 x). Qed.
Lemma zero_lt : (Rabs (round64 0) < bpow radix2 1024)%R. Proof. rewrite round64_0, Rabs_R0. apply bpow_gt_0. Qed.
Lemma one_lt : (Rabs (round64 1) < bpow radix2 1024)%R. Proof. rewrite round64_1, Rabs_R1. change 1%R with (bpow radix2 0). apply bpow_lt. lia. Qed.
Lemma mul_v1 (a x : f64) X : is_val a 1 -> is_val x X -> is_val (b64_mult mode_NE a x) X /\ is_val (b64_mult mode_NE x a) X.
Proof.
  intros [Fa Va] [Fx Vx]. pose proof (fin_lt x) as L. split.
  - destruct (mul64 a x Fa Fx) as [E F]; rewrite Va, Rmult_1_l, round64_V in *; [exact L|]. split; [exact F|congruence].
  - destruct (mul64 x a Fx Fa) as [E F]; rewrite Va, Rmult_1_r, round64_V in *; [exact L|]. split; [exact F|congruence].
Qed.
Lemma mul_v0 (a x : f64) X : is_val a 0 -> is_val x X -> is_val (b64_mult mode_NE a x) 0 /\ is_val (b64_mult mode_NE x a) 0.
Proof.
  intros [Fa Va] [Fx Vx]. pose proof zero_lt as L. split.
  - destruct (mul64 a x Fa Fx) as [E F]; rewrite Va, Rmult_0_l in *; [exact L|]. split; [exact F|]. rewrite E. apply round64_0.
  - destruct (mul64 x a Fx Fa) as [E F]; rewrite Va, Rmult_0_r in *; [exact L|]. split; [exact F|]. rewrite E. apply round64_0.
Qed.
Lemma add_v0 (x y : f64) X : is_val x X -> is_val y 0 -> is_val (b64_plus mode_NE x y) X /\ is_val (b64_plus mode_NE y x) X.
Proof.
  intros [Fx Vx] [Fy Vy]. pose proof (fin_lt x) as L. split.
  - destruct (add64 x y Fx Fy) as [E F]; rewrite Vy, Rplus_0_r, round64_V in *; [exact L|]. split; [exact F|congruence].
  - destruct (add64 y x Fy Fx) as [E F]; rewrite Vy, Rplus_0_l, round64_V in *; [exact L|]. split; [exact F|congruence].
Qed.
Lemma n1_v : is_val n1 1. Proof. destruct (ofZ_exact 1 ltac:(vm_compute; discriminate)) as [A B]. split; [exact B|exact A]. Qed.
Lemma one_minus_gen (o a : f64) x : is_val o 1 -> is_val a x -> (x = 0 \/ x = 1)%R -> is_val (b64_minus mode_NE o a) (1 - x)%R.
Proof.
  intros [F1 V1] [Fa Va] H. destruct (sub64 o a F1 Fa) as [E F]; rewrite V1, Va in *.
  - destruct H as [-> | ->]; [rewrite Rminus_0_r; apply one_lt|rewrite Rminus_diag_eq by reflexivity; apply zero_lt].
  - split; [exact F|]. rewrite E. destruct H as [-> | ->]; [rewrite Rminus_0_r; apply round64_1|rewrite Rminus_diag_eq by reflexivity; apply round64_0].
Qed.
Lemma one_minus (a : f64) x : is_val a x -> (x = 0 \/ x = 1)%R -> is_val (b64_minus mode_NE n1 a) (1 - x)%R.
Proof. intros Ha C. exact (one_minus_gen _ _ _ n1_v Ha C). Qed.
(** The quotient is 0 at the lower knot and 1 at the upper one. *)
Lemma alpha_v (t k0 k1 : f64) : fin64 t = true -> fin64 k0 = true -> fin64 k1 = true -> (0 <= V64 k0 < V64 k1)%R -> (V64 k1 <= 1)%R ->
  (V64 t = V64 k0 -> is_val (b64_div mode_NE (b64_minus mode_NE t k0) (b64_minus mode_NE k1 k0)) 0) /\
  (V64 t = V64 k1 -> is_val (b64_div mode_NE (b64_minus mode_NE t k0) (b64_minus mode_NE k1 k0)) 1).
Proof.
  intros Ft F0 F1 B L1. assert (forall x, (0 <= x <= 1)%R -> (Rabs (round64 x) < bpow radix2 1024)%R) as S.
  { intros x Hx. apply (round64_small x 0); [lia| |lia]. change (bpow radix2 0) with 1%R. rewrite Rabs_pos_eq; lra. }
  destruct (sub64 k1 k0 F1 F0) as [Ed Fd]; [apply S; lra|]. assert (V64 (b64_minus mode_NE k1 k0) <> 0)%R as ND by (rewrite Ed; pose proof (sub_pos k1 k0); lra).
  split; intros E.
  - destruct (sub64 t k0 Ft F0) as [En Fn]; [apply S; lra|]. rewrite E, Rminus_diag_eq, round64_0 in En by reflexivity.
    destruct (div64 _ _ Fn ND) as [Eq Fq]; rewrite En in *; unfold Rdiv in *; rewrite Rmult_0_l in *; [apply zero_lt|]. split; [exact Fq|]. rewrite Eq. apply round64_0.
  - destruct (sub64 t k0 Ft F0) as [En Fn]; [apply S; lra|]. rewrite E, <- Ed in En.
    destruct (div64 _ _ Fn ND) as [Eq Fq]; rewrite En in *; unfold Rdiv in *; rewrite Rinv_r in * by exact ND; [apply one_lt|]. split; [exact Fq|]. rewrite Eq. apply round64_1.
Qed.

(** Entry [j] of the temporaries stands for the point [x], with weight 1. *)
Notation temps := (list (Point3 f64) * list f64)%type.
Definition pt_v (p : Point3 f64) (x : pt3) : Prop := is_val (px p) (px x) /\ is_val (py p) (py x) /\ is_val (pz p) (pz x).
Definition holds (j : Z) (s : temps) (x : pt3) : Prop := exists p w, vget (fst s) j = Ok p /\ vget (snd s) j = Ok w /\ pt_v p x /\ is_val w 1.
Definition room (d : Z) (s : temps) : Prop := d < vsize (fst s) /\ d < vsize (snd s).
Lemma put_v d j s p w x : room d s -> 0 <= j <= d -> pt_v p x -> is_val w 1 -> exists s', vset (fst s) j p = Ok (fst s') /\ vset (snd s) j w = Ok (snd s') /\ room d s' /\ holds j s' x /\ forall i y, i <> j -> holds i s y -> holds i s' y.
Proof.
  intros (Z1 & Z2) Hj Hp Hw. destruct s as [tp tw]. cbn [fst snd] in *.
  pose proof (vset_in_range tp j p ltac:(lia)) as U1. pose proof (vset_in_range tw j w ltac:(lia)) as U3.
  eexists (_, _). cbn [fst snd]. split; [exact U1|]. split; [exact U3|]. pose proof (vset_size _ _ _ _ U1). pose proof (vset_size _ _ _ _ U3).
  split; [unfold room; cbn [fst snd]; lia|]. split.
  - exists p, w. cbn [fst snd]. rewrite (vget_vset _ _ _ _ j U1), (vget_vset _ _ _ _ j U3), Z.eqb_refl. auto.
  - intros i y Ne (a1 & a2 & g1 & g2 & NN). exists a1, a2. cbn [fst snd] in *. rewrite (vget_vset _ _ _ _ i U1), (vget_vset _ _ _ _ i U3). destruct (Z.eqb_spec i j); [contradiction|]. auto.
Qed.
Lemma comb_v (p q : Point3 f64) (w v al : f64) x y a : pt_v p x -> pt_v q y -> is_val w 1 -> is_val v 1 -> is_val al a -> (a = 0 \/ a = 1)%R ->
  pt_v (padd (pmul p (nsub n1 al)) (pmul q al)) (if Req_EM_T a 0 then x else y) /\ is_val (nadd (nmul w (nsub n1 al)) (nmul v al)) 1.
Proof.
  intros (P1 & P2 & P3) (Q1 & Q2 & Q3) Hw Hv Ha C. pose proof (one_minus al a Ha C) as Hb. change (nsub n1 al) with (b64_minus mode_NE n1 al).
  destruct C as [-> | ->]; destruct (Req_EM_T _ 0) as [e|e]; try lra; [rewrite Rminus_0_r in Hb|rewrite Rminus_diag_eq in Hb by reflexivity];
    (split; [split; [|split]|]);
    [ refine (proj1 (add_v0 _ _ _ (proj1 (mul_v1 _ _ _ Hb P1)) (proj1 (mul_v0 _ _ _ Ha Q1)))) | refine (proj1 (add_v0 _ _ _ (proj1 (mul_v1 _ _ _ Hb P2)) (proj1 (mul_v0 _ _ _ Ha Q2)))) | refine (proj1 (add_v0 _ _ _ (proj1 (mul_v1 _ _ _ Hb P3)) (proj1 (mul_v0 _ _ _ Ha Q3)))) | refine (proj1 (add_v0 _ _ _ (proj2 (mul_v1 _ _ _ Hb Hw)) (proj2 (mul_v0 _ _ _ Ha Hv))))
    | refine (proj2 (add_v0 _ _ _ (proj1 (mul_v1 _ _ _ Ha Q1)) (proj1 (mul_v0 _ _ _ Hb P1)))) | refine (proj2 (add_v0 _ _ _ (proj1 (mul_v1 _ _ _ Ha Q2)) (proj1 (mul_v0 _ _ _ Hb P2)))) | refine (proj2 (add_v0 _ _ _ (proj1 (mul_v1 _ _ _ Ha Q3)) (proj1 (mul_v0 _ _ _ Hb P3)))) | refine (proj2 (add_v0 _ _ _ (proj2 (mul_v1 _ _ _ Ha Hv)) (proj2 (mul_v0 _ _ _ Hb Hw)))) ].
Qed.

Section Knots.
Variables (ks : list f64) (d ki : Z) (t : f64).
Hypothesis Kf : Forall (fun k : f64 => fin64 k = true) ks.
Hypothesis Ks : forall i j, 0 <= i <= j -> j < vsize ks -> (0 <= kn (dvals ks) i <= kn (dvals ks) j /\ kn (dvals ks) j <= 1)%R.
Hypothesis Hd : 0 <= d <= ki.
Hypothesis Hi : ki + d < vsize ks.
Hypothesis Ft : fin64 t = true.
Hypothesis Ht : (kn (dvals ks) ki <= V64 t <= kn (dvals ks) (ki + 1))%R.
Hypothesis Hlt : (kn (dvals ks) ki < kn (dvals ks) (ki + 1))%R.
Lemma step_v r j s x y : 1 <= r <= j -> j <= d -> room d s -> holds (j - 1) s x -> holds j s y -> (V64 t = 0 \/ V64 t = 1)%R ->
  exists s', deboor_step ks d ki t r j s = Ok s' /\ room d s' /\ holds j s' (if Req_EM_T (V64 t) 0 then x else y) /\ forall i z, i <> j -> holds i s z -> holds i s' z.
Proof.
  intros Hr Hj (Z1 & Z2) (p1 & w1 & G1 & G2 & P1 & W1) (p2 & w2 & G5 & G6 & P2 & W2) C. destruct s as [tp tw]. cbn [fst snd] in *. unfold deboor_step.
  destruct (vget_in_range ks (j + ki - d) ltac:(lia)) as [k0 E0]. destruct (vget_in_range ks (j + 1 + ki - r) ltac:(lia)) as [k1 E1]. rewrite E0, E1. cbn [bind].
  pose proof (vals_kn _ _ _ E0) as V0. pose proof (vals_kn _ _ _ E1) as V1.
  destruct (Ks (j + ki - d) ki ltac:(lia) ltac:(lia)) as [S1 S2]. destruct (Ks (ki + 1) (j + 1 + ki - r) ltac:(lia) ltac:(lia)) as [S3 S4]. rewrite V0 in S1. rewrite V1 in S3, S4.
  assert (fin64 k0 = true) as F0 by (rewrite Forall_forall in Kf; apply Kf; eapply vget_In; eassumption).
  assert (fin64 k1 = true) as F1 by (rewrite Forall_forall in Kf; apply Kf; eapply vget_In; eassumption).
  destruct (alpha_v t k0 k1 Ft F0 F1 ltac:(lra) ltac:(lra)) as [A0 A1].
  change (ndiv (nsub t k0) (nsub k1 k0)) with (Ok (b64_div mode_NE (b64_minus mode_NE t k0) (b64_minus mode_NE k1 k0))). set (al := b64_div mode_NE (b64_minus mode_NE t k0) (b64_minus mode_NE k1 k0)) in *.
  assert (is_val al (V64 t)) as Ha. { destruct C as [C|C]; rewrite C; [apply A0|apply A1]; lra. }
  destruct (comb_v p1 p2 w1 w2 al x y _ P1 P2 W1 W2 Ha C) as [CP CW].
  cbn [bind]. rewrite G1, G5. cbn [bind]. rewrite G2, G6.
  destruct (put_v d j (tp, tw) _ _ _ (conj Z1 Z2) ltac:(lia) CP CW) as (s' & U1 & U2 & R' & H' & P'). cbn [fst snd] in U1, U2. rewrite U1. cbn [bind]. rewrite U2. cbn [bind].
  exists s'. split; [destruct s'; reflexivity|]. split; [exact R'|]. split; [exact H'|exact P'].
Qed.
Lemma deboor_v0 (f : Z -> pt3) s : V64 t = 0%R -> room d s -> (forall j, 0 <= j <= d -> holds j s (f j)) -> exists s', deboor ks d ki t s = Ok s' /\ room d s' /\ holds d s' (f 0).
Proof.
  intros T0 SZ EN. unfold deboor.
  match goal with |- context [for_ 1 (d + 1) ?b s] => destruct (for_inv (fun r s => room d s /\ forall j, r - 1 <= j <= d -> holds j s (f (j - (r - 1)))) 1 (d + 1) b s) as (s' & E1 & Z & H) end.
  - lia.
  - split; [exact SZ|]. intros j Hj. replace (j - (1 - 1)) with j by lia. apply EN. lia.
  - intros r x Hr [Z H].
    match goal with |- exists _, for_ 0 (d - r + 1) ?b x = _ /\ _ => destruct (for_inv (fun m s => room d s /\ (forall j, r - 1 <= j <= d - m -> holds j s (f (j - (r - 1)))) /\ (forall j, d - m < j <= d -> holds j s (f (j - r)))) 0 (d - r + 1) b x) as (x' & E1 & Z' & H1 & H2) end.
    + lia.
    + split; [exact Z|]. split; [intros j Hj; apply H; lia|intros j Hj; lia].
    + intros m a Hm (Za & Ha & Hb). destruct (step_v r (d - m) a _ _ ltac:(lia) ltac:(lia) Za (Ha (d - m - 1) ltac:(lia)) (Ha (d - m) ltac:(lia)) (or_introl T0)) as (a' & S1 & S3 & S4 & S5).
      exists a'. split; [exact S1|]. split; [exact S3|]. destruct (Req_EM_T (V64 t) 0) as [_|N]; [|contradiction]. split.
      * intros j Hj. apply S5; [lia|]. apply Ha. lia.
      * intros j Hj. destruct (Z.eq_dec j (d - m)) as [-> |Ne]; [replace (d - m - r) with (d - m - 1 - (r - 1)) by lia; exact S4|]. apply S5; [exact Ne|]. apply Hb. lia.
    + exists x'. split; [exact E1|]. split; [exact Z'|]. intros j Hj. replace (j - (r + 1 - 1)) with (j - r) by lia. apply H2. lia.
  - exists s'. split; [exact E1|]. split; [exact Z|]. replace 0 with (d - (d + 1 - 1)) by lia. apply H. lia.
Qed.
Lemma deboor_v1 (f : Z -> pt3) s : V64 t = 1%R -> room d s -> (forall j, 0 <= j <= d -> holds j s (f j)) -> exists s', deboor ks d ki t s = Ok s' /\ room d s' /\ holds d s' (f d).
Proof.
  intros T0 SZ EN. unfold deboor.
  match goal with |- context [for_ 1 (d + 1) ?b s] => destruct (for_inv (fun r s => room d s /\ forall j, 0 <= j <= d -> holds j s (f j)) 1 (d + 1) b s) as (s' & E1 & Z & H) end.
  - lia.
  - split; [exact SZ|exact EN].
  - intros r x Hr [Z H].
    match goal with |- exists _, for_ 0 (d - r + 1) ?b x = _ /\ _ => destruct (for_inv (fun m s => room d s /\ (forall j, 0 <= j <= d -> holds j s (f j))) 0 (d - r + 1) b x) as (x' & E1 & Z' & H1) end.
    + lia.
    + split; [exact Z|exact H].
    + intros m a Hm (Za & Ha). destruct (step_v r (d - m) a _ _ ltac:(lia) ltac:(lia) Za (Ha (d - m - 1) ltac:(lia)) (Ha (d - m) ltac:(lia)) (or_intror T0)) as (a' & S1 & S3 & S4 & S5).
      exists a'. split; [exact S1|]. split; [exact S3|]. destruct (Req_EM_T (V64 t) 0) as [N|_]; [lra|].
      intros j Hj. destruct (Z.eq_dec j (d - m)) as [-> |Ne]; [exact S4|]. apply S5; [exact Ne|]. apply Ha. lia.
    + exists x'. split; [exact E1|]. split; [exact Z'|exact H1].
  - exists s'. split; [exact E1|]. split; [exact Z|]. apply H. lia.
Qed.
Lemma deboor_v (f : Z -> pt3) s : (V64 t = 0 \/ V64 t = 1)%R -> room d s -> (forall j, 0 <= j <= d -> holds j s (f j)) ->
  exists s', deboor ks d ki t s = Ok s' /\ room d s' /\ holds d s' (f (if Req_EM_T (V64 t) 0 then 0 else d)).
Proof.
  intros C SZ EN. destruct (Req_EM_T (V64 t) 0) as [T0|T1]; [apply deboor_v0; assumption|]. apply deboor_v1; [lra|assumption..].
Qed.
End Knots.

(** The span of an end. *)
Lemma span_end (ks : list f64) p n (t : f64) : Forall (fun k : f64 => fin64 k = true) ks -> clamped (dvals ks) p n -> tight (dvals ks) p n -> fin64 t = true -> (V64 t = 0 \/ V64 t = 1)%R ->
  exists ki, find_knot_span ks t = Ok ki /\ p <= ki < n /\ (kn (dvals ks) ki < kn (dvals ks) (ki + 1))%R /\ (kn (dvals ks) ki <= V64 t <= kn (dvals ks) (ki + 1))%R /\
    (if Req_EM_T (V64 t) 0 then 0 else p) + ki - p = end_index t n.
Proof.
  intros C D [T1 T2] Ft Ht. destruct (span_both ks p n t C D Ft ltac:(lra)) as (ki & E & _ & B & L & I). exists ki. do 4 (split; [assumption|]). unfold end_index, val.
  pose proof D as (D1 & D2 & D3 & D4 & D5).
  destruct (Req_EM_T (V64 t) 0) as [T|T].
  - destruct (Z.eq_dec ki p) as [-> |Ne]; [lia|]. pose proof (D3 (p + 1) ki ltac:(lia) ltac:(lia)). lra.
  - destruct (Z.eq_dec ki (n - 1)) as [-> |Ne]; [lia|]. pose proof (D3 (ki + 1) (n - 1) ltac:(lia) ltac:(lia)). lra.
Qed.
Definition zpt (l : list (Point3 f64)) (i : Z) : pt3 := val_pt (nth (Z.to_nat i) l (mkP n0 n0 n0)).
Lemma zpt_get l i p : vget l i = Ok p -> zpt l i = val_pt p.
Proof. intros H. apply vget_Ok in H. destruct H as [Hi H]. unfold zpt. erewrite nth_error_nth by exact H. reflexivity. Qed.
Lemma given_v ps ws i p w : finite_points ps -> unit_weights ws -> vget ps i = Ok p -> vget ws i = Ok w -> pt_v (pmul p w) (zpt ps i) /\ is_val w 1.
Proof.
  intros A B G1 G2. rewrite (zpt_get _ _ _ G1). unfold finite_points in A. unfold unit_weights in B. rewrite Forall_forall in A, B. destruct (A p (vget_In _ _ _ G1)) as (F1 & F2 & F3). pose proof (B w (vget_In _ _ _ G2)) as Hw.
  split; [|exact Hw]. split; [|split]; refine (proj1 (mul_v1 _ _ _ Hw (conj _ eq_refl))); assumption.
Qed.
Lemma quot_v (p : Point3 f64) (w : f64) x : pt_v p x -> is_val w 1 -> exists z, pdiv p w = Ok z /\ pt_v z x.
Proof.
  intros (A & B & C) [Fw Vw]. assert (forall r y, is_val r y -> is_val (b64_div mode_NE r w) y) as Q.
  { intros r y [Fr Vr]. assert (V64 w <> 0)%R as N by lra. destruct (div64 r w Fr N) as [E F]; rewrite Vw in *; unfold Rdiv in *; rewrite Rinv_1, Rmult_1_r, round64_V in *; [apply fin_lt|]. split; [exact F|congruence]. }
  eexists. split; [reflexivity|]. split; [apply Q; exact A|]. split; apply Q; assumption.
Qed.
Lemma place p q : pt_v p (val_pt q) -> same_place p q.
Proof. intros ((F1 & V1) & (F2 & V2) & F3 & V3). split; [auto|]. unfold val_pt, val in *. cbn [px py pz] in *. rewrite V1, V2, V3. reflexivity. Qed.

(** C110 *)
Lemma curve_end c t : dvalid c -> tight (dvals (nc_knots c)) (nc_degree c) (vsize (nc_points c)) -> finite_points (nc_points c) -> unit_weights (nc_weights c) -> fin t -> (val t = 0 \/ val t = 1)%R ->
  exists p c' q, nc_evaluate c t = Ok (p, c') /\ vget (nc_points c) (end_index t (vsize (nc_points c))) = Ok q /\ same_place p q.
Proof.
  intros V TI FP UW Ft Ht. pose proof V as (A & B & C & D & E & F). pose proof D as (D1 & D2 & _). rewrite vals_size in D2.
  destruct (span_end _ _ _ t C D TI Ft Ht) as (ki & F1 & Bk & Lk & Tk & Ek).
  unfold nc_evaluate. rewrite !bind_massert_true by (apply Z.eqb_eq; lia). rewrite F1. cbn [bind].
  assert (exists s, nc_load c ki (nc_tp c, nc_tw c) = Ok s /\ room (nc_degree c) s /\ forall j, 0 <= j <= nc_degree c -> holds j s (zpt (nc_points c) (j + ki - nc_degree c))) as (s1 & L1 & Z1 & N1).
  { unfold nc_load. match goal with |- exists _, for_ _ _ ?f ?s0 = _ /\ _ => destruct (for_inv (fun m x => room (nc_degree c) x /\ forall j, 0 <= j < m -> holds j x (zpt (nc_points c) (j + ki - nc_degree c))) 0 (nc_degree c + 1) f s0) as (s' & E1 & Z & H) end.
    - lia.
    - unfold room. cbn [fst snd]. split; [lia|]. intros j Hj. lia.
    - intros j x Hj [Z H]. cbv zeta. rewrite !bind_massert_true by (apply Z.leb_le || apply Z.ltb_lt; lia).
      destruct (vget_in_range (nc_weights c) (j + ki - nc_degree c) ltac:(lia)) as [w Ew]. destruct (vget_in_range (nc_points c) (j + ki - nc_degree c) ltac:(lia)) as [p Ep]. rewrite Ew, Ep. cbn [bind].
      destruct (given_v _ _ _ _ _ FP UW Ep Ew) as [Gp Gw]. destruct (put_v (nc_degree c) j x _ _ _ Z ltac:(lia) Gp Gw) as (x' & U1 & U2 & Z' & N & P).
      rewrite U2. cbn [bind]. rewrite U1. cbn [bind]. eexists. split; [reflexivity|]. destruct x'. cbn [fst snd]. split; [exact Z'|]. intros i Hi. destruct (Z.eq_dec i j) as [-> |Ne]; [exact N|]. apply P; [exact Ne|]. apply H. lia.
    - exists s'. split; [exact E1|]. split; [exact Z|]. intros j Hj. apply H. lia. }
  rewrite L1. cbn [bind].
  destruct (deboor_v (nc_knots c) (nc_degree c) ki t C (clamped_unit _ _ _ D) ltac:(lia) ltac:(lia) Ft Tk Lk (fun j => zpt (nc_points c) (j + ki - nc_degree c)) s1 Ht Z1 N1) as (s2 & G1 & Z2 & (p & w & g1 & g2 & P & Wv)). cbv beta in P. rewrite Ek in P.
  rewrite G1. cbn [bind]. rewrite g1, g2. cbn [bind]. destruct (quot_v p w _ P Wv) as (z & Ez & Pz). rewrite Ez. cbn [bind].
  destruct (vget_in_range (nc_points c) (end_index t (vsize (nc_points c)))) as [q Eq]; [unfold end_index; destruct (Req_EM_T _ 0); lia|].
  do 2 eexists. exists q. split; [reflexivity|]. split; [exact Eq|]. apply place. rewrite <- (zpt_get _ _ _ Eq). exact Pz.
Qed.
Lemma surface_corner s t r : dsvalid s -> tight (dvals (ns_knotsU s)) (ns_degU s) (ns_nbU s) -> tight (dvals (ns_knotsV s)) (ns_degV s) (ns_nbV s) -> finite_points (ns_points s) -> unit_weights (ns_weights s) ->
  fin t -> (val t = 0 \/ val t = 1)%R -> fin r -> (val r = 0 \/ val r = 1)%R ->
  exists p s' q, ns_evaluate s t r = Ok (p, s') /\ vget (ns_points s) (end_index t (ns_nbU s) + ns_nbU s * end_index r (ns_nbV s)) = Ok q /\ same_place p q.
Proof.
  intros V TU TV FP UW Ft Ht Fr Hr. pose proof V as (A & B & CU & CV & DU & DV & T1 & T2 & T3 & T4). pose proof DU as (D1 & D2 & _). pose proof DV as (D3 & D4 & _). rewrite vals_size in D2, D4.
  destruct (span_end _ _ _ t CU DU TU Ft Ht) as (ku & F1 & Bu & Lu & Uu & Eu). destruct (span_end _ _ _ r CV DV TV Fr Hr) as (kv & F2 & Bv & Lv & Uv & Ev).
  unfold ns_evaluate. rewrite bind_massert_true by (apply Z.eqb_eq; lia). rewrite F1, F2. cbn [bind]. rewrite !bind_massert_true by (apply Z.eqb_eq; lia).
  match goal with |- exists _ _ _, (bind (for_ _ _ ?f ?s0) _) = _ /\ _ =>
    destruct (for_inv (fun m x => room (ns_degU s) (fst x) /\ room (ns_degV s) (snd x) /\ forall j, 0 <= j < m -> holds j (snd x) (zpt (ns_points s) (end_index t (ns_nbU s) + ns_nbU s * (j + kv - ns_degV s)))) 0 (ns_degV s + 1) f s0) as ([sU sV] & L1 & Z1 & Z2 & N1) end.
  - lia.
  - unfold room. cbn [fst snd]. split; [lia|]. split; [lia|]. intros j Hj. lia.
  - intros j [xU xV] Hj (ZU & ZV & H). cbn [fst snd] in *. rewrite !bind_massert_true by (apply Z.leb_le || apply Z.ltb_lt; lia).
    assert (exists x1, ns_load_row s ku (j + kv - ns_degV s) xU = Ok x1 /\ room (ns_degU s) x1 /\ forall i, 0 <= i <= ns_degU s -> holds i x1 (zpt (ns_points s) (i + ku - ns_degU s + ns_nbU s * (j + kv - ns_degV s)))) as (x1 & R1 & Z1 & N1).
    { unfold ns_load_row. match goal with |- exists _, for_ _ _ ?f ?s1 = _ /\ _ => destruct (for_inv (fun m x => room (ns_degU s) x /\ forall i, 0 <= i < m -> holds i x (zpt (ns_points s) (i + ku - ns_degU s + ns_nbU s * (j + kv - ns_degV s)))) 0 (ns_degU s + 1) f s1) as (s' & E1 & Z & H') end.
      - lia.
      - split; [exact ZU|]. intros i Hi. lia.
      - intros i x Hi [Z H']. cbv zeta. rewrite !bind_massert_true by (apply Z.leb_le || apply Z.ltb_lt; lia).
        assert (0 <= i + ku - ns_degU s + ns_nbU s * (j + kv - ns_degV s) < ns_nbU s * ns_nbV s) as I by nia.
        destruct (vget_in_range (ns_weights s) (i + ku - ns_degU s + ns_nbU s * (j + kv - ns_degV s)) ltac:(lia)) as [w Ew]. destruct (vget_in_range (ns_points s) (i + ku - ns_degU s + ns_nbU s * (j + kv - ns_degV s)) ltac:(lia)) as [p Ep]. rewrite Ew, Ep. cbn [bind].
        destruct (given_v _ _ _ _ _ FP UW Ep Ew) as [Gp Gw]. destruct (put_v (ns_degU s) i x _ _ _ Z ltac:(lia) Gp Gw) as (x' & U1 & U2 & Z' & N & P).
        rewrite U2. cbn [bind]. rewrite U1. cbn [bind]. eexists. split; [reflexivity|]. destruct x'. cbn [fst snd]. split; [exact Z'|]. intros k Hk. destruct (Z.eq_dec k i) as [-> |Ne]; [exact N|]. apply P; [exact Ne|]. apply H'. lia.
      - exists s'. split; [exact E1|]. split; [exact Z|]. intros i Hi. apply H'. lia. }
    rewrite R1. cbn [bind].
    destruct (deboor_v (ns_knotsU s) (ns_degU s) ku t CU (clamped_unit _ _ _ DU) ltac:(lia) ltac:(lia) Ft Uu Lu (fun i => zpt (ns_points s) (i + ku - ns_degU s + ns_nbU s * (j + kv - ns_degV s))) x1 Ht Z1 N1) as (x2 & G1 & Z2 & (p & w & g1 & g2 & P & Wv)). cbv beta in P. rewrite Eu in P.
    rewrite G1. cbn [bind]. rewrite g1, g2. cbn [bind].
    destruct (put_v (ns_degV s) j xV _ _ _ ZV ltac:(lia) P Wv) as (x' & U1 & U2 & Z' & N & Pr). rewrite U1. cbn [bind]. rewrite U2. cbn [bind].
    eexists. split; [reflexivity|]. destruct x'. cbn [fst snd]. split; [exact Z2|]. split; [exact Z'|].
    intros i Hi. destruct (Z.eq_dec i j) as [-> |Ne]; [exact N|]. apply Pr; [exact Ne|]. apply H. lia.
  - rewrite L1. cbn [bind fst snd] in *.
    destruct (deboor_v (ns_knotsV s) (ns_degV s) kv r CV (clamped_unit _ _ _ DV) ltac:(lia) ltac:(lia) Fr Uv Lv (fun j => zpt (ns_points s) (end_index t (ns_nbU s) + ns_nbU s * (j + kv - ns_degV s))) sV Hr Z2 ltac:(intros j Hj; apply N1; lia)) as (s2 & G1 & Z3 & (p & w & g1 & g2 & P & Wv)). cbv beta in P. rewrite Ev in P.
    rewrite G1. cbn [bind]. rewrite g1, g2. cbn [bind]. destruct (quot_v p w _ P Wv) as (z & Ez & Pz). rewrite Ez. cbn [bind].
    destruct (vget_in_range (ns_points s) (end_index t (ns_nbU s) + ns_nbU s * end_index r (ns_nbV s))) as [q Eq].
    { unfold end_index. destruct (Req_EM_T (val t) 0), (Req_EM_T (val r) 0); nia. }
    do 2 eexists. exists q. split; [reflexivity|]. split; [exact Eq|]. apply place. rewrite <- (zpt_get _ _ _ Eq). exact Pz.
Qed.
