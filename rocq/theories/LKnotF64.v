(** Knot vectors of doubles: scaling and span search. *)
From Coq Require Import ZArith List Bool Reals Lra Lia.
From Flocq Require Import Core IEEE754.Binary IEEE754.Bits IEEE754.BinarySingleNaN.
From Verif Require Import Base Num MGeometry MNurbs MStl MF64 SGeom SNurbs SF64 LBase LGeom LNurbs LF64 LF64Ord LF64Arith LBoxF64.
Import ListNotations.
Open Scope Z_scope.

Notation vals := dvals.
Lemma vals_get ks i x : vget ks i = Ok x -> vget (vals ks) i = Ok (V64 x).
Proof. intros H. unfold dvals. rewrite vget_map, H. reflexivity. Qed.
Lemma vals_kn ks i x : vget ks i = Ok x -> kn (vals ks) i = V64 x.
Proof. intros H. apply kn_of, vals_get, H. Qed.
Lemma vals_size ks : vsize (vals ks) = vsize ks. Proof. apply vsize_map. Qed.

Lemma fin_no_nan x : fin64 x = true -> nan64 x = false. Proof. destruct x; cbn; congruence. Qed.
Lemma ltb_fin x y : fin64 x = true -> fin64 y = true -> f64_ltb x y = Rltb (V64 x) (V64 y).
Proof. intros Fx Fy. rewrite ltb_ext by (apply fin_no_nan; assumption). rewrite !ext_fin by assumption. reflexivity. Qed.

(** The difference of the machine does not overflow exactly when its result is finite. *)
Lemma sub_fin_iff x y : fin64 x = true -> fin64 y = true ->
  (fin64 (b64_minus mode_NE x y) = true <-> (Rabs (round64 (V64 x - V64 y)) < bpow radix2 1024)%R).
Proof.
  intros Fx Fy. split; [|intros H; apply sub64; assumption]. intros F.
  pose proof (Binary.Bminus_correct 53 1024 eq_refl eq_refl binop_nan_pl64 mode_NE x y Fx Fy) as C.
  change (SpecFloat.fexp 53 1024) with (FLT_exp (-1074) 53) in C. change (round_mode mode_NE) with ZnearestE in C.
  destruct (Rlt_dec (Rabs (round64 (V64 x - V64 y))) (bpow radix2 1024)) as [L|L]; [exact L|]. exfalso.
  rewrite Rlt_bool_false in C by lra. destruct C as [C _]. change (Binary.Bminus 53 1024 eq_refl eq_refl binop_nan_pl64 mode_NE x y) with (b64_minus mode_NE x y) in C.
  destruct (b64_minus mode_NE x y); cbn in C, F; try discriminate; destruct (Binary.Bsign 53 1024 x); discriminate.
Qed.

Section Scale.
Variables (ks : list f64) (k0 kl : f64).
Hypothesis Hf : Forall (fun k : f64 => fin64 k = true) ks.
Hypothesis Hs : sorted (vals ks).
Hypothesis H0 : vget ks 0 = Ok k0.
Hypothesis Hl : vget ks (vsize ks - 1) = Ok kl.

Lemma get_fin i x : vget ks i = Ok x -> fin64 x = true.
Proof. intros H. rewrite Forall_forall in Hf. apply Hf, (vget_In _ _ _ H). Qed.
Lemma get_le i j x y : vget ks i = Ok x -> vget ks j = Ok y -> i <= j -> (V64 x <= V64 y)%R.
Proof.
  intros Hx Hy L. pose proof (vget_range _ _ _ Hx). pose proof (vget_range _ _ _ Hy).
  pose proof (Hs i j ltac:(lia)) as K. rewrite vals_size in K. specialize (K ltac:(lia)).
  rewrite (vals_kn _ _ _ Hx), (vals_kn _ _ _ Hy) in K. exact K.
Qed.
Lemma min_max : exists mx : f64, for_ 1 (vsize ks) (fun i (mm : f64 * f64) => do v <- vget ks i; Ok (nmin (fst mm) v, nmax (snd mm) v)) (k0, k0) = Ok (k0, mx) /\
  fin64 mx = true /\ V64 mx = V64 kl.
Proof.
  pose proof (vget_range _ _ _ H0) as R0.
  destruct (for_inv (fun i (mm : f64 * f64) => fst mm = k0 /\ fin64 (snd mm) = true /\ exists x, vget ks (i - 1) = Ok x /\ V64 (snd mm) = V64 x)
    1 (vsize ks) (fun i (mm : f64 * f64) => do v <- vget ks i; Ok (nmin (fst mm) v, nmax (snd mm) v)) (k0, k0)) as [[mn mx] [E [I1 [I2 (x & I3 & I4)]]]].
  - lia.
  - cbn. split; [reflexivity|]. split; [apply (get_fin _ _ H0)|]. exists k0. split; [exact H0|reflexivity].
  - intros i [a b] Hi (J1 & J2 & x & J3 & J4). cbn [fst snd] in *. subst a. destruct (vget_in_range ks i ltac:(lia)) as [v Ev]. rewrite Ev. cbn [bind].
    eexists. split; [reflexivity|]. cbn [fst snd]. pose proof (get_fin _ _ Ev) as Fv. pose proof (get_fin _ _ H0) as F0.
    pose proof (get_le _ _ _ _ H0 Ev ltac:(lia)) as L0. pose proof (get_le _ _ _ _ J3 Ev ltac:(lia)) as Lx.
    unfold nmin, nmax. change (@nltb f64 F64Num) with f64_ltb. rewrite !ltb_fin by assumption.
    replace (Rltb (V64 v) (V64 k0)) with false by (symmetry; apply Rltb_ge; lra). split; [reflexivity|].
    replace (i + 1 - 1) with i by lia. destruct (Rltb (V64 b) (V64 v)) eqn:Q.
    + split; [exact Fv|]. exists v. split; [exact Ev|reflexivity].
    + apply Rltb_ge in Q. split; [exact J2|]. exists v. split; [exact Ev|lra].
  - cbn [fst snd] in *. subst mn. exists mx. rewrite E. rewrite Hl in I3. injection I3 as <-. auto.
Qed.

Lemma scale_map : exists mx : f64, fin64 mx = true /\ V64 mx = V64 kl /\
  scale_knots ks = Ok (map (fun v : f64 => b64_div mode_NE (b64_minus mode_NE v k0) (b64_minus mode_NE mx k0)) ks).
Proof.
  destruct min_max as (mx & E & Fm & Vm). exists mx. split; [exact Fm|]. split; [exact Vm|].
  unfold scale_knots. rewrite H0. cbn [bind]. rewrite E. cbn [bind].
  exact (for_map (fun v => ndiv (nsub v k0) (nsub mx k0)) (fun v => b64_div mode_NE (b64_minus mode_NE v k0) (b64_minus mode_NE mx k0)) ks (fun x _ => eq_refl)).
Qed.
Hypothesis Lt : (V64 k0 < V64 kl)%R.
Lemma sub_between x : fin64 x = true -> (V64 k0 <= V64 x <= V64 kl)%R -> fin64 (b64_minus mode_NE kl k0) = true ->
  fin64 (b64_minus mode_NE x k0) = true /\ V64 (b64_minus mode_NE x k0) = round64 (V64 x - V64 k0) /\
  (0 <= round64 (V64 x - V64 k0) <= round64 (V64 kl - V64 k0))%R.
Proof.
  intros Fx B F. pose proof (get_fin _ _ H0) as F0. pose proof (get_fin _ _ Hl) as Fl.
  apply sub_fin_iff in F; [|assumption..].
  assert (0 <= round64 (V64 x - V64 k0) <= round64 (V64 kl - V64 k0))%R as Q.
  { split; [rewrite <- round64_0 at 1; apply round64_le; lra|apply round64_le; lra]. }
  destruct (sub64 x k0 Fx F0) as [A A'].
  { rewrite Rabs_pos_eq in F by lra. rewrite Rabs_pos_eq by lra. lra. }
  auto.
Qed.
Lemma scaled : fin64 (b64_minus mode_NE kl k0) = true -> exists ks' : list f64, scale_knots ks = Ok ks' /\ vsize ks' = vsize ks /\
  forall i x, vget ks i = Ok x -> exists y, vget ks' i = Ok y /\ fin64 y = true /\
    V64 y = round64 (round64 (V64 x - V64 k0) / round64 (V64 kl - V64 k0)) /\
    (0 <= round64 (V64 x - V64 k0) <= round64 (V64 kl - V64 k0))%R.
Proof.
  intros F. destruct scale_map as (mx & Fm & Vm & E). eexists. split; [exact E|]. split; [apply vsize_map|].
  intros i x Hx. pose proof (vget_range _ _ _ Hx) as Ri. eexists. split; [rewrite vget_map, Hx; reflexivity|].
  pose proof (get_fin _ _ Hx) as Fx. pose proof (get_fin _ _ H0) as F0. pose proof (get_fin _ _ Hl) as Fl.
  pose proof (get_le _ _ _ _ H0 Hx ltac:(lia)) as L0. pose proof (get_le _ _ _ _ Hx Hl ltac:(lia)) as L1.
  destruct (sub_between x Fx ltac:(lra) F) as (A1 & A2 & A3). destruct (sub_between mx Fm ltac:(lra) F) as (B1 & B2 & B3). rewrite Vm in B2.
  pose proof (sub_pos kl k0 Lt) as D.
  assert (0 <= round64 (V64 x - V64 k0) / round64 (V64 kl - V64 k0) <= 1)%R as U.
  { split; [apply Rmult_le_pos; [lra|]; left; apply Rinv_0_lt_compat; lra|]. apply Rmult_le_reg_r with (round64 (V64 kl - V64 k0)); [lra|].
    unfold Rdiv. rewrite Rmult_assoc, Rinv_l by lra. lra. }
  destruct (div64 (b64_minus mode_NE x k0) (b64_minus mode_NE mx k0)) as [C1 C2].
  - exact A1.
  - rewrite B2. lra.
  - rewrite A2, B2. apply (round64_small _ 0); [lia| |lia]. rewrite Rabs_pos_eq by lra. change (bpow radix2 0) with 1%R. lra.
  - rewrite A2, B2 in C1. auto.
Qed.
Lemma overflow_nan : fin64 (b64_minus mode_NE kl k0) = false -> exists (ks' : list f64) (y : f64), scale_knots ks = Ok ks' /\ vget ks' (vsize ks - 1) = Ok y /\ nan64 y = true.
Proof.
  intros F. destruct scale_map as (mx & Fm & Vm & E). do 2 eexists. split; [exact E|]. split; [rewrite vget_map, Hl; reflexivity|].
  pose proof (get_fin _ _ H0) as F0. pose proof (get_fin _ _ Hl) as Fl.
  assert (forall x, fin64 x = true -> V64 x = V64 kl -> exists s, b64_minus mode_NE x k0 = Binary.B754_infinity 53 1024 s) as Q.
  { intros x Fx Vx. pose proof (Binary.Bminus_correct 53 1024 eq_refl eq_refl binop_nan_pl64 mode_NE x k0 Fx F0) as C.
    change (SpecFloat.fexp 53 1024) with (FLT_exp (-1074) 53) in C. change (round_mode mode_NE) with ZnearestE in C.
    change (Binary.Bminus 53 1024 eq_refl eq_refl binop_nan_pl64 mode_NE x k0) with (b64_minus mode_NE x k0) in C. rewrite Vx in C.
    rewrite Rlt_bool_false in C.
    - destruct C as [C _]. destruct (b64_minus mode_NE x k0) as [s|s|s pl Hpl|s m e Hm]; cbn in C; destruct (Binary.Bsign 53 1024 x); try discriminate; eauto.
    - apply Rnot_lt_le. intros K. apply sub_fin_iff in K; [congruence|assumption..]. }
  destruct (Q kl Fl eq_refl) as [s1 E1]. destruct (Q mx Fm Vm) as [s2 E2]. rewrite E1, E2. destruct s1; destruct s2; reflexivity.
Qed.
End Scale.

Lemma set_knots_double (c : NurbsCurve f64) (ks : list f64) (k0 kl : f64) :
  Forall (fun k : f64 => fin64 k = true) ks -> sorted (vals ks) -> vget ks 0 = Ok k0 -> vget ks (vsize ks - 1) = Ok kl -> f64_ltb k0 kl = true ->
  fin64 (b64_minus mode_NE kl k0) = true ->
  exists c' v, nc_set_knots c ks = Ok c' /\ v = vals (nc_knots c') /\ Forall (fun k : f64 => fin64 k = true) (nc_knots c') /\ vsize v = vsize ks /\
    sorted v /\ kn v 0 = 0%R /\ kn v (vsize ks - 1) = 1%R /\ Forall (fun k => 0 <= k <= 1)%R v /\
    (forall i, 0 <= i < vsize ks -> kn v i = round64 (round64 (kn (vals ks) i - V64 k0) / round64 (V64 kl - V64 k0))) /\
    exists c'', nc_set_knots c' (nc_knots c') = Ok c'' /\ vals (nc_knots c'') = v.
Proof.
  intros Hf Hs H0 Hl L F. assert (V64 k0 < V64 kl)%R as Lt.
  { rewrite ltb_fin in L; [apply Rltb_lt; exact L| |]; rewrite Forall_forall in Hf; [exact (Hf _ (vget_In _ _ _ H0))|exact (Hf _ (vget_In _ _ _ Hl))]. }
  destruct (scaled ks k0 kl Hf Hs H0 Hl Lt F) as (ks' & E & Sz & G).
  pose proof (vget_range _ _ _ H0) as R0. pose proof (sub_pos kl k0 Lt) as D.
  assert (forall i, 0 <= i < vsize ks -> kn (vals ks') i = round64 (round64 (kn (vals ks) i - V64 k0) / round64 (V64 kl - V64 k0)) /\
    (0 <= round64 (kn (vals ks) i - V64 k0) <= round64 (V64 kl - V64 k0))%R) as K.
  { intros i Hi. destruct (vget_in_range ks i Hi) as [x Hx]. destruct (G i x Hx) as (y & Y1 & Y2 & Y3 & Y4).
    rewrite (vals_kn _ _ _ Hx), (vals_kn _ _ _ Y1). auto. }
  assert (Forall (fun k : f64 => fin64 k = true) ks') as Hf'.
  { apply Forall_forall. intros y Hy. apply In_vget in Hy. destruct Hy as (i & Hi & Ey). destruct (vget_in_range ks i ltac:(lia)) as [x Hx].
    destruct (G i x Hx) as (z & Z1 & Z2 & _). congruence. }
  assert (forall q, round64 (q / round64 (V64 kl - V64 k0)) = round64 (q * / round64 (V64 kl - V64 k0))) as _ by reflexivity.
  assert (sorted (vals ks')) as S'.
  { intros i j Hij Hj. rewrite vals_size, Sz in Hj. destruct (K i ltac:(lia)) as [K1 _]. destruct (K j ltac:(lia)) as [K2 _]. rewrite K1, K2.
    apply round64_le. apply Rmult_le_compat_r; [left; apply Rinv_0_lt_compat; lra|]. apply round64_le.
    pose proof (Hs i j Hij ltac:(rewrite vals_size; lia)). lra. }
  assert (kn (vals ks') 0 = 0%R) as Z0.
  { destruct (K 0 ltac:(lia)) as [K1 _]. rewrite K1, (vals_kn _ _ _ H0), Rminus_diag_eq, round64_0 by reflexivity. unfold Rdiv. rewrite Rmult_0_l. apply round64_0. }
  assert (kn (vals ks') (vsize ks - 1) = 1%R) as Z1.
  { destruct (K (vsize ks - 1) ltac:(lia)) as [K1 _]. rewrite K1, (vals_kn _ _ _ Hl). replace (_ / _)%R with 1%R by (field; lra). apply round64_1. }
  unfold nc_set_knots at 1. rewrite E. cbn [bind]. eexists. exists (vals ks'). split; [reflexivity|]. cbn [nc_knots].
  split; [reflexivity|]. split; [exact Hf'|]. split; [rewrite vals_size; exact Sz|]. split; [exact S'|]. split; [exact Z0|]. split; [exact Z1|].
  split. { apply Forall_forall. intros v Hv. apply In_vget in Hv. destruct Hv as (i & Hi & Ei). apply kn_of in Ei. subst v. rewrite vals_size, Sz in Hi.
    split; [rewrite <- Z0; apply S'; [lia|rewrite vals_size; lia]|rewrite <- Z1; apply S'; [lia|rewrite vals_size; lia]]. }
  split. { intros i Hi. apply K. exact Hi. }
  destruct (vget_in_range ks' 0 ltac:(lia)) as [z0 G0]. destruct (vget_in_range ks' (vsize ks' - 1) ltac:(lia)) as [z1 G1].
  assert (V64 z0 = 0%R) as Vz0 by (rewrite <- (vals_kn _ _ _ G0); exact Z0).
  assert (V64 z1 = 1%R) as Vz1 by (rewrite <- (vals_kn _ _ _ G1), Sz; exact Z1).
  destruct (scaled ks' z0 z1 Hf' S' G0 G1) as (ks'' & E' & Sz' & G').
  - lra.
  - apply sub_fin_iff; [rewrite Forall_forall in Hf'; apply Hf', (vget_In _ _ _ G1)|rewrite Forall_forall in Hf'; apply Hf', (vget_In _ _ _ G0)|].
    rewrite Vz0, Vz1, Rminus_0_r, round64_1, Rabs_R1. change 1%R with (bpow radix2 0). apply bpow_lt. lia.
  - unfold nc_set_knots. rewrite E'. cbn [bind]. eexists. split; [reflexivity|]. cbn [nc_knots]. apply vget_ext; [rewrite !vals_size; exact Sz'|].
    intros i Hi. rewrite vals_size, Sz' in Hi. destruct (vget_in_range ks' i Hi) as [x Hx]. destruct (G' i x Hx) as (y & Y1 & Y2 & Y3 & Y4).
    rewrite (vals_get _ _ _ Y1), (vals_get _ _ _ Hx). f_equal. rewrite Y3, Vz0, Vz1, !Rminus_0_r, round64_1, round64_V. unfold Rdiv. rewrite Rinv_1, Rmult_1_r. apply round64_V.
Qed.
Lemma set_knots_overflow (c : NurbsCurve f64) (ks : list f64) (k0 kl : f64) :
  Forall (fun k : f64 => fin64 k = true) ks -> sorted (vals ks) -> vget ks 0 = Ok k0 -> vget ks (vsize ks - 1) = Ok kl ->
  fin64 (b64_minus mode_NE kl k0) = false -> exists c' (y : f64), nc_set_knots c ks = Ok c' /\ vget (nc_knots c') (vsize ks - 1) = Ok y /\ nan64 y = true.
Proof.
  intros Hf Hs H0 Hl F. destruct (overflow_nan ks k0 kl Hf Hs H0 Hl F) as (ks' & y & E & G & N). unfold nc_set_knots. rewrite E. cbn [bind].
  do 2 eexists. split; [reflexivity|]. cbn [nc_knots]. split; [exact G|exact N].
Qed.

(** Witness of the overflow. *)
Definition dbig : f64 := Binary.binary_normalize 53 1024 eq_refl eq_refl mode_NE 1 1023 false.
Lemma dbig_facts : fin64 dbig = true /\ fin64 (b64_opp dbig) = true /\ f64_ltb (b64_opp dbig) dbig = true /\ fin64 (b64_minus mode_NE dbig (b64_opp dbig)) = false.
Proof. vm_compute. auto. Qed.
Lemma never_nan_refuted : exists (ks : list f64) (k0 kl : f64) (c' : NurbsCurve f64) (y : f64),
  Forall (fun k : f64 => fin64 k = true) ks /\ sorted (dvals ks) /\ vget ks 0 = Ok k0 /\ vget ks (vsize ks - 1) = Ok kl /\ f64_ltb k0 kl = true /\
  nc_set_knots nc_new ks = Ok c' /\ vget (nc_knots c') (vsize ks - 1) = Ok y /\ nan64 y = true.
Proof.
  destruct dbig_facts as (F1 & F2 & L & O). pose proof L as L2. rewrite ltb_fin in L2 by assumption. apply Rltb_lt in L2.
  assert (Forall (fun k : f64 => fin64 k = true) [b64_opp dbig; dbig]) as Hf by (repeat constructor; assumption).
  assert (sorted (dvals [b64_opp dbig; dbig])) as Hs.
  { intros i j Hi Hj. rewrite vals_size in Hj. change (vsize [b64_opp dbig; dbig]) with 2 in Hj.
    assert (kn (dvals [b64_opp dbig; dbig]) 0 = V64 (b64_opp dbig)) as K0 by reflexivity. assert (kn (dvals [b64_opp dbig; dbig]) 1 = V64 dbig) as K1 by reflexivity.
    assert (i = 0 /\ j = 0 \/ i = 0 /\ j = 1 \/ i = 1 /\ j = 1) as [[-> ->]|[[-> ->]|[-> ->]]] by lia; rewrite ?K0, ?K1; lra. }
  destruct (set_knots_overflow nc_new [b64_opp dbig; dbig] (b64_opp dbig) dbig Hf Hs eq_refl eq_refl O) as (c' & y & E & G & N).
  exists [b64_opp dbig; dbig], (b64_opp dbig), dbig, c', y. repeat (split; [assumption || reflexivity|]). exact N.
Qed.
Lemma knots_case : let ks := [f64_ofZ 0; f64_ofZ 0; f64_ofZ 1; f64_ofZ 3; f64_ofZ 3] in
  Forall (fun k : f64 => fin64 k = true) ks /\ sorted (dvals ks) /\ f64_ltb (f64_ofZ 0) (f64_ofZ 3) = true /\ fin64 (b64_minus mode_NE (f64_ofZ 3) (f64_ofZ 0)) = true.
Proof.
  cbv zeta. destruct (ofZ_exact 0 ltac:(lia)) as [A0 B0]. destruct (ofZ_exact 1 ltac:(lia)) as [A1 B1]. destruct (ofZ_exact 3 ltac:(lia)) as [A3 B3].
  split; [repeat constructor; assumption|]. split; [|split; vm_compute; reflexivity]. unfold dvals. cbn [map]. rewrite A0, A1, A3. intros i j Hi Hj.
  change (j < 5) in Hj. assert (forall k, 0 <= k < 5 -> k = 0 \/ k = 1 \/ k = 2 \/ k = 3 \/ k = 4) as K by (intros; lia).
  destruct (K i ltac:(lia)) as [->|[->|[->|[->| ->]]]]; destruct (K j ltac:(lia)) as [->|[->|[->|[->| ->]]]]; try lia; unfold kn, Z.to_nat, Pos.to_nat; cbn; lra.
Qed.
