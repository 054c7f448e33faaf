(** Degree elevation of curves. *)
From Coq Require Import ZArith List Bool Reals Lra Lia Permutation Psatz.
From Verif Require Import Base Num MGeometry MNurbs SGeom SNurbs LBase LBlossom LNurbs LNurbs2 LNurbs3 LNurbs4.
Import ListNotations.
Open Scope Z_scope.

Section Elev.
Variable c : NurbsCurve R.
Hypothesis V : valid c.
Let p := nc_degree c.
Let n := vsize (nc_points c).
Let ks := nc_knots c.
Let k := kn ks.
Let N := vsize ks.
Let E := e ks (N - 1).

Lemma V_facts : 0 <= p < n /\ N = n + p + 1 /\ sorted ks /\ (forall i, 0 <= i <= p -> k i = 0%R) /\ (forall i, n <= i <= n + p -> k i = 1%R).
Proof.
  destruct V as [_ [_ [C _]]]. destruct (clamped_sorted _ _ _ C) as [S _]. destruct C as [C1 [C2 [C3 [C4 C5]]]].
  split; [exact C1|]. split; [exact C2|]. split; [exact S|]. split; assumption.
Qed.

(** Entry [j] of the homogeneous lists is the linear form [A] of the old coefficients. *)
Definition entry (s : list pt3 * list R) (j : Z) (A : (Z -> R) -> R) : Prop :=
  vget (fst s) j = Ok (mkP (A (hx c)) (A (hy c)) (A (hz c))) /\ vget (snd s) j = Ok (A (cw c)).

Lemma entry_old P W j A x w : entry (P, W) j A -> entry (vpush P x, vpush W w) j A.
Proof.
  unfold entry. cbn [fst snd]. intros [G1 G2]. unfold vpush. pose proof (vget_range _ _ _ G1). pose proof (vget_range _ _ _ G2).
  rewrite !vget_app_l by lia. split; assumption.
Qed.
Lemma entry_new P W j (A : (Z -> R) -> R) : vsize P = j -> vsize W = j -> entry (vpush P (mkP (A (hx c)) (A (hy c)) (A (hz c))), vpush W (A (cw c))) j A.
Proof. intros <- HW. unfold entry. cbn [fst snd]. rewrite vget_push_last. rewrite <- HW. rewrite vget_push_last. split; reflexivity. Qed.

Lemma entry_new' P W j (A : (Z -> R) -> R) x w : x = mkP (A (hx c)) (A (hy c)) (A (hz c)) -> w = A (cw c) -> vsize P = j -> vsize W = j -> entry (vpush P x, vpush W w) j A.
Proof. intros -> ->. apply entry_new. Qed.

Section Knots.
Variables (ek : list R) (km : list Z).
Hypothesis EK : elevate_knots ks = Ok (ek, km).

Lemma ek_facts : vsize ek = N + E + 1 /\ sorted ek /\
  (forall j, 0 <= j < N -> kn ek (pos ks j) = k j) /\ (forall j, 0 <= j < N -> kn ek (pos ks j + 1) = k j) /\
  (forall j, 0 <= j < N - 1 -> kn ek (pos ks j + 2) = k (j + 1)) /\ (forall j, 1 <= j < N -> kn ek (pos ks j - 1) = k (j - 1)) /\
  vsize km = E + 1 /\
  (forall l, 0 <= l <= E -> exists j r, 0 <= j < N /\ (j < N - 1 -> chg ks j = true) /\ (l < E -> j < N - 1) /\ (l = E -> j = N - 1) /\ e ks j = l /\ vget km l = Ok r /\ run_end ks j r).
Proof.
  destruct V_facts as [H1 [H2 [S [H4 H5]]]].
  destruct (elevate_knots_ok ks S ltac:(fold N; lia)) as [ek' [km' [Q [F1 [F2 [F3 [F4 [F5 F6]]]]]]]]. rewrite EK in Q. injection Q as <- <-.
  fold N E in F1, F3, F4, F5, F6. fold k in F3, F4.
  assert (forall j, 0 <= j < N -> kn ek (pos ks j + 1) = k j) as G.
  { intros j Hj. destruct (Z.eq_dec j (N - 1)) as [->|]; [apply F4; lia|]. destruct (chg ks j) eqn:Ch; [apply F4; auto|].
    pose proof (pos_S ks j ltac:(lia)) as P. rewrite Ch in P. replace (pos ks j + 1) with (pos ks (j + 1)) by lia. rewrite F3 by lia. symmetry. apply (chg_false ks). exact Ch. }
  split; [exact F1|]. split; [exact F2|]. split; [exact F3|]. split; [exact G|].
  split. { intros j Hj. pose proof (pos_S ks j ltac:(lia)) as P. destruct (chg ks j) eqn:Ch.
    - replace (pos ks j + 2) with (pos ks (j + 1)) by lia. apply F3. lia.
    - replace (pos ks j + 2) with (pos ks (j + 1) + 1) by lia. apply G. lia. }
  split. { intros j Hj. pose proof (pos_S ks (j - 1) ltac:(lia)) as P. replace (j - 1 + 1) with j in P by lia. destruct (chg ks (j - 1)) eqn:Ch.
    - replace (pos ks j - 1) with (pos ks (j - 1) + 1) by lia. apply G. lia.
    - replace (pos ks j - 1) with (pos ks (j - 1)) by lia. apply F3. lia. }
  split; [exact F5|exact F6].
Qed.

Lemma e_const a b : 0 <= a <= b -> (forall j, a <= j < b -> k j = k (j + 1)) -> e ks a = e ks b.
Proof.
  intros H Q. assert (forall m, a + Z.of_nat m <= b -> e ks a = e ks (a + Z.of_nat m)) as K.
  { induction m as [|m IH]; intros Hm; [f_equal; lia|]. rewrite IH by lia.
    replace (a + Z.of_nat (S m)) with (a + Z.of_nat m + 1) by lia. rewrite e_S by lia.
    specialize (Q (a + Z.of_nat m) ltac:(lia)). unfold chg. fold k. destruct (Req_EM_T (k (a + Z.of_nat m)) (k (a + Z.of_nat m + 1))); [lia|contradiction]. }
  rewrite (K (Z.to_nat (b - a))) by lia. f_equal. lia.
Qed.

Lemma span_chg i t : p <= i < n -> in_span ks i t -> chg ks i = true.
Proof. intros B I. apply chg_lt. apply (in_span_lt _ _ _ I). Qed.

Lemma E_pos : 1 <= E.
Proof.
  destruct V_facts as [H1 [H2 [S [H4 H5]]]]. destruct (valid_span c 0%R V ltac:(lra)) as [i [_ [B I]]]. fold p n ks in B, I.
  pose proof (span_chg i 0%R B I) as C. pose proof (e_mono ks (i + 1) (N - 1) ltac:(lia)) as M. rewrite e_S, C in M by lia. pose proof (e_nonneg ks i). unfold E. lia.
Qed.

Lemma ek_clamped : clamped ek (p + 1) (n + E).
Proof.
  destruct V_facts as [H1 [H2 [S [H4 H5]]]]. destruct ek_facts as [F1 [F2 [F3 [F4 [F5 [F6 _]]]]]]. pose proof E_pos.
  assert (e ks p = 0) as Ep. { rewrite <- (e_const 0 p); [reflexivity|lia|]. intros j Hj. rewrite !H4 by lia. reflexivity. }
  assert (e ks n = E) as En. { apply e_const; [lia|]. intros j Hj. rewrite !H5 by lia. reflexivity. }
  split; [lia|]. split; [lia|]. split; [intros i j A B; apply F2; lia|]. split.
  - intros i Hi. pose proof (F2 0 i ltac:(lia) ltac:(lia)) as A. pose proof (F2 i (p + 1) ltac:(lia) ltac:(lia)) as B.
    pose proof (F3 0 ltac:(lia)) as C. change (pos ks 0) with 0 in C. pose proof (F4 p ltac:(lia)) as D. unfold pos in D. rewrite Ep, Z.add_0_r in D. rewrite H4 in C, D by lia. lra.
  - intros i Hi. pose proof (F2 (n + E) i ltac:(lia) ltac:(lia)) as A. pose proof (F2 i (N + E) ltac:(lia) ltac:(lia)) as B.
    pose proof (F3 n ltac:(lia)) as C. unfold pos in C. rewrite En in C. pose proof (F4 (N - 1) ltac:(lia)) as D. unfold pos in D. fold E in D. replace (N - 1 + E + 1) with (N + E) in D by lia.
    rewrite H5 in C, D by lia. lra.
Qed.

(** The elevated knots around span [K]. *)
Lemma ek_local K : 1 <= K -> K + 2 < N -> chg ks K = true -> let J := pos ks K + 1 in
  kn ek (J - 2) = k (K - 1) /\ kn ek (J - 1) = k K /\ kn ek J = k K /\ kn ek (J + 1) = k (K + 1) /\ kn ek (J + 2) = k (K + 1) /\ kn ek (J + 3) = k (K + 2).
Proof.
  intros H1 H2 Ch J. destruct ek_facts as [F1 [F2 [F3 [F4 [F5 [F6 _]]]]]]. pose proof (pos_S ks K ltac:(lia)) as P. rewrite Ch in P.
  unfold J. replace (pos ks K + 1 - 2) with (pos ks K - 1) by lia. replace (pos ks K + 1 - 1) with (pos ks K) by lia.
  rewrite F6, F3, F4 by lia. replace (pos ks K + 1 + 1) with (pos ks (K + 1)) by lia. replace (pos ks K + 1 + 2) with (pos ks (K + 1) + 1) by lia.
  replace (pos ks K + 1 + 3) with (pos ks (K + 1) + 2) by lia. rewrite F3, F4, F5 by lia. replace (K + 1 + 1) with (K + 2) by lia. auto 10.
Qed.

Lemma elevate_finish P W : 0 <= p < 3 ->
  (if p =? 1 then elevate1 c else if p =? 2 then elevate2 c km else Ok ([], [])) = Ok (P, W) ->
  vsize P = n + E -> vsize W = n + E -> Forall (fun w => 0 < w)%R W ->
  (forall K, p <= K < n -> chg ks K = true -> exists A : Z -> (Z -> R) -> R,
     (forall j, pos ks K - p <= j <= pos ks K + 1 -> entry (P, W) j (A j)) /\
     forall f t, db (kn ek) (fun j => A j f) (p + 1) (repeat t (Z.to_nat (p + 1))) (pos ks K + 1) = db k f p (repeat t (Z.to_nat p)) K) ->
  exists c', nc_degree_elevation c = Ok (true, c') /\ valid c' /\ nc_degree c' = p + 1 /\ vsize (nc_points c') = n + E /\
    forall t, (0 <= t <= 1)%R -> same_hom c c' t.
Proof.
  intros Hp Q SP SW FW H. pose proof ek_clamped as C'. destruct V_facts as [H1 [H2 [S [H4 H5]]]].
  destruct (unhomogenize_ok P W ltac:(lia) FW) as [q [EQ [SQ HQ]]].
  assert (vsize q = n + E) as SQ' by lia.
  pose proof V as [V1 [V2 [C [F [T1 T2]]]]]. fold p in T1, T2.
  assert (exists c', nc_degree_elevation c = Ok (true, c') /\ nc_degree c' = p + 1 /\ nc_knots c' = ek /\ nc_weights c' = W /\ nc_points c' = q /\ nc_nb c' = vsize q /\
     p + 2 <= vsize (nc_tp c') /\ p + 2 <= vsize (nc_tw c')) as [c' [EC [E1 [E2 [E3 [E4 [E5 [E6 E7]]]]]]]].
  { unfold nc_degree_elevation. fold p. destruct (Z.leb_spec 3 p); [lia|]. fold ks. rewrite EK. cbn [bind]. rewrite Q. cbn [bind fst snd]. rewrite EQ. cbn [bind].
    unfold nc_set_knots. rewrite (clamped_scale _ _ _ C'). cbn [bind]. unfold nc_set_degree, nc_set_weights, nc_set_points.
    cbn [nc_degree nc_knots nc_weights nc_points nc_nb nc_tp nc_tw]. unfold vresize. destruct (Z.ltb_spec (p + 1 + 1) 0); [lia|]. cbn [bind].
    eexists. split; [reflexivity|]. cbn [nc_degree nc_knots nc_weights nc_points nc_nb nc_tp nc_tw]. repeat (split; [reflexivity|]).
    unfold vsize. rewrite !app_length, !firstn_length, !repeat_length. lia. }
  exists c'. split; [exact EC|].
  assert (valid c') as V'.
  { unfold valid. rewrite E1, E2, E3, E4, E5, SQ'. split; [reflexivity|]. split; [exact SW|]. split; [exact C'|]. split; [exact FW|]. lia. }
  split; [exact V'|]. split; [exact E1|]. split; [rewrite E4; exact SQ'|].
  intros t T. destruct (valid_span c t V T) as [K [_ [BK IK]]]. fold p n ks in BK, IK. pose proof (span_chg K t BK IK) as Ch.
  destruct (H K BK Ch) as [A [HA HD]]. destruct ek_facts as [F1 [F2 [F3 [F4 [F5 [F6 _]]]]]].
  pose proof (pos_S ks K ltac:(lia)) as PS. rewrite Ch in PS.
  assert (p <= pos ks K) as B1. { pose proof (e_nonneg ks K). unfold pos. lia. }
  assert (pos ks K + 1 < n + E) as B2. { pose proof (pos_mono ks (K + 1) n ltac:(lia)) as M. assert (e ks n = E) as En. { apply e_const; [lia|]. intros j Hj. rewrite !H5 by lia. reflexivity. } unfold pos in *. lia. }
  assert (in_span (nc_knots c') (pos ks K + 1) t) as I'.
  { rewrite E2. unfold in_span in IK |- *. replace (pos ks K + 1 + 1) with (pos ks (K + 1)) by lia. rewrite F3, F4 by lia. exact IK. }
  assert (forall j, 0 <= j < n + E -> forall B, entry (P, W) j B -> cw c' j = B (cw c) /\ hx c' j = B (hx c) /\ hy c' j = B (hy c) /\ hz c' j = B (hz c)) as HC.
  { intros j Hj B [G1 G2]. cbn [fst snd] in G1, G2. rewrite Forall_forall in FW.
    apply (hom_coeffs c' P W j _ _ ltac:(rewrite E4; lia) E3 ltac:(rewrite E4; exact HQ) G1 G2). exact (FW _ (vget_In _ _ _ G2)). }
  assert (forall f f', (forall j, pos ks K - p <= j <= pos ks K + 1 -> f' j = A j f) -> ev c' f' t (pos ks K + 1) = ev c f t K) as KK.
  { intros f f' Hf. unfold ev. rewrite E1, E2. fold p ks. change (kn ks) with k. rewrite <- (HD f t). apply db_ext. rewrite repeat_length. intros m Hm. apply Hf. lia. }
  apply (same_ev c c' t K (pos ks K + 1) V V' T BK IK); [rewrite E1, E4; lia|exact I'| | | |]; apply KK; intros j Hj; destruct (HC j ltac:(lia) _ (HA j Hj)) as [G1 [G2 [G3 G4]]]; assumption.
Qed.
End Knots.

Lemma hp_ok i : 0 <= i < n ->
  (do p <- vget (nc_points c) i; do w <- vget (nc_weights c) i; Ok (pmul p w, w)) = Ok (mkP (hx c i) (hy c i) (hz c i), cw c i).
Proof.
  intros H. destruct V as [V1 [V2 _]]. fold n in V2. rewrite (vget_nth (nc_points c) O3) by (fold n; lia). rewrite (vget_nth (nc_weights c) 0%R) by lia. cbn [bind].
  unfold hx, hy, hz, pmul. cbn [nmul RNum]. do 3 f_equal; unfold cw, cp; ring.
Qed.

(** ** Degree 1 *)
Lemma elevate_1_hom : p = 1 -> regular ks p n -> exists c', nc_degree_elevation c = Ok (true, c') /\ valid c' /\ nc_degree c' = 2 /\
  vsize (nc_points c') = 2 * n - 1 /\ forall t, (0 <= t <= 1)%R -> same_hom c c' t.
Proof.
  intros P1 Rg. destruct V_facts as [H1 [H2 [S [H4 H5]]]]. pose proof V as [V1 [V2 [_ [F _]]]]. fold n in V1, V2.
  destruct (elevate_knots_ok ks S ltac:(fold N; lia)) as [ek [km [EK _]]].
  assert (forall j, 1 <= j <= n - 1 -> chg ks j = true) as Ch.
  { intros j Hj. apply chg_lt. specialize (Rg j Hj). rewrite P1 in Rg. exact Rg. }
  assert (forall j, 1 <= j <= n -> e ks j = j - 1) as Ej.
  { assert (forall m, Z.of_nat m + 1 <= n -> e ks (Z.of_nat m + 1) = Z.of_nat m) as K.
    { induction m as [|m IH]; intros Hm.
      - change (Z.of_nat 0 + 1) with (0 + 1). rewrite e_S by lia. unfold chg. fold k. rewrite !H4 by lia. destruct (Req_EM_T 0 0); [reflexivity|congruence].
      - rewrite e_S by lia. replace (Z.of_nat (Datatypes.S m)) with (Z.of_nat m + 1) by lia. rewrite IH by lia. rewrite Ch by lia. lia. }
    intros j Hj. replace j with (Z.of_nat (Z.to_nat (j - 1)) + 1) at 1 by lia. rewrite K by lia. lia. }
  assert (E = n - 1) as EE. { unfold E. rewrite <- (e_const n (N - 1)); [apply Ej; lia|lia|]. intros j Hj. rewrite !H5 by lia. reflexivity. }
  set (A := fun j (f : Z -> R) => if Z.even j then f (j / 2) else ((f (j / 2)%Z + f (j / 2 + 1)%Z) / 2)%R).
  assert (forall i, A (2 * i) = fun f => f i) as A0.
  { intros i. unfold A. replace (2 * i) with (0 + 2 * i) by lia. rewrite Z.even_add_mul_2. cbn [Z.even]. replace ((0 + 2 * i) / 2) with i by (apply Z.div_unique with 0; lia). reflexivity. }
  assert (forall i, A (2 * i + 1) = fun f => ((f i + f (i + 1)%Z) / 2)%R) as A1.
  { intros i. unfold A. replace (2 * i + 1) with (1 + 2 * i) by lia. rewrite Z.even_add_mul_2. cbn [Z.even]. replace ((1 + 2 * i) / 2) with i by (apply Z.div_unique with 1; lia). reflexivity. }
  assert (exists P W, elevate1 c = Ok (P, W) /\ vsize P = 2 * n - 1 /\ vsize W = 2 * n - 1 /\ (forall j, 0 <= j < 2 * n - 1 -> entry (P, W) j (A j))) as [P [W [EL [SP [SW HE]]]]].
  { unfold elevate1. rewrite V1.
    match goal with |- context [for_ 0 (n - 1) ?b ?s0] => destruct (for_inv (fun i s => vsize (fst s) = 2 * i /\ vsize (snd s) = 2 * i /\ (forall j, 0 <= j < 2 * i -> entry s j (A j))) 0 (n - 1) b s0) as [[P W] [EL [I1 [I2 I3]]]] end.
    - lia.
    - split; [reflexivity|]. split; [reflexivity|]. intros; lia.
    - intros i [P W] Hi [I1 [I2 I3]]. cbn [fst snd] in I1, I2. rewrite !hp_ok by lia. cbn [bind fst snd]. rewrite pdiv_R by (cbn; lra). cbn [bind].
      unfold ndiv, RNum at 1. change n2 with 2%R. destruct (Req_EM_T 2 0) as [Q|_]; [lra|]. cbn [bind].
      eexists. split; [reflexivity|]. cbn [fst snd]. rewrite !vsize_push. split; [lia|]. split; [lia|].
      intros j Hj. destruct (Z.eq_dec j (2 * i)) as [->|]; [|destruct (Z.eq_dec j (2 * i + 1)) as [->|]].
      + apply entry_old. rewrite A0. apply (entry_new _ _ _ (fun f => f _)); lia.
      + rewrite A1. apply (entry_new _ _ _ (fun f => (f i + f (i + 1)%Z) / 2)%R); rewrite vsize_push; lia.
      + do 2 apply entry_old. apply I3. lia.
    - rewrite EL. cbn [bind]. rewrite hp_ok by lia. cbn [bind fst snd] in *. do 2 eexists. split; [reflexivity|]. rewrite !vsize_push. split; [lia|]. split; [lia|].
      intros j Hj. destruct (Z.eq_dec j (2 * (n - 1))) as [->|].
      + rewrite A0. apply (entry_new _ _ _ (fun f => f _)); lia.
      + apply entry_old. apply I3. lia. }
  assert (Forall (fun w => 0 < w)%R W) as FW.
  { rewrite Forall_forall. intros w Hw. apply In_vget in Hw. destruct Hw as [j [Hj Ew]]. destruct (HE j ltac:(lia)) as [_ G]. cbn [snd] in G. rewrite G in Ew. injection Ew as <-.
    unfold A. pose proof (Z.div_mod j 2 ltac:(lia)). pose proof (Z.mod_pos_bound j 2 ltac:(lia)).
    pose proof (cw_pos c (j / 2) V ltac:(fold n; lia)). destruct (Z.even j) eqn:Ev; [assumption|].
    assert (j mod 2 = 1). { rewrite Zmod_even, Ev. reflexivity. }
    pose proof (cw_pos c (j / 2 + 1) V ltac:(fold n; lia)). lra. }
  destruct (elevate_finish ek km EK P W) as [c' [Q1 [Q2 [Q3 [Q4 Q5]]]]]; try assumption; try lia.
  - rewrite P1. exact EL.
  - intros K HK CK. exists A. rewrite P1 in *. split.
    + intros j Hj. apply HE. unfold pos in Hj. rewrite Ej in Hj by lia. lia.
    + intros f t. destruct (ek_local ek km EK K ltac:(lia) ltac:(lia) CK) as [_ [L2 [L3 [L4 [L5 _]]]]].
      pose proof (chg_true ks S K ltac:(fold N; lia) CK) as LT. fold k in LT.
      assert (pos ks K + 1 = 2 * K) as PK by (unfold pos; rewrite Ej by lia; lia). rewrite PK in *.
      change (Z.to_nat (1 + 1)) with 2%nat. change (Z.to_nat 1) with 1%nat. cbn [repeat db length].
      replace (2 * K + (1 + 1) - Z.of_nat 1) with (2 * K + 1) by lia.
      replace (2 * K - 1 + (1 + 1) - Z.of_nat 0) with (2 * K + 1) by lia. replace (2 * K + (1 + 1) - Z.of_nat 0) with (2 * K + 2) by lia. replace (K + 1 - Z.of_nat 0) with (K + 1) by lia.
      rewrite L2, L3, L4, L5.
      replace (2 * K - 1 - 1) with (2 * (K - 1)) by lia. replace (2 * K - 1) with (2 * (K - 1) + 1) by lia. rewrite !A0, A1. replace (K - 1 + 1) with K by lia.
      field. lra.
  - exists c'. split; [exact Q1|]. split; [exact Q2|]. split; [lia|]. split; [lia|exact Q5].
Qed.

(** ** Degree 2 *)
Definition beta (K : Z) : R := ((k K - k (K - 1)%Z) / (3 * (k (K + 1)%Z - k (K - 1)%Z)))%R.
Definition va (K : Z) (f : Z -> R) : R := (f (K - 1)%Z * beta K + f (K - 2)%Z * (1 - beta K))%R.
Definition vb (K : Z) (f : Z -> R) : R := (f (K - 1)%Z * (beta K + 2 / 3) + f (K - 2)%Z * (1 / 3 - beta K))%R.

Lemma entry_eq s j A A' : (forall f, A f = A' f) -> entry s j A -> entry s j A'.
Proof. intros H [G1 G2]. split; rewrite <- !H; assumption. Qed.

Lemma Forall_push (W : list R) w : Forall (fun w => 0 < w)%R W -> (0 < w)%R -> Forall (fun w => 0 < w)%R (vpush W w).
Proof. intros. apply Forall_app. auto. Qed.

Lemma beta_range K : 0 <= K - 1 -> K + 1 < N -> (k (K - 1)%Z < k (K + 1)%Z)%R -> (0 <= beta K <= 1 / 3)%R.
Proof.
  intros H1 H2 L. destruct V_facts as [_ [_ [S _]]]. pose proof (S (K - 1) K ltac:(lia) ltac:(fold N; lia)) as A. pose proof (S K (K + 1) ltac:(lia) ltac:(fold N; lia)) as B. fold k in A, B.
  unfold beta. set (d := (3 * (k (K + 1)%Z - k (K - 1)%Z))%R). assert (0 < d)%R by (unfold d; lra). split.
  - apply Rmult_le_pos; [lra|left; apply Rinv_0_lt_compat; lra].
  - apply (Rmult_le_reg_r d); [lra|]. unfold Rdiv at 1. rewrite Rmult_assoc, Rinv_l by lra. unfold d. lra.
Qed.

Lemma elevate_2_local ek km K f t : elevate_knots ks = Ok (ek, km) -> 2 <= K < n -> p = 2 -> chg ks K = true -> forall A,
  A (pos ks K - 2) = va K f -> A (pos ks K - 1) = vb K f -> A (pos ks K) = va (K + 1) f -> A (pos ks K + 1) = vb (K + 1) f ->
  db (kn ek) A 3 (repeat t 3) (pos ks K + 1) = db k f 2 (repeat t 2) K.
Proof.
  intros EK HK P2 Ch A A1 A2 A3 A4. destruct V_facts as [H1 [H2 [S [H4 H5]]]].
  destruct (ek_local ek km EK K ltac:(lia) ltac:(lia) Ch) as [L1 [L2 [L3 [L4 [L5 L6]]]]].
  pose proof (chg_true ks S K ltac:(fold N; lia) Ch) as LT. fold k in LT.
  pose proof (S (K - 1) K ltac:(lia) ltac:(fold N; lia)) as M1. pose proof (S (K + 1) (K + 2) ltac:(lia) ltac:(fold N; lia)) as M2. fold k in M1, M2.
  set (J := pos ks K + 1) in *. replace (pos ks K - 2) with (J - 3) in A1 by lia. replace (pos ks K - 1) with (J - 2) in A2 by lia. replace (pos ks K) with (J - 1) in A3 by lia.
  cbn [repeat db length].
  replace (J - 1 - 1 - 1) with (J - 3) by lia. replace (J - 1 - 1) with (J - 2) by lia. replace (K - 1 - 1) with (K - 2) by lia.
  replace (J + 3 - Z.of_nat 2) with (J + 1) by lia. replace (J - 1 + 3 - Z.of_nat 1) with (J + 1) by lia. replace (J + 3 - Z.of_nat 1) with (J + 2) by lia.
  replace (J - 2 + 3 - Z.of_nat 0) with (J + 1) by lia. replace (J - 1 + 3 - Z.of_nat 0) with (J + 2) by lia. replace (J + 3 - Z.of_nat 0) with (J + 3) by lia.
  replace (K + 2 - Z.of_nat 1) with (K + 1) by lia. replace (K - 1 + 2 - Z.of_nat 0) with (K + 1) by lia. replace (K + 2 - Z.of_nat 0) with (K + 2) by lia.
  rewrite A1, A2, A3, A4, L1, L2, L3, L4, L5, L6. unfold va, vb, beta.
  replace (K + 1 - 1) with K by lia. replace (K + 1 - 2) with (K - 1) by lia. replace (K + 1 + 1) with (K + 2) by lia.
  field. repeat split; lra.
Qed.

Ltac mixp := unfold padd, pmul; cbn [px py pz nadd nmul RNum]; try reflexivity; f_equal; ring.

Lemma elevate_2_hom : p = 2 -> regular ks p n -> exists c', nc_degree_elevation c = Ok (true, c') /\ valid c' /\ nc_degree c' = 3 /\
  vsize (nc_points c') = n + E /\ forall t, (0 <= t <= 1)%R -> same_hom c c' t.
Proof.
  intros P2 Rg. destruct V_facts as [H1 [H2 [S [H4 H5]]]]. pose proof V as [V1 [V2 [_ [F _]]]]. fold n in V1, V2.
  destruct (elevate_knots_ok ks S ltac:(fold N; lia)) as [ek [km [EK _]]].
  destruct (ek_facts ek km EK) as [_ [_ [_ [_ [_ [_ [SK KM]]]]]]]. pose proof E_pos as EP.
  assert (forall j, 0 <= j < N - 1 -> chg ks j = true -> 2 <= j < n) as CR.
  { intros j Hj Cj. pose proof (chg_true ks S j ltac:(fold N; lia) Cj) as L. fold k in L.
    split; [destruct (Z.leb_spec 2 j); [lia|]; rewrite !H4 in L by lia; lra|]. destruct (Z.ltb_spec j n); [lia|]. rewrite !H5 in L by lia. lra. }
  assert (chg ks (n - 1) = true) as Cn1.
  { apply chg_lt. fold k. replace (n - 1 + 1) with n by lia. specialize (Rg (n - 1) ltac:(lia)). rewrite P2 in Rg. replace (n - 1 + 2) with (n + 1) in Rg by lia. fold k in Rg. rewrite (H5 (n + 1)) in Rg by lia. rewrite (H5 n) by lia. exact Rg. }
  assert (e ks n = E) as En. { apply e_const; [lia|]. intros j Hj. rewrite !H5 by lia. reflexivity. }
  assert (e ks (n - 1) = E - 1) as En1. { pose proof (e_S ks (n - 1) ltac:(lia)) as Q. rewrite Cn1 in Q. replace (n - 1 + 1) with n in Q by lia. lia. }
  assert (chg ks 2 = true) as C2.
  { apply chg_lt. fold k. rewrite H4 by lia. specialize (Rg 1 ltac:(lia)). rewrite P2 in Rg. fold k in Rg. rewrite H4 in Rg by lia. exact Rg. }
  assert (chg ks 1 = false) as C1. { unfold chg. fold k. rewrite !H4 by lia. destruct (Req_EM_T 0 0); [reflexivity|congruence]. }
  assert (e ks 2 = 0) as E2. { rewrite <- (e_const 0 2); [reflexivity|lia|]. intros j Hj. rewrite !H4 by lia. reflexivity. }
  set (done := fun (s : list pt3 * list R) K => entry s (pos ks K - 2) (va K) /\ entry s (pos ks K - 1) (vb K) /\ entry s (pos ks K) (va (K + 1)) /\ entry s (pos ks K + 1) (vb (K + 1))).
  set (Inv := fun l (st : list pt3 * list R * Z) => let '(s, K) := st in
    2 <= K /\ e ks K = l - 1 + (if l <=? E then 0 else 0) /\ (l <= E -> K < n /\ chg ks K = true) /\ (l = E + 1 -> K = N - 1) /\
    vsize (snd s) = vsize (fst s) /\
    (l = E + 1 -> vsize (fst s) = n + E) /\
    (l <= E -> vsize (fst s) = (if chg ks (K - 1) then pos ks K else pos ks K - 1) /\ entry s (pos ks K - 2) (va K) /\ (chg ks (K - 1) = true -> entry s (pos ks K - 1) (vb K))) /\
    (forall K', 2 <= K' < n -> K' < K -> chg ks K' = true -> done s K') /\
    Forall (fun w => 0 < w)%R (snd s)).
  assert (exists s K, elevate2 c km = Ok s /\ Inv (E + 1) (s, K)) as [[P W] [K0 [EL [_ [_ [_ [I4 [I5 [I6 [_ [I8 I9]]]]]]]]]]].
  { unfold elevate2. cbv zeta.
    assert (@ndiv R RNum n1 (nofZ 3) = Ok (1 / 3)%R) as -> by (cbn; destruct (Req_EM_T 3 0); [lra|reflexivity]).
    assert (@ndiv R RNum n2 (nofZ 3) = Ok (2 / 3)%R) as -> by (cbn; destruct (Req_EM_T 3 0); [lra|reflexivity]).
    cbn [bind]. rewrite hp_ok by lia. cbn [bind fst snd].
    rewrite SK.
    match goal with |- context [for_ 1 (E + 1) ?b ?s0] => destruct (for_inv Inv 1 (E + 1) b s0) as [[s K] [EL I]] end.
    - lia.
    - unfold Inv. split; [lia|]. split; [rewrite E2; destruct (1 <=? E); reflexivity|]. split; [intros _; split; [lia|exact C2]|]. split; [lia|].
      split; [reflexivity|]. split; [lia|]. split.
      + intros _. change (2 - 1) with 1. rewrite C1. unfold pos. rewrite E2. split; [reflexivity|]. split; [|discriminate].
        apply (entry_eq _ _ (fun f => f 0)).
        * intros f. unfold va. assert (beta 2 = 0%R) as ->. { unfold beta. change (2 - 1) with 1. rewrite !H4 by lia. field. change (2 + 1) with 3. pose proof (chg_true ks S 2 ltac:(fold N; lia) C2) as L. fold k in L. rewrite H4 in L by lia. change (2 + 1) with 3 in L. lra. }
          change (2 - 2) with 0. ring.
        * apply (entry_new [] [] _ (fun f => f 0)); reflexivity.
      + split; [intros; lia|]. repeat constructor. apply (cw_pos c 0 V). fold n. lia.
    - intros l [[P W] K] Hl [G1 [G2 [G3 [_ [G5 [_ [G7 [G8 G9]]]]]]]]. cbn [fst snd] in G5, G7, G8, G9.
      specialize (G3 ltac:(lia)). destruct G3 as [KN CK]. specialize (G7 ltac:(lia)). destruct G7 as [Sz [Ea Eb]].
      assert (e ks K = l - 1) as EKl by (destruct (l <=? E); lia). clear G2.
      destruct (KM (l - 1) ltac:(lia)) as [j0 [r0 [A1 [A2 [A3 [_ [A5 [A6 A7]]]]]]]]. specialize (A3 ltac:(lia)). specialize (A2 A3).
      assert (j0 = K) as -> by (apply (e_inj ks); try assumption; lia). clear A1 A3 A5.
      destruct (KM l ltac:(lia)) as [j [r [B1 [B2 [B3 [B4 [B5 [B6 B7]]]]]]]].
      assert (r = j - K) as Er.
      { destruct B7 as [R1 [R2 R3]]. assert (forall a, 0 <= a <= j -> (forall x, a <= x < j -> chg ks x = false) -> e ks a = e ks j) as EQ.
        { intros a Ha Q. apply e_const; [lia|]. intros x Hx. apply (chg_false ks). apply Q. lia. }
        destruct R3 as [R3|[R3 R4]].
        - assert (e ks 0 = e ks j) as Q. { apply EQ; [lia|]. intros x Hx. apply R2. lia. } rewrite e_0 in Q. lia.
        - assert (e ks (j - r + 1) = e ks j) as Q. { apply EQ; [lia|]. intros x Hx. apply R2. lia. } rewrite e_S, R4 in Q by lia.
          assert (j - r = K) by (apply (e_inj ks); try assumption; lia). lia. }
      assert (if 1 <? r0 then chg ks (K - 1) = false else chg ks (K - 1) = true) as M0.
      { destruct A7 as [R1 [R2 R3]]. destruct (Z.ltb_spec 1 r0); [apply R2; lia|]. replace r0 with 1 in R3 by lia. destruct R3 as [R3|[_ R3]]; [lia|exact R3]. }
      assert (K + 1 < N - 1) as KN1 by lia.
      assert (if 1 <? r then chg ks (K + 1) = false else r = 1 /\ chg ks (K + 1) = true /\ l < E) as M1.
      { destruct B7 as [R1 [R2 R3]]. destruct (Z.ltb_spec 1 r); [apply R2; lia|]. split; [lia|]. assert (j = K + 1) by lia. subst j.
        split; [apply B2; lia|]. destruct (Z.eq_dec l E) as [El|]; [specialize (B4 El); lia|lia]. }
      pose proof (chg_true ks S K ltac:(fold N; lia) CK) as LK. fold k in LK.
      pose proof (S (K - 1) K ltac:(lia) ltac:(fold N; lia)) as LM. pose proof (S (K + 1) (K + 2) ltac:(lia) ltac:(fold N; lia)) as LP. fold k in LM, LP.
      pose proof (cw_pos c (K - 2) V ltac:(fold n; lia)) as W2. pose proof (cw_pos c (K - 1) V ltac:(fold n; lia)) as W1. pose proof (cw_pos c K V ltac:(fold n; lia)) as W0.
      pose proof (pos_S ks K ltac:(lia)) as PS. rewrite CK in PS.
      cbv beta iota. rewrite A6. cbn [bind].
      assert (exists P1 W1', (if 1 <? r0
         then do ha <- (do p <- vget (nc_points c) (K - 1); do w <- vget (nc_weights c) (K - 1); Ok (pmul p w, w));
              do hb <- (do p <- vget (nc_points c) (K - 2); do w <- vget (nc_weights c) (K - 2); Ok (pmul p w, w));
              Ok (vpush P (padd (pmul (fst ha) (2 / 3)%R) (pmul (fst hb) (1 / 3)%R)), vpush W (nadd (nmul (snd ha) (2 / 3)%R) (nmul (snd hb) (1 / 3)%R)))
         else Ok (P, W)) = Ok (P1, W1') /\ vsize P1 = pos ks K /\ vsize W1' = pos ks K /\ entry (P1, W1') (pos ks K - 2) (va K) /\ entry (P1, W1') (pos ks K - 1) (vb K) /\
         (forall j A, entry (P, W) j A -> entry (P1, W1') j A) /\ Forall (fun w => 0 < w)%R W1') as [P1 [W1' [EF [F1 [F2 [F3 [F4 [F5 F6]]]]]]]].
      { destruct (1 <? r0) eqn:Er0.
        - rewrite !hp_ok by lia. cbn [bind fst snd]. rewrite M0 in Sz. do 2 eexists. split; [reflexivity|]. rewrite !vsize_push. split; [lia|]. split; [lia|].
          split; [apply entry_old; exact Ea|]. split; [|split].
          + apply (entry_eq _ _ (fun f => f (K - 1)%Z * (2 / 3) + f (K - 2)%Z * (1 / 3))%R).
            * intros f. unfold vb. assert (beta K = 0%R) as ->; [|ring]. unfold beta. pose proof (chg_false ks (K - 1) M0) as Q. replace (K - 1 + 1) with K in Q by lia. fold k in Q. rewrite Q. field. lra.
            * apply entry_new'; [mixp|mixp| |]; lia.
          + intros jj A HA. apply entry_old. exact HA.
          + apply Forall_push; [exact G9|]. cbn [nadd nmul RNum]. lra.
        - rewrite M0 in Sz. exists P, W. split; [reflexivity|]. split; [lia|]. split; [lia|]. split; [exact Ea|]. split; [exact (Eb M0)|]. split; [auto|exact G9]. }
      cbn [fst snd] in EF |- *. rewrite EF. cbn [bind]. clear EF. rewrite B6. cbn [bind].
      assert (beta (K + 1) = (k (K + 1)%Z - k K) / (3 * (k (K + 2)%Z - k K)))%R as EB.
      { unfold beta. replace (K + 1 - 1) with K by lia. replace (K + 1 + 1) with (K + 2) by lia. reflexivity. }
      pose proof (beta_range (K + 1) ltac:(lia) ltac:(lia) ltac:(replace (K + 1 - 1) with K by lia; replace (K + 1 + 1) with (K + 2) by lia; lra)) as RB.
      assert (exists P2 W2', (if 1 <? r
         then do hk <- (do p <- vget (nc_points c) K; do w <- vget (nc_weights c) K; Ok (pmul p w, w));
              do ha <- (do p <- vget (nc_points c) (K - 1); do w <- vget (nc_weights c) (K - 1); Ok (pmul p w, w));
              Ok (vpush (vpush P1 (padd (pmul (fst hk) (1 / 3)%R) (pmul (fst ha) (2 / 3)%R))) (fst hk), vpush (vpush W1' (nadd (nmul (snd hk) (1 / 3)%R) (nmul (snd ha) (2 / 3)%R))) (snd hk))
         else do ka <- vget (nc_knots c) (K + 1); do kb <- vget (nc_knots c) K; do kc <- vget (nc_knots c) (K + 2);
              do B <- (if Req_EM_T (3 * (kc - kb)) 0 then Err FDivZero else Ok ((ka - kb) / (3 * (kc - kb)))%R);
              do hk <- (do p <- vget (nc_points c) K; do w <- vget (nc_weights c) K; Ok (pmul p w, w));
              do ha <- (do p <- vget (nc_points c) (K - 1); do w <- vget (nc_weights c) (K - 1); Ok (pmul p w, w));
              Ok (vpush (vpush P1 (padd (pmul (fst hk) B) (pmul (fst ha) (1 - B)%R))) (padd (pmul (fst hk) (B + 2 / 3)%R) (pmul (fst ha) (1 / 3 - B)%R)),
                  vpush (vpush W1' (nadd (nmul (snd hk) B) (nmul (snd ha) (1 - B)%R))) (nadd (nmul (snd hk) (B + 2 / 3)%R) (nmul (snd ha) (1 / 3 - B)%R))))
         = Ok (P2, W2') /\ vsize P2 = pos ks K + 2 /\ vsize W2' = pos ks K + 2 /\ entry (P2, W2') (pos ks K) (va (K + 1)) /\ entry (P2, W2') (pos ks K + 1) (vb (K + 1)) /\
         (forall j A, entry (P1, W1') j A -> entry (P2, W2') j A) /\ Forall (fun w => 0 < w)%R W2') as [P2' [W2' [EF [D1 [D2 [D3 [D4 [D5 D6]]]]]]]].
      { destruct (1 <? r) eqn:Er1.
        - assert (beta (K + 1) = 1 / 3)%R as EB3. { rewrite EB. pose proof (chg_false ks (K + 1) M1) as Q. replace (K + 1 + 1) with (K + 2) in Q by lia. fold k in Q. rewrite <- Q. field. lra. }
          rewrite !hp_ok by lia. cbn [bind fst snd]. do 2 eexists. split; [reflexivity|]. rewrite !vsize_push. split; [lia|]. split; [lia|].
          split; [|split; [|split]].
          + apply (entry_eq _ _ (fun f => f K * (1 / 3) + f (K - 1)%Z * (2 / 3))%R).
            * intros f. unfold va. rewrite EB3. replace (K + 1 - 1) with K by lia. replace (K + 1 - 2) with (K - 1) by lia. field.
            * apply entry_old. apply entry_new'; [mixp|mixp| |]; lia.
          + apply (entry_eq _ _ (fun f => f K)).
            * intros f. unfold vb. rewrite EB3. replace (K + 1 - 1) with K by lia. replace (K + 1 - 2) with (K - 1) by lia. field.
            * apply entry_new'; [mixp|mixp| |]; rewrite vsize_push; lia.
          + intros jj A HA. do 2 apply entry_old. exact HA.
          + repeat apply Forall_push; try assumption. cbn [nadd nmul RNum]. lra.
        - rewrite (vget_kn (nc_knots c) (K + 1)), (vget_kn (nc_knots c) K), (vget_kn (nc_knots c) (K + 2)) by (change (nc_knots c) with ks; fold N; lia). cbn [bind].
          change (nc_knots c) with ks. fold k. destruct (Req_EM_T (3 * (k (K + 2)%Z - k K)) 0) as [Q|_]; [lra|]. cbn [bind].
          rewrite <- EB. rewrite !hp_ok by lia. cbn [bind fst snd]. do 2 eexists. split; [reflexivity|]. rewrite !vsize_push. split; [lia|]. split; [lia|].
          split; [|split; [|split]].
          + apply (entry_eq _ _ (fun f => f K * beta (K + 1) + f (K - 1)%Z * (1 - beta (K + 1)))%R).
            * intros f. unfold va. replace (K + 1 - 1) with K by lia. replace (K + 1 - 2) with (K - 1) by lia. reflexivity.
            * apply entry_old. apply entry_new'; [mixp|mixp| |]; lia.
          + apply (entry_eq _ _ (fun f => f K * (beta (K + 1) + 2 / 3) + f (K - 1)%Z * (1 / 3 - beta (K + 1)))%R).
            * intros f. unfold vb. replace (K + 1 - 1) with K by lia. replace (K + 1 - 2) with (K - 1) by lia. reflexivity.
            * apply entry_new'; [mixp|mixp| |]; rewrite vsize_push; lia.
          + intros jj A HA. do 2 apply entry_old. exact HA.
          + repeat apply Forall_push; try assumption; cbn [nadd nmul RNum]; nra. }
      exists ((P2', W2'), K + r). split.
      { match type of EF with ?x = _ => match goal with |- bind ?y _ = _ => change y with x end end. rewrite EF. reflexivity. }
      assert (done (P2', W2') K) as DK. { split; [apply D5, F3|]. split; [apply D5, F4|]. split; [exact D3|exact D4]. }
      assert (1 <= r) as Rr by (destruct B7; lia). replace (K + r) with j in * by lia.
      unfold Inv. cbn [fst snd]. split; [lia|]. split; [destruct (l + 1 <=? E); lia|].
      split. { intros Hl'. assert (j < N - 1) as J1 by (apply B3; lia). split; [apply CR; auto; lia|apply B2; lia]. }
      split. { intros Hl'. apply B4. lia. }
      split; [lia|].
      split. { intros Hl'. assert (K = n - 1) as -> by (apply (e_inj ks); try assumption; lia). rewrite D1. unfold pos. rewrite En1. lia. }
      split.
      { intros Hl'. assert (j < N - 1) as J1 by (apply B3; lia). specialize (B2 J1). destruct (CR j ltac:(lia) B2) as [J2 J3].
        assert (r <= 2) as R2.
        { destruct (Z.leb_spec r 2); [lia|]. exfalso. destruct B7 as [_ [R2 _]]. specialize (Rg (K + 1) ltac:(lia)). rewrite P2 in Rg. fold k in Rg.
          pose proof (chg_false ks (K + 1) (R2 (K + 1) ltac:(lia))) as Q1. pose proof (chg_false ks (K + 2) (R2 (K + 2) ltac:(lia))) as Q2. fold k in Q1, Q2.
          replace (K + 1 + 1) with (K + 2) in Q1 by lia. replace (K + 2 + 1) with (K + 1 + 2) in Q2 by lia. rewrite Q1, Q2 in Rg. lra. }
        destruct (Z.eq_dec r 1) as [R1|R1].
        - assert (j = K + 1) as Ej by lia. rewrite Ej in *. replace (K + 1 - 1) with K by lia. rewrite CK. split; [lia|].
          replace (pos ks (K + 1) - 2) with (pos ks K) by lia. replace (pos ks (K + 1) - 1) with (pos ks K + 1) by lia. split; [exact D3|intros _; exact D4].
        - assert (j = K + 2) as Ej by lia. rewrite Ej in *. replace (K + 2 - 1) with (K + 1) by lia.
          destruct (Z.ltb_spec 1 r); [|lia]. rewrite M1. pose proof (pos_S ks (K + 1) ltac:(lia)) as PS2. rewrite M1 in PS2. replace (K + 1 + 1) with (K + 2) in PS2 by lia.
          split; [lia|]. split; [|discriminate]. replace (pos ks (K + 2) - 2) with (pos ks K + 1) by lia. apply (entry_eq _ _ (vb (K + 1))); [|exact D4].
          intros f. pose proof (chg_false ks (K + 1) M1) as Q. replace (K + 1 + 1) with (K + 2) in Q by lia. fold k in Q.
          assert (beta (K + 1) = 1 / 3)%R as EB3. { rewrite EB. rewrite <- Q. field. lra. }
          assert (beta (K + 2) = 0)%R as EB0. { unfold beta. replace (K + 2 - 1) with (K + 1) by lia. rewrite Q. field. pose proof (chg_true ks S (K + 2) ltac:(fold N; lia) B2) as L. fold k in L. lra. }
          unfold va, vb. rewrite EB3, EB0. replace (K + 2 - 1) with (K + 1) by lia. replace (K + 2 - 2) with K by lia. replace (K + 1 - 1) with K by lia. replace (K + 1 - 2) with (K - 1) by lia. field. }
      split; [|exact D6].
      intros K' HK' HKj CK'. destruct (Z.lt_trichotomy K' K) as [L|[L|L]].
      + destruct (G8 K' HK' L CK') as [X1 [X2 [X3 X4]]]. split; [apply D5, F5, X1|]. split; [apply D5, F5, X2|]. split; [apply D5, F5, X3|apply D5, F5, X4].
      + rewrite L. exact DK.
      + exfalso. destruct B7 as [_ [R2 _]]. rewrite R2 in CK' by lia. discriminate.
    - exists s, K. rewrite EL. split; [reflexivity|exact I]. }
  specialize (I4 eq_refl). specialize (I6 eq_refl). cbn [fst snd] in *. rewrite I4 in I8.
  destruct (elevate_finish ek km EK P W) as [c' [Q1 [Q2 [Q3 [Q4 Q5]]]]]; try assumption; try lia.
  - rewrite P2. exact EL.
  - intros K HK CK. rewrite P2 in HK. destruct (I8 K HK ltac:(lia) CK) as [X1 [X2 [X3 X4]]].
    exists (fun j f => if j =? pos ks K - 2 then va K f else if j =? pos ks K - 1 then vb K f else if j =? pos ks K then va (K + 1) f else vb (K + 1) f).
    rewrite P2. split.
    + intros j Hj. destruct (Z.eqb_spec j (pos ks K - 2)) as [->|]; [exact X1|]. destruct (Z.eqb_spec j (pos ks K - 1)) as [->|]; [exact X2|].
      destruct (Z.eqb_spec j (pos ks K)) as [->|]; [exact X3|]. replace j with (pos ks K + 1) by lia. exact X4.
    + intros f t. apply (elevate_2_local ek km K f t EK HK P2 CK).
      * rewrite Z.eqb_refl. reflexivity.
      * destruct (Z.eqb_spec (pos ks K - 1) (pos ks K - 2)); [lia|]. rewrite Z.eqb_refl. reflexivity.
      * destruct (Z.eqb_spec (pos ks K) (pos ks K - 2)); [lia|]. destruct (Z.eqb_spec (pos ks K) (pos ks K - 1)); [lia|]. rewrite Z.eqb_refl. reflexivity.
      * destruct (Z.eqb_spec (pos ks K + 1) (pos ks K - 2)); [lia|]. destruct (Z.eqb_spec (pos ks K + 1) (pos ks K - 1)); [lia|]. destruct (Z.eqb_spec (pos ks K + 1) (pos ks K)); [lia|]. reflexivity.
  - exists c'. split; [exact Q1|]. split; [exact Q2|]. split; [lia|]. split; [exact Q4|exact Q5].
Qed.

Lemma elevate_1 : p = 1 -> regular ks p n -> exists c', nc_degree_elevation c = Ok (true, c') /\ valid c' /\ nc_degree c' = 2 /\
  vsize (nc_points c') = 2 * n - 1 /\ forall t, (0 <= t <= 1)%R -> point_of (nc_evaluate c' t) = point_of (nc_evaluate c t).
Proof.
  intros P G. destruct (elevate_1_hom P G) as [c' [H1 [H2 [H3 [H4 H5]]]]]. exists c'. repeat (split; [assumption|]). intros t T. apply same_hom_points; auto.
Qed.
Lemma elevate_2 : p = 2 -> regular ks p n -> exists c', nc_degree_elevation c = Ok (true, c') /\ valid c' /\ nc_degree c' = 3 /\
  vsize (nc_points c') = n + E /\ forall t, (0 <= t <= 1)%R -> point_of (nc_evaluate c' t) = point_of (nc_evaluate c t).
Proof.
  intros P G. destruct (elevate_2_hom P G) as [c' [H1 [H2 [H3 [H4 H5]]]]]. exists c'. repeat (split; [assumption|]). intros t T. apply same_hom_points; auto.
Qed.
End Elev.
