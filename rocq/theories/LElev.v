(** Degree elevation outside its domain: which curves and surfaces are lost. *)
From Coq Require Import ZArith List Bool Reals Lra Lia Psatz.
From Verif Require Import Base Num MGeometry MNurbs MNurbsSurface SGeom SNurbs SSurface LBase LBlossom LNurbs LNurbs2 LNurbs3 LNurbs4 LNurbs5 LNurbs6 LSurf LSurf2.
Import ListNotations.
Open Scope Z_scope.

Lemma for_inv_or {S} (I : Z -> S -> Prop) (f : fault) (X : Prop) a b (body : Z -> S -> res S) s : a <= b -> I a s ->
  (forall i s, a <= i < b -> I i s -> (exists s', body i s = Ok s' /\ I (i + 1) s') \/ X /\ body i s = Err f) ->
  (exists s', for_ a b body s = Ok s' /\ I b s') \/ X /\ for_ a b body s = Err f.
Proof.
  intros Hab H0 HS. unfold for_.
  assert (forall m i s, i + Z.of_nat m = b -> a <= i -> I i s -> (exists s', loop m i body s = Ok s' /\ I b s') \/ X /\ loop m i body s = Err f) as K.
  { induction m as [|m IH]; intros i x Hi Ha Hx; cbn [loop].
    - left. exists x. replace b with i by lia. auto.
    - destruct (HS i x ltac:(lia) Hx) as [[x' [E Hx']]|[HX E]]; rewrite E; cbn [bind]; [|right; split; [exact HX|reflexivity]]. apply (IH (i + 1)); [lia|lia|exact Hx']. }
  apply K; [lia|lia|exact H0].
Qed.

(** Number of control points made from a quadratic curve whose runs of equal knots have the lengths [km]; [l] runs done. *)
Fixpoint sz2 (km : list Z) (l : nat) : Z :=
  match l with O => 1 | S l' => sz2 km l' + 2 + (if 1 <? nth l' km 0 then 1 else 0) end.
Definition npts (d n : Z) (km : list Z) : Z := if d =? 1 then 2 * n - 1 else if d =? 2 then sz2 km (Z.to_nat (vsize km - 1)) else 0.

Section Bad.
Variable c : NurbsCurve R.
Hypothesis V : valid c.
Let p := nc_degree c.
Let n := vsize (nc_points c).
Let ks := nc_knots c.
Let k := kn ks.
Let N := vsize ks.
Let E := e ks (N - 1).
Variables (ek : list R) (km : list Z).
Hypothesis EK : elevate_knots ks = Ok (ek, km).

(** The last knot of run number [l]. *)
Lemma runs : vsize km = E + 1 /\ exists j : Z -> Z, j (-1) = -1 /\ j E = N - 1 /\
  (forall l, 0 <= l <= E -> vget km l = Ok (j l - j (l - 1)) /\ 0 <= j (l - 1) + 1 <= j l /\ j l < N) /\
  (forall l, 0 <= l < E -> (k (j l) < k (j l + 1)%Z)%R /\ 0 <= j l < N - 1) /\
  (forall l x, 0 <= l <= E -> j (l - 1) < x < j l -> k x = k (x + 1)).
Proof.
  destruct (V_facts c V) as [H1 [H2 [S [H4 H5]]]]. fold p n ks in H1, H2, S, H4, H5; fold k in H4, H5; fold N in H2.
  destruct (ek_facts c V ek km EK) as [_ [_ [_ [_ [_ [_ [SK KM]]]]]]]. fold ks N E in SK, KM.
  split; [exact SK|]. pose proof (E_pos c V) as EP. fold ks N E in EP.
  assert (forall l, 0 <= l <= E -> exists jj, 0 <= jj < N /\ (jj < N - 1 -> chg ks jj = true) /\ (l < E -> jj < N - 1) /\ (l = E -> jj = N - 1) /\ e ks jj = l) as J.
  { intros l Hl. destruct (KM l Hl) as [jj [r [A1 [A2 [A3 [A4 [A5 _]]]]]]]. exists jj. auto. }
  assert (exists f : Z -> Z, forall l, 0 <= l <= E -> 0 <= f l < N /\ (f l < N - 1 -> chg ks (f l) = true) /\ (l < E -> f l < N - 1) /\ (l = E -> f l = N - 1) /\ e ks (f l) = l) as [f F].
  { assert (forall m : nat, exists f : Z -> Z, forall l, 0 <= l <= E -> l < Z.of_nat m -> 0 <= f l < N /\ (f l < N - 1 -> chg ks (f l) = true) /\ (l < E -> f l < N - 1) /\ (l = E -> f l = N - 1) /\ e ks (f l) = l) as G.
    { induction m as [|m [f IH]]; [exists (fun _ => 0); intros; lia|]. destruct (Z.leb_spec (Z.of_nat m) E).
      - destruct (J (Z.of_nat m) ltac:(lia)) as [jj Q]. exists (fun l => if l =? Z.of_nat m then jj else f l). intros l Hl Hm. destruct (Z.eqb_spec l (Z.of_nat m)) as [->|]; [exact Q|apply IH; lia].
      - exists f. intros l Hl Hm. apply IH; lia. }
    destruct (G (Z.to_nat (E + 1))) as [f F]. exists f. intros l Hl. apply F; lia. }
  exists (fun l => if l =? -1 then -1 else f l). split; [reflexivity|].
  destruct (F E ltac:(lia)) as [_ [_ [_ [FE _]]]]. specialize (FE eq_refl).
  split. { destruct (Z.eqb_spec E (-1)); [lia|exact FE]. }
  assert (forall l x, 0 <= l <= E -> (if l - 1 =? -1 then -1 else f (l - 1)) < x < f l -> chg ks x = false) as NC.
  { intros l x Hl Hx. destruct (F l Hl) as [B1 [_ [_ [_ B5]]]]. destruct (chg ks x) eqn:C; [exfalso|reflexivity]. 
    pose proof (e_mono ks (x + 1) (f l) ltac:(destruct (Z.eqb_spec (l - 1) (-1)); [lia|destruct (F (l - 1) ltac:(lia)) as [? _]; lia])) as M.
    assert (0 <= x) by (destruct (Z.eqb_spec (l - 1) (-1)); [lia|destruct (F (l - 1) ltac:(lia)) as [? _]; lia]).
    rewrite e_S, C in M by lia. destruct (Z.eqb_spec (l - 1) (-1)) as [Q|Q].
    - pose proof (e_nonneg ks x). lia.
    - destruct (F (l - 1) ltac:(lia)) as [D1 [D2 [D3 [_ D5]]]]. specialize (D3 ltac:(lia)). specialize (D2 D3).
      pose proof (e_mono ks (f (l - 1) + 1) x ltac:(lia)) as M2. rewrite e_S, D2 in M2 by lia. lia. }
  assert (forall l, 0 <= l <= E -> 0 <= (if l - 1 =? -1 then -1 else f (l - 1)) + 1 <= f l) as MO.
  { intros l Hl. destruct (F l Hl) as [B1 [_ [_ [_ B5]]]]. destruct (Z.eqb_spec (l - 1) (-1)) as [Q|Q]; [lia|].
    destruct (F (l - 1) ltac:(lia)) as [D1 [D2 [D3 [_ D5]]]]. split; [lia|]. destruct (Z.leb_spec (f (l - 1) + 1) (f l)); [lia|].
    pose proof (e_mono ks (f l) (f (l - 1)) ltac:(lia)). lia. }
  split; [|split].
  - intros l Hl. destruct (Z.eqb_spec l (-1)); [lia|]. split; [|split; [apply MO; exact Hl|destruct (F l Hl); lia]].
    destruct (KM l Hl) as [jj [r [A1 [A2 [A3 [A4 [A5 [A6 A7]]]]]]]].
    assert (jj = f l) as ->.
    { destruct (F l Hl) as [B1 [B2 [B3 [B4 B5]]]]. destruct (Z.eq_dec l E) as [El|]; [rewrite A4, B4 by exact El; reflexivity|].
      apply (e_inj ks); try lia; [apply A2; apply A3; lia|apply B2; apply B3; lia]. }
    rewrite A6. f_equal. destruct A7 as [R1 [R2 R3]].
    set (q := if l - 1 =? -1 then -1 else f (l - 1)). specialize (MO l Hl). fold q in MO.
    destruct (Z.lt_trichotomy r (f l - q)) as [L|[L|L]]; [|lia|]; exfalso.
    + destruct R3 as [R3|[R3 R4]]; [lia|]. rewrite (NC l (f l - r) Hl) in R4; [discriminate|]. fold q. lia.
    + unfold q in L. destruct (Z.eqb_spec (l - 1) (-1)) as [Q|Q]; [lia|].
      destruct (F (l - 1) ltac:(lia)) as [D1 [D2 [D3 _]]]. specialize (D2 (D3 ltac:(lia))). unfold q in MO. destruct (Z.eqb_spec (l - 1) (-1)); [lia|].
      rewrite (R2 (f (l - 1))) in D2 by lia. discriminate.
  - intros l Hl. destruct (Z.eqb_spec l (-1)); [lia|]. destruct (F l ltac:(lia)) as [B1 [B2 [B3 _]]]. specialize (B3 ltac:(lia)). split; [|lia].
    apply (chg_true ks S); [fold N; lia|]. apply B2. lia.
  - intros l x Hl Hx. destruct (Z.eqb_spec l (-1)); [lia|]. apply (chg_false ks). apply (NC l x Hl). exact Hx.
Qed.

Lemma km_nth l r : vget km l = Ok r -> nth (Z.to_nat l) km 0 = r.
Proof. intros G. pose proof (vget_range _ _ _ G). pose proof (vget_nth km 0 l ltac:(lia)) as Q. rewrite G in Q. injection Q as ->. reflexivity. Qed.

Lemma bad2_size : p = 2 -> ~ regular ks p n -> sz2 km (Z.to_nat E) <> n + E.
Proof.
  intros P2 NR Q. apply NR. clear NR. destruct (V_facts c V) as [H1 [H2 [S [H4 H5]]]]. fold p n ks in H1, H2, S, H4, H5; fold k in H4, H5; fold N in H2. pose proof (E_pos c V) as EP. fold ks N E in EP.
  destruct runs as [SK [j [J0 [JE [J1 [J2 J3]]]]]].
  set (b := fun l => if 1 <? nth (Z.to_nat l) km 0 then 1 else 0).
  assert (forall l, 0 <= l <= E -> nth (Z.to_nat l) km 0 = j l - j (l - 1)) as KN. { intros l Hl. apply km_nth. apply J1. exact Hl. }
  assert (2 <= j 0) as Z0. { destruct (J2 0 ltac:(lia)) as [L B]. destruct (Z.leb_spec 2 (j 0)); [lia|]. rewrite !H4 in L by lia. lra. }
  assert (j (E - 1) <= n - 1) as ZE. { destruct (J2 (E - 1) ltac:(lia)) as [L B]. destruct (Z.leb_spec (j (E - 1)) (n - 1)); [lia|]. rewrite !H5 in L by lia. lra. }
  assert (forall m : nat, Z.of_nat m < E -> let l := Z.of_nat m in let B := j l + l - sz2 km m - b l in
    0 <= B /\ (B = 0 -> forall x, 1 <= x -> x + 2 <= j l -> (k x < k (x + 2)%Z)%R)) as I.
  { induction m as [|m IH]; intros Hm l B.
    - unfold B, l. cbn [sz2]. change (Z.of_nat 0) with 0. unfold b. rewrite (KN 0) by lia. change (0 - 1) with (-1). rewrite J0. destruct (Z.ltb_spec 1 (j 0 - -1)); [|lia].
      split; [lia|]. intros HB x Hx Hx2. lia.
    - specialize (IH ltac:(lia)). cbv zeta in IH. destruct IH as [I1 I2]. set (l0 := Z.of_nat m) in *.
      assert (l = l0 + 1) as El by (unfold l, l0; lia).
      assert (sz2 km (Datatypes.S m) = sz2 km m + 2 + b l0) as SZ. { cbn [sz2]. unfold b, l0. rewrite Nat2Z.id. reflexivity. }
      assert (b l = if 1 <? j l - j l0 then 1 else 0) as Bl. { unfold b. rewrite KN by lia. replace (l - 1) with l0 by lia. reflexivity. }
      destruct (J1 l ltac:(lia)) as [_ [M1 M2]]. replace (l - 1) with l0 in M1 by lia.
      unfold B. rewrite SZ, Bl. destruct (Z.ltb_spec 1 (j l - j l0)) as [L|L].
      + split; [lia|]. intros HB x Hx Hx2. assert (j l - j l0 <= 2) by lia. destruct (Z.leb_spec (x + 2) (j l0)); [apply I2; lia|].
        destruct (J2 l0 ltac:(lia)) as [L0 B0]. pose proof (S x (j l0) ltac:(lia) ltac:(fold N; lia)) as Q1. pose proof (S (j l0 + 1) (x + 2) ltac:(lia) ltac:(fold N; lia)) as Q2. fold k in Q1, Q2. lra.
      + split; [lia|]. intros HB x Hx Hx2. destruct (Z.leb_spec (x + 2) (j l0)); [apply I2; lia|].
        destruct (J2 l0 ltac:(lia)) as [L0 B0]. pose proof (S x (j l0) ltac:(lia) ltac:(fold N; lia)) as Q1. pose proof (S (j l0 + 1) (x + 2) ltac:(lia) ltac:(fold N; lia)) as Q2. fold k in Q1, Q2. lra. }
  destruct (I (Z.to_nat (E - 1)) ltac:(lia)) as [I1 I2]. rewrite Z2Nat.id in I1, I2 by lia.
  assert (sz2 km (Z.to_nat E) = sz2 km (Z.to_nat (E - 1)) + 2 + b (E - 1)) as SZ. { replace (Z.to_nat E) with (Datatypes.S (Z.to_nat (E - 1))) by lia. cbn [sz2]. unfold b. reflexivity. }
  intros x Hx. rewrite P2. destruct (J2 (E - 1) ltac:(lia)) as [L0 B0].
  assert (j (E - 1) = n - 1) as JN by lia. rewrite JN in *.
  destruct (Z.leb_spec (x + 2) (n - 1)).
  - apply I2; lia.
  - pose proof (S x (n - 1) ltac:(lia) ltac:(fold N; lia)) as Q1. pose proof (S (n - 1 + 1) (x + 2) ltac:(lia) ltac:(fold N; lia)) as Q2. fold k in Q1, Q2 |- *. lra.
Qed.

Lemma bad2_loop : p = 2 -> k 3 = 0%R /\ elevate2 c km = Err FDivZero \/ exists P W, elevate2 c km = Ok (P, W) /\ vsize P = sz2 km (Z.to_nat E) /\ vsize W = sz2 km (Z.to_nat E) /\ Forall (fun w => 0 < w)%R W.
Proof.
  intros P2. destruct (V_facts c V) as [H1 [H2 [S [H4 H5]]]]. fold p n ks in H1, H2, S, H4, H5; fold k in H4, H5; fold N in H2. pose proof (E_pos c V) as EP. fold ks N E in EP.
  destruct runs as [SK [j [J0 [JE [J1 [J2 J3]]]]]].
  assert (forall l, 0 <= l <= E -> nth (Z.to_nat l) km 0 = j l - j (l - 1)) as KN. { intros l Hl. apply km_nth. apply J1. exact Hl. }
  assert (2 <= j 0) as Z0. { destruct (J2 0 ltac:(lia)) as [L B]. destruct (Z.leb_spec 2 (j 0)); [lia|]. rewrite !H4 in L by lia. lra. }
  assert (forall l, 0 <= l < E -> j l <= n - 1) as ZE. { intros l Hl. destruct (J2 l ltac:(lia)) as [L B]. destruct (Z.leb_spec (j l) (n - 1)); [lia|]. rewrite !H5 in L by lia. lra. }
  unfold elevate2. cbv zeta.
  assert (@ndiv R RNum n1 (nofZ 3) = Ok (1 / 3)%R) as -> by (cbn; destruct (Req_EM_T 3 0); [lra|reflexivity]).
  assert (@ndiv R RNum n2 (nofZ 3) = Ok (2 / 3)%R) as -> by (cbn; destruct (Req_EM_T 3 0); [lra|reflexivity]).
  cbn [bind]. rewrite (hp_ok c V) by (fold n; lia). cbn [bind fst snd]. rewrite SK.
  match goal with |- context [for_ 1 (E + 1) ?b ?s0] => destruct (for_inv_or (fun l (st : list pt3 * list R * Z) => let '(s, K) := st in
    K = j (l - 1) - j 0 + 2 /\ vsize (fst s) = sz2 km (Z.to_nat (l - 1)) /\ vsize (snd s) = sz2 km (Z.to_nat (l - 1)) /\ Forall (fun w => 0 < w)%R (snd s)) FDivZero (k 3 = 0%R) 1 (E + 1) b s0) as [[[[P W] K] [EL [_ [I2 [I3 I4]]]]]|[HX EL]] end.
  - lia.
  - split; [change (1 - 1) with 0; lia|]. split; [reflexivity|]. split; [reflexivity|]. repeat constructor. apply (cw_pos c 0 V). fold n. lia.
  - intros l [[P W] K] Hl [I1 [I2 [I3 I4]]]. cbn [fst snd] in I2, I3, I4.
    destruct (J1 (l - 1) ltac:(lia)) as [G0 [M0 _]]. destruct (J1 l ltac:(lia)) as [G1 [M1 _]]. pose proof (ZE (l - 1) ltac:(lia)) as ZL.
    assert (j 0 <= j (l - 1)) as MM.
    { assert (forall m : nat, Z.of_nat m <= E -> j 0 <= j (Z.of_nat m)) as Q. { induction m as [|m IH]; intros Hm; [change (Z.of_nat 0) with 0; lia|]. destruct (J1 (Z.of_nat (Datatypes.S m)) ltac:(lia)) as [_ [B _]]. replace (Z.of_nat (Datatypes.S m) - 1) with (Z.of_nat m) in B by lia. specialize (IH ltac:(lia)). lia. }
      replace (l - 1) with (Z.of_nat (Z.to_nat (l - 1))) by lia. apply Q. lia. }
    assert (2 <= K <= n - 1) as KB by lia.
    rewrite G0. cbn [bind].
    assert (sz2 km (Z.to_nat (l + 1 - 1)) = sz2 km (Z.to_nat (l - 1)) + 2 + (if 1 <? j (l - 1) - j (l - 1 - 1) then 1 else 0)) as SZ.
    { replace (Z.to_nat (l + 1 - 1)) with (Datatypes.S (Z.to_nat (l - 1))) by lia. cbn [sz2]. rewrite KN by lia. reflexivity. }
    pose proof (cw_pos c K V ltac:(fold n; lia)) as W0. pose proof (cw_pos c (K - 1) V ltac:(fold n; lia)) as W1. pose proof (cw_pos c (K - 2) V ltac:(fold n; lia)) as W2.
    rewrite !(hp_ok c V) by (fold n; lia). cbn [bind fst snd].
    assert (exists P1 W1, (if 1 <? j (l - 1) - j (l - 1 - 1) then
       Ok (vpush P (padd (pmul (mkP (hx c (K - 1)) (hy c (K - 1)) (hz c (K - 1))) (2 / 3)%R) (pmul (mkP (hx c (K - 2)) (hy c (K - 2)) (hz c (K - 2))) (1 / 3)%R)),
           vpush W (nadd (nmul (cw c (K - 1)) (2 / 3)%R) (nmul (cw c (K - 2)) (1 / 3)%R))) else Ok (P, W)) = Ok (P1, W1) /\
       vsize P1 = sz2 km (Z.to_nat (l + 1 - 1)) - 2 /\ vsize W1 = sz2 km (Z.to_nat (l + 1 - 1)) - 2 /\ Forall (fun w => 0 < w)%R W1) as [P1 [W1' [E1 [S1 [S2 F1]]]]].
    { destruct (1 <? j (l - 1) - j (l - 1 - 1)); do 2 eexists; (split; [reflexivity|]); rewrite ?vsize_push; (split; [lia|split; [lia|]]); [|exact I4].
      apply Forall_push; [exact I4|]. cbn [nadd nmul RNum]. lra. }
    rewrite E1. cbn [bind fst snd]. rewrite G1. cbn [bind]. destruct (Z.ltb_spec 1 (j l - j (l - 1))).
    + left. cbn [bind]. eexists. split; [reflexivity|]. cbn [fst snd]. rewrite !vsize_push. replace (l + 1 - 1) with l by lia. replace (l + 1 - 1) with l in S1, S2 by lia.
      split; [lia|]. split; [lia|]. split; [lia|]. repeat apply Forall_push; try assumption. cbn [nadd nmul RNum]. lra.
    + rewrite !(vget_nth ks 0%R) by (fold N; lia). cbn [bind]. 
      change (nth (Z.to_nat (K + 1)) ks 0%R) with (k (K + 1)). change (nth (Z.to_nat K) ks 0%R) with (k K). change (nth (Z.to_nat (K + 2)) ks 0%R) with (k (K + 2)).
      cbn [ndiv nsub nmul nofZ RNum]. destruct (Req_EM_T (3 * (k (K + 2)%Z - k K)) 0) as [D|D].
      { right. split; [|reflexivity]. destruct (Req_EM_T (k 3) 0) as [Z3|Z3]; [exact Z3|exfalso]. destruct (J2 0 ltac:(lia)) as [L0 B0].
        assert (j 0 = 2) as JZ.
        { destruct (Z.leb_spec (j 0) 2); [lia|]. exfalso. apply Z3. pose proof (S 2 3 ltac:(lia) ltac:(fold N; lia)) as Q1. fold k in Q1.
          assert (forall m : nat, Z.of_nat m + 2 <= j 0 -> k (Z.of_nat m + 2) = 0%R) as Q.
          { induction m as [|m IH]; intros Hm; [change (Z.of_nat 0 + 2) with 2; apply H4; lia|]. pose proof (J3 0 (Z.of_nat m + 2) ltac:(lia)) as Q. change (0 - 1) with (-1) in Q. rewrite J0 in Q. specialize (Q ltac:(lia)). rewrite IH in Q by lia. replace (Z.of_nat (Datatypes.S m) + 2) with (Z.of_nat m + 2 + 1) by lia. symmetry. exact Q. }
          change 3 with (Z.of_nat 1 + 2). apply Q. lia. }
        replace K with (j (l - 1)) in D by lia. destruct (J2 (l - 1) ltac:(lia)) as [L1 B1].
        pose proof (S (j (l - 1) + 1) (j (l - 1) + 2) ltac:(lia) ltac:(fold N; lia)) as L2. fold k in L2. lra. }
      left. cbn [bind].
      pose proof (S K (K + 1) ltac:(lia) ltac:(fold N; lia)) as L1. pose proof (S (K + 1) (K + 2) ltac:(lia) ltac:(fold N; lia)) as L2. fold k in L1, L2.
      assert (0 <= (k (K + 1)%Z - k K) / (3 * (k (K + 2)%Z - k K)) <= 1 / 3)%R as BR.
      { pose proof (beta_range c V (K + 1) ltac:(lia)) as B. unfold beta in B. fold ks k in B. fold N in B. replace (K + 1 - 1) with K in B by lia. replace (K + 1 + 1) with (K + 2) in B by lia. apply B; [lia|lra]. }
      set (B := ((k (K + 1)%Z - k K) / (3 * (k (K + 2)%Z - k K)))%R) in *. clearbody B.
      eexists. split; [reflexivity|]. cbn [fst snd]. rewrite !vsize_push. replace (l + 1 - 1) with l by lia. replace (l + 1 - 1) with l in S1, S2 by lia.
      split; [lia|]. split; [lia|]. split; [lia|]. repeat apply Forall_push; try assumption; cbn [nadd nmul RNum]; change n1 with 1%R; cbn [nsub]; nra.
  - right. rewrite EL. cbn [bind fst snd] in *. exists P, W. replace (E + 1 - 1) with E in * by lia. auto.
  - left. split; [exact HX|]. rewrite EL. reflexivity.
Qed.
End Bad.

(** What is left of a curve after an elevation outside its domain. *)
Definition ruined (d n : Z) (ks : list R) (c' : NurbsCurve R) : Prop :=
  exists ek km E, elevate_knots ks = Ok (ek, km) /\ clamped ek (d + 1) (n + E) /\ npts d n km <> n + E /\ 0 <= npts d n km /\
    nc_degree c' = d + 1 /\ nc_knots c' = ek /\ vsize (nc_points c') = npts d n km /\ vsize (nc_weights c') = npts d n km /\ nc_nb c' = npts d n km.
Lemma sz2_pos km l : 1 <= sz2 km l.
Proof. induction l; cbn [sz2]; [lia|destruct (1 <? _); lia]. Qed.
Lemma bad_finish c ek km P W : valid c -> nc_degree c < 3 -> elevate_knots (nc_knots c) = Ok (ek, km) ->
  (if nc_degree c =? 1 then elevate1 c else if nc_degree c =? 2 then elevate2 c km else Ok ([], [])) = Ok (P, W) ->
  let m := npts (nc_degree c) (vsize (nc_points c)) km in vsize P = m -> vsize W = m -> Forall (fun w => 0 < w)%R W ->
  m <> vsize (nc_points c) + e (nc_knots c) (vsize (nc_knots c) - 1) ->
  exists c', nc_degree_elevation c = Ok (true, c') /\ ruined (nc_degree c) (vsize (nc_points c)) (nc_knots c) c'.
Proof.
  intros V D EK Q m SP SW F NE. pose proof (ek_clamped c V ek km EK) as C. destruct (V_facts c V) as [H1 _].
  destruct (unhomogenize_ok P W ltac:(lia) F) as [q [EQ [SQ _]]].
  unfold nc_degree_elevation. destruct (Z.leb_spec 3 (nc_degree c)); [lia|]. rewrite EK. cbn [bind]. rewrite Q. cbn [bind fst snd]. rewrite EQ. cbn [bind].
  unfold nc_set_knots. rewrite (clamped_scale _ _ _ C). cbn [bind]. unfold nc_set_degree, nc_set_weights, nc_set_points.
  cbn [nc_degree nc_knots nc_weights nc_points nc_nb nc_tp nc_tw]. unfold vresize. destruct (Z.ltb_spec (nc_degree c + 1 + 1) 0); [lia|]. cbn [bind].
  eexists. split; [reflexivity|]. exists ek, km, (e (nc_knots c) (vsize (nc_knots c) - 1)). fold m.
  split; [exact EK|]. split; [exact C|]. split; [exact NE|]. split; [rewrite <- SP; apply vsize_nonneg|]. cbn [nc_degree nc_knots nc_weights nc_points nc_nb].
  repeat split; lia.
Qed.
Lemma elevate_bad c : valid c -> nc_degree c < 3 -> nc_degree c = 0 \/ ~ regular (nc_knots c) (nc_degree c) (vsize (nc_points c)) ->
  (nc_degree c = 2 /\ kn (nc_knots c) 3 = 0%R /\ nc_degree_elevation c = Err FDivZero) \/ exists c', nc_degree_elevation c = Ok (true, c') /\ ruined (nc_degree c) (vsize (nc_points c)) (nc_knots c) c'.
Proof.
  intros V D B. destruct (V_facts c V) as [H1 [H2 [S [H4 H5]]]]. pose proof (E_pos c V) as EP.
  destruct (elevate_knots_ok (nc_knots c) S ltac:(lia)) as [ek [km [EK _]]]. pose proof (ek_clamped c V ek km EK) as C.
  assert (nc_degree c = 0 \/ nc_degree c = 1 \/ nc_degree c = 2) as [D0|[D0|D0]] by lia.
  - right. apply (bad_finish c ek km [] [] V D EK); rewrite ?D0; cbn [Z.eqb]; try reflexivity; [constructor|unfold npts; cbn [Z.eqb]; lia].
  - destruct B as [B|B]; [lia|]. right. assert (~ regular (nc_knots c) 1 (vsize (nc_points c))) as B1 by (rewrite <- D0; exact B). pose proof (irregular_1 c V D0 B1) as EN.
    destruct (elevate1_sizes c V D0) as [P [W [EL [SP [SW FW]]]]].
    apply (bad_finish c ek km P W V D EK); try assumption; rewrite ?D0; unfold npts; cbn [Z.eqb Pos.eqb]; try assumption. lia.
  - destruct B as [B|B]; [lia|]. destruct (bad2_loop c V ek km EK D0) as [[HX EL]|[P [W [EL [S1 [S2 F]]]]]].
    + left. split; [exact D0|]. split; [exact HX|]. unfold nc_degree_elevation. destruct (Z.leb_spec 3 (nc_degree c)); [lia|]. rewrite EK. cbn [bind]. rewrite D0. cbn [Z.eqb Pos.eqb]. rewrite EL. reflexivity.
    + right. pose proof (bad2_size c V ek km EK D0 B) as NE. destruct (runs c V ek km EK) as [SK _].
      apply (bad_finish c ek km P W V D EK); try assumption; rewrite ?D0; unfold npts; cbn [Z.eqb Pos.eqb]; rewrite ?SK, ?Z.add_simpl_r; try assumption.
Qed.

Lemma ruined_evaluate d n ks c' : ruined d n ks c' -> forall t, nc_evaluate c' t = Err FAssert.
Proof.
  intros [ek [km [E [EK [C [NE [P [D [K [S1 [S2 S3]]]]]]]]]]] t. pose proof C as [_ [C2 _]]. unfold nc_evaluate. rewrite S2, K, D, S3. rewrite Z.eqb_refl. cbn [bind massert].
  destruct (Z.eqb_spec (npts d n km) (vsize ek - (d + 1) - 1)); [lia|]. reflexivity.
Qed.
Lemma elevation_lost c : valid c -> nc_degree c < 3 -> nc_degree c = 0 \/ ~ regular (nc_knots c) (nc_degree c) (vsize (nc_points c)) ->
  (nc_degree c = 2 /\ kn (nc_knots c) 3 = 0%R /\ nc_degree_elevation c = Err FDivZero) \/ exists c', nc_degree_elevation c = Ok (true, c') /\ forall t, nc_evaluate c' t = Err FAssert.
Proof. intros V D B. destruct (elevate_bad c V D B) as [H|[c' [E Q]]]; [left; exact H|]. right. exists c'. split; [exact E|]. exact (ruined_evaluate _ _ _ _ Q). Qed.

Lemma each_curve_or (f : NurbsCurve R -> res (NurbsCurve R)) (fl : fault) (X : Prop) (Q : NurbsCurve R -> Prop) vc :
  (forall j c, vget vc j = Ok c -> (exists c', f c = Ok c' /\ Q c') \/ X /\ f c = Err fl) ->
  (exists vc', each_curve f vc = Ok vc' /\ vsize vc' = vsize vc /\ forall j c, vget vc' j = Ok c -> Q c) \/ X /\ each_curve f vc = Err fl.
Proof.
  intros H. unfold each_curve. match goal with |- context [for_ 0 _ ?b _] =>
  destruct (for_inv_or (fun m l => vsize l = vsize vc /\ (forall j, m <= j -> vget l j = vget vc j) /\ forall j c, j < m -> vget l j = Ok c -> Q c) fl X 0 (vsize vc) b vc) as [[l [E [I1 [I2 I3]]]]|[HX E]] end.
  - apply vsize_nonneg.
  - split; [reflexivity|]. split; [reflexivity|]. intros j c B E. apply vget_range in E. lia.
  - intros m l Hm [I1 [I2 I3]]. rewrite I2 by lia. destruct (vget_in_range vc m Hm) as [c E]. rewrite E. cbn [bind]. destruct (H m c E) as [[c' [E' q]]|[HX E']]; rewrite E'; cbn [bind]; [left|right; split; [exact HX|reflexivity]].
    pose proof (vset_in_range l m c' ltac:(lia)) as ES. rewrite ES. eexists. split; [reflexivity|].
    split; [rewrite (vset_size _ _ _ _ ES); exact I1|]. split.
    + intros j Hj. rewrite (vget_vset _ _ _ _ j ES). destruct (Z.eqb_spec j m); [lia|]. apply I2. lia.
    + intros j d Hj G. rewrite (vget_vset _ _ _ _ j ES) in G. destruct (Z.eqb_spec j m) as [->|]; [inversion G; subst; exact q|]. apply (I3 j d); [lia|exact G].
  - left. exists l. split; [exact E|]. split; [exact I1|]. intros j c G. apply (I3 j c); [apply vget_range in G; lia|exact G].
  - right. split; assumption.
Qed.

Lemma lost_u s : svalid s -> ns_degU s < 3 -> ns_degU s = 0 \/ ~ regular (ns_knotsU s) (ns_degU s) (ns_nbU s) ->
  (ns_degU s = 2 /\ kn (ns_knotsU s) 3 = 0%R /\ ns_degree_elevation_u s = Err FDivZero) \/ exists s', ns_degree_elevation_u s = Ok (true, s') /\ forall u v, ns_evaluate s' u v = Err FAssert.
Proof.
  intros V D B. pose proof V as [V1 [V2 [CU [CV _]]]]. pose proof CV as [C1 _]. pose proof CU as [U1 _].
  unfold ns_degree_elevation_u. destruct (Z.leb_spec 3 (ns_degU s)); [lia|].
  destruct (create_u_curves_ok s V) as [vu [E1 [S1 H1]]]. rewrite E1. cbn [bind].
  destruct (each_curve_or (fun c => do r <- nc_degree_elevation c; Ok (snd r)) FDivZero (ns_degU s = 2 /\ kn (ns_knotsU s) 3 = 0%R) (ruined (ns_degU s) (ns_nbU s) (ns_knotsU s)) vu) as [[vu' [E2 [S2 H2]]]|[[X1 X2] E2]].
  { intros j c G. destruct (H1 j c G) as [VC [DC [KC [NC _]]]].
    destruct (elevate_bad c VC ltac:(lia)) as [[Y1 [Y2 E]]|[c' [E Q]]].
    - rewrite KC, DC, NC. exact B.
    - right. rewrite E. rewrite KC in Y2. split; [split; [lia|exact Y2]|reflexivity].
    - left. exists c'. rewrite E. split; [reflexivity|]. rewrite KC, DC, NC in Q. exact Q. }
  2:{ left. split; [exact X1|]. split; [exact X2|]. rewrite E2. reflexivity. }
  right. rewrite E2. cbn [bind]. destruct vu' as [|c0 tl]; [cbn in S2; lia|]. unfold from_u_curves. set (vu' := c0 :: tl) in *. assert (vget vu' 0 = Ok c0) as G0 by reflexivity.
  destruct (H2 0 c0 G0) as [ek [km [E [EK [C [NE [P [D0 [K0 [N1 [N2 N3]]]]]]]]]]].
  unfold ns_set_knots_u. rewrite K0, (clamped_scale _ _ _ C). cbn [bind].
  match goal with |- context [for_ 0 _ ?b ([], [])] => destruct (for_inv (fun _ _ => True) 0 (vsize vu') b ([], [])) as [[Q W] [EF _]] end; [apply vsize_nonneg|exact I| |].
  { intros i x Hi _. destruct (vget_in_range vu' i Hi) as [c G]. rewrite G. cbn [bind]. eexists. split; [reflexivity|exact I]. }
  rewrite EF. cbn [bind fst snd]. unfold ns_set_weights, ns_set_points, nc_nb_points. cbn [ns_degU ns_degV ns_nbU ns_nbV ns_closedU ns_closedV ns_knotsU ns_knotsV ns_weights ns_points ns_tpU ns_tpV ns_twU ns_twV].
  match goal with |- context [ns_set_degree ?s' ?a ?b] => destruct (set_degree_s s' a b ltac:(lia) ltac:(lia)) as [x1 [x2 [x3 [x4 [ED _]]]]]; rewrite ED end.
  cbn [bind]. eexists. split; [reflexivity|]. intros u v. unfold ns_evaluate. cbn [ns_degU ns_degV ns_nbU ns_nbV ns_closedU ns_closedV ns_knotsU ns_knotsV ns_weights ns_points ns_tpU ns_tpV ns_twU ns_twV].
  destruct (vsize Q =? vsize W); [|reflexivity]. cbn [bind massert].
  destruct (find_knot_span_total ek u) as [r [-> _]]. cbn [bind]. destruct (find_knot_span_total (ns_knotsV s) v) as [r' [-> _]]. cbn [bind].
  rewrite ?N3, ?N1, D0. pose proof C as [_ [C2 _]]. destruct (Z.eqb_spec (npts (ns_degU s) (ns_nbU s) km) (vsize ek - (ns_degU s + 1) - 1)); [lia|]. reflexivity.
Qed.
Lemma lost_v s : svalid s -> ns_degV s < 3 -> ns_degV s = 0 \/ ~ regular (ns_knotsV s) (ns_degV s) (ns_nbV s) ->
  (ns_degV s = 2 /\ kn (ns_knotsV s) 3 = 0%R /\ ns_degree_elevation_v s = Err FDivZero) \/ exists s', ns_degree_elevation_v s = Ok (true, s') /\ forall u v, ns_evaluate s' u v = Err FAssert.
Proof.
  intros V D B. pose proof V as [V1 [V2 [CU [CV _]]]]. pose proof CV as [C1 _]. pose proof CU as [U1 _].
  unfold ns_degree_elevation_v. destruct (Z.leb_spec 3 (ns_degV s)); [lia|].
  destruct (create_v_curves_ok s V) as [vu [E1 [S1 H1]]]. rewrite E1. cbn [bind].
  destruct (each_curve_or (fun c => do r <- nc_degree_elevation c; Ok (snd r)) FDivZero (ns_degV s = 2 /\ kn (ns_knotsV s) 3 = 0%R) (ruined (ns_degV s) (ns_nbV s) (ns_knotsV s)) vu) as [[vu' [E2 [S2 H2]]]|[[X1 X2] E2]].
  { intros j c G. destruct (H1 j c G) as [VC [DC [KC [NC _]]]].
    destruct (elevate_bad c VC ltac:(lia)) as [[Y1 [Y2 E]]|[c' [E Q]]].
    - rewrite KC, DC, NC. exact B.
    - right. rewrite E. rewrite KC in Y2. split; [split; [lia|exact Y2]|reflexivity].
    - left. exists c'. rewrite E. split; [reflexivity|]. rewrite KC, DC, NC in Q. exact Q. }
  2:{ left. split; [exact X1|]. split; [exact X2|]. rewrite E2. reflexivity. }
  right. rewrite E2. cbn [bind]. destruct vu' as [|c0 tl]; [cbn in S2; lia|]. unfold from_v_curves. set (vu' := c0 :: tl) in *. assert (vget vu' 0 = Ok c0) as G0 by reflexivity.
  destruct (H2 0 c0 G0) as [ek [km [E [EK [C [NE [P [D0 [K0 [N1 [N2 N3]]]]]]]]]]].
  unfold ns_set_knots_v. rewrite K0, (clamped_scale _ _ _ C). cbn [bind].
  cbn [ns_degU ns_degV ns_nbU ns_nbV ns_closedU ns_closedV ns_knotsU ns_knotsV ns_weights ns_points ns_tpU ns_tpV ns_twU ns_twV]. unfold nc_nb_points. rewrite ?N3, ?N1.
  set (np := npts (ns_degV s) (ns_nbV s) km) in *. set (m := ns_nbU s) in *.
  destruct (vresize_ok (@nil pt3) (m * np) P0 ltac:(nia)) as [vp [F1 Q1]]. destruct (vresize_ok (@nil R) (m * np) n0 ltac:(nia)) as [vw [F2 Q2]].
  rewrite F1. cbn [bind]. rewrite F2. cbn [bind].
  match goal with |- context [for_ 0 m ?b (vp, vw)] =>
  destruct (for_inv (fun _ q => vsize (fst q) = m * np /\ vsize (snd q) = m * np) 0 m b (vp, vw)) as [[Q W] [EF [L1 L2]]] end; [lia|split; assumption| |].
  { intros i q Hi [J1 J2]. destruct (vget_in_range vu' i ltac:(lia)) as [c G]. rewrite G. cbn [bind].
    destruct (H2 i c G) as [ek' [km' [E' [EK' [_ [_ [_ [_ [_ [M1 [M2 _]]]]]]]]]]]. rewrite EK in EK'. injection EK' as <- <-. fold np in M1, M2.
    apply (for_inv (fun (_ : Z) (q : list pt3 * list R) => vsize (fst q) = m * np /\ vsize (snd q) = m * np)); [lia|split; assumption|]. intros v [P' W'] Hv [X1 X2]. cbn [fst snd] in *.
    destruct (vget_in_range (nc_points c) v ltac:(lia)) as [p0 ->]. cbn [bind].
    pose proof (vset_in_range P' (i + v * m) p0 ltac:(nia)) as EP. rewrite EP. cbn [bind]. destruct (vget_in_range (nc_weights c) v ltac:(lia)) as [w0 ->]. cbn [bind].
    pose proof (vset_in_range W' (i + v * m) w0 ltac:(nia)) as EW. rewrite EW. cbn [bind]. eexists. split; [reflexivity|]. cbn [fst snd].
    rewrite (vset_size _ _ _ _ EP), (vset_size _ _ _ _ EW). auto. }
  rewrite EF. cbn [bind fst snd] in *. unfold ns_set_weights, ns_set_points. cbn [ns_degU ns_degV ns_nbU ns_nbV ns_closedU ns_closedV ns_knotsU ns_knotsV ns_weights ns_points ns_tpU ns_tpV ns_twU ns_twV].
  match goal with |- context [ns_set_degree ?s' ?a ?b] => destruct (set_degree_s s' a b ltac:(lia) ltac:(lia)) as [x1 [x2 [x3 [x4 [ED _]]]]]; rewrite ED end.
  cbn [bind]. eexists. split; [reflexivity|]. intros u v. unfold ns_evaluate. cbn [ns_degU ns_degV ns_nbU ns_nbV ns_closedU ns_closedV ns_knotsU ns_knotsV ns_weights ns_points ns_tpU ns_tpV ns_twU ns_twV].
  destruct (vsize Q =? vsize W); [|reflexivity]. cbn [bind massert].
  destruct (find_knot_span_total (ns_knotsU s) u) as [r [-> _]]. cbn [bind]. destruct (find_knot_span_total ek v) as [r' [-> _]]. cbn [bind].
  destruct (m =? vsize (ns_knotsU s) - ns_degU s - 1); [|reflexivity]. cbn [bind massert].
  rewrite ?N3, ?N1, D0. pose proof C as [_ [C2 _]]. destruct (Z.eqb_spec np (vsize ek - (ns_degV s + 1) - 1)); [lia|]. reflexivity.
Qed.
