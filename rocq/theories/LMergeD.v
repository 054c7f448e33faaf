(** merge_vertices in doubles, and welding what an STL file has taken apart. *)
From Coq Require Import ZArith List Bool Reals Lra Lia Psatz Sorted.
From Flocq Require Import Core Relative IEEE754.Binary IEEE754.Bits IEEE754.BinarySingleNaN.
From Verif Require Import LClosed Base Num MGeometry MKernel MMesh MMeshRun MUtil MStream MStl MF64 SMesh SReach SGeom SMeasure SUtil SImage SStl SErr SMerge
  LBase LMesh LReach LGeom LMeasure LMeasure2 LStl LStl2 LF64 LF64Arith LF64Ord LErr1 LErr2 LErr3 LErr4 LErr7 LMerge LMergeG LGeo2 LErrEx LErrR LErrF.
Import ListNotations.
Open Scope R_scope.

Lemma ltb_fin (x y : f64) : fin64 x = true -> fin64 y = true -> (f64_ltb x y = true <-> V64 x < V64 y).
Proof. intros Fx Fy. rewrite ltb64. rewrite !ext_fin by assumption. split; [tauto|]. intros H. destruct x; try discriminate; destruct y; try discriminate; auto. Qed.
Lemma sq_near d e u : Rabs e <= u -> 0 <= u <= 1 / 1000 -> Rabs ((d * (1 + e)) * (d * (1 + e)) - d * d) <= 2.01 * u * (d * d).
Proof.
  intros H Hu. replace ((d * (1 + e)) * (d * (1 + e)) - d * d) with ((2 * e + e * e) * (d * d)) by ring. rewrite Rabs_mult. pose proof (Rle_0_sqr d) as D. unfold Rsqr in D. rewrite (Rabs_pos_eq (d * d)) by exact D.
  apply Rmult_le_compat_r; [exact D|]. apply Rabs_le_inv in H. assert (e * e <= u * u) by nra. assert (u * u <= u * (1 / 1000)) by nra. apply Rabs_le. assert (0 <= e * e) by nra. lra.
Qed.
Lemma distance_square_e (p q : Point3 f64) k : (k <= 400)%Z -> fits_pt k p -> fits_pt k q -> let D := dist3 (val_pt p) (val_pt q) in
  fin64 (distance_square p q) = true /\ Rabs (V64 (distance_square p q) - D * D) <= 7 * uu * (D * D) + 8 * eta.
Proof.
  intros Hk ((F1 & B1) & (F2 & B2) & (F3 & B3)) ((G1 & C1) & (G2 & C2) & (G3 & C3)) D.
  assert (bpow radix2 (k + 1) = 2 * bpow radix2 k) as K1 by (rewrite bpow_plus; change (bpow radix2 1) with 2; ring). assert (bpow radix2 (k + 2) = 4 * bpow radix2 k) as K2 by (rewrite bpow_plus; change (bpow radix2 2) with 4; ring).
  assert (bpow radix2 (k + 1) <= bpow radix2 1000) as K by (apply bpow_le; lia). pose proof (bpow_gt_0 radix2 k) as K0. pose proof uu_pos as U0. assert (uu <= 1 / 1000) as U1 by (rewrite uu_val; lra).
  assert (forall x y : f64, Rabs (V64 x) <= bpow radix2 k -> Rabs (V64 y) <= bpow radix2 k -> Rabs (V64 x - V64 y) <= bpow radix2 (k + 1)) as SB by (intros x y H1 H2; apply Rabs_le_inv in H1, H2; apply Rabs_le; lra).
  destruct (sub_rel (px p) (px q) _ F1 G1 (SB _ _ B1 C1) K) as (d1 & U1' & E1 & H1). destruct (sub_rel (py p) (py q) _ F2 G2 (SB _ _ B2 C2) K) as (d2 & U2' & E2 & H2). destruct (sub_rel (pz p) (pz q) _ F3 G3 (SB _ _ B3 C3) K) as (d3 & U3' & E3 & H3).
  assert (forall x y d, Rabs (V64 x - V64 y) <= bpow radix2 (k + 1) -> Rabs d <= uu -> Rabs ((V64 x - V64 y) * (1 + d)) <= bpow radix2 (k + 2)) as BB.
  { intros x y d X Y. rewrite Rabs_mult. replace (bpow radix2 (k + 2)) with (bpow radix2 (k + 1) * 2) by lra. apply Rabs_le_inv in Y. apply Rmult_le_compat; try apply Rabs_pos; [exact X|]. apply Rabs_le. lra. }
  destruct (norm_square_e (b64_minus mode_NE (px p) (px q)) (b64_minus mode_NE (py p) (py q)) (b64_minus mode_NE (pz p) (pz q)) (k + 2) H1 H2 H3 ltac:(lia)) as (F & P & Q0 & E).
  { rewrite E1. apply BB; [apply SB; assumption|exact U1']. } { rewrite E2. apply BB; [apply SB; assumption|exact U2']. } { rewrite E3. apply BB; [apply SB; assumption|exact U3']. }
  split; [exact F|]. change (distance_square p q) with (b64_plus mode_NE (b64_plus mode_NE (b64_mult mode_NE (b64_minus mode_NE (px p) (px q)) (b64_minus mode_NE (px p) (px q))) (b64_mult mode_NE (b64_minus mode_NE (py p) (py q)) (b64_minus mode_NE (py p) (py q)))) (b64_mult mode_NE (b64_minus mode_NE (pz p) (pz q)) (b64_minus mode_NE (pz p) (pz q)))).
  assert (D * D = (V64 (px p) - V64 (px q)) * (V64 (px p) - V64 (px q)) + (V64 (py p) - V64 (py q)) * (V64 (py p) - V64 (py q)) + (V64 (pz p) - V64 (pz q)) * (V64 (pz p) - V64 (pz q))) as DD.
  { unfold D, dist3, len3. rewrite sqrt_sqrt; [reflexivity|]. unfold dot3. set (w := sub3 _ _). nra. }
  pose proof (sq_near (V64 (px p) - V64 (px q)) d1 uu U1' ltac:(lra)) as S1. pose proof (sq_near (V64 (py p) - V64 (py q)) d2 uu U2' ltac:(lra)) as S2. pose proof (sq_near (V64 (pz p) - V64 (pz q)) d3 uu U3' ltac:(lra)) as S3.
  rewrite E1, E2, E3 in E, Q0. set (s := V64 (b64_plus _ _ _)) in *. rewrite DD. set (x := V64 (px p) - V64 (px q)) in *. set (y := V64 (py p) - V64 (py q)) in *. set (z := V64 (pz p) - V64 (pz q)) in *.
  assert (0 <= x * x /\ 0 <= y * y /\ 0 <= z * z) as (X0 & Y0 & Z0) by (repeat split; apply Rle_0_sqr). set (x2 := x * x) in *. set (y2 := y * y) in *. set (z2 := z * z) in *. set (xx := x * (1 + d1) * (x * (1 + d1))) in *. set (yy := y * (1 + d2) * (y * (1 + d2))) in *. set (zz := z * (1 + d3) * (z * (1 + d3))) in *.
  clearbody x2 y2 z2 xx yy zz s. rewrite uu_val in *. apply Rabs_le_inv in S1, S2, S3, E. apply Rabs_le. pose proof eta_pos. lra.
Qed.
Lemma near_means (p q : Point3 f64) (tol : f64) k : (k <= 400)%Z -> fits_pt k p -> fits_pt k q -> fits 400 tol -> bpow radix2 (-400) <= Rabs (val tol) -> let D := dist3 (val_pt p) (val_pt q) in
  (found_near tol p q = true -> D < (1 + bpow radix2 (-50)) * Rabs (val tol)) /\ (found_near tol p q = false -> (1 - bpow radix2 (-50)) * Rabs (val tol) <= D).
Proof.
  intros Hk Hp Hq [Ft Bt] Ht D. destruct (distance_square_e p q k Hk Hp Hq) as [F E]. fold D in E.
  destruct (sqr_e tol 400 Ft Bt ltac:(lia)) as (Fm & _ & Em & _). unfold found_near. change (nltb (distance_square p q) (nmul tol tol)) with (f64_ltb (distance_square p q) (b64_mult mode_NE tol tol)).
  pose proof (ltb_fin _ _ F Fm) as L. set (s := V64 (distance_square p q)) in *. set (t := V64 (b64_mult mode_NE tol tol)) in *. set (c := f64_ltb _ _) in *.
  assert (0 <= D) as D0 by (unfold D, dist3, len3; apply sqrt_pos). assert (V64 tol * V64 tol = Rabs (val tol) * Rabs (val tol)) as A2 by (rewrite <- Rabs_mult; symmetry; apply Rabs_pos_eq, Rle_0_sqr). rewrite A2 in Em.
  set (A := Rabs (val tol)) in *. assert (9 * eta <= uu * (A * A)) as EA.
  { apply Rle_trans with (uu * (bpow radix2 (-400) * bpow radix2 (-400))).
    - apply Rle_trans with (16 * eta); [pose proof eta_pos; lra|]. unfold eta, uu. change 16 with (bpow radix2 4). rewrite <- !bpow_plus. apply bpow_le. lia.
    - apply Rmult_le_compat_l; [apply Rlt_le, uu_pos|]. pose proof (bpow_ge_0 radix2 (-400)). apply Rmult_le_compat; assumption. }
  assert (0 < A) as A0 by (eapply Rlt_le_trans; [apply bpow_gt_0|exact Ht]). assert (bpow radix2 (-50) = 8 * uu) as W by (rewrite uu_val; change (bpow radix2 (-50)) with (/ 1125899906842624); lra). rewrite W.
  pose proof uu_pos as U0. assert (uu <= 1 / 1000) as U1 by (rewrite uu_val; lra). apply Rabs_le_inv in E, Em. pose proof eta_pos as E0. clearbody s t D A c.
  split; intros H.
  - assert (s < t) as ST by (apply L; exact H). apply Rnot_le_lt. intros G.
    assert ((1 + 8 * uu) * A * ((1 + 8 * uu) * A) <= D * D) as GG by (apply Rmult_le_compat; nra).
    assert ((1 - 7 * uu) * (D * D) < (1 + 2 * uu) * (A * A)) as X by lra.
    assert ((1 - 7 * uu) * ((1 + 8 * uu) * (1 + 8 * uu) * (A * A)) <= (1 - 7 * uu) * (D * D)) as Y by (apply Rmult_le_compat_l; lra).
    assert (0 < A * A) as AA by nra. assert ((1 + 2 * uu) <= (1 - 7 * uu) * ((1 + 8 * uu) * (1 + 8 * uu))) as Z by nra.
    assert ((1 + 2 * uu) * (A * A) <= (1 - 7 * uu) * ((1 + 8 * uu) * (1 + 8 * uu)) * (A * A)) by (apply Rmult_le_compat_r; lra). lra.
  - assert (t <= s) as ST. { apply Rnot_lt_le. intros X. apply L in X. congruence. } apply Rnot_lt_le. intros G.
    assert (0 <= (1 - 8 * uu) * A) as G0 by (apply Rmult_le_pos; lra).
    assert (D * D <= (1 - 8 * uu) * A * ((1 - 8 * uu) * A)) as GG by (apply Rmult_le_compat; lra).
    assert ((1 - 2 * uu) * (A * A) <= (1 + 7 * uu) * (D * D)) as X by lra.
    assert ((1 + 7 * uu) * (D * D) <= (1 + 7 * uu) * ((1 - 8 * uu) * (1 - 8 * uu) * (A * A))) as Y by (apply Rmult_le_compat_l; lra).
    assert (0 < A * A) as AA by nra. assert ((1 + 7 * uu) * ((1 - 8 * uu) * (1 - 8 * uu)) < (1 - 2 * uu)) as Z by nra.
    assert ((1 + 7 * uu) * ((1 - 8 * uu) * (1 - 8 * uu)) * (A * A) < (1 - 2 * uu) * (A * A)) by (apply Rmult_lt_compat_r; lra). lra.
Qed.

Lemma merge_doubles (m : Mesh f64) a (tol : f64) k : reach m -> shows m a -> (k <= 400)%Z -> Forall (fits_pt k) (averts a) -> fits 400 tol -> bpow radix2 (-400) <= Rabs (val tol) ->
  exists m' ks f, merge_vertices m tol = Ok m' /\ reach m' /\
    shows m' (mkA (map (fun k => pt a k zero_pt) ks) (map (fun t => (map_triple f t, true)) (live a)) (acolor a)) /\
    StronglySorted Z.lt ks /\ (forall k, In k ks -> (0 <= k < len (averts a))%Z) /\
    (forall i j, In i ks -> In j ks -> i <> j -> (1 - bpow radix2 (-50)) * Rabs (val tol) <= dist3 (pt (val_mesh a) i O3) (pt (val_mesh a) j O3)) /\
    (forall i, (0 <= i < len (averts a))%Z -> exists k, (0 <= f i)%Z /\ nth_error ks (Z.to_nat (f i)) = Some k /\
        (k = i \/ (k < i)%Z /\ dist3 (pt (val_mesh a) i O3) (pt (val_mesh a) k O3) < (1 + bpow radix2 (-50)) * Rabs (val tol))).
Proof.
  intros R S Hk HF Ft Ht. destruct (merge_any m a tol zero_pt R S) as (m' & ks & f & E & R' & S' & SO & KS & FAR & F).
  assert (forall i, fits_pt k (pt a i zero_pt)) as PF by (intros i; apply pt_fits; exact HF).
  exists m', ks, f. split; [exact E|]. split; [exact R'|]. split; [exact S'|]. split; [exact SO|]. split; [exact KS|]. split.
  - intros i j Hi Hj NE. rewrite !pt_val. destruct (Z_lt_le_dec j i) as [L|L].
    + apply (near_means _ _ tol k Hk (PF i) (PF j) Ft Ht). apply FAR; assumption.
    + rewrite dist3_sym. apply (near_means _ _ tol k Hk (PF j) (PF i) Ft Ht). apply FAR; try assumption. lia.
  - intros i Hi. destruct (F i Hi) as (x & F0 & FK & [FD|[L N]]); exists x; (split; [exact F0|]); (split; [exact FK|]); [left; exact FD|right]. split; [exact L|]. rewrite !pt_val. apply (near_means _ _ tol k Hk (PF i) (PF x) Ft Ht). exact N.
Qed.

Lemma shown_range (m : Mesh f64) a : reach m -> shows m a -> forall x y z, In (x, y, z) (live a) -> (0 <= x < len (averts a) /\ 0 <= y < len (averts a) /\ 0 <= z < len (averts a))%Z.
Proof.
  intros R S x y z H. rewrite (shows_unique m a (abs m) S (shows_abs m)) in *. exact (live_in m x y z (reach_wf m R) H).
Qed.
Lemma weld_doubles (m : Mesh f64) a (tol : f64) k : reach m -> shows m a -> (k <= 400)%Z -> Forall (fits_pt k) (averts a) -> fits 400 tol -> bpow radix2 (-400) <= Rabs (val tol) ->
  (forall p q, In p (averts (val_mesh a)) -> In q (averts (val_mesh a)) -> p = q \/ (1 + bpow radix2 (-50)) * Rabs (val tol) <= dist3 p q) ->
  exists m' a', merge_vertices m tol = Ok m' /\ reach m' /\ shows m' a' /\
    NoDup (averts (val_mesh a')) /\ (forall p, In p (averts (val_mesh a')) <-> In p (averts (val_mesh a))) /\ faces (val_mesh a') = faces (val_mesh a) /\
    (closed_surface (faces (val_mesh a)) -> index_closed (live a')).
Proof.
  intros R S Hk HF Ft Ht SEP. destruct (merge_doubles m a tol k R S Hk HF Ft Ht) as (m' & ks & f & E & R' & S' & SO & KS & FAR & F).
  set (a' := mkA (map (fun k => pt a k zero_pt) ks) (map (fun t => (map_triple f t, true)) (live a)) (acolor a)) in *.
  exists m', a'. split; [exact E|]. split; [exact R'|]. split; [exact S'|].
  assert (0 < Rabs (val tol)) as T0 by (eapply Rlt_le_trans; [apply bpow_gt_0|exact Ht]).
  assert (0 < (1 - bpow radix2 (-50)) * Rabs (val tol)) as T1. { apply Rmult_lt_0_compat; [|exact T0]. change (bpow radix2 (-50)) with (/ 1125899906842624). lra. }
  assert (forall i, (0 <= i < len (averts a))%Z -> In (pt (val_mesh a) i O3) (averts (val_mesh a))) as IN.
  { intros i Hi. unfold pt. apply nth_In. unfold val_mesh. cbn [averts]. rewrite map_length. unfold len in Hi. lia. }
  assert (averts (val_mesh a') = map (fun k => pt (val_mesh a) k O3) ks) as AV. { unfold val_mesh at 1, a'. cbn [averts]. rewrite map_map. apply map_ext. intros i. symmetry. apply pt_val. }
  assert (forall p, dist3 p p = 0) as SH. { intros p. unfold dist3, len3, sub3, dot3. cbn [px py pz]. rewrite !Rminus_diag_eq by reflexivity. rewrite !Rmult_0_l, !Rplus_0_l. apply sqrt_0. }
  assert (NoDup (averts (val_mesh a'))) as ND.
  { rewrite AV. clear - SO FAR SH T1. pose proof (strongly_sorted_lt_nth ks SO) as ND. clear SO. induction ND as [|k ks NI ND IH]; cbn [map]; constructor.
    - intros H. apply in_map_iff in H. destruct H as [j [Ej Hj]]. pose proof (FAR j k (or_intror Hj) (or_introl eq_refl) ltac:(intros ->; contradiction)) as X. rewrite Ej, SH in X. lra.
    - apply IH. intros i j Hi Hj. apply FAR; right; assumption. }
  assert (forall i, (0 <= i < len (averts a))%Z -> pt (val_mesh a') (f i) O3 = pt (val_mesh a) i O3) as PF.
  { intros i Hi. destruct (F i Hi) as [k0 [F0 [FK FD]]]. unfold pt at 1. rewrite AV. rewrite (nth_error_nth (map (fun k => pt (val_mesh a) k O3) ks) (Z.to_nat (f i)) O3 (x := pt (val_mesh a) k0 O3)) by (rewrite nth_error_map, FK; reflexivity).
    destruct FD as [->|[KI SHK]]; [reflexivity|]. pose proof (KS k0 (nth_error_In _ _ FK)) as HK. destruct (SEP _ _ (IN i Hi) (IN k0 HK)) as [EQ|NS]; [symmetry; exact EQ|lra]. }
  pose proof (shown_range m a R S) as RG.
  assert (live a' = map (map_triple f) (live a)) as LV.
  { unfold live at 1. cbn [atris a']. generalize (live a). clear. intros l. induction l as [|t ts IH]; [reflexivity|]. cbn [map filter snd fst]. f_equal. exact IH. }
  assert (faces (val_mesh a') = faces (val_mesh a)) as FA.
  { unfold faces. change (live (val_mesh a')) with (live a'). change (live (val_mesh a)) with (live a). rewrite LV, map_map. apply map_ext_in. intros [[x y] z] H. destruct (RG x y z H) as [X [Y Z0]]. cbn [map_triple corners]. rewrite !PF by assumption. reflexivity. }
  split; [exact ND|]. split; [|split; [exact FA|]].
  - intros p. rewrite AV, in_map_iff. split.
    + intros [k0 [<- Hk0]]. apply IN, KS, Hk0.
    + intros H. apply (In_nth _ _ O3) in H. destruct H as [i [Hi <-]]. unfold val_mesh in Hi. cbn [averts] in Hi. rewrite map_length in Hi. assert (0 <= Z.of_nat i < len (averts a))%Z as Hi' by (unfold len; lia). destruct (F _ Hi') as [k0 [F0 [FK FD]]]. exists k0. split; [|exact (nth_error_In _ _ FK)].
      replace (nth i (averts (val_mesh a)) O3) with (pt (val_mesh a) (Z.of_nat i) O3) by (unfold pt; rewrite Nat2Z.id; reflexivity). rewrite <- (PF _ Hi'). unfold pt at 2. rewrite AV. symmetry. apply nth_error_nth. rewrite nth_error_map, FK. reflexivity.
  - intros C. change (live a') with (live (val_mesh a')). apply closed_by_index; [|exact ND|rewrite FA; exact C].
    intros x y z H. change (live (val_mesh a')) with (live a') in H. destruct (shown_range m' a' R' S' x y z H) as (X & Y & Z0). unfold val_mesh, len. cbn [averts]. rewrite map_length. auto.
Qed.

Lemma weld_stl (m m0 : Mesh f64) a (tol : f64) k : reach m -> shows m a -> reach m0 -> (-100 <= k <= 100)%Z -> Forall (fits_pt k) (averts a) -> (len (live a) < 2147483648)%Z -> fits 400 tol -> bpow radix2 (-400) <= Rabs (val tol) ->
  (forall p q, In p (averts (val_mesh a)) -> In q (averts (val_mesh a)) -> p = q \/ (1 + bpow radix2 (-50)) * Rabs (val tol) + bpow radix2 (k - 22) <= dist3 p q) -> closed_surface (faces (val_mesh a)) ->
  exists l m1 m2 b, stl_save m = Ok l /\ stl_load l m0 = Ok (true, m1) /\ merge_vertices m1 tol = Ok m2 /\ reach m2 /\ shows m2 b /\ Forall2 (faces_within (bpow radix2 (k - 23))) (faces (val_mesh a)) (faces (val_mesh b)) /\ NoDup (averts (val_mesh b)) /\ index_closed (live b).
Proof.
  intros R S R0 Hk HF HL Ft Ht SEP CL. destruct (stl_round_trip m m0 a zero_pt R S R0 HL f_bits_range) as (l & m1 & E1 & _ & _ & E2 & R1 & S1).
  set (b := mkA (map single (soup zero_pt a)) (soup_tris (length (live a))) (get_color m0)) in *.
  assert (faces (val_mesh b) = map (LErrF.m3 r32) (faces (val_mesh a))) as FB. { unfold b. rewrite faces_soup. apply map_faces. intros i. apply (single_pt k _ Hk (pt_fits a k i HF)). }
  pose proof (shown_range m a R S) as RG.
  assert (forall q, In q (soup zero_pt a) -> fits_pt k q /\ In (val_pt q) (averts (val_mesh a))) as SO.
  { intros q Hq. unfold soup in Hq. apply in_flat_map in Hq. destruct Hq as ([[x y] z] & Hl & Hq). destruct (RG x y z Hl) as (X & Y & Z0).
    assert (forall i, (0 <= i < len (averts a))%Z -> fits_pt k (pt a i zero_pt) /\ In (val_pt (pt a i zero_pt)) (averts (val_mesh a))) as PI.
    { intros i Hi. split; [apply pt_fits; exact HF|]. unfold val_mesh. cbn [averts]. apply in_map. unfold pt. apply nth_In. unfold len in Hi. lia. }
    destruct Hq as [<-|[<-|[<-|[]]]]; apply PI; assumption. }
  destruct (weld_doubles m1 b tol k R1 S1 ltac:(lia)) as (m2 & c & E3 & R2 & S2 & ND & _ & FA & IC).
  - unfold b. cbn [averts]. apply Forall_forall. intros p Hp. apply in_map_iff in Hp. destruct Hp as (q & <- & Hq). apply (single_pt k _ Hk). apply SO, Hq.
  - exact Ft.
  - exact Ht.
  - intros p q Hp Hq. unfold b, val_mesh in Hp, Hq. cbn [averts] in Hp, Hq. rewrite map_map in Hp, Hq. apply in_map_iff in Hp, Hq. destruct Hp as (p0 & <- & Hp). destruct Hq as (q0 & <- & Hq).
    destruct (SO p0 Hp) as [Fp Ip]. destruct (SO q0 Hq) as [Fq Iq]. destruct (single_pt k p0 Hk Fp) as (_ & Ep & (_ & _ & Np)). destruct (single_pt k q0 Hk Fq) as (_ & Eq & (_ & _ & Nq)). rewrite Ep, Eq.
    destruct (SEP _ _ Ip Iq) as [EQ|D]; [left; rewrite EQ; reflexivity|right].
    pose proof (bpow_ge_0 radix2 (k - 24)) as B0. assert (bpow radix2 (k - 22) = 4 * bpow radix2 (k - 24)) as B4. { replace (k - 22)%Z with (2 + (k - 24))%Z by lia. rewrite bpow_plus. reflexivity. }
    pose proof (len3_in_cube (sub3 (r32 (val_pt p0)) (val_pt p0)) _ Np B0) as Lp. pose proof (len3_in_cube (sub3 (r32 (val_pt q0)) (val_pt q0)) _ Nq B0) as Lq.
    pose proof (len3_lip (sub3 (r32 (val_pt p0)) (r32 (val_pt q0))) (sub3 (val_pt p0) (val_pt q0))) as L.
    set (P := val_pt p0) in *. set (Q := val_pt q0) in *. set (P' := r32 P) in *. set (Q' := r32 Q) in *.
    pose proof (len3_triangle (sub3 P' P) (sub3 Q Q')) as TR. assert (sub3 (sub3 P' Q') (sub3 P Q) = add3 (sub3 P' P) (sub3 Q Q')) as I2 by (unfold sub3, add3; cbn [px py pz]; f_equal; ring).
    rewrite <- I2 in TR. assert (len3 (sub3 Q Q') = len3 (sub3 Q' Q)) as I3 by (apply (dist3_sym Q Q')). rewrite I3 in TR. unfold dist3 in D |- *. apply Rabs_le_inv in L. lra.
  - exists l, m1, m2, c. split; [exact E1|]. split; [exact E2|]. split; [exact E3|]. split; [exact R2|]. split; [exact S2|]. split; [|split; [exact ND|]].
    + rewrite FA, FB, faces_val. assert (forall i, dist3 (val_pt (pt a i zero_pt)) (r32 (val_pt (pt a i zero_pt))) <= bpow radix2 (k - 23)) as DI.
      { intros i. destruct (single_pt k _ Hk (pt_fits a k i HF)) as (_ & _ & (_ & _ & N)). pose proof (bpow_ge_0 radix2 (k - 24)) as B0. pose proof (len3_in_cube (sub3 (r32 (val_pt (pt a i zero_pt))) (val_pt (pt a i zero_pt))) _ N B0) as L.
        rewrite dist3_sym. unfold dist3. replace (k - 23)%Z with (1 + (k - 24))%Z by lia. rewrite bpow_plus. change (bpow radix2 1) with 2. lra. }
      generalize (live a). intros ts. induction ts as [|[[x y] z] ts IH]; constructor; [|exact IH]. unfold LErrF.m3, faces_within. auto.
    + apply IC. rewrite FB. apply closed_m3. exact CL.
Qed.
(** A corner of edge 4 and a tolerance of 1. *)
Lemma weld_case : let m := corner_mesh 0 4 true in let a := corner_abs 0 4 true in
  reach m /\ shows m a /\ Forall (fits_pt 2) (averts a) /\ len (live a) = 4%Z /\ fits 400 (f64_ofZ 1) /\ bpow radix2 (-400) <= Rabs (val (f64_ofZ 1)) /\
  (forall p q, In p (averts (val_mesh a)) -> In q (averts (val_mesh a)) -> p = q \/ (1 + bpow radix2 (-50)) * Rabs (val (f64_ofZ 1)) + bpow radix2 (2 - 22) <= dist3 p q) /\
  closed_surface (faces (val_mesh a)).
Proof.
  intros m a. destruct (corner_exists 0 4 true) as [Rc Sc]. split; [exact Rc|]. split; [exact Sc|].
  destruct (ofZ_ok 0 ltac:(lia)) as [E0 F0]. destruct (ofZ_ok 4 ltac:(lia)) as [E4 F4]. destruct (ofZ_ok 1 ltac:(lia)) as [E1 F1].
  assert (bpow radix2 2 = 4) as B2 by reflexivity.
  assert (fits 2 (f64_ofZ 0)) as X0 by (split; [exact F0|]; change (val (f64_ofZ 0)) with (V64 (f64_ofZ 0)); rewrite E0, Rabs_R0, B2; lra).
  assert (fits 2 (f64_ofZ 4)) as X4 by (split; [exact F4|]; change (val (f64_ofZ 4)) with (V64 (f64_ofZ 4)); rewrite E4, B2, Rabs_pos_eq; lra).
  assert (val (f64_ofZ 1) = 1) as V1 by exact E1. assert (1 <= bpow radix2 400) as B400 by (change 1 with (bpow radix2 0); apply bpow_le; lia). assert (bpow radix2 (-400) <= 1) as Bm by (change 1 with (bpow radix2 0); apply bpow_le; lia).
  split. { unfold a, corner_abs. cbn [averts]. change (0 + 4)%Z with 4%Z. apply Forall_forall. intros p Hp. destruct Hp as [<-|[<-|[<-|[<-|[]]]]]; unfold dp; (split; [|split]); assumption. }
  split; [reflexivity|]. split; [split; [exact F1|rewrite V1, Rabs_pos_eq; lra]|]. split; [rewrite V1, Rabs_pos_eq; lra|].
  assert (averts (val_mesh a) = [mkP 0 0 0; mkP 4 0 0; mkP 0 4 0; mkP 0 0 4]) as AV.
  { unfold a, val_mesh, corner_abs. cbn [averts map]. unfold val_pt, dp. cbn [px py pz]. change (0 + 4)%Z with 4%Z. unfold val. fold (V64 (f64_ofZ 0)). fold (V64 (f64_ofZ 4)). rewrite E0, E4. reflexivity. }
  split.
  - intros p q Hp Hq. rewrite AV in Hp, Hq. rewrite V1, (Rabs_pos_eq 1) by lra. change (bpow radix2 (2 - 22)) with (/ 1048576). change (bpow radix2 (-50)) with (/ 1125899906842624).
    assert (forall x y z : R, 16 <= x * x + y * y + z * z -> (1 + / 1125899906842624) * 1 + / 1048576 <= sqrt (x * x + y * y + z * z)) as SQ.
    { intros x y z H. apply Rle_trans with (sqrt 16); [replace 16 with (4 * 4) by ring; rewrite sqrt_square by lra; lra|]. apply sqrt_le_1_alt. exact H. }
    destruct Hp as [<-|[<-|[<-|[<-|[]]]]]; destruct Hq as [<-|[<-|[<-|[<-|[]]]]]; try (left; reflexivity); right; unfold dist3, len3, dot3, sub3; cbn [px py pz]; apply SQ; lra.
  - apply index_closed_surface, closedb_ok. vm_compute. reflexivity.
Qed.
