(** remove_empty_triangles and tessellate in doubles. *)
From Coq Require Import ZArith List Bool Reals Lra Lia Psatz Sorted.
From Flocq Require Import Core Relative IEEE754.Binary IEEE754.Bits IEEE754.BinarySingleNaN.
From Verif Require Import LClosed Base Num MGeometry MKernel MMesh MMeshRun MMeasure MUtil MStl MF64 SMesh SReach SGeom SMeasure SUtil SErr SErrM SErrN SMerge SClean SMeshFac
  LBase LMesh LReach LGeom LMeasure LMeasure2 LF64 LF64Arith LF64Ord LErr1 LErr2 LErr3 LErr4 LErr7 LGrid LUtil LTess LGeo1 LGeo2 LMeshFac LMeshFac2 LMeshFac7 LErrEx LErrR LErrF LMergeG LMergeD LCleanG LMeshFac4.
Import ListNotations.
Open Scope R_scope.

Lemma F2_impl {A B} (P Q : A -> B -> Prop) l l' : (forall a b, P a b -> Q a b) -> Forall2 P l l' -> Forall2 Q l l'.
Proof. intros H. induction 1; constructor; auto. Qed.
(** ** Removing *)
Lemma remove_doubles (m : Mesh f64) a (tol : f64) k : reach m -> shows m a -> (k <= 400)%Z -> Forall (fits_pt k) (averts a) -> fits 400 tol -> bpow radix2 (-400) <= Rabs (val tol) ->
  exists m' a', remove_empty_triangles m tol = Ok m' /\ reach m' /\ shows m' a' /\ averts a' = averts a /\ acolor a' = acolor a /\
    Forall2 (fun t t' => fst t' = fst t /\ (snd t' = true -> snd t = true /\ sides_from ((1 - bpow radix2 (-50)) * Rabs (val tol)) (corners (val_mesh a) (fst t))) /\
                         (snd t' = false -> snd t = false \/ thin ((1 + bpow radix2 (-50)) * val tol) (corners (val_mesh a) (fst t)))) (atris a) (atris a').
Proof.
  intros R S Hk HF Ft Ht. destruct (remove_any m a tol zero_pt R S) as (m' & a' & E & R' & S' & V & C & F).
  exists m', a'. split; [exact E|]. split; [exact R'|]. split; [exact S'|]. split; [exact V|]. split; [exact C|]. eapply F2_impl; [|exact F].
  assert (forall i, fits_pt k (pt a i zero_pt)) as PF by (intros i; apply pt_fits; exact HF).
  assert (0 < 1 + bpow radix2 (-50)) as P0 by (pose proof (bpow_gt_0 radix2 (-50)); lra).
  intros [[[x y] z] b] [t' b'] [E1 E2]. cbn [fst snd] in *. split; [exact E1|]. unfold at_corners, found_thin in E2. unfold corners. rewrite !pt_val. unfold thin, short, sides_from. rewrite Rabs_mult, (Rabs_pos_eq (1 + _)) by lra.
  destruct (near_means _ _ tol k Hk (PF x) (PF y) Ft Ht) as [A1 B1]. destruct (near_means _ _ tol k Hk (PF y) (PF z) Ft Ht) as [A2 B2]. destruct (near_means _ _ tol k Hk (PF z) (PF x) Ft Ht) as [A3 B3].
  split.
  - intros ->. destruct b; [|discriminate]. split; [reflexivity|]. cbn [andb] in E2. symmetry in E2. apply negb_true_iff in E2. apply orb_false_iff in E2. destruct E2 as [E2 E3]. apply orb_false_iff in E2. destruct E2 as [E2 E4]. auto.
  - intros ->. destruct b; [right|left; reflexivity]. cbn [andb] in E2. symmetry in E2. apply negb_false_iff in E2. apply orb_true_iff in E2. destruct E2 as [E2|E2]; [apply orb_true_iff in E2; destruct E2 as [E2|E2]|]; auto.
Qed.

(** ** One point of the grid *)
Lemma grid_coord k a b c n u v : (-900 <= k <= 900)%Z -> fits k a -> fits k b -> fits k c -> (1 <= n <= 2 ^ 50)%Z -> on_grid n u v ->
  close_to (b64_plus mode_NE (b64_plus mode_NE a (b64_mult mode_NE (dv (nofZ u : f64) n) (b64_minus mode_NE b a))) (b64_mult mode_NE (dv (nofZ v : f64) n) (b64_minus mode_NE c a)))
    (V64 a + dv (IZR u) n * (V64 b - V64 a) + dv (IZR v) n * (V64 c - V64 a)) (12 * bpow radix2 (k - 53)).
Proof.
  intros Hk Fa Fb Fc Hn (Hu & Hv & Huv). pose proof (ap_exact k a Fa) as A. pose proof (ap_exact k b Fb) as B. pose proof (ap_exact k c Fc) as C.
  pose proof (bpow_gt_0 radix2 k) as K0.
  assert (bpow radix2 (k + 1) = 2 * bpow radix2 k) as K1 by (rewrite bpow_plus; change (bpow radix2 1) with 2; ring). assert (bpow radix2 (k + 2) = 4 * bpow radix2 k) as K2 by (rewrite bpow_plus; change (bpow radix2 2) with 4; ring). assert (bpow radix2 (k + 3) = 8 * bpow radix2 k) as K3 by (rewrite bpow_plus; change (bpow radix2 3) with 8; ring).
  assert (bpow radix2 (k + 1 - 54) = uu * bpow radix2 k) as L1 by (unfold uu; rewrite <- bpow_plus; f_equal; lia).
  assert (bpow radix2 (k + 2 - 54) = 2 * (uu * bpow radix2 k)) as L2 by (rewrite <- L1; change 2 with (bpow radix2 1); rewrite <- bpow_plus; f_equal; lia).
  assert (bpow radix2 (k + 3 - 54) = 4 * (uu * bpow radix2 k)) as L3 by (rewrite <- L1; change 4 with (bpow radix2 2); rewrite <- bpow_plus; f_equal; lia).
  assert (bpow radix2 (k - 53) = uu * bpow radix2 k) as L0 by (unfold uu; rewrite <- bpow_plus; f_equal; lia). rewrite L0.
  pose proof (quo_e u n ltac:(lia) Hn) as U. pose proof (quo_e v n ltac:(lia) Hn) as V.
  pose proof (ap_sub b a _ _ _ _ _ _ (k + 1) B A ltac:(lra) ltac:(lia)) as BA. pose proof (ap_sub c a _ _ _ _ _ _ (k + 1) C A ltac:(lra) ltac:(lia)) as CA.
  assert (forall x y : f64, fits k x -> fits k y -> Rabs (V64 x - V64 y) <= bpow radix2 (k + 1)) as DB. { intros x y [_ X] [_ Y]. apply Rabs_le_inv in X, Y. apply Rabs_le. change val with V64 in X, Y. lra. }
  pose proof (ap_mul _ _ _ _ _ _ _ _ (bpow radix2 (k + 1)) (k + 1) U BA (DB b a Fb Fa) ltac:(lra) ltac:(lia)) as BU. pose proof (ap_mul _ _ _ _ _ _ _ _ (bpow radix2 (k + 1)) (k + 1) V CA (DB c a Fc Fa) ltac:(lra) ltac:(lia)) as CV.
  pose proof (ap_add _ _ _ _ _ _ _ _ (k + 2) A BU ltac:(lra) ltac:(lia)) as S1. pose proof (ap_add _ _ _ _ _ _ _ _ (k + 3) S1 CV ltac:(lra) ltac:(lia)) as S2.
  destruct S2 as (F & E & _). split; [exact F|]. eapply Rle_trans; [exact E|]. rewrite L1, L2, L3, K1. lra.
Qed.
Lemma comb_cube B a b c s t : Rabs a <= B -> Rabs b <= B -> Rabs c <= B -> 0 <= s -> 0 <= t -> s + t <= 1 -> Rabs (a + s * (b - a) + t * (c - a)) <= B.
Proof. intros Ha Hb Hc Hs Ht Hst. apply Rabs_le_inv in Ha, Hb, Hc. apply Rabs_le. replace (a + s * (b - a) + t * (c - a)) with ((1 - s - t) * a + s * b + t * c) by ring. split; nra. Qed.
Lemma grid_shares n u v : (1 <= n)%Z -> on_grid n u v -> 0 <= IZR u / IZR n /\ 0 <= IZR v / IZR n /\ IZR u / IZR n + IZR v / IZR n <= 1.
Proof.
  intros Hn (Hu & Hv & H). assert (1 <= IZR n) as N by (apply IZR_le; lia). assert (0 < / IZR n) by (apply Rinv_0_lt_compat; lra). assert (0 <= IZR u) by (apply IZR_le; lia). assert (0 <= IZR v) by (apply IZR_le; lia). apply IZR_le in H. rewrite plus_IZR in H.
  split; [apply Rmult_le_pos; lra|]. split; [apply Rmult_le_pos; lra|]. unfold Rdiv. rewrite <- Rmult_plus_distr_r. apply Rmult_le_reg_r with (IZR n); [lra|]. rewrite Rmult_assoc, Rinv_l by lra. lra.
Qed.
Lemma grid_pt k p q r n u v : (-900 <= k <= 900)%Z -> fits_pt k p -> fits_pt k q -> fits_pt k r -> (1 <= n <= 2 ^ 50)%Z -> on_grid n u v ->
  pnear (k + 1) (12 * bpow radix2 (k - 53)) (gip p q r n (u, v)) (grid_point n (val_pt p, val_pt q, val_pt r) u v).
Proof.
  intros Hk (a1 & a2 & a3) (b1 & b2 & b3) (c1 & c2 & c3) Hn G. destruct (grid_shares n u v ltac:(lia) G) as (U & V & UV).
  pose proof (grid_coord k _ _ _ n u v Hk a1 b1 c1 Hn G) as X. pose proof (grid_coord k _ _ _ n u v Hk a2 b2 c2 Hn G) as Y. pose proof (grid_coord k _ _ _ n u v Hk a3 b3 c3 Hn G) as Z0. rewrite !dv_R in X, Y, Z0 by lia.
  assert (forall a b c : f64, fits k a -> fits k b -> fits k c -> Rabs (V64 a + IZR u / IZR n * (V64 b - V64 a) + IZR v / IZR n * (V64 c - V64 a)) <= bpow radix2 k) as CB. { intros a b c [_ A] [_ B] [_ C]. apply comb_cube; assumption. }
  assert (bpow radix2 (k + 1) = 2 * bpow radix2 k) as K1 by (rewrite bpow_plus; change (bpow radix2 1) with 2; ring). pose proof (bpow_gt_0 radix2 k) as K0.
  assert (12 * bpow radix2 (k - 53) <= bpow radix2 k) as K2. { replace (k - 53)%Z with (k + -53)%Z by lia. rewrite bpow_plus. change (bpow radix2 (-53)) with (/ 9007199254740992). lra. }
  pose proof (CB _ _ _ a1 b1 c1) as C1. pose proof (CB _ _ _ a2 b2 c2) as C2. pose proof (CB _ _ _ a3 b3 c3) as C3.
  assert (forall x y, close_to x y (12 * bpow radix2 (k - 53)) -> Rabs y <= bpow radix2 k -> fits (k + 1) x) as FT. { intros x y [F E] B. split; [exact F|]. apply Rabs_le_inv in E, B. apply Rabs_le. lra. }
  split; [|split].
  - split; [exact (FT _ _ X C1)|]. split; [exact (FT _ _ Y C2)|exact (FT _ _ Z0 C3)].
  - unfold grid_point, add3, scal3, sub3. cbn [px py pz val_pt]. change val with V64. split; [|split]; lra.
  - split; [exact X|]. split; [exact Y|exact Z0].
Qed.

(** ** Measures of a mesh near a list of triangles *)
Definition near3 (B e : R) (f F : pt3 * pt3 * pt3) : Prop := let '(p, q, r) := f in let '(P, Q, S0) := F in rnear B e p P /\ rnear B e q Q /\ rnear B e r S0.
Lemma sums_near3 (h : pt3 * pt3 * pt3 -> R) (P : pt3 * pt3 * pt3 -> pt3 * pt3 * pt3 -> Prop) c fs Fs : (forall f F, P f F -> Rabs (h f - h F) <= c) -> Forall2 P fs Fs -> Rabs (sumR (map h fs) - sumR (map h Fs)) <= IZR (len fs) * c.
Proof.
  intros H. induction 1 as [|f F fs Fs X _ IH]. { cbn. rewrite Rminus_0_r, Rabs_R0. lra. }
  assert (IZR (len (f :: fs)) = 1 + IZR (len fs)) as L. { change (f :: fs) with ([f] ++ fs). rewrite len_app, plus_IZR. reflexivity. }
  rewrite L. cbn [map]. rewrite !sumR_cons. pose proof (H f F X) as A. apply Rabs_le_inv in A, IH. apply Rabs_le. lra.
Qed.
Lemma near_measures (m : Mesh f64) b Fs K e V A : (-200 <= K <= 200)%Z -> 0 <= e -> reach m -> shows m b -> Forall (fits_pt K) (averts b) -> (len (live b) <= 2 ^ 50)%Z ->
  Forall2 (near3 (bpow radix2 K) e) (faces (val_mesh b)) Fs -> sumR (map vol_tri Fs) = V -> sumR (map area_tri Fs) = A ->
  let n := IZR (len (live b)) in
  exists v s, volume m = Ok v /\ close_to v V (vol_err n K e) /\ surface m = Ok s /\ close_to s A (area_err n K e) /\
  (vol_err n K e < V -> is_oriented_outside m = Ok true) /\ (V < - vol_err n K e -> is_oriented_outside m = Ok false).
Proof.
  intros HK He Rm S HF HL H <- <- n. assert (len (faces (val_mesh b)) = len (live b)) as LF. { unfold faces, len, live, val_mesh. cbn [atris]. rewrite !map_length. reflexivity. }
  destruct (reach_volume_err m b K Rm S HK HF HL) as (v & Ev & Fv & Dv). destruct (reach_surface_err m b K Rm S HK HF HL) as (s & Es & Fs' & Ds). destruct (reach_oriented_err m b K Rm S HK HF HL) as [O1 O2].
  cbn zeta in Dv, Ds, O1, O2. fold n in Dv, Ds, O1, O2. set (B := bpow radix2 K) in *.
  assert (Rabs (total_vol (val_mesh b) - sumR (map vol_tri Fs)) <= n * (3 * (B * B * e))) as MV.
  { unfold total_vol, n. rewrite <- LF. eapply sums_near3; [|exact H]. intros [[p q] r] [[P Q] S0] (A1 & A2 & A3). apply tetra_near; assumption. }
  assert (Rabs (total_area (val_mesh b) - sumR (map area_tri Fs)) <= n * (14 * (B * e))) as MA.
  { unfold total_area, n. rewrite <- LF. eapply sums_near3; [|exact H]. intros [[p q] r] [[P Q] S0] (A1 & A2 & A3). apply area_near; assumption. }
  unfold vol_err, area_err. fold B. apply Rabs_le_inv in MV, MA, Dv, Ds. exists v, s. split; [exact Ev|]. split; [split; [exact Fv|apply Rabs_le; lra]|]. split; [exact Es|]. split; [split; [exact Fs'|apply Rabs_le; lra]|].
  split; intros W; [apply O1|apply O2]; lra.
Qed.

(** ** Tessellating *)
Lemma faces_gsoup fs c : faces (val_mesh (mkA (corners_of fs) (alive (map id3 (seq 0 (length fs)))) c)) = map (m3 val_pt) fs.
Proof.
  unfold faces. set (b := mkA _ _ c). change (live (val_mesh b)) with (live b). unfold b at 2. rewrite live_alive, map_map. apply nth_error_ext. intros i. rewrite !nth_error_map. destruct (nth_error fs i) as [f|] eqn:E.
  - assert (i < length fs)%nat as Hi by (apply nth_error_Some; rewrite E; discriminate).
    rewrite (nth_error_nth' (seq 0 (length fs)) 0%nat) by (rewrite seq_length; exact Hi). rewrite seq_nth by exact Hi. cbn [option_map Nat.add]. f_equal.
    unfold id3, corners, pt. unfold b, val_mesh. cbn [averts].
    replace (Z.to_nat (3 * Z.of_nat i)) with (3 * i)%nat by lia. replace (Z.to_nat (3 * Z.of_nat i + 1)) with (3 * i + 1)%nat by lia. replace (Z.to_nat (3 * Z.of_nat i + 2)) with (3 * i + 2)%nat by lia.
    change O3 with (val_pt zero_pt). rewrite !map_nth. pose proof (flat3_nth (fun f => f) zero_pt fs i f E) as X. cbn zeta in X. unfold corners_of. rewrite <- X. reflexivity.
  - apply nth_error_None in E. rewrite (proj2 (nth_error_None (seq 0 (length fs)) i)) by (rewrite seq_length; exact E). reflexivity.
Qed.
Definition on3 (n : Z) (t : uvtri) : Prop := let '((u1, v1), (u2, v2), (u3, v3)) := t in on_grid n u1 v1 /\ on_grid n u2 v2 /\ on_grid n u3 v3.
Lemma grid_on n t : (1 <= n)%Z -> In t (grid n) -> on3 n t.
Proof. intros Hn H. apply grid_good in H. destruct t as [[[u1 v1] [u2 v2]] [u3 v3]]. destruct H as (A & B & C & _). repeat split; lia. Qed.
Definition near_pts (K : Z) (e : R) (f : Point3 f64 * Point3 f64 * Point3 f64) (F : pt3 * pt3 * pt3) : Prop := let '(p, q, r) := f in let '(P, Q, S0) := F in pnear K e p P /\ pnear K e q Q /\ pnear K e r S0.
Lemma small_near k n f : (-900 <= k <= 900)%Z -> (1 <= n <= 2 ^ 50)%Z -> all3 (fits_pt k) f -> Forall2 (near_pts (k + 1) (12 * bpow radix2 (k - 53))) (gsmall n f) (small n (m3 val_pt f)).
Proof.
  destruct f as [[p q] r]. intros Hk Hn (Fp & Fq & Fr). cbn [gsmall small m3]. assert (forall t, In t (grid n) -> on3 n t) as G by (intros t; apply grid_on; lia).
  induction (grid n) as [|t l IH]; [constructor|]. cbn [map]. constructor; [|apply IH; intros; apply G; right; assumption].
  pose proof (G t (or_introl eq_refl)) as H. destruct t as [[[u1 v1] [u2 v2]] [u3 v3]]. destruct H as (A & B & C). cbn [gip3 ip3]. split; [|split]; apply (grid_pt k p q r n); assumption.
Qed.
Lemma F2_flat {A B C D} (P : C -> D -> Prop) (f : A -> list C) (g : B -> list D) (h : A -> B) l : (forall x, In x l -> Forall2 P (f x) (g (h x))) -> Forall2 P (flat_map f l) (flat_map g (map h l)).
Proof. induction l as [|x l IH]; intros H; [constructor|]. cbn [flat_map map]. apply Forall2_app; [apply H; left; reflexivity|apply IH; intros; apply H; right; assumption]. Qed.
Lemma rn_of_pn K e p P : pnear K e p P -> rnear (bpow radix2 K) e (val_pt p) P.
Proof. intros (((_ & F1) & (_ & F2) & (_ & F3)) & BP & ((_ & C1) & (_ & C2) & (_ & C3))). repeat split; assumption || apply BP. Qed.
Lemma dist_of_pn K e p P : 0 <= e -> pnear K e p P -> dist3 P (val_pt p) <= 1.75 * e.
Proof. intros He (_ & _ & ((_ & C1) & (_ & C2) & (_ & C3))). rewrite dist3_sym. unfold dist3. apply len3_in_cube; [|exact He]. split; [exact C1|]. split; [exact C2|exact C3]. Qed.
Definition tess_faces (n : Z) (a : AMesh f64) := flat_map (gsmall n) (map (at_corners (fun p q r => (p, q, r)) a zero_pt) (live a)).
Lemma tess_near (a : AMesh f64) k n : (-900 <= k <= 900)%Z -> (1 <= n <= 2 ^ 50)%Z -> Forall (fits_pt k) (averts a) ->
  Forall2 (near_pts (k + 1) (12 * bpow radix2 (k - 53))) (tess_faces n a) (flat_map (small n) (faces (val_mesh a))).
Proof.
  intros Hk Hn HF. unfold tess_faces. rewrite faces_val. set (g := at_corners _ _ _).
  replace (map (fun t => m3 (fun i => val_pt (pt a i zero_pt)) t) (live a)) with (map (m3 val_pt) (map g (live a))). 2:{ rewrite map_map. apply map_ext. intros [[x y] z]. reflexivity. }
  apply F2_flat. intros f H. apply in_map_iff in H. destruct H as ([[x y] z] & <- & _). apply small_near; try assumption. unfold g. cbn [at_corners]. repeat split; apply (pt_fits a k _ HF).
Qed.
Lemma tess_len (a : AMesh f64) n : (1 <= n)%Z -> Z.of_nat (length (tess_faces n a)) = (n * n * len (live a))%Z.
Proof.
  intros Hn. unfold tess_faces, len. induction (live a) as [|[[x y] z] l IH]; [cbn; lia|]. cbn [map flat_map]. rewrite app_length, Nat2Z.inj_add, IH. cbn [at_corners gsmall]. rewrite map_length. pose proof (grid_size n ltac:(lia)) as G. unfold vsize in G. rewrite G. cbn [length]. lia.
Qed.
Lemma tess_fits K e fs Fs : Forall2 (near_pts K e) fs Fs -> Forall (fits_pt K) (corners_of fs).
Proof. induction 1 as [|[[p q] r] [[P Q] S0] fs Fs (A & B & C) _ IH]; [constructor|]. unfold corners_of. cbn [flat_map app]. constructor; [apply A|]. constructor; [apply B|]. constructor; [apply C|]. exact IH. Qed.

Lemma tessellate_doubles (m mo : Mesh f64) a k n : reach m -> shows m a -> reach mo -> (-190 <= k <= 190)%Z -> Forall (fits_pt k) (averts a) -> (1 <= n)%Z -> (n * n * len (live a) <= 2 ^ 50)%Z -> (n <= 2 ^ 50)%Z ->
  let N := (n * n * len (live a))%Z in let e := 12 * bpow radix2 (k - 53) in let ev := vol_err (IZR N) (k + 1) e in
  exists m' a' cut v s, tessellate m n mo = Ok m' /\ reach m' /\ shows m' a' /\ (forall f, cuts n f (cut f)) /\
    Forall2 (faces_within (bpow radix2 (k - 48))) (flat_map cut (faces (val_mesh a))) (faces (val_mesh a')) /\
    averts (val_mesh a') = corners_of (faces (val_mesh a')) /\ len (live a') = N /\ len (averts a') = (3 * N)%Z /\ acolor a' = get_color mo /\
    volume m' = Ok v /\ close_to v (total_vol (val_mesh a)) ev /\ surface m' = Ok s /\ close_to s (total_area (val_mesh a)) (area_err (IZR N) (k + 1) e) /\
    (ev < total_vol (val_mesh a) -> is_oriented_outside m' = Ok true) /\ (total_vol (val_mesh a) < - ev -> is_oriented_outside m' = Ok false).
Proof.
  intros R S Ro Hk HF Hn HN Hn2. rewrite (shows_unique m a (abs m) S (shows_abs m)) in *. intros N e ev. set (a0 := abs m) in *.
  destruct (gtessellate m n mo zero_pt divides_f64 (reach_wf m R) Ro Hn) as (m' & E & R' & S'). fold a0 in S'. fold (tess_faces n a0) in S'.
  pose proof (tess_near a0 k n ltac:(lia) ltac:(lia) HF) as NR. fold e in NR. pose proof (tess_len a0 n Hn) as TL. fold N in TL.
  set (fs := tess_faces n a0) in *. set (b := mkA (corners_of fs) (alive (map id3 (seq 0 (length fs)))) (get_color mo)) in *.
  assert (faces (val_mesh b) = map (m3 val_pt) fs) as FB by apply faces_gsoup.
  assert (len (live b) = N) as LB. { unfold b. rewrite live_alive. unfold len. rewrite map_length, seq_length. exact TL. }
  pose proof (bpow_gt_0 radix2 (k - 53)) as K0. assert (0 <= e) as He by (unfold e; lra).
  assert (forall f, cuts n f (small n f)) as CU by (intros [[p q] r]; apply grid_cuts; exact Hn).
  assert (Forall2 (near3 (bpow radix2 (k + 1)) e) (faces (val_mesh b)) (flat_map (small n) (faces (val_mesh a0)))) as N3.
  { rewrite FB. clear - NR. induction NR as [|[[p q] r] [[P Q] S0] fs Fs (A & B & C) _ IH]; [constructor|]. cbn [map]. constructor; [|exact IH]. repeat split; try (apply (rn_of_pn _ _ _ _ A)); try (apply (rn_of_pn _ _ _ _ B)); apply (rn_of_pn _ _ _ _ C). }
  destruct (near_measures m' b _ (k + 1) e (total_vol (val_mesh a0)) (total_area (val_mesh a0)) ltac:(lia) He R' S' (tess_fits _ _ _ _ NR) ltac:(rewrite LB; exact HN) N3) as (v & s & M1 & M2 & M3 & M4 & M5 & M6).
  - unfold total_vol. rewrite sumR_flat_map. apply sumR_ext. intros f _. apply (cuts_vol n); [exact Hn|apply CU].
  - unfold total_area. rewrite sumR_flat_map. apply sumR_ext. intros f _. apply (cuts_area n); [exact Hn|apply CU].
  - rewrite LB in M2, M4, M5, M6. exists m', b, (small n), v, s. split; [exact E|]. split; [exact R'|]. split; [exact S'|]. split; [exact CU|]. split; [|split; [|split; [|split; [|split]]]].
    + rewrite FB. assert (forall p P, pnear (k + 1) e p P -> dist3 P (val_pt p) <= bpow radix2 (k - 48)) as D.
      { intros p P H. pose proof (dist_of_pn _ _ _ _ He H) as X. replace (k - 48)%Z with (5 + (k - 53))%Z by lia. rewrite bpow_plus. change (bpow radix2 5) with 32. unfold e in X. lra. }
      clear - NR D. induction NR as [|[[p q] r] [[P Q] S0] fs Fs (A & B & C) _ IH]; [constructor|]. cbn [map m3]. constructor; [|exact IH]. cbn [faces_within]. auto.
    + rewrite FB. unfold b, val_mesh. cbn [averts]. clear. induction fs as [|[[p q] r] fs IH]; [reflexivity|]. unfold corners_of in *. cbn [flat_map app map m3]. do 3 f_equal. exact IH.
    + exact LB.
    + unfold b, len. cbn [averts]. rewrite len_corners. lia.
    + reflexivity.
    + split; [exact M1|]. split; [exact M2|]. split; [exact M3|]. split; [exact M4|]. split; [exact M5|exact M6].
Qed.

(** ** Welding points that stand for the same ideal point *)
Lemma weld_ideal (m : Mesh f64) a (tol : f64) K (g : Z -> pt3) e : reach m -> shows m a -> (K <= 400)%Z -> Forall (fits_pt K) (averts a) -> fits 400 tol -> bpow radix2 (-400) <= Rabs (val tol) ->
  (forall i, (0 <= i < len (averts a))%Z -> dist3 (g i) (pt (val_mesh a) i O3) <= e) -> 2 * e < (1 - bpow radix2 (-50)) * Rabs (val tol) ->
  (forall i j, (0 <= i < len (averts a))%Z -> (0 <= j < len (averts a))%Z -> g i = g j \/ (1 + bpow radix2 (-50)) * Rabs (val tol) + 2 * e <= dist3 (g i) (g j)) ->
  exists m' b, merge_vertices m tol = Ok m' /\ reach m' /\ shows m' b /\ Forall2 (faces_within e) (map (m3 g) (live a)) (faces (val_mesh b)) /\
    (closed_surface (map (m3 g) (live a)) -> index_closed (live b)).
Proof.
  intros R S HK HF Ft Ht NR TE SEP. destruct (merge_doubles m a tol K R S HK HF Ft Ht) as (m' & ks & f & E & R' & S' & SO & KS & FAR & F).
  set (b := mkA (map (fun k => pt a k zero_pt) ks) (map (fun t => (map_triple f t, true)) (live a)) (acolor a)) in *.
  exists m', b. split; [exact E|]. split; [exact R'|]. split; [exact S'|].
  assert (live b = map (map_triple f) (live a)) as LV. { unfold live at 1. cbn [atris b]. generalize (live a). clear. intros l. induction l as [|t ts IH]; [reflexivity|]. cbn [map filter snd fst]. f_equal. exact IH. }
  pose proof (shown_range m a R S) as RG.
  assert (forall i, (0 <= i < len (averts a))%Z -> exists k, (0 <= f i)%Z /\ nth_error ks (Z.to_nat (f i)) = Some k /\ (0 <= k < len (averts a))%Z /\ g k = g i) as GK.
  { intros i Hi. destruct (F i Hi) as (k0 & F0 & FK & FD). pose proof (KS k0 (nth_error_In _ _ FK)) as HK0. exists k0. split; [exact F0|]. split; [exact FK|]. split; [exact HK0|]. destruct FD as [->|[_ D]]; [reflexivity|].
    destruct (SEP k0 i HK0 Hi) as [EQ|X]; [exact EQ|exfalso]. pose proof (NR i Hi) as Ni. pose proof (NR k0 HK0) as Nk. pose proof (dist3_triangle (g k0) (pt (val_mesh a) k0 O3) (g i)) as T1. pose proof (dist3_triangle (pt (val_mesh a) k0 O3) (pt (val_mesh a) i O3) (g i)) as T2. rewrite (dist3_sym (pt (val_mesh a) k0 O3) (pt (val_mesh a) i O3)) in T2. rewrite (dist3_sym (pt (val_mesh a) i O3) (g i)) in T2. lra. }
  split.
  - unfold faces. change (live (val_mesh b)) with (live b). rewrite LV, map_map. revert RG. clear - GK NR. generalize (live a). intros l RG. induction l as [|[[x y] z] l IH]; [constructor|]. cbn [map]. constructor; [|apply IH; intros; apply RG; right; assumption].
    destruct (RG x y z (or_introl eq_refl)) as (X & Y & Z0).
    assert (forall i, (0 <= i < len (averts a))%Z -> dist3 (g i) (pt (val_mesh b) (f i) O3) <= e) as D.
    { intros i Hi. destruct (GK i Hi) as (k0 & F0 & FK & HK0 & <-). replace (pt (val_mesh b) (f i) O3) with (pt (val_mesh a) k0 O3); [apply NR; exact HK0|]. rewrite !pt_val. f_equal. unfold pt at 2. unfold b. cbn [averts]. symmetry. apply nth_error_nth. rewrite nth_error_map, FK. reflexivity. }
    cbn [m3 map_triple corners faces_within]. auto.
  - intros C. set (I := mkA (map g ks) (atris b) 0%Z). change (live b) with (live I). apply closed_by_index.
    + intros x y z H. change (live I) with (live b) in H. destruct (shown_range m' b R' S' x y z H) as (X & Y & Z0). unfold I, b, len in *. cbn [averts] in *. rewrite map_length in *. auto.
    + unfold I. cbn [averts]. pose proof (strongly_sorted_lt_nth ks SO) as ND. clear - ND FAR TE NR KS. induction ND as [|k0 ks NI ND IH]; cbn [map]; constructor.
      * intros H. apply in_map_iff in H. destruct H as (j & Ej & Hj). pose proof (FAR j k0 (or_intror Hj) (or_introl eq_refl) ltac:(intros ->; contradiction)) as X. pose proof (NR j (KS j (or_intror Hj))) as Nj. pose proof (NR k0 (KS k0 (or_introl eq_refl))) as Nk.
        rewrite Ej in Nj. pose proof (dist3_triangle (pt (val_mesh a) j O3) (g k0) (pt (val_mesh a) k0 O3)) as T1. rewrite (dist3_sym _ (g k0)) in T1. lra.
      * apply IH; intros; [apply KS; right; assumption|]. apply FAR; try (right; assumption). assumption.
    + replace (faces I) with (map (m3 g) (live a)); [exact C|]. unfold faces. change (live I) with (live b). rewrite LV, map_map. apply map_ext_in. intros [[x y] z] H. destruct (RG x y z H) as (X & Y & Z0). cbn [m3 map_triple corners].
      assert (forall i, (0 <= i < len (averts a))%Z -> pt I (f i) O3 = g i) as PI. { intros i Hi. destruct (GK i Hi) as (k0 & F0 & FK & HK0 & <-). unfold pt, I. cbn [averts]. apply nth_error_nth. rewrite nth_error_map, FK. reflexivity. }
      rewrite !PI by assumption. reflexivity.
Qed.
