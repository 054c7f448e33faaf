(** What a trip through a file does to volume, area, orientation and closedness. *)
From Coq Require Import ZArith List Bool Reals Lra Lia Psatz Permutation.
From Flocq Require Import Core Relative IEEE754.Binary IEEE754.Bits IEEE754.BinarySingleNaN.
From Verif Require Import Base Num MGeometry MKernel MMesh MMeshRun MMeasure MUtil MStream MText MObj MStl MF64 MFormat SMesh SReach SGeom SMeasure SImage SStl SObj SFormat SErr SErrN SErrT SErrD
  LClosed LBase LMesh LReach LGeom LMeasure LMeasure2 LStl LStl2 LF64 LF64Arith LErr1 LErr2 LErr3 LErr4 LMeshFac2 LFormat3 LFormat4 LFormat5 LFormat6 LErrEx LErrR.
Import ListNotations.
Open Scope R_scope.

Definition m3 {A B} (g : A -> B) (f : A * A * A) : B * B * B := let '(p, q, r) := f in (g p, g q, g r).
Definition all3 {A} (P : A -> Prop) (f : A * A * A) : Prop := let '(p, q, r) := f in P p /\ P q /\ P r.
Definition cubed (b : R) (p : pt3) : Prop := in_cube p b.

(** ** Area of nearby triangles *)
Lemma prod2 B e a b A C : 0 <= e -> Rabs b <= B -> Rabs A <= B -> Rabs (a - A) <= e -> Rabs (b - C) <= e -> Rabs (a * b - A * C) <= 2 * (B * e).
Proof.
  intros He Hb HA E1 E2. replace (a * b - A * C) with ((a - A) * b + A * (b - C)) by ring. eapply Rle_trans; [apply Rabs_triang|]. rewrite !Rabs_mult.
  pose proof (Rabs_pos b). pose proof (Rabs_pos A). pose proof (Rabs_pos (a - A)). pose proof (Rabs_pos (b - C)). nra.
Qed.
Lemma edge_near B e p q P Q : rnear B e p P -> rnear B e q Q -> rnear (2 * B) (2 * e) (sub3 q p) (sub3 Q P).
Proof.
  intros ((p1 & p2 & p3) & (P1 & P2 & P3) & (d1 & d2 & d3)) ((q1 & q2 & q3) & (Q1 & Q2 & Q3) & (f1 & f2 & f3)).
  apply Rabs_le_inv in p1, p2, p3, P1, P2, P3, d1, d2, d3, q1, q2, q3, Q1, Q2, Q3, f1, f2, f3.
  unfold sub3. split; [|split]; cbn [px py pz]; (split; [|split]); apply Rabs_le; lra.
Qed.
Lemma cross_near B e u v U V : 0 <= e -> rnear B e u U -> rnear B e v V -> in_cube (sub3 (cross3 u v) (cross3 U V)) (4 * (B * e)).
Proof.
  intros He ((p1 & p2 & p3) & (P1 & P2 & P3) & (d1 & d2 & d3)) ((q1 & q2 & q3) & (Q1 & Q2 & Q3) & (f1 & f2 & f3)).
  assert (forall a b c d A C D E, Rabs b <= B -> Rabs A <= B -> Rabs (a - A) <= e -> Rabs (b - C) <= e -> Rabs d <= B -> Rabs D <= B -> Rabs (c - D) <= e -> Rabs (d - E) <= e -> Rabs (a * b - c * d - (A * C - D * E)) <= 4 * (B * e)) as M.
  { intros a b c d A C D E H1 H2 H3 H4 H5 H6 H7 H8. pose proof (prod2 B e a b A C He H1 H2 H3 H4) as X. pose proof (prod2 B e c d D E He H5 H6 H7 H8) as Y. apply Rabs_le_inv in X, Y. apply Rabs_le. lra. }
  unfold in_cube, sub3, cross3. cbn [px py pz]. split; [|split]; apply M; assumption.
Qed.
Lemma area_near B e p q r P Q S : 0 <= e -> rnear B e p P -> rnear B e q Q -> rnear B e r S -> Rabs (area3 p q r - area3 P Q S) <= 14 * (B * e).
Proof.
  intros He Hp Hq Hr. assert (0 <= B) as HB. { destruct Hp as ((H & _) & _). pose proof (Rabs_pos (px p)). lra. }
  pose proof (cross_near (2 * B) (2 * e) _ _ _ _ ltac:(lra) (edge_near B e _ _ _ _ Hp Hq) (edge_near B e _ _ _ _ Hp Hr)) as C.
  unfold area3. pose proof (len3_lip (cross3 (sub3 q p) (sub3 r p)) (cross3 (sub3 Q P) (sub3 S P))) as L.
  assert (0 <= B * e) by nra. pose proof (len3_in_cube _ _ C ltac:(nra)) as D.
  set (x := len3 (cross3 (sub3 q p) (sub3 r p))) in *. set (y := len3 (cross3 (sub3 Q P) (sub3 S P))) in *. apply Rabs_le_inv in L. apply Rabs_le. lra.
Qed.

(** ** Sums over faces *)
Lemma sums_near (h : pt3 * pt3 * pt3 -> R) (g : pt3 -> pt3) c fs : (forall f, In f fs -> Rabs (h (m3 g f) - h f) <= c) -> Rabs (sumR (map h (map (m3 g) fs)) - sumR (map h fs)) <= IZR (len fs) * c.
Proof.
  induction fs as [|f fs IH]; intros H. { cbn. rewrite Rminus_0_r, Rabs_R0. lra. }
  assert (IZR (len (f :: fs)) = 1 + IZR (len fs)) as L. { change (f :: fs) with ([f] ++ fs). rewrite len_app, plus_IZR. reflexivity. }
  rewrite L. cbn [map sumR fold_right]. fold (sumR (map h (map (m3 g) fs))). fold (sumR (map h fs)).
  pose proof (H f (or_introl eq_refl)) as A. pose proof (IH (fun x Hx => H x (or_intror Hx))) as B. apply Rabs_le_inv in A, B. apply Rabs_le. lra.
Qed.
Lemma edges_m3 {A B} (g : A -> B) fs : flat_map edges3 (map (m3 g) fs) = map (fun e => (g (fst e), g (snd e))) (flat_map edges3 fs).
Proof. induction fs as [|[[p q] r] fs IH]; [reflexivity|]. cbn. rewrite IH. reflexivity. Qed.
Lemma closed_m3 g fs : closed_surface fs -> closed_surface (map (m3 g) fs).
Proof.
  unfold closed_surface. intros H. rewrite edges_m3. rewrite map_map. apply (Permutation_map (fun e => (g (fst e), g (snd e)))) in H. rewrite map_map in H. exact H.
Qed.

(** ** A mesh whose points have been moved a little *)
Lemma moved_measures (m : Mesh f64) a b (g : pt3 -> pt3) K e : (-200 <= K <= 200)%Z -> 0 <= e -> reach m -> shows m b -> Forall (fits_pt K) (averts b) -> (len (live a) <= 2 ^ 50)%Z ->
  faces (val_mesh b) = map (m3 g) (faces (val_mesh a)) -> (forall f, In f (faces (val_mesh a)) -> all3 (fun p => rnear (bpow radix2 K) e (g p) p) f) ->
  let n := IZR (len (live a)) in let B := bpow radix2 K in let ev := 3 * n * (n + 8) * bpow radix2 (3 * K - 53) + 3 * n * (B * B * e) in
  (exists v, volume m = Ok v /\ close_to v (total_vol (val_mesh a)) ev) /\
  (exists s, surface m = Ok s /\ close_to s (total_area (val_mesh a)) (n * (4 * n + 70) * bpow radix2 (2 * K - 53) + 14 * n * (B * e))) /\
  (ev < total_vol (val_mesh a) -> is_oriented_outside m = Ok true) /\ (total_vol (val_mesh a) < - ev -> is_oriented_outside m = Ok false) /\
  (closed_surface (faces (val_mesh a)) -> closed_surface (faces (val_mesh b))).
Proof.
  intros HK He Rm S HF HL E H n B ev. assert (len (live b) = len (live a)) as LB.
  { pose proof (f_equal (@length _) E) as X. unfold faces, val_mesh, live in X. cbn [atris] in X. rewrite !map_length in X. unfold len, live. rewrite !map_length. f_equal. exact X. }
  assert (len (faces (val_mesh a)) = len (live a)) as LF. { unfold faces, len, live, val_mesh. cbn [atris]. rewrite !map_length. reflexivity. }
  assert (len (live b) <= 2 ^ 50)%Z as HLb by lia.
  destruct (reach_volume_err m b K Rm S HK HF HLb) as (v & Ev & Fv & Dv). destruct (reach_surface_err m b K Rm S HK HF HLb) as (s & Es & Fs & Ds). destruct (reach_oriented_err m b K Rm S HK HF HLb) as [O1 O2].
  cbn zeta in Dv, Ds, O1, O2. rewrite LB in Dv, Ds, O1, O2. fold n in Dv, Ds, O1, O2.
  assert (Rabs (total_vol (val_mesh b) - total_vol (val_mesh a)) <= n * (3 * (B * B * e))) as MV.
  { unfold total_vol. rewrite E. unfold n. rewrite <- LF. apply sums_near. intros [[p q] r] Hf. destruct (H _ Hf) as (A1 & A2 & A3). apply tetra_near; assumption. }
  assert (Rabs (total_area (val_mesh b) - total_area (val_mesh a)) <= n * (14 * (B * e))) as MA.
  { unfold total_area. rewrite E. unfold n. rewrite <- LF. apply sums_near. intros [[p q] r] Hf. destruct (H _ Hf) as (A1 & A2 & A3). apply area_near; assumption. }
  unfold ev in *. clear ev. apply Rabs_le_inv in MV, MA, Dv, Ds.
  split; [|split; [|split; [|split]]].
  - exists v. split; [exact Ev|]. split; [exact Fv|]. apply Rabs_le. lra.
  - exists s. split; [exact Es|]. split; [exact Fs|]. apply Rabs_le. lra.
  - intros W. apply O1. lra.
  - intros W. apply O2. lra.
  - intros C. rewrite E. apply closed_m3. exact C.
Qed.

(** ** Faces of a mesh of doubles *)
Definition zero_pt : Point3 f64 := mkP (Binary.B754_zero 53 1024 false) (Binary.B754_zero 53 1024 false) (Binary.B754_zero 53 1024 false).
Lemma pt_val (a : AMesh f64) i : pt (val_mesh a) i O3 = val_pt (pt a i zero_pt).
Proof. unfold pt, val_mesh. cbn [averts]. change O3 with (val_pt zero_pt). apply map_nth. Qed.
Lemma faces_val (a : AMesh f64) : faces (val_mesh a) = map (fun t => m3 (fun i => val_pt (pt a i zero_pt)) t) (live a).
Proof. unfold faces. change (live (val_mesh a)) with (live a). apply map_ext. intros [[x y] z]. unfold corners, m3. rewrite !pt_val. reflexivity. Qed.
Lemma pt_fits (a : AMesh f64) k i : Forall (fits_pt k) (averts a) -> fits_pt k (pt a i zero_pt).
Proof.
  intros H. unfold pt. destruct (nth_in_or_default (Z.to_nat i) (averts a) zero_pt) as [I|E]; [exact (proj1 (Forall_forall _ _) H _ I)|]. rewrite E.
  assert (fits k (Binary.B754_zero 53 1024 false)) by (split; [reflexivity|]; unfold val; cbn; rewrite Rabs_R0; apply bpow_ge_0). split; [|split]; assumption.
Qed.
Lemma flat3_nth {A B} (h : A -> B * B * B) (d : B) ts i t : nth_error ts i = Some t ->
  let W := flat_map (fun t => let '(p, q, r) := h t in [p; q; r]) ts in (nth (3 * i) W d, nth (3 * i + 1) W d, nth (3 * i + 2) W d) = h t.
Proof.
  revert i. induction ts as [|s ts IH]; intros [|i] E W; [discriminate|discriminate| |].
  - injection E as ->. unfold W. cbn [flat_map]. destruct (h t) as [[p q] r]. reflexivity.
  - cbn [nth_error] in E. specialize (IH i E). cbn zeta in IH. unfold W. cbn [flat_map]. destruct (h s) as [[p q] r].
    replace (3 * S i)%nat with (S (S (S (3 * i)))) by lia. exact IH.
Qed.
Lemma live_soup n : live (mkA (T := f64) [] (soup_tris n) 0) = map (fun i => let k := (3 * Z.of_nat i)%Z in (k, k + 1, k + 2)%Z) (seq 0 n).
Proof.
  unfold live. cbn [atris]. unfold soup_tris. generalize (seq 0 n). intros l. induction l as [|x l IH]; [reflexivity|]. cbn. f_equal. exact IH.
Qed.
Lemma faces_soup (a : AMesh f64) (f : Point3 f64 -> Point3 f64) c :
  faces (val_mesh (mkA (map f (soup zero_pt a)) (soup_tris (length (live a))) c)) = map (fun t => m3 (fun i => val_pt (f (pt a i zero_pt))) t) (live a).
Proof.
  unfold faces. set (b := mkA _ _ c). change (live (val_mesh b)) with (live (mkA (T := f64) [] (soup_tris (length (live a))) 0)). rewrite live_soup. apply nth_error_ext. intros i.
  rewrite !nth_error_map. destruct (nth_error (live a) i) as [t|] eqn:E.
  - assert (i < length (live a))%nat as Hi by (apply nth_error_Some; rewrite E; discriminate).
    rewrite (nth_error_nth' (seq 0 (length (live a))) 0%nat) by (rewrite seq_length; exact Hi). rewrite seq_nth by exact Hi. refine (eq_trans _ (f_equal (option_map (m3 (fun i => val_pt (f (pt a i zero_pt))))) (eq_sym E))). cbn [option_map Nat.add].
    unfold corners. unfold pt at 1 2 3. subst b. unfold val_mesh. cbn [averts].
    replace (Z.to_nat (3 * Z.of_nat i)) with (3 * i)%nat by lia. replace (Z.to_nat (3 * Z.of_nat i + 1)) with (3 * i + 1)%nat by lia. replace (Z.to_nat (3 * Z.of_nat i + 2)) with (3 * i + 2)%nat by lia.
    assert (map val_pt (map f (soup zero_pt a)) = flat_map (fun t => let '(p, q, r) := m3 (fun i => val_pt (f (pt a i zero_pt))) t in [p; q; r]) (live a)) as W.
    { unfold soup. generalize (live a). intros l. induction l as [|[[x y] z] l IH]; [reflexivity|]. cbn. do 3 f_equal. exact IH. }
    rewrite W. exact (f_equal Some (flat3_nth (m3 (fun i => val_pt (f (pt a i zero_pt)))) O3 (live a) i t E)).
  - refine (eq_trans _ (f_equal (option_map (m3 (fun i => val_pt (f (pt a i zero_pt))))) (eq_sym E))). apply nth_error_None in E. rewrite (proj2 (nth_error_None (seq 0 (length (live a))) i)) by (rewrite seq_length; exact E). reflexivity.
Qed.
Lemma map_faces (a : AMesh f64) (g : pt3 -> pt3) (f : Point3 f64 -> Point3 f64) : (forall i, val_pt (f (pt a i zero_pt)) = g (val_pt (pt a i zero_pt))) ->
  map (fun t => m3 (fun i => val_pt (f (pt a i zero_pt))) t) (live a) = map (m3 g) (faces (val_mesh a)).
Proof. intros H. rewrite faces_val, map_map. apply map_ext. intros [[x y] z]. unfold m3. rewrite !H. reflexivity. Qed.

(** ** STL *)
Lemma round32_err x k : (-100 <= k <= 100)%Z -> Rabs x <= bpow radix2 k -> Rabs (round32 x - x) <= bpow radix2 (k - 24) /\ Rabs (round32 x) <= bpow radix2 k.
Proof.
  intros Hk Hx. split.
  - eapply Rle_trans; [apply error_le_half_ulp; apply FLT_exp_valid; reflexivity|].
    assert (ulp radix2 (FLT_exp (-149) 24) x <= ulp radix2 (FLT_exp (-149) 24) (bpow radix2 k)) as U.
    { apply ulp_le; [apply FLT_exp_valid; reflexivity|apply FLT_exp_monotone|]. rewrite (Rabs_pos_eq (bpow radix2 k)) by apply bpow_ge_0. exact Hx. }
    rewrite ulp_bpow in U. replace (FLT_exp (-149) 24 (k + 1)) with (1 + (k - 24))%Z in U by (unfold FLT_exp; lia). rewrite bpow_plus in U. change (bpow radix2 1) with 2 in U. lra.
  - apply abs_round_le_generic; [apply FLT_exp_valid; reflexivity|apply valid_rnd_N| |exact Hx]. apply generic_format_bpow. unfold FLT_exp. lia.
Qed.
Definition r32 (p : pt3) : pt3 := mkP (round32 (px p)) (round32 (py p)) (round32 (pz p)).
Lemma single_fits k x : (-100 <= k <= 100)%Z -> fits k x -> fits k (f_val (f_bits x)) /\ val (f_val (f_bits x)) = round32 (val x).
Proof.
  intros Hk [F B]. destruct (round32_err _ k Hk B) as [_ B2]. destruct (single_value x F) as [F2 E].
  { eapply Rle_lt_trans; [exact B2|]. apply bpow_lt. lia. }
  split; [split; [exact F2|]|exact E]. change (val (f_val (f_bits x))) with (V64 (f_val (f_bits x))). rewrite E. exact B2.
Qed.
Lemma single_pt k p : (-100 <= k <= 100)%Z -> fits_pt k p -> fits_pt k (single p) /\ val_pt (single p) = r32 (val_pt p) /\ rnear (bpow radix2 k) (bpow radix2 (k - 24)) (r32 (val_pt p)) (val_pt p).
Proof.
  intros Hk (H1 & H2 & H3). destruct (single_fits k _ Hk H1) as [A1 E1]. destruct (single_fits k _ Hk H2) as [A2 E2]. destruct (single_fits k _ Hk H3) as [A3 E3].
  split; [split; [|split]; assumption|]. split; [unfold val_pt, single, r32; cbn [px py pz]; rewrite E1, E2, E3; reflexivity|].
  unfold rnear, r32, val_pt. cbn [px py pz]. split; [|split]; (split; [|split]); try (apply round32_err; [exact Hk|]); try apply H1; try apply H2; apply H3.
Qed.
Lemma stl_measures (m m0 : Mesh f64) a k : reach m -> shows m a -> reach m0 -> (-100 <= k <= 100)%Z -> Forall (fits_pt k) (averts a) -> (len (live a) < 2147483648)%Z ->
  let n := IZR (len (live a)) in let ev := 3 * n * (n + 8) * bpow radix2 (3 * k - 53) + 3 * n * bpow radix2 (3 * k - 24) in
  exists l m' b v s, stl_save m = Ok l /\ stl_load l m0 = Ok (true, m') /\ reach m' /\ shows m' b /\
  volume m' = Ok v /\ close_to v (total_vol (val_mesh a)) ev /\
  surface m' = Ok s /\ close_to s (total_area (val_mesh a)) (n * (4 * n + 70) * bpow radix2 (2 * k - 53) + 14 * n * bpow radix2 (2 * k - 24)) /\
  (ev < total_vol (val_mesh a) -> is_oriented_outside m' = Ok true) /\ (total_vol (val_mesh a) < - ev -> is_oriented_outside m' = Ok false) /\
  (closed_surface (faces (val_mesh a)) -> closed_surface (faces (val_mesh b))).
Proof.
  intros R S R0 Hk HF HL n ev. destruct (stl_round_trip m m0 a zero_pt R S R0 HL f_bits_range) as (l & m' & E1 & _ & _ & E2 & R' & S').
  set (b := mkA (map single (soup zero_pt a)) (soup_tris (length (live a))) (get_color m0)) in *.
  assert (faces (val_mesh b) = map (m3 r32) (faces (val_mesh a))) as FB. { unfold b. rewrite faces_soup. apply map_faces. intros i. apply (single_pt k _ Hk (pt_fits a k i HF)). }
  destruct (moved_measures m' a b r32 k (bpow radix2 (k - 24)) ltac:(lia) (bpow_ge_0 _ _) R' S') as ((v & Ev & Cv) & (s & Es & Cs) & O1 & O2 & C).
  - unfold b. cbn [averts]. apply Forall_forall. intros p Hp. apply in_map_iff in Hp. destruct Hp as (q & <- & Hq). unfold soup in Hq. apply in_flat_map in Hq. destruct Hq as ([[x y] z] & _ & Hq).
    apply (single_pt k _ Hk). destruct Hq as [<-|[<-|[<-|[]]]]; apply pt_fits; exact HF.
  - lia.
  - exact FB.
  - intros f Hf. rewrite faces_val in Hf. apply in_map_iff in Hf. destruct Hf as ([[x y] z] & <- & _). cbn. split; [|split]; apply (single_pt k _ Hk); apply pt_fits; exact HF.
  - fold n in Cv, Cs, O1, O2.
    assert (bpow radix2 k * bpow radix2 k * bpow radix2 (k - 24) = bpow radix2 (3 * k - 24)) as W3 by (rewrite <- !bpow_plus; f_equal; lia).
    assert (bpow radix2 k * bpow radix2 (k - 24) = bpow radix2 (2 * k - 24)) as W2 by (rewrite <- !bpow_plus; f_equal; lia).
    rewrite W3 in Cv, O1, O2. rewrite W2 in Cs. fold ev in Cv, O1, O2. exists l, m', b, v, s. auto 12.
Qed.

(** ** OBJ *)
Definition r6 (p : pt3) : pt3 := mkP (to_double (six_digits (px p))) (to_double (six_digits (py p))) (to_double (six_digits (pz p))).
Lemma six_fits k x q : (-100 <= k <= 100)%Z -> fits k x -> rounded_to x q -> fits (k + 1) q /\ val q = to_double (six_digits (val x)) /\ Rabs (val q - val x) <= 7 / 1000000 * bpow radix2 k.
Proof.
  intros Hk [F B] H. pose proof (rounded_close x q H) as C. change (Rabs (val q - val x) <= 6 / 1000000 * Rabs (val x) + bpow radix2 (-1075)) in C. destruct H as (F2 & E & _). change (val q = to_double (six_digits (val x))) in E.
  assert (bpow radix2 (-1075) <= 1 / 1000000 * bpow radix2 k) as T.
  { apply Rle_trans with (bpow radix2 (-20) * bpow radix2 k); [rewrite <- bpow_plus; apply bpow_le; lia|]. apply Rmult_le_compat_r; [apply bpow_ge_0|]. change (bpow radix2 (-20)) with (/ 1048576). lra. }
  assert (Rabs (val q - val x) <= 7 / 1000000 * bpow radix2 k) as D by lra. split; [|split; assumption]. split; [exact F2|].
  assert (bpow radix2 (k + 1) = 2 * bpow radix2 k) as K1 by (rewrite bpow_plus; change (bpow radix2 1) with 2; ring). rewrite K1. pose proof (bpow_gt_0 radix2 k).
  apply Rabs_le_inv in D, B. apply Rabs_le. lra.
Qed.
Lemma six_pt k p q : (-100 <= k <= 100)%Z -> fits_pt k p -> pt_rounded p q -> fits_pt (k + 1) q /\ val_pt q = r6 (val_pt p) /\ rnear (bpow radix2 (k + 1)) (7 / 1000000 * bpow radix2 k) (val_pt q) (val_pt p).
Proof.
  intros Hk (H1 & H2 & H3) (Q1 & Q2 & [[_ Q3]|[N _]]). 2: { exfalso. apply N. apply H3. }
  destruct (six_fits k _ _ Hk H1 Q1) as (A1 & E1 & D1). destruct (six_fits k _ _ Hk H2 Q2) as (A2 & E2 & D2). destruct (six_fits k _ _ Hk H3 Q3) as (A3 & E3 & D3).
  assert (bpow radix2 k <= bpow radix2 (k + 1)) as L by (apply bpow_le; lia).
  split; [split; [|split]; assumption|]. split; [unfold val_pt, r6; cbn [px py pz]; rewrite E1, E2, E3; reflexivity|].
  destruct H1 as [_ H1]. destruct H2 as [_ H2]. destruct H3 as [_ H3]. destruct A1 as [_ A1]. destruct A2 as [_ A2]. destruct A3 as [_ A3].
  unfold rnear, val_pt. cbn [px py pz]. split; [|split]; (split; [|split]); try assumption; lra.
Qed.
Lemma F2_nth {A B} (P : A -> B -> Prop) l l' da db i : Forall2 P l l' -> (i < length l)%nat -> P (nth i l da) (nth i l' db).
Proof. intros H. revert i. induction H as [|x y l l' Hx _ IH]; intros i Hi; [cbn in Hi; lia|]. destruct i as [|i]; [exact Hx|]. cbn [nth]. apply IH. cbn in Hi. lia. Qed.
Lemma obj_measures (m m0 : Mesh f64) a k : reach m -> shows m a -> reach m0 -> (-100 <= k <= 100)%Z -> Forall (fits_pt k) (averts a) -> (len (averts a) < int_max)%Z -> (len (live a) <= 2 ^ 50)%Z ->
  let n := IZR (len (live a)) in let ev := 3 * n * (n + 8) * bpow radix2 (3 * k - 50) + 84 / 1000000 * n * bpow radix2 (3 * k) in
  exists t m' b v s, obj_save m = Ok (true, t) /\ obj_load t m0 = Ok (true, m') /\ reach m' /\ shows m' b /\
  volume m' = Ok v /\ close_to v (total_vol (val_mesh a)) ev /\
  surface m' = Ok s /\ close_to s (total_area (val_mesh a)) (n * (4 * n + 70) * bpow radix2 (2 * k - 51) + 196 / 1000000 * n * bpow radix2 (2 * k)) /\
  (ev < total_vol (val_mesh a) -> is_oriented_outside m' = Ok true) /\ (total_vol (val_mesh a) < - ev -> is_oriented_outside m' = Ok false) /\
  (closed_surface (faces (val_mesh a)) -> closed_surface (faces (val_mesh b))).
Proof.
  intros R S R0 Hk HF HV HL n ev. destruct (save_load_f64 m m0 a R S HV R0) as (t & E1 & A & _).
  destruct A as (qs & m' & Q & E2 & R' & S'). { apply (Forall_impl _ (P := fits_pt k)); [|exact HF]. intros p (H1 & H2 & _). split; [apply H1|apply H2]. }
  set (b := mkA qs (map (fun t => (t, true)) (live a)) (get_color m0)) in *.
  assert (live b = live a) as LB. { unfold b, live. cbn [atris]. generalize (filter snd (atris a)). intros l. induction l as [|x l IH]; [reflexivity|]. cbn. f_equal. exact IH. }
  assert (forall i, (0 <= i < len (averts a))%Z -> fits_pt k (pt a i zero_pt) /\ pt_rounded (pt a i zero_pt) (pt b i zero_pt)) as P.
  { intros i Hi. split; [apply pt_fits; exact HF|]. unfold pt, b. cbn [averts]. apply F2_nth; [exact Q|]. unfold len in Hi. lia. }
  assert (forall x y z, In (x, y, z) (live a) -> (0 <= x < len (averts a))%Z /\ (0 <= y < len (averts a))%Z /\ (0 <= z < len (averts a))%Z) as LI.
  { assert (a = abs m) as -> by (apply (shows_unique m); [exact S|apply shows_abs]). intros x y z I. apply (live_in m x y z (reach_wf m R) I). }
  assert (faces (val_mesh b) = map (m3 r6) (faces (val_mesh a))) as FB.
  { rewrite !faces_val, LB, map_map. apply map_ext_in. intros [[x y] z] I. destruct (LI x y z I) as (I1 & I2 & I3). unfold m3.
    rewrite (proj1 (proj2 (six_pt k _ _ Hk (proj1 (P x I1)) (proj2 (P x I1))))), (proj1 (proj2 (six_pt k _ _ Hk (proj1 (P y I2)) (proj2 (P y I2))))), (proj1 (proj2 (six_pt k _ _ Hk (proj1 (P z I3)) (proj2 (P z I3))))). reflexivity. }
  destruct (moved_measures m' a b r6 (k + 1) (7 / 1000000 * bpow radix2 k) ltac:(lia)) as ((v & Ev & Cv) & (s & Es & Cs) & O1 & O2 & C); try assumption.
  - pose proof (bpow_ge_0 radix2 k). lra.
  - unfold b. cbn [averts]. clear -Q HF Hk. induction Q as [|p q l l' Hq _ IH]; constructor; inversion HF; subst; [apply (six_pt k p q); assumption|apply IH; assumption].
  - intros f Hf. rewrite faces_val in Hf. apply in_map_iff in Hf. destruct Hf as ([[x y] z] & <- & I). destruct (LI x y z I) as (I1 & I2 & I3). cbn.
    assert (forall i, (0 <= i < len (averts a))%Z -> rnear (bpow radix2 (k + 1)) (7 / 1000000 * bpow radix2 k) (r6 (val_pt (pt a i zero_pt))) (val_pt (pt a i zero_pt))) as RN.
    { intros i Hi. destruct (six_pt k _ _ Hk (proj1 (P i Hi)) (proj2 (P i Hi))) as (_ & E & D). rewrite <- E. exact D. }
    split; [|split]; apply RN; assumption.
  - fold n in Cv, Cs, O1, O2.
    assert (bpow radix2 (k + 1) = 2 * bpow radix2 k) as K1 by (rewrite bpow_plus; change (bpow radix2 1) with 2; ring).
    assert (bpow radix2 (3 * k) = bpow radix2 k * bpow radix2 k * bpow radix2 k) as W3 by (rewrite <- !bpow_plus; f_equal; lia).
    assert (bpow radix2 (2 * k) = bpow radix2 k * bpow radix2 k) as W2 by (rewrite <- !bpow_plus; f_equal; lia).
    assert (3 * n * (n + 8) * bpow radix2 (3 * (k + 1) - 53) + 3 * n * (bpow radix2 (k + 1) * bpow radix2 (k + 1) * (7 / 1000000 * bpow radix2 k)) = ev) as X3.
    { unfold ev. replace (3 * (k + 1) - 53)%Z with (3 * k - 50)%Z by lia. rewrite K1, W3. field. }
    assert (n * (4 * n + 70) * bpow radix2 (2 * (k + 1) - 53) + 14 * n * (bpow radix2 (k + 1) * (7 / 1000000 * bpow radix2 k)) = n * (4 * n + 70) * bpow radix2 (2 * k - 51) + 196 / 1000000 * n * bpow radix2 (2 * k)) as X2.
    { replace (2 * (k + 1) - 53)%Z with (2 * k - 51)%Z by lia. rewrite K1, W2. field. }
    rewrite X3 in Cv, O1, O2. rewrite X2 in Cs. exists t, m', b, v, s. auto 12.
Qed.
Lemma files_case : let m := corner_mesh 0 1 true in let a := corner_abs 0 1 true in
  reach m /\ shows m a /\ Forall (fits_pt 0) (averts a) /\ len (live a) = 4%Z /\ (len (averts a) < int_max)%Z /\ total_vol (val_mesh a) = 1 / 6 /\
  3 * 4 * (4 + 8) * bpow radix2 (3 * 0 - 53) + 3 * 4 * bpow radix2 (3 * 0 - 24) < 1 / 6 /\
  3 * 4 * (4 + 8) * bpow radix2 (3 * 0 - 50) + 84 / 1000000 * 4 * bpow radix2 (3 * 0) < 1 / 6.
Proof.
  intros m a. destruct near_case as (A1 & A2 & A3 & A4 & A5 & _). split; [exact A1|]. split; [exact A2|]. split; [exact A3|]. split; [exact A4|]. split; [reflexivity|]. split; [exact A5|].
  assert (bpow radix2 (3 * 0 - 53) <= bpow radix2 (-20)) by (apply bpow_le; lia). assert (bpow radix2 (3 * 0 - 50) <= bpow radix2 (-20)) by (apply bpow_le; lia). assert (bpow radix2 (3 * 0 - 24) <= bpow radix2 (-20)) by (apply bpow_le; lia).
  assert (bpow radix2 (-20) = / 1048576) as E by reflexivity. rewrite E in *. change (bpow radix2 (3 * 0)) with 1. split; lra.
Qed.
