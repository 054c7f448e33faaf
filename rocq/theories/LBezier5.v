(** SmoothMeshFactory: flat solids and the smooth sphere. *)
From Coq Require Import ZArith List Bool Reals Lra Lia Psatz.
From Verif Require Import Base Num MGeometry MKernel MMesh MMeshRun MMeasure MUtil MMeshFactory MBezier SMesh SReach SGeom SMeasure SMeshFac SNurbs SBezier
  LBase LReach LMeasure LMeasure2 LMeshFac LMeshFac2 LMeshFac3 LMeshFac4 LBezier LBezier2 LBezier3 LBezier4.
Import ListNotations.
Open Scope R_scope.

Definition pair_of (s : res (SmoothMesh R)) (r : res (Mesh R)) : Prop :=
  exists fs m vs ts c, s = Ok (map flat fs) /\ r = Ok m /\ is m vs ts c /\ Forall2 rotated (tri_list vs ts) fs.
Lemma pair_version s r : pair_of s r -> smooth_version s r.
Proof.
  intros (fs & m & vs & ts & c & E & Er & [R S] & F). exists (map flat fs), m, (mkA vs (alive ts) c). do 4 (split; [assumption|]).
  rewrite faces_is. apply flat_patches_map. exact F.
Qed.
Lemma pair_inside_out s r : pair_of s r -> inside_out s r.
Proof.
  intros (fs & m & vs & ts & c & E & Er & I & F). destruct (rot_measures _ _ F) as [FA FV]. exists (map flat fs), m. do 2 (split; [assumption|]).
  exists (sumR (map area_tri fs)), (sumR (map vol_tri fs)). rewrite FA, FV. split; [apply (is_surface _ _ _ _ I)|]. split; [apply (is_volume _ _ _ _ I)|].
  rewrite <- FA, <- FV. clear E. intros n m0 A0 V0 Hn R0 EA EV.
  pose proof (shows_abs m0) as S0. rewrite (reach_surface _ _ R0 S0) in EA. rewrite (reach_volume _ _ R0 S0) in EV. injection EA as <-. injection EV as <-.
  destruct (flats_measures fs n Hn m0 _ R0 S0) as (m' & a' & E' & R' & S' & A' & V'). exists m'. split; [exact E'|].
  rewrite (reach_surface _ _ R' S'), (reach_volume _ _ R' S'), A', V'. split; reflexivity.
Qed.
Lemma each_t (ps : list pt3) l : forall sm, (forall a b c, In (a, b, c) l -> 0 <= a < len ps /\ 0 <= b < len ps /\ 0 <= c < len ps)%Z ->
  each (flat_t ps) sm l = Ok (sm ++ map flat (tri_list ps l)).
Proof.
  induction l as [|[[a b] c] l IH]; intros sm H; [cbn; rewrite app_nil_r; reflexivity|]. destruct (H a b c (or_introl eq_refl)) as (A & B & C).
  assert (forall i, (0 <= i < len ps)%Z -> vget ps i = Ok (nth (Z.to_nat i) ps O3)) as K.
  { intros i Hi. unfold len in Hi. apply vget_Ok. split; [lia|]. apply nth_error_nth'. lia. }
  cbn [each flat_t]. rewrite !K by assumption. cbn [bind]. rewrite IH by (intros; apply H; right; assumption). cbn [tri_list map]. unfold sm_flat_triangle, sm_add_triangle, vpush. rewrite <- app_assoc. reflexivity.
Qed.
Ltac inb := intros a b c H; repeat (destruct H as [H|H]; [injection H as <- <- <-; cbn; unfold len; cbn; lia|]); contradiction H.
Lemma F2_refl l : Forall2 (@rotated pt3) l l.
Proof. induction l; constructor; [apply rot0|assumption]. Qed.
Lemma tetra_pair d sm m : reach m -> pair_of (sm_tetrahedron d sm) (create_tetrahedron d m).
Proof.
  intros Rm. destruct (tetra_is d m Rm) as [m' [E I]]. exists (tri_list (tetra_vs d) tetra_ts), m', (tetra_vs d), tetra_ts, (get_color m).
  split; [|split; [exact E|split; [exact I|apply F2_refl]]]. unfold sm_tetrahedron, sm_clear. rewrite each_t by inb. reflexivity.
Qed.
Lemma octa_pair d sm m : reach m -> pair_of (sm_octahedron d sm) (create_octahedron d m).
Proof.
  intros Rm. destruct (octa_is d m Rm) as [m' [E I]]. exists (tri_list (octa_vs d) octa_ts), m', (octa_vs d), octa_ts, (get_color m).
  split; [|split; [exact E|split; [exact I|apply F2_refl]]]. unfold sm_octahedron, sm_clear. rewrite each_t by inb. reflexivity.
Qed.
Lemma ico_pair d sm m : reach m -> pair_of (sm_icosahedron d sm) (create_icosahedron d m).
Proof.
  intros Rm. pose proof nsqrt_5 as E1. pose proof (ndiv_nz (sqrt 5 - 1) 2 ltac:(lra)) as E2.
  destruct (ico_is d _ _ m E1 E2 Rm) as [m' [E I]]. exists (tri_list (ico_vs d ((sqrt 5 - 1) / 2 * d)) ico_ts), m', (ico_vs d ((sqrt 5 - 1) / 2 * d)), ico_ts, (get_color m).
  split; [|split; [exact E|split; [exact I|apply F2_refl]]]. unfold sm_icosahedron, sm_clear. rewrite E1. cbn [bind]. change (@n2 R _) with 2. change (@n1 R _) with 1. cbn [nsub RNum] in E2 |- *. rewrite E2. cbn [bind].
  rewrite each_t by inb. reflexivity.
Qed.
Lemma dodeca_pair d sm m : reach m -> pair_of (sm_dodecahedron d sm) (create_dodecahedron d m).
Proof.
  intros Rm. destruct golden_R as (s & t & u & E1 & E2 & E3). destruct (dodeca_is d s t u m E1 E2 E3 Rm) as [m' [E I]].
  set (vs := dodeca_vs d (t * d)%num (u * d)%num) in *. exists (tri_list vs dodeca_ts), m', vs, dodeca_ts, (get_color m).
  split; [|split; [exact E|split; [exact I|apply F2_refl]]]. unfold sm_dodecahedron, sm_clear. rewrite E1. cbn [bind]. rewrite E2. cbn [bind]. rewrite E3. cbn [bind]. reflexivity.
Qed.
Lemma box_pair x y z sm m : reach m -> pair_of (sm_box x y z sm) (create_box x y z m).
Proof.
  intros Rm. destruct (box_is x y z m divides_R Rm) as [m' [E I]]. set (X := dv x 2) in *. set (Y := dv y 2) in *. set (Z := dv z 2) in *.
  exists (tri_list (box_vs X Y Z) (flat_map (fun q => let '(a, b, c, d) := q in [(a, b, c); (a, c, d)])%Z [(0, 1, 2, 3); (7, 6, 5, 4); (4, 5, 1, 0); (3, 2, 6, 7); (5, 6, 2, 1); (0, 3, 7, 4)]%Z)), m', (box_vs X Y Z), box_ts, (get_color m).
  split; [|split; [exact E|split; [exact I|] ] ].
  - unfold sm_box, sm_clear, n2. rewrite !ndiv_dv by (apply divides_R || lia). reflexivity.
  - cbn. repeat (constructor; [first [apply rot0|apply rot2]|]). constructor.
Qed.

(** The smooth sphere. *)
Definition octant (d : R) (e : Z * Z * Z) : QBT R := let '(i, j, k) := e in sphere_patch (IZR i * d) (IZR j * d) (IZR k * d).
Definition octants : list (Z * Z * Z) := [(1, 1, 1); (-1, 1, 1); (1, -1, 1); (1, 1, -1); (-1, -1, 1); (-1, -1, -1); (-1, 1, -1); (1, -1, -1)]%Z.
Lemma sphere_octants d sm : sm_sphere d sm = map (octant d) octants.
Proof. unfold sm_sphere, sm_clear. cbn. rewrite !Rmult_1_l. replace (-1 * d) with (- d) by ring. reflexivity. Qed.
Lemma octant_eval dx dy dz s u v : s + u + v = 1 ->
  qbt_eval (sphere_patch dx dy dz) s u v = Ok (mkP (dx * (1 - (1 - s) ^ 2)) (dy * (1 - (1 - u) ^ 2)) (dz * (1 - (1 - v) ^ 2))) /\
  qbt_eval (sphere_patch dx dy dz) s u (-1) = Ok (mkP (dx * (1 - (1 - s) ^ 2)) (dy * (1 - (1 - u) ^ 2)) (dz * (1 - (1 - v) ^ 2))).
Proof.
  intros H. set (q := sphere_patch dx dy dz). assert (v = 1 - s - u) as -> by lra.
  assert (mass (masses q s u (1 - s - u)) = 1) as M by (unm; cbn; ring).
  assert (mean (masses q s u (1 - s - u)) = mkP (dx * (1 - (1 - s) ^ 2)) (dy * (1 - (1 - u) ^ 2)) (dz * (1 - (1 - (1 - s - u)) ^ 2))) as E.
  { unfold mean. rewrite M, Rinv_1. unm. pteq; cbn; ring. }
  split; [|rewrite eval_default by (rewrite M; lra); rewrite E; reflexivity].
  destruct (eval_gen q s u (1 - s - u) (1 - s - u)) as [K _]; [destruct (Req_EM_T (1 - s - u) (-1)); reflexivity|].
  rewrite K by (rewrite M; lra). rewrite E. reflexivity.
Qed.
Lemma octant_sq d i j k s u v : sign i -> sign j -> sign k -> s + u + v = 1 ->
  sq_dist (mkP (i * d * (1 - (1 - s) ^ 2)) (j * d * (1 - (1 - u) ^ 2)) (k * d * (1 - (1 - v) ^ 2))) = d * d * (1 + 2 * (s * u + s * v + u * v) ^ 2 - 8 * (s * u * v)).
Proof.
  intros Hi Hj Hk H. assert (v = 1 - s - u) as -> by lra. assert (i * i = 1 /\ j * j = 1 /\ k * k = 1) as (I2 & J2 & K2) by (repeat split; [destruct Hi|destruct Hj|destruct Hk]; subst; ring).
  unfold sq_dist, dot3. cbn [px py pz].
  transitivity (d * d * ((i * i) * (1 - (1 - s) ^ 2) ^ 2 + (j * j) * (1 - (1 - u) ^ 2) ^ 2 + (k * k) * (1 - (1 - (1 - s - u)) ^ 2) ^ 2)); [ring|]. rewrite I2, J2, K2. ring.
Qed.
Lemma band s u v : 0 <= s -> 0 <= u -> 0 <= v -> s + u + v = 1 -> 25 / 27 <= 1 + 2 * (s * u + s * v + u * v) ^ 2 - 8 * (s * u * v) <= 9 / 8.
Proof.
  intros A B C H. set (e2 := s * u + s * v + u * v). set (e3 := s * u * v).
  assert (0 <= e3) by (unfold e3; repeat apply Rmult_le_pos; assumption).
  assert (0 <= e2) by (unfold e2; assert (0 <= s * u) by (apply Rmult_le_pos; assumption); assert (0 <= s * v) by (apply Rmult_le_pos; assumption); assert (0 <= u * v) by (apply Rmult_le_pos; assumption); lra).
  assert (3 * e2 <= 1) as L.
  { assert (1 - 3 * e2 = ((s - u) ^ 2 + (s - v) ^ 2 + (u - v) ^ 2) / 2) as E by (unfold e2; replace v with (1 - s - u) by lra; field).
    pose proof (pow2_ge_0 (s - u)). pose proof (pow2_ge_0 (s - v)). pose proof (pow2_ge_0 (u - v)). lra. }
  assert (3 * e3 <= e2 * e2) as Q.
  { assert (e2 * e2 - 3 * e3 = ((s * u - s * v) ^ 2 + (s * u - u * v) ^ 2 + (s * v - u * v) ^ 2) / 2) as E by (unfold e2, e3; replace v with (1 - s - u) by lra; field).
    pose proof (pow2_ge_0 (s * u - s * v)). pose proof (pow2_ge_0 (s * u - u * v)). pose proof (pow2_ge_0 (s * v - u * v)). lra. }
  assert (4 * e2 - 1 <= 9 * e3) as Sc.
  { assert (9 * e3 - 4 * e2 + 1 = s * (s - u) * (s - v) + u * (u - s) * (u - v) + v * (v - s) * (v - u)) as E by (unfold e2, e3; replace v with (1 - s - u) by lra; ring).
    assert (forall x y z, 0 <= x -> x <= y -> y <= z -> 0 <= x * (x - y) * (x - z) + y * (y - x) * (y - z) + z * (z - x) * (z - y)) as K.
    { intros x y z X Y Zz. assert (0 <= x * ((y - x) * (z - x))) by (apply Rmult_le_pos; [assumption|apply Rmult_le_pos; lra]).
      assert (0 <= (z - y) * (z * (z - x) - y * (y - x))) by (apply Rmult_le_pos; [lra|nra]). lra. }
    destruct (Rle_dec s u), (Rle_dec u v), (Rle_dec s v); first [pose proof (K s u v)|idtac]; pose proof (K s v u); pose proof (K u s v); pose proof (K u v s); pose proof (K v s u); pose proof (K v u s); lra. }
  split; [nra|]. destruct (Rle_dec e2 (1 / 4)); nra.
Qed.
Lemma sphere_all d sm :
  exists ps, sm_sphere d sm = map (fun e => let '(i, j, k) := e in sphere_patch (i * d) (j * d) (k * d)) ps /\ NoDup ps /\    (forall i j k, In (i, j, k) ps <-> sign i /\ sign j /\ sign k).
Proof.
  exists (map (fun e => let '(i, j, k) := e in (IZR i, IZR j, IZR k)) octants). split; [|split].
  - rewrite sphere_octants, map_map. apply map_ext. intros [[i j] k]. reflexivity.
  - apply FinFun.Injective_map_NoDup; [|repeat (constructor; [cbn; intuition congruence|]); constructor].
    intros [[i j] k] [[i' j'] k'] [=]. f_equal; [f_equal|]; apply eq_IZR; assumption.
  - intros i j k. unfold sign. cbn. split.
    + intros H. repeat (destruct H as [H|H]; [injection H as <- <- <-; auto|]). contradiction H.
    + intros ([->| ->] & [->| ->] & [->| ->]); tauto.
Qed.
Lemma sphere_patches d sm : exists ps, NoDup ps /\ (forall i j k, In (i, j, k) ps <-> sign i /\ sign j /\ sign k) /\
  Forall2 (fun q e => let '(i, j, k) := e in forall s u v, s + u + v = 1 ->
    let p := mkP (i * d * (1 - (1 - s) ^ 2)) (j * d * (1 - (1 - u) ^ 2)) (k * d * (1 - (1 - v) ^ 2)) in
    qbt_eval q s u v = Ok p /\ qbt_eval q s u (-1) = Ok p) (sm_sphere d sm) ps.
Proof.
  destruct (sphere_all d sm) as (ps & E & ND & HI). exists ps. split; [exact ND|]. split; [exact HI|]. rewrite E. clear.
  induction ps as [|[[i j] k] ps IH]; cbn [map]; constructor; [|exact IH]. intros s u v H. apply octant_eval. exact H.
Qed.
Lemma sphere_in d sm q : In q (sm_sphere d sm) -> exists i j k, sign i /\ sign j /\ sign k /\ q = sphere_patch (i * d) (j * d) (k * d).
Proof.
  destruct (sphere_all d sm) as (ps & -> & _ & HI). intros H. apply in_map_iff in H. destruct H as [[[i j] k] [<- H]]. apply HI in H. exists i, j, k. tauto.
Qed.
Lemma sphere_near d sm q s u v : In q (sm_sphere d sm) -> 0 <= s -> 0 <= u -> 0 <= v -> s + u + v = 1 ->
  exists p, qbt_eval q s u v = Ok p /\ 25 / 27 * (d * d) <= sq_dist p <= 9 / 8 * (d * d) /\
    (d <> 0 -> (on_sphere d p <-> (s * u + s * v + u * v) ^ 2 = 4 * (s * u * v))).
Proof.
  intros H A B C S. destruct (sphere_in d sm q H) as (i & j & k & I & J & K & ->). destruct (octant_eval (i * d) (j * d) (k * d) s u v S) as [E0 _]. eexists. split; [exact E0|]. clear E0.
  match goal with |- context [sq_dist ?p] => assert (on_sphere d p <-> sq_dist p = d * d) as EO by (unfold on_sphere, sq_dist, dot3; cbn [px py pz]; reflexivity) end.
  rewrite EO, octant_sq by assumption. pose proof (band s u v A B C S) as BD. assert (0 <= d * d) as DD by apply Rle_0_sqr.
  set (X := (s * u + s * v + u * v) ^ 2) in *. set (Y := s * u * v) in *. clearbody X Y. rewrite (Rmult_comm (25 / 27)), (Rmult_comm (9 / 8)).
  split; [split; apply Rmult_le_compat_l; lra|]. intros D. assert (d * d <> 0) as D2 by (apply Rmult_integral_contrapositive; split; exact D). split; intros E.
  - assert (d * d * (1 + 2 * X - 8 * Y) = d * d * 1) as E' by lra. apply Rmult_eq_reg_l in E'; [lra|exact D2].
  - rewrite E. ring.
Qed.
Lemma sphere_corners d sm q : In q (sm_sphere d sm) -> on_sphere d (qP1 q) /\ on_sphere d (qP2 q) /\ on_sphere d (qP3 q).
Proof.
  intros H. destruct (sphere_in d sm q H) as (i & j & k & I & J & K & ->). assert (i * i = 1 /\ j * j = 1 /\ k * k = 1) as (I2 & J2 & K2) by (repeat split; [destruct I|destruct J|destruct K]; subst; ring).
  unfold on_sphere. cbn. split; [|split]; [transitivity (i * i * (d * d)); [ring|rewrite I2; ring]|transitivity (j * j * (d * d)); [ring|rewrite J2; ring]|transitivity (k * k * (d * d)); [ring|rewrite K2; ring] ].
Qed.
Lemma sphere_refuted d sm : d <> 0 -> forall q, In q (sm_sphere d sm) ->
  exists p p', qbt_eval q (/ 3) (/ 3) (/ 3) = Ok p /\ qbt_eval q (/ 2) (/ 2) 0 = Ok p' /\ ~ on_sphere d p /\ ~ on_sphere d p' /\ sq_dist p = 25 / 27 * (d * d) /\ sq_dist p' = 9 / 8 * (d * d).
Proof.
  intros D q H. destruct (sphere_in d sm q H) as (i & j & k & I & J & K & ->). destruct (octant_eval (i * d) (j * d) (k * d) (/ 3) (/ 3) (/ 3) ltac:(field)) as [E0 _]. destruct (octant_eval (i * d) (j * d) (k * d) (/ 2) (/ 2) 0 ltac:(field)) as [E0' _].
  do 2 eexists. split; [exact E0|]. split; [exact E0'|]. clear E0 E0'.
  match goal with |- ~ on_sphere d ?p /\ ~ on_sphere d ?p' /\ _ => assert (sq_dist p = 25 / 27 * (d * d)) as E1 by (rewrite octant_sq by (assumption || field); field);
    assert (sq_dist p' = 9 / 8 * (d * d)) as E2 by (rewrite octant_sq by (assumption || field); field); assert (forall x, on_sphere d x -> sq_dist x = d * d) as K0 by (intros x Hx; exact Hx) end.
  assert (0 < d * d) by (apply Rsqr_pos_lt in D; exact D). split; [intros O; apply K0 in O; lra|]. split; [intros O; apply K0 in O; lra|]. split; assumption.
Qed.

(** C68 *)
Lemma pn_all (c : CBT R) N1 N2 N3 : exists c', cbt_set_normals c N1 N2 N3 = Ok c' /\ cP1 c' = cP1 c /\ cP2 c' = cP2 c /\ cP3 c' = cP3 c /\
  (forall P Q n e, In (P, Q, n, e) (pn_edges (cP1 c) (cP2 c) (cP3 c) N1 N2 N3 c') ->
     e = sub3 (third P Q) (scal3 (dot3 (sub3 Q P) n / 3) n)) /\
  (let E := scal3 (/ 6) (combo [1; 1; 1; 1; 1; 1] [c12 c'; c21 c'; c13 c'; c31 c'; c23 c'; c32 c']) in
   let V := scal3 (/ 3) (combo [1; 1; 1] [cP1 c; cP2 c; cP3 c]) in ccenter c' = add3 E (scal3 (/ 2) (sub3 E V))).
Proof.
  unfold cbt_set_normals. rewrite !pn_edge_R. cbn [bind]. do 3 (rewrite pdiv_R by (cbn; lra); cbn [bind]). eexists. split; [reflexivity|]. do 3 (split; [reflexivity|]). split.
  - intros P Q n e H. unfold pn_edges in H. repeat (destruct H as [H|H]; [injection H as <- <- <- <-; reflexivity|]). contradiction H.
  - cbn [c12 c21 c13 c31 c23 c32 ccenter combo]. pteq; cbn; field.
Qed.
Lemma pn_unit (c : CBT R) N1 N2 N3 : len3 N1 = 1 -> len3 N2 = 1 -> len3 N3 = 1 ->
  exists c', cbt_set_normals c N1 N2 N3 = Ok c' /\ cP1 c' = cP1 c /\ cP2 c' = cP2 c /\ cP3 c' = cP3 c /\
  forall P Q n e, In (P, Q, n, e) (pn_edges (cP1 c) (cP2 c) (cP3 c) N1 N2 N3 c') ->
    dot3 (sub3 e P) n = 0 /\ exists k, sub3 (third P Q) e = scal3 k n.
Proof.
  intros U1 U2 U3. destruct (pn_all c N1 N2 N3) as (c' & E & A1 & A2 & A3 & H & _). exists c'. do 4 (split; [assumption|]). intros P Q n e HI. rewrite (H P Q n e HI).
  assert (dot3 n n = 1) as U.
  { assert (forall v, len3 v = 1 -> dot3 v v = 1) as K by (intros v Hv; unfold len3 in Hv; assert (0 <= dot3 v v) by (unfold dot3; nra); rewrite <- (sqrt_sqrt (dot3 v v)) by assumption; rewrite Hv; ring).
    unfold pn_edges in HI. repeat (destruct HI as [HI|HI]; [injection HI as <- <- <- <-; apply K; assumption|]). contradiction HI. }
  split; [rewrite pn_tangent, U; field|]. exists (dot3 (sub3 Q P) n / 3). pteq; ring.
Qed.
Lemma pn_any (c c' : CBT R) N1 N2 N3 : cbt_set_normals c N1 N2 N3 = Ok c' -> forall P Q n e, In (P, Q, n, e) (pn_edges (cP1 c) (cP2 c) (cP3 c) N1 N2 N3 c') ->
  dot3 (sub3 e P) n = dot3 (sub3 Q P) n * (1 - dot3 n n) / 3.
Proof. intros E P Q n e HI. destruct (pn_all c N1 N2 N3) as (c2 & E2 & _ & _ & _ & H & _). rewrite E in E2. injection E2 as <-. rewrite (H P Q n e HI). apply pn_tangent. Qed.
Lemma pn_flat (c : CBT R) N1 N2 N3 : (forall n e, In n [N1; N2; N3] -> In e [sub3 (cP2 c) (cP1 c); sub3 (cP3 c) (cP1 c)] -> dot3 e n = 0) ->
  exists c', cbt_set_normals c N1 N2 N3 = Ok c' /\ (forall P Q n e, In (P, Q, n, e) (pn_edges (cP1 c) (cP2 c) (cP3 c) N1 N2 N3 c') -> e = third P Q) /\
    ccenter c' = scal3 (/ 3) (combo [1; 1; 1] [cP1 c; cP2 c; cP3 c]).
Proof.
  intros Z. destruct (pn_all c N1 N2 N3) as (c' & E & _ & _ & _ & H & HC). exists c'. split; [exact E|].
  assert (forall P Q n e, In (P, Q, n, e) (pn_edges (cP1 c) (cP2 c) (cP3 c) N1 N2 N3 c') -> e = third P Q) as K.
  { intros P Q n e HI. rewrite (H P Q n e HI). assert (dot3 (sub3 Q P) n = 0) as ->; [|pteq; field].
    pose proof (fun n Hn => Z n _ Hn (or_introl eq_refl)) as Z1. pose proof (fun n Hn => Z n _ Hn (or_intror (or_introl eq_refl))) as Z2.
    assert (In n [N1; N2; N3]) as Hn by (unfold pn_edges in HI; cbn in *; intuition congruence). specialize (Z1 n Hn). specialize (Z2 n Hn). unfold dot3 in *. cbn in Z1, Z2.
    unfold pn_edges in HI. repeat (destruct HI as [HI|HI]; [injection HI as <- <- <- <-; cbn; lra|]). contradiction HI. }
  split; [exact K|]. rewrite HC. cbv zeta. unfold pn_edges in K.
  rewrite (K _ _ _ (c12 c') (or_introl eq_refl)), (K _ _ _ (c21 c') (or_intror (or_introl eq_refl))), (K _ _ _ (c13 c') (or_intror (or_intror (or_introl eq_refl)))),
    (K _ _ _ (c31 c') (or_intror (or_intror (or_intror (or_introl eq_refl))))), (K _ _ _ (c23 c') (or_intror (or_intror (or_intror (or_intror (or_introl eq_refl)))))),
    (K _ _ _ (c32 c') (or_intror (or_intror (or_intror (or_intror (or_intror (or_introl eq_refl))))))).
  unfold third. cbn [combo]. pteq; field.
Qed.
Lemma pn_centre (c c' : CBT R) N1 N2 N3 : cbt_set_normals c N1 N2 N3 = Ok c' ->
  let E := scal3 (/ 6) (combo [1; 1; 1; 1; 1; 1] [c12 c'; c21 c'; c13 c'; c31 c'; c23 c'; c32 c']) in
  let V := scal3 (/ 3) (combo [1; 1; 1] [cP1 c; cP2 c; cP3 c]) in ccenter c' = add3 E (scal3 (/ 2) (sub3 E V)).
Proof. intros E. destruct (pn_all c N1 N2 N3) as (c2 & E2 & _ & _ & _ & _ & H). rewrite E in E2. injection E2 as <-. exact H. Qed.

(** Forms used by the property theorems *)
Lemma family_affine (k : nat) (f : pt3 -> pt3) (ps : list pt3) (u : R) : (1 <= k <= 3)%nat -> affine3 f -> length ps = S k ->
  f (combo (map (fun b => b u) (family k)) ps) = combo (map (fun b => b u) (family k)) (map f ps).
Proof. intros K A L. apply combo_affine; [exact A|rewrite map_length, family_len by exact K; symmetry; exact L|apply family_sum; exact K]. Qed.
Lemma grid_facts n i j (g : Z -> Z -> pt3) : on_grid n i j ->
  len (grid n g) = ((n + 1) * (n + 2) / 2)%Z /\ (0 <= rank n i j < len (grid n g))%Z /\ nth (Z.to_nat (rank n i j)) (grid n g) O3 = g i j.
Proof.
  intros G. assert (0 <= n)%Z by (unfold on_grid in G; lia). split; [apply grid_size; assumption|]. split; [|apply grid_point; exact G].
  rewrite <- gridz_grid, grid_len by lia. apply rank_range. exact G.
Qed.
Lemma reach_abs_nt m a : reach m -> shows m a -> nb_triangles m = len (@atris R a).
Proof. intros _ S. apply S. Qed.
Lemma patch_triangles (q : QBT R) n (m : Mesh R) : (1 <= n)%Z -> positive_weights q -> reach m ->
  exists m', qbt_add_to_mesh q m n = Ok m' /\ nb_triangles m' = (nb_triangles m + patch_count n)%Z /\ (patch_count n = n * n <-> n = 1)%Z.
Proof.
  intros Hn P Rm. pose proof (shows_abs m) as S0. destruct (patch_appended q n m _ Hn P Rm S0) as (m' & E & R' & S'). exists m'. split; [exact E|]. split.
  - rewrite (reach_abs_nt _ _ R' S'), (reach_abs_nt _ _ Rm S0). unfold with_tris. cbn [atris with_verts]. rewrite len_app. f_equal. unfold len at 1. rewrite map_length. apply patch_tris_len. exact Hn.
  - unfold patch_count. destruct (Z.eqb_spec n 1); [subst; tauto|]. split; [intros K; exfalso; lia|tauto].
Qed.
Lemma no_segments (q : QBT R) n (m : Mesh R) : (n <= 0)%Z -> qbt_add_to_mesh q m n = if Z.eqb n 0 then Err FDivZero else Ok m.
Proof. intros H. destruct (Z.eqb_spec n 0); [subst; apply add_zero_segments|apply add_to_mesh_neg; lia]. Qed.
Lemma container (T : Type) (N : Num T) (sm src : SmoothMesh T) (f : Point3 T -> Point3 T) :
  sm_add_mesh sm src = Ok (sm ++ src) /\ sm_assign sm src = Ok src /\ sm_copy src = Ok src /\
  sm_apply_transform sm f = Ok (map (fun q => qbt_apply_transform q f) sm) /\ sm_clear sm = [].
Proof. split; [apply sm_add_mesh_ok|]. split; [apply sm_assign_ok|]. split; [apply sm_copy_ok|]. split; [apply sm_transform_ok|reflexivity]. Qed.
Lemma on_itself (T : Type) (N : Num T) (sm : SmoothMesh T) (fuel : nat) : (0 < fuel)%nat ->
  sm_assign_self fuel sm = Ok [] /\ (sm <> [] -> sm_add_self fuel sm = Err FDiverge) /\ sm_add_self fuel ([] : SmoothMesh T) = Ok [].
Proof. intros F. split; [apply sm_assign_self_ok; exact F|]. split; [apply sm_add_self_diverges|apply sm_add_self_empty; exact F]. Qed.
Lemma smooth_counts (sm : SmoothMesh R) n (m : Mesh R) : (1 <= n)%Z -> Forall positive_weights sm -> reach m ->
  exists m', sm_add_to_mesh sm m n = Ok m' /\ reach m' /\
    nb_vertices m' = (nb_vertices m + len sm * ((n + 1) * (n + 2) / 2))%Z /\ nb_triangles m' = (nb_triangles m + len sm * patch_count n)%Z.
Proof.
  intros Hn W Rm. pose proof (shows_abs m) as S0. destruct (to_mesh_counts sm n Hn W m _ Rm S0) as (m' & a' & ts & E & R' & S' & -> & L). exists m'. split; [exact E|]. split; [exact R'|]. split.
  - assert (forall m a, shows m a -> nb_vertices m = len (@averts R a)) as K by (intros ? ? S; apply S). rewrite (K _ _ S'), (K _ _ S0). cbn [averts with_tris with_verts]. rewrite len_app. f_equal.
    clear - Hn. induction sm as [|q sm IH]; [reflexivity|]. cbn [flat_map]. rewrite len_app, len_cons, IH, grid_size by lia. ring.
  - rewrite (reach_abs_nt _ _ R' S'), (reach_abs_nt _ _ Rm S0). cbn [atris with_tris with_verts]. rewrite len_app. f_equal. unfold len at 1. rewrite map_length. exact L.
Qed.
Lemma solids_smooth (d x y z : R) (sm : SmoothMesh R) (m : Mesh R) : reach m ->
  smooth_version (sm_tetrahedron d sm) (create_tetrahedron d m) /\ smooth_version (sm_box x y z sm) (create_box x y z m) /\
  smooth_version (sm_octahedron d sm) (create_octahedron d m) /\ smooth_version (sm_dodecahedron d sm) (create_dodecahedron d m) /\
  smooth_version (sm_icosahedron d sm) (create_icosahedron d m).
Proof.
  intros Rm. split; [apply pair_version, tetra_pair, Rm|]. split; [apply pair_version, box_pair, Rm|]. split; [apply pair_version, octa_pair, Rm|].
  split; [apply pair_version, dodeca_pair, Rm|apply pair_version, ico_pair, Rm].
Qed.
Lemma solids_inside_out (d x y z : R) (sm : SmoothMesh R) (m : Mesh R) : reach m ->
  inside_out (sm_tetrahedron d sm) (create_tetrahedron d m) /\ inside_out (sm_box x y z sm) (create_box x y z m) /\
  inside_out (sm_octahedron d sm) (create_octahedron d m) /\ inside_out (sm_dodecahedron d sm) (create_dodecahedron d m) /\
  inside_out (sm_icosahedron d sm) (create_icosahedron d m).
Proof.
  intros Rm. split; [apply pair_inside_out, tetra_pair, Rm|]. split; [apply pair_inside_out, box_pair, Rm|]. split; [apply pair_inside_out, octa_pair, Rm|].
  split; [apply pair_inside_out, dodeca_pair, Rm|apply pair_inside_out, ico_pair, Rm].
Qed.
