(** Meshing of surfaces, height fields as surfaces, meshes as surfaces. *)
From Coq Require Import ZArith List Bool Reals Lra Lia Permutation Psatz.
From Verif Require Import Base Num MGeometry MKernel MMesh MMeshRun MNurbs MNurbsSurface MNurbsFactory SMesh SReach SGeom SMeasure SNurbs SSurface
  LBase LMesh LReach LMeasure LGrid LBlossom LNurbs LNurbs2 LNurbs4 LSurf LSurf2 LFactory.
Import ListNotations.
Open Scope Z_scope.

(** ** to_mesh *)
Definition surf_row (s : NurbsSurface R) (nU nV v : Z) : list pt3 :=
  flat_map (fun u => [surf_at s (IZR u / IZR nU) (IZR v / IZR nV)]) (zrange 0 (nU + 1)).
Definition surf_verts s (nU nV : Z) : list pt3 := flat_map (surf_row s nU nV) (zrange 0 (nV + 1)).
Definition wcell (st nU nV : Z) (cu cv : bool) (u v : Z) : list triple :=
  let id a b := st + a + (nU + 1) * b in
  [(id u v, id (next cu nU u) v, id (next cu nU u) (next cv nV v)); (id (next cu nU u) (next cv nV v), id u (next cv nV v), id u v)].
Definition wrow st nU nV cu cv (v : Z) : list triple := flat_map (fun u => wcell st nU nV cu cv u v) (zrange 0 nU).
Definition wtriples st nU nV cu cv : list triple := flat_map (wrow st nU nV cu cv) (zrange 0 nV).

Lemma surf_at_same s s' u v : same_sdata s s' -> surf_at s' u v = surf_at s u v.
Proof.
  intros [E1 [E2 [E3 [E4 [E5 [E6 [E7 [E8 [E9 E10]]]]]]]]]. unfold surf_at, surf_den, surf_sum, scp, scw. rewrite E1, E2, E3, E4, E7, E8, E9, E10. reflexivity.
Qed.
Lemma same_sdata_trans (s1 s2 s3 : NurbsSurface R) : same_sdata s1 s2 -> same_sdata s2 s3 -> same_sdata s1 s3.
Proof. unfold same_sdata. intros H K. decompose [and] H. decompose [and] K. repeat split; congruence. Qed.
Lemma same_sdata_refl (s : NurbsSurface R) : same_sdata s s.
Proof. repeat split. Qed.

Lemma par_range u n : 0 < n -> 0 <= u <= n -> (0 <= IZR u / IZR n <= 1)%R.
Proof.
  intros Hn Hu. assert (0 < IZR n)%R as P by (apply IZR_lt; lia). assert (0 <= IZR u)%R by (apply IZR_le; lia). assert (IZR u <= IZR n)%R by (apply IZR_le; lia). split.
  - apply Rmult_le_pos; [lra|left; apply Rinv_0_lt_compat, P].
  - apply (Rmult_le_reg_r (IZR n)); [exact P|]. replace (IZR u / IZR n * IZR n)%R with (IZR u) by (field; lra). lra.
Qed.
Lemma ndiv_par u n : 0 < n -> @ndiv R RNum (nofZ u) (nofZ n) = Ok (IZR u / IZR n)%R.
Proof.
  intros Hn. unfold ndiv. cbn [RNum nofZ]. destruct (Req_EM_T (IZR n) 0) as [E|E]; [|reflexivity]. apply eq_IZR_R0 in E. lia.
Qed.

Lemma to_mesh_vertices_ok s m nU nV : svalid s -> 0 < nU -> 0 < nV ->
  exists s', to_mesh_vertices nU nV (s, m) = Ok (s', push_verts m (surf_verts s nU nV)) /\ same_sdata s s' /\ svalid s'.
Proof.
  intros V HU HV. unfold to_mesh_vertices.
  destruct (for_inv (fun v (sm : NurbsSurface R * Mesh R) => same_sdata s (fst sm) /\ svalid (fst sm) /\ snd sm = push_verts m (flat_map (surf_row s nU nV) (zrange 0 v))) 0 (nV + 1)
    (fun v sm => for_ 0 (nU + 1) (fun u sm => do du <- ndiv (nofZ u) (nofZ nU); do dv <- ndiv (nofZ v) (nofZ nV); do e <- ns_evaluate (fst sm) du dv; Ok (snd e, fst (add_vertex (snd sm) (fst e)))) sm) (s, m)) as [[s' m'] [E [I1 [I2 I3]]]].
  - lia.
  - cbn. rewrite push_verts_nil. split; [apply same_sdata_refl|]. split; [exact V|reflexivity].
  - intros v [s1 m1] Hv [J1 [J2 J3]]. cbn [fst snd] in J1, J2, J3.
    destruct (for_inv (fun u (sm : NurbsSurface R * Mesh R) => same_sdata s (fst sm) /\ svalid (fst sm) /\ snd sm = push_verts m (flat_map (surf_row s nU nV) (zrange 0 v) ++ flat_map (fun u => [surf_at s (IZR u / IZR nU) (IZR v / IZR nV)]) (zrange 0 u))) 0 (nU + 1)
      (fun u sm => do du <- ndiv (nofZ u) (nofZ nU); do dv <- ndiv (nofZ v) (nofZ nV); do e <- ns_evaluate (fst sm) du dv; Ok (snd e, fst (add_vertex (snd sm) (fst e)))) (s1, m1)) as [[s2 m2] [E [K1 [K2 K3]]]].
    + lia.
    + cbn. rewrite app_nil_r. auto.
    + intros u [s2 m2] Hu [K1 [K2 K3]]. cbn [fst snd] in *. rewrite !ndiv_par by assumption. cbn [bind].
      destruct (sevaluate_ok s2 (IZR u / IZR nU) (IZR v / IZR nV) K2 (par_range u nU HU ltac:(lia)) (par_range v nV HV ltac:(lia))) as [s3 [E [L1 L2]]]. rewrite E. cbn [bind fst snd].
      eexists. split; [reflexivity|]. cbn [fst snd]. split; [eapply same_sdata_trans; eassumption|]. split; [exact L2|].
      rewrite K3, (surf_at_same s s2 _ _ K1). change (fst (add_vertex ?a ?b)) with (push_vert a b). rewrite push_vert_verts, push_verts_app, <- app_assoc. f_equal. f_equal.
      rewrite zrange_last, flat_map_app by lia. reflexivity.
    + exists (s2, m2). split; [exact E|]. cbn [fst snd] in *. split; [exact K1|]. split; [exact K2|]. rewrite K3, (zrange_last 0 v), flat_map_app by lia. cbn [flat_map]. rewrite app_nil_r. reflexivity.
  - exists s'. cbn [fst snd] in *. rewrite E, I3. split; [reflexivity|]. split; assumption.
Qed.

Lemma next_range c n i : 0 <= i < n -> 0 <= next c n i <= n.
Proof. intros H. unfold next. destruct (c && (i =? n - 1)); lia. Qed.
Lemma to_mesh_quads_ok st nU nV cu cv (m : Mesh R) : 0 <= st -> 0 <= nU -> 0 <= nV -> nb_vertices m = st + (nU + 1) * (nV + 1) ->
  to_mesh_quads st nU nV cu cv m = Ok (push_tris m (wtriples st nU nV cu cv)).
Proof.
  intros Hst Hx Hy Hn. unfold to_mesh_quads.
  edestruct (for_inv (fun j s => s = push_tris m (flat_map (wrow st nU nV cu cv) (zrange 0 j)))) as [s [E H]]; [| | |rewrite E, H; reflexivity].
  - lia.
  - cbn. rewrite push_tris_nil. reflexivity.
  - intros j s Hj ->. cbn beta.
    edestruct (for_inv (fun i s => s = push_tris m (flat_map (wrow st nU nV cu cv) (zrange 0 j) ++ flat_map (fun i => wcell st nU nV cu cv i j) (zrange 0 i)))) as [s [E H]];
      [| | |exists s; split; [exact E|rewrite H]].
    + lia.
    + cbn. rewrite app_nil_r. reflexivity.
    + intros i s Hi ->. cbn beta zeta. fold (next cu nU i). fold (next cv nV j). pose proof (next_range cu nU i Hi) as N1. pose proof (next_range cv nV j Hj) as N2.
      rewrite add_quad_ok.
      * eexists. split; [reflexivity|]. rewrite push_tris_app, <- app_assoc. f_equal. f_equal.
        rewrite zrange_last, flat_map_app by lia. cbn. reflexivity.
      * change (nb_vertices (push_tris m _)) with (nb_vertices m). rewrite Hn. nia.
      * change (nb_vertices (push_tris m _)) with (nb_vertices m). rewrite Hn. nia.
      * change (nb_vertices (push_tris m _)) with (nb_vertices m). rewrite Hn. nia.
      * change (nb_vertices (push_tris m _)) with (nb_vertices m). rewrite Hn. nia.
    + rewrite zrange_last, flat_map_app by lia. cbn [flat_map]. rewrite app_nil_r. reflexivity.
Qed.
Lemma wrow_size st nU nV cu cv v : 0 <= nU -> vsize (wrow st nU nV cu cv v) = 2 * nU.
Proof. intros H. unfold wrow. apply vsize_flat_map0; [reflexivity|lia]. Qed.
Lemma wtriples_size st nU nV cu cv : 0 <= nU -> 0 <= nV -> vsize (wtriples st nU nV cu cv) = 2 * nU * nV.
Proof. intros Hx Hy. unfold wtriples. apply vsize_flat_map0; [|lia]. intros. apply wrow_size. exact Hx. Qed.
Lemma wtriples_get st nU nV cu cv i j r : 0 <= i < nU -> 0 <= j < nV -> 0 <= r < 2 ->
  vget (wtriples st nU nV cu cv) (2 * (i + nU * j) + r) = vget (wcell st nU nV cu cv i j) r.
Proof.
  intros Hi Hj Hr. unfold wtriples.
  replace (2 * (i + nU * j) + r) with (2 * nU * j + (2 * i + r)) by ring.
  rewrite (vget_flat_map (wrow st nU nV cu cv) (2 * nU) nV j (2 * i + r)); [|intros; apply wrow_size; lia|lia|lia].
  unfold wrow. apply (vget_flat_map (fun i => wcell st nU nV cu cv i j) 2 nU i r); [reflexivity|lia|lia].
Qed.
Lemma surf_row_size s nU nV v : 0 <= nU -> vsize (surf_row s nU nV v) = nU + 1.
Proof. intros H. unfold surf_row. rewrite (vsize_flat_map0 _ 1); [lia|reflexivity|lia]. Qed.
Lemma surf_verts_size s nU nV : 0 <= nU -> 0 <= nV -> vsize (surf_verts s nU nV) = (nU + 1) * (nV + 1).
Proof. intros H K. unfold surf_verts. apply vsize_flat_map0; [|lia]. intros. apply surf_row_size, H. Qed.
Lemma surf_verts_get s nU nV u v : 0 <= u <= nU -> 0 <= v <= nV -> vget (surf_verts s nU nV) (u + (nU + 1) * v) = Ok (surf_at s (IZR u / IZR nU) (IZR v / IZR nV)).
Proof.
  intros Hu Hv. unfold surf_verts. replace (u + (nU + 1) * v) with ((nU + 1) * v + u) by ring.
  rewrite (vget_flat_map (surf_row s nU nV) (nU + 1) (nV + 1) v u); [|intros; apply surf_row_size; lia|lia|lia].
  unfold surf_row. replace u with (1 * u + 0) at 1 by ring. rewrite (vget_flat_map _ 1 (nU + 1) u 0); [reflexivity|reflexivity|lia|lia].
Qed.

Lemma push_tris_old {T} (m : Mesh T) ts i : 0 <= i < nb_triangles m ->
  get_triangle_vertices (push_tris m ts) i = get_triangle_vertices m i /\ is_triangle_unlinked (push_tris m ts) i = is_triangle_unlinked m i.
Proof.
  intros H. destruct (vget_in_range (ktris (mkern m)) i H) as [t G].
  assert (vget (ktris (mkern (push_tris m ts))) i = Ok t) as G' by (unfold push_tris; cbn [mkern ktris]; rewrite vget_app_l by exact (proj2 H); exact G).
  rewrite (get_triangle_vertices_ok _ _ _ G), (get_triangle_vertices_ok _ _ _ G'), (is_unlinked_ok _ _ _ G), (is_unlinked_ok _ _ _ G'). split; reflexivity.
Qed.
Lemma push_verts_old {T} (m : Mesh T) vs i : 0 <= i < nb_vertices m -> get_vertex (push_verts m vs) i = get_vertex m i.
Proof.
  intros H. destruct (vget_in_range (kverts (mkern m)) i H) as [t G].
  assert (vget (kverts (mkern (push_verts m vs))) i = Ok t) as G' by (unfold push_verts; cbn [mkern kverts]; rewrite vget_app_l by exact (proj2 H); exact G).
  rewrite (get_vertex_ok _ _ _ G), (get_vertex_ok _ _ _ G'). reflexivity.
Qed.

Lemma to_mesh_ok s m seg (b : bool) : svalid s -> 0 < seg -> meshable seg s -> let m0 := if b then clear m else m in let nU := seg * ns_nbU s in let nV := seg * ns_nbV s in
  0 < nU /\ 0 < nV /\ nu_to_mesh s m seg b = Ok (push_tris (push_verts m0 (surf_verts s nU nV)) (wtriples (nb_vertices m0) nU nV (ns_closedU s) (ns_closedV s))).
Proof.
  intros V Hs MS m0 nU nV. pose proof V as [_ [_ [[CU _] [[CV _] _]]]].
  assert (0 < nU) as HU by (unfold nU; nia). assert (0 < nV) as HV by (unfold nV; nia). split; [exact HU|]. split; [exact HV|].
  destruct MS as [MU MV]. unfold nu_to_mesh. fold m0. fold nU nV in MU, MV |- *. rewrite (iint_ok nU) by (unfold int_min, int_max in *; lia). cbn [bind]. rewrite (iint_ok nV) by (unfold int_min; lia). cbn [bind].
  rewrite (iint_ok (nU * nU)) by (unfold int_min, int_max; nia). cbn [bind]. destruct (Z.eqb_spec (nU * nU) 0); [nia|].
  destruct (to_mesh_vertices_ok s m0 nU nV V HU HV) as [s' [E [D V']]]. rewrite E. cbn [bind snd].
  apply to_mesh_quads_ok; [apply vsize_nonneg|lia|lia|]. rewrite nbv_push_verts, surf_verts_size by lia. reflexivity.
Qed.

Lemma to_mesh_facts s m seg (b : bool) : svalid s -> 0 < seg -> meshable seg s ->
  let m0 := if b then clear m else m in let nU := seg * ns_nbU s in let nV := seg * ns_nbV s in
  let st := nb_vertices m0 in let t0 := nb_triangles m0 in let id u v := st + u + (nU + 1) * v in
  exists m', nu_to_mesh s m seg b = Ok m' /\
    nb_vertices m' = st + (nU + 1) * (nV + 1) /\ nb_triangles m' = t0 + 2 * nU * nV /\
    (forall i, 0 <= i < st -> get_vertex m' i = get_vertex m0 i) /\
    (forall i, 0 <= i < t0 -> get_triangle_vertices m' i = get_triangle_vertices m0 i /\ is_triangle_unlinked m' i = is_triangle_unlinked m0 i) /\
    (forall u v, 0 <= u <= nU -> 0 <= v <= nV -> get_vertex m' (id u v) = Ok (surf_at s (IZR u / IZR nU) (IZR v / IZR nV))) /\
    (forall u v, 0 <= u < nU -> 0 <= v < nV -> let u' := next (ns_closedU s) nU u in let v' := next (ns_closedV s) nV v in let t := t0 + 2 * (u + nU * v) in
       get_triangle_vertices m' t = Ok (id u v, id u' v, id u' v') /\ get_triangle_vertices m' (t + 1) = Ok (id u' v', id u v', id u v) /\
       is_triangle_unlinked m' t = Ok false /\ is_triangle_unlinked m' (t + 1) = Ok false).
Proof.
  intros V Hs MS m0 nU nV st t0 id. destruct (to_mesh_ok s m seg b V Hs MS) as [HU [HV E]]. fold m0 nU nV in HU, HV, E. fold st in E.
  set (vs := surf_verts s nU nV) in *. set (ts := wtriples st nU nV (ns_closedU s) (ns_closedV s)) in *. eexists. split; [exact E|].
  assert (nb_vertices (push_verts m0 vs) = st + (nU + 1) * (nV + 1)) as NV by (rewrite nbv_push_verts; unfold vs; rewrite surf_verts_size by lia; reflexivity).
  pose proof (vsize_nonneg (kverts (mkern m0))) as P. fold (k_nbv (mkern m0)) in P. fold (nb_vertices m0) in P. fold st in P.
  split; [exact NV|]. split; [rewrite nbt_push_tris; unfold ts; rewrite wtriples_size by lia; reflexivity|]. split; [|split; [|split]].
  - intros i Hi. change (get_vertex (push_verts m0 vs) i = get_vertex m0 i). apply push_verts_old. exact Hi.
  - intros i Hi. destruct (push_tris_old (push_verts m0 vs) ts i Hi) as [-> ->]. split; reflexivity.
  - intros u v Hu Hv. change (get_vertex (push_verts m0 vs) (id u v) = Ok (surf_at s (IZR u / IZR nU) (IZR v / IZR nV))). apply get_vertex_ok. unfold push_verts. cbn [mkern kverts].
    rewrite vget_app_r by (unfold id, st, nb_vertices, k_nbv in *; nia).
    change (vsize (kverts (mkern m0))) with st. replace (id u v - st) with (u + (nU + 1) * v) by (unfold id; ring).
    apply surf_verts_get; assumption.
  - intros u v Hu Hv u' v' t.
    assert (forall r a b c, 0 <= r < 2 -> vget (wcell st nU nV (ns_closedU s) (ns_closedV s) u v) r = Ok (a, b, c) ->
       get_triangle_vertices (push_tris (push_verts m0 vs) ts) (t + r) = Ok (a, b, c) /\ is_triangle_unlinked (push_tris (push_verts m0 vs) ts) (t + r) = Ok false) as K.
    { intros r a0 b0 c0 Hr Er. rewrite <- (wtriples_get st nU nV (ns_closedU s) (ns_closedV s) u v r Hu Hv Hr) in Er. apply (push_tris_get (push_verts m0 vs)) in Er.
      unfold t. rewrite <- Z.add_assoc. exact Er. }
    destruct (K 0 _ _ _ ltac:(lia) eq_refl) as [A1 A2]. destruct (K 1 _ _ _ ltac:(lia) eq_refl) as [B1 B2].
    rewrite Z.add_0_r in A1, A2. split; [exact A1|]. split; [exact B1|]. split; [exact A2|exact B2].
Qed.

(** Beyond: overflow. *)
Lemma to_mesh_overflow {T} {N : Num T} (s : NurbsSurface T) m seg b : 0 <= ns_nbU s -> 0 <= ns_nbV s -> 0 <= seg -> ~ meshable seg s -> nu_to_mesh s m seg b = Err FOverflow.
Proof.
  intros HU HV Hs H. unfold nu_to_mesh. unfold meshable in H. set (nU := seg * ns_nbU s) in *. set (nV := seg * ns_nbV s) in *. assert (0 <= nU /\ 0 <= nV) as [PU PV] by (unfold nU, nV; nia).
  destruct (Z_le_gt_dec nU int_max) as [LU|GU]; [|rewrite (iint_big nU) by lia; reflexivity]. rewrite (iint_ok nU) by (unfold int_min; lia). cbn [bind].
  destruct (Z_le_gt_dec nV int_max) as [LV|GV]; [|rewrite (iint_big nV) by lia; reflexivity]. rewrite (iint_ok nV) by (unfold int_min; lia). cbn [bind].
  rewrite iint_big; [reflexivity|]. unfold int_max in *. nia.
Qed.
(** No segments: nothing is added. *)
Lemma to_mesh_zero s (m : Mesh R) b : nu_to_mesh s m 0 b = Ok (if b then clear m else m).
Proof. reflexivity. Qed.

(** The previous index, going round when the direction is closed. *)
Lemma next_pred c n i : 0 <= i < n -> (c = false /\ i = 0) \/ exists k, 0 <= k < n /\ next c n k = i.
Proof.
  intros H. destruct (Z.eq_dec i 0) as [->|E].
  - destruct c; [right; exists (n - 1)|left; auto]. unfold next. rewrite Z.eqb_refl. cbn. lia.
  - right. exists (i - 1). unfold next. destruct (Z.eqb_spec (i - 1) (n - 1)); [lia|]. rewrite andb_false_r. lia.
Qed.
Lemma next_end c n i : 0 <= i < n -> (c = false /\ next c n i = n) \/ 0 <= next c n i < n.
Proof. intros H. unfold next. destruct c; cbn; destruct (Z.eqb_spec i (n - 1)); lia. Qed.

(** Every new edge is matched by the opposite edge of a new triangle, except on the open borders. *)
Lemma to_mesh_edges s m seg (b : bool) : svalid s -> 0 < seg -> meshable seg s ->
  let m0 := if b then clear m else m in let nU := seg * ns_nbU s in let nV := seg * ns_nbV s in
  let st := nb_vertices m0 in let t0 := nb_triangles m0 in let id u v := st + u + (nU + 1) * v in
  exists m', nu_to_mesh s m seg b = Ok m' /\
    forall t p q, t0 <= t < nb_triangles m' -> has_edge m' t p q ->
      (exists t', t0 <= t' < nb_triangles m' /\ has_edge m' t' q p) \/
      (ns_closedU s = false /\ exists v v', (p = id 0 v /\ q = id 0 v') \/ (p = id nU v /\ q = id nU v')) \/
      (ns_closedV s = false /\ exists u u', (p = id u 0 /\ q = id u' 0) \/ (p = id u nV /\ q = id u' nV)).
Proof.
  intros V Hs MS m0 nU nV st t0 id. destruct (to_mesh_facts s m seg b V Hs MS) as [m' [E [NV [NT [_ [_ [_ C]]]]]]]. fold m0 nU nV in E, NV, NT, C. fold st t0 in NV, NT, C.
  exists m'. split; [exact E|]. pose proof V as [_ [_ [[CU _] [[CV _] _]]]]. assert (0 < nU) as HU by (unfold nU; nia). assert (0 < nV) as HV by (unfold nV; nia).
  set (cu := ns_closedU s) in *. set (cv := ns_closedV s) in *.
  assert (forall u v, 0 <= u < nU -> 0 <= v < nV -> t0 <= t0 + 2 * (u + nU * v) /\ t0 + 2 * (u + nU * v) + 1 < nb_triangles m') as RT by (intros u v Hu Hv; rewrite NT; nia).
  intros t p q Ht HE.
  assert (exists u v r, 0 <= u < nU /\ 0 <= v < nV /\ 0 <= r < 2 /\ t = t0 + 2 * (u + nU * v) + r) as [u [v [r [Hu [Hv [Hr ->]]]]]].
  { set (k := t - t0). assert (0 <= k < 2 * nU * nV) as Hk by (unfold k; lia). set (w := k / 2). assert (0 <= w < nU * nV) as Hw by (split; [apply Z.div_pos; lia|apply Z.div_lt_upper_bound; lia]).
    exists (w mod nU), (w / nU), (k mod 2). split; [apply Z.mod_pos_bound, HU|]. split; [split; [apply Z.div_pos; lia|apply Z.div_lt_upper_bound; lia]|]. split; [apply Z.mod_pos_bound; lia|].
    pose proof (Z.div_mod w nU ltac:(lia)). pose proof (Z.div_mod k 2 ltac:(lia)). fold w in H0. unfold k in *. lia. }
  pose proof (C u v Hu Hv) as [C1 [C2 _]]. cbv zeta in C1, C2. set (u' := next cu nU u) in *. set (v' := next cv nV v) in *.
  assert (forall a c, 0 <= a < nU -> 0 <= c < nV -> has_edge m' (t0 + 2 * (a + nU * c)) (id a c) (id (next cu nU a) c)) as F1.
  { intros a c Ha Hc. destruct (C a c Ha Hc) as [X _]. eexists _, _, _. split; [exact X|]. left. split; reflexivity. }
  assert (forall a c, 0 <= a < nU -> 0 <= c < nV -> has_edge m' (t0 + 2 * (a + nU * c)) (id (next cu nU a) c) (id (next cu nU a) (next cv nV c))) as F2.
  { intros a c Ha Hc. destruct (C a c Ha Hc) as [X _]. eexists _, _, _. split; [exact X|]. right. left. split; reflexivity. }
  assert (forall a c, 0 <= a < nU -> 0 <= c < nV -> has_edge m' (t0 + 2 * (a + nU * c) + 1) (id (next cu nU a) (next cv nV c)) (id a (next cv nV c))) as F3.
  { intros a c Ha Hc. destruct (C a c Ha Hc) as [_ [X _]]. eexists _, _, _. split; [exact X|]. left. split; reflexivity. }
  assert (forall a c, 0 <= a < nU -> 0 <= c < nV -> has_edge m' (t0 + 2 * (a + nU * c) + 1) (id a (next cv nV c)) (id a c)) as F4.
  { intros a c Ha Hc. destruct (C a c Ha Hc) as [_ [X _]]. eexists _, _, _. split; [exact X|]. right. left. split; reflexivity. }
  assert (r = 0 \/ r = 1) as [-> | ->] by lia.
  - rewrite Z.add_0_r in HE. destruct HE as [x [y [z [G HE]]]]. rewrite C1 in G. injection G as <- <- <-. destruct HE as [[-> ->]|[[-> ->]|[-> ->]]].
    + destruct (next_pred cv nV v Hv) as [[Ec ->]|[k [Hk Ek]]].
      * right. right. split; [exact Ec|]. exists u, u'. left. split; reflexivity.
      * left. exists (t0 + 2 * (u + nU * k) + 1). split; [pose proof (RT u k Hu Hk); lia|]. pose proof (F3 u k Hu Hk) as X. rewrite Ek in X. exact X.
    + destruct (next_end cu nU u Hu) as [[Ec Ee]|Hn].
      * right. left. split; [exact Ec|]. exists v, v'. right. fold u' in Ee. rewrite Ee. split; reflexivity.
      * left. exists (t0 + 2 * (u' + nU * v) + 1). split; [pose proof (RT u' v Hn Hv); lia|]. exact (F4 u' v Hn Hv).
    + left. exists (t0 + 2 * (u + nU * v) + 1). split; [pose proof (RT u v Hu Hv); lia|]. eexists _, _, _. split; [exact C2|]. right. right. split; reflexivity.
  - destruct HE as [x [y [z [G HE]]]]. rewrite C2 in G. injection G as <- <- <-. destruct HE as [[-> ->]|[[-> ->]|[-> ->]]].
    + destruct (next_end cv nV v Hv) as [[Ec Ee]|Hn].
      * right. right. split; [exact Ec|]. exists u', u. right. fold v' in Ee. rewrite Ee. split; reflexivity.
      * left. exists (t0 + 2 * (u + nU * v')). split; [pose proof (RT u v' Hu Hn); lia|]. exact (F1 u v' Hu Hn).
    + destruct (next_pred cu nU u Hu) as [[Ec ->]|[k [Hk Ek]]].
      * right. left. split; [exact Ec|]. exists v', v. left. split; reflexivity.
      * left. exists (t0 + 2 * (k + nU * v)). split; [pose proof (RT k v Hk Hv); lia|]. pose proof (F2 k v Hk Hv) as X. rewrite Ek in X. exact X.
    + left. exists (t0 + 2 * (u + nU * v)). split; [pose proof (RT u v Hu Hv); lia|]. eexists _, _, _. split; [exact C1|]. right. right. split; reflexivity.
Qed.

(** ** create_from_z *)
Definition z_line (z : list R) (sy x : Z) : list pt3 := flat_map (fun y => [mkP (IZR x) (IZR y) (nth (Z.to_nat (x * sy + y)) z 0%R)]) (zrange 0 sy).
Definition z_points (z : list R) (sx sy : Z) : list pt3 := flat_map (z_line z sy) (zrange 0 sx).
Lemma z_line_size z sy x : 0 <= sy -> vsize (z_line z sy x) = sy.
Proof. intros H. unfold z_line. rewrite (vsize_flat_map0 _ 1); [lia|reflexivity|lia]. Qed.
Lemma z_points_size z sx sy : 0 <= sx -> 0 <= sy -> vsize (z_points z sx sy) = sx * sy.
Proof. intros H K. unfold z_points. rewrite (vsize_flat_map0 _ sy); [ring| |exact H]. intros. apply z_line_size, K. Qed.
Lemma z_points_get z sx sy x y : 0 <= x < sx -> 0 <= y < sy -> vget (z_points z sx sy) (x * sy + y) = Ok (mkP (IZR x) (IZR y) (nth (Z.to_nat (x * sy + y)) z 0%R)).
Proof.
  intros Hx Hy. unfold z_points. rewrite (Z.mul_comm x sy) at 1. rewrite (vget_flat_map (z_line z sy) sy sx x y); [|intros; apply z_line_size; lia|exact Hx|exact Hy].
  unfold z_line. replace y with (1 * y + 0) at 1 by ring. rewrite (vget_flat_map _ 1 sy y 0); [reflexivity|reflexivity|lia|lia].
Qed.
Lemma z_loop z sx sy : 0 <= sx -> 0 <= sy -> sx * sy <= vsize z ->
  for_ 0 sx (fun x ip => for_ 0 sy (fun y ip => do v <- vget z (fst ip); Ok (fst ip + 1, vpush (snd ip) (mkP (nofZ x) (nofZ y) v))) ip) (0, []) = Ok (sx * sy, z_points z sx sy).
Proof.
  intros Hx Hy Hz.
  edestruct (for_inv (fun x ip => ip = (x * sy, flat_map (z_line z sy) (zrange 0 x)))) as [ip [E H]]; [| | |rewrite E, H; reflexivity].
  - exact Hx.
  - reflexivity.
  - intros x ip Hx' ->. cbn beta.
    edestruct (for_inv (fun y ip => ip = (x * sy + y, flat_map (z_line z sy) (zrange 0 x) ++ flat_map (fun y => [mkP (IZR x) (IZR y) (nth (Z.to_nat (x * sy + y)) z 0%R)]) (zrange 0 y)))) as [ip [E H]];
      [| | |exists ip; split; [exact E|rewrite H]].
    + exact Hy.
    + cbn. rewrite Z.add_0_r, app_nil_r. reflexivity.
    + intros y ip Hy' ->. cbn beta. cbn [fst snd]. rewrite (vget_nth z 0%R) by nia. cbn [bind]. eexists. split; [reflexivity|].
      rewrite (zrange_last 0 y), flat_map_app by lia. cbn [flat_map app]. rewrite app_assoc. unfold vpush. f_equal. ring.
    + rewrite (zrange_last 0 x), flat_map_app by lia. cbn [flat_map]. rewrite app_nil_r. f_equal. ring.
Qed.
Lemma uniform_u_ok (s : NurbsSurface R) : 0 <= ns_degU s < ns_nbU s -> exists ks, clamped ks (ns_degU s) (ns_nbU s) /\ tight ks (ns_degU s) (ns_nbU s) /\
  ns_set_uniform_u s = Ok (mkNS (ns_degU s) (ns_degV s) (ns_nbU s) (ns_nbV s) (ns_closedU s) (ns_closedV s) ks (ns_knotsV s) (ns_weights s) (ns_points s) (ns_tpU s) (ns_tpV s) (ns_twU s) (ns_twV s)).
Proof.
  intros H. destruct (uniform_scaled _ _ H) as [ks [E [C [TT _]]]]. exists ks. split; [exact C|]. split; [exact TT|]. unfold ns_set_uniform_u, ns_set_knots_u.
  destruct (uniform_knots (ns_degU s) (ns_nbU s)) as [k|]; [|discriminate]. cbn [bind] in *. rewrite E. reflexivity.
Qed.
Lemma uniform_v_ok (s : NurbsSurface R) : 0 <= ns_degV s < ns_nbV s -> exists ks, clamped ks (ns_degV s) (ns_nbV s) /\ tight ks (ns_degV s) (ns_nbV s) /\
  ns_set_uniform_v s = Ok (mkNS (ns_degU s) (ns_degV s) (ns_nbU s) (ns_nbV s) (ns_closedU s) (ns_closedV s) (ns_knotsU s) ks (ns_weights s) (ns_points s) (ns_tpU s) (ns_tpV s) (ns_twU s) (ns_twV s)).
Proof.
  intros H. destruct (uniform_scaled _ _ H) as [ks [E [C [TT _]]]]. exists ks. split; [exact C|]. split; [exact TT|]. unfold ns_set_uniform_v, ns_set_knots_v.
  destruct (uniform_knots (ns_degV s) (ns_nbV s)) as [k|]; [|discriminate]. cbn [bind] in *. rewrite E. reflexivity.
Qed.

(** What create_from_z really does: entry [x*Y+y] of the array is at (x, y), and the list of points is
    then read as a grid whose rows have X entries. *)
Lemma from_z_exact z X Y d s0 : 0 <= d -> d < X -> d < Y -> X * Y <= vsize z ->
  exists s, nu_create_from_z z X Y d s0 = Ok s /\ svalid s /\ ns_nbU s = X /\ ns_nbV s = Y /\ ns_degU s = d /\ ns_degV s = d /\
    (forall x y, 0 <= x < X -> 0 <= y < Y -> vget (ns_points s) (x * Y + y) = Ok (mkP (IZR x) (IZR y) (nth (Z.to_nat (x * Y + y)) z 0%R))) /\
    (forall i j, 0 <= i < X -> 0 <= j < Y -> let k := i + X * j in scp s i j = mkP (IZR (k / Y)) (IZR (k mod Y)) (nth (Z.to_nat k) z 0%R)).
Proof.
  intros Hd HX HY Hz. unfold nu_create_from_z. rewrite (z_loop z X Y ltac:(lia) ltac:(lia) Hz). cbn [bind snd].
  destruct (set_degree_s (ns_clear s0) d d Hd Hd) as [a [b [c [e [E [S1 [S2 [S3 S4]]]]]]]]. rewrite E. cbn [bind]. unfold ns_set_points. nscbn.
  match goal with |- context [ns_set_uniform_u ?x] => destruct (uniform_u_ok x) as [ku [CU [TU EU]]]; [nscbn; lia|] end. nscbn. rewrite EU. cbn [bind]. nscbn.
  match goal with |- context [ns_set_uniform_v ?x] => destruct (uniform_v_ok x) as [kv [CV [TV EV]]]; [nscbn; lia|] end. nscbn. rewrite EV. cbn [bind]. nscbn.
  cbn [ns_degU ns_nbU ns_degV ns_nbV] in CU, CV.
  pose proof (z_points_size z X Y ltac:(lia) ltac:(lia)) as SZ.
  unfold ns_set_equals_weights. nscbn. cbn [ns_clear ns_weights]. unfold vresize. rewrite SZ. destruct (Z.ltb_spec (X * Y) 0); [nia|]. rewrite firstn_nil. cbn [bind app length]. rewrite Nat.sub_0_r.
  eexists. split; [reflexivity|]. unfold ns_set_weights. nscbn. split; [|split; [reflexivity|split; [reflexivity|split; [reflexivity|split; [reflexivity|split]]]]].
  - unfold svalid. nscbn. split; [exact SZ|]. split; [unfold vsize; rewrite repeat_length; lia|]. split; [exact CU|]. split; [exact CV|]. split; [|lia].
    rewrite Forall_forall. intros x Hx. apply repeat_spec in Hx. subst x. unfold n1. cbn. lra.
  - intros x y Hx Hy. apply z_points_get; assumption.
  - intros i j Hi Hj. set (k := i + X * j). unfold scp. nscbn. fold k.
    assert (0 <= k < X * Y) as Hk by (unfold k; nia). assert (0 <= k / Y < X) as Hq by (split; [apply Z.div_pos; lia|apply Z.div_lt_upper_bound; lia]). pose proof (Z.mod_pos_bound k Y ltac:(lia)) as Hr.
    pose proof (Z.div_mod k Y ltac:(lia)) as DM. pose proof (z_points_get z X Y (k / Y) (k mod Y) Hq Hr) as G. replace (k / Y * Y + k mod Y) with k in G by lia.
    rewrite (vget_nth _ O3) in G by lia. injection G as ->. reflexivity.
Qed.

(** ** create_from_mesh *)
Lemma triangle_patch p q r s0 : exists s, nf_create_triangle p q r s0 = Ok s /\ svalid s /\
  (forall u v, (0 <= u <= 1)%R -> (0 <= v <= 1)%R -> surf_at s u v = bilerp p q r r u v).
Proof. exact (quad_ok p q r r s0). Qed.
Lemma from_mesh_ok (m : Mesh R) : wf m -> exists ss, nu_create_from_mesh m = Ok ss /\ vsize ss = nb_triangles m /\
  forall i, 0 <= i < nb_triangles m -> exists t s, get_triangle m i = Ok t /\ vget ss i = Ok s /\ svalid s /\
    forall u v, (0 <= u <= 1)%R -> (0 <= v <= 1)%R -> surf_at s u v = bilerp (t1 t) (t2 t) (t3 t) (t3 t) u v.
Proof.
  intros W. unfold nu_create_from_mesh.
  set (G := fun i s => exists t, get_triangle m i = Ok t /\ svalid s /\ forall u v, (0 <= u <= 1)%R -> (0 <= v <= 1)%R -> surf_at s u v = bilerp (t1 t) (t2 t) (t3 t) (t3 t) u v).
  edestruct (for_inv (fun n ss => vsize ss = n /\ forall i, 0 <= i < n -> exists s, vget ss i = Ok s /\ G i s)) as [ss [E [H1 H2]]]; [| | |rewrite E].
  - apply vsize_nonneg.
  - cbn. split; [reflexivity|intros; lia].
  - intros i ss Hi [H1 H2]. cbn beta. destruct (vget_in_range (ktris (mkern m)) i Hi) as [t Gt]. pose proof (get_triangle_corners m i t W Gt) as ET. set (tr := tri3 (corners (abs m) (lv1 t, lv2 t, lv3 t))) in ET. rewrite ET. cbn [bind].
    destruct (triangle_patch (t1 tr) (t2 tr) (t3 tr) ns_new) as [s [Es [Vs Hs]]]. rewrite Es. cbn [bind]. eexists. split; [reflexivity|].
    assert (vsize (vpush ss s) = i + 1) as SP by (unfold vpush; rewrite vsize_app; cbn; lia). split; [exact SP|]. intros j Hj. destruct (Z.eq_dec j i) as [->|Hne].
    + exists s. split; [unfold vpush; rewrite vget_app_r by lia; rewrite H1, Z.sub_diag; reflexivity|]. exists tr. auto.
    + destruct (H2 j ltac:(lia)) as [s' [G1 G2]]. exists s'. split; [unfold vpush; rewrite vget_app_l by lia; exact G1|exact G2].
  - exists ss. split; [reflexivity|]. split; [exact H1|]. intros i Hi. destruct (H2 i Hi) as [s [Gs [t [Et [Vs Hs]]]]]. exists t, s. auto.
Qed.
