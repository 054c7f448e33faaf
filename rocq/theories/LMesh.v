(** The mesh model refines the list specification. *)
From Coq Require Import ZArith List Bool Lia.
From Verif Require Import Base Num MGeometry MKernel MMesh MMeshRun SMesh LBase.
Import ListNotations.
Open Scope Z_scope.

Section LMesh.
Context {T : Type} {N : Num T}.
Implicit Types m : Mesh T.
Implicit Types k : Kernel T.

Definition abs_tri (t : TriLT) : triple * bool := ((lv1 t, lv2 t, lv3 t), negb (lunl t =? -1)).
Definition abs m : AMesh T :=
  mkA (kverts (mkern m)) (map abs_tri (ktris (mkern m))) (mcolor m).

Definition abs_op (o : op T (Mesh T)) : op T (AMesh T) :=
  match o with
  | OpAddVertex p => OpAddVertex p
  | OpSetVertex i p => OpSetVertex i p
  | OpAddTriangle a b c => OpAddTriangle a b c
  | OpAddTrianglePts p q r => OpAddTrianglePts p q r
  | OpAddQuad a b c d => OpAddQuad a b c d
  | OpAddQuadPts p q r s => OpAddQuadPts p q r s
  | OpAddPentagon a b c d e => OpAddPentagon a b c d e
  | OpUnlink i => OpUnlink i
  | OpSplit i iv => OpSplit i iv
  | OpSplitPt i p => OpSplitPt i p
  | OpFlip i => OpFlip i
  | OpTransform f => OpTransform f
  | OpSetColor c => OpSetColor c
  | OpClear => OpClear
  | OpAddMesh f => OpAddMesh (abs f)
  | OpAssign f => OpAssign (abs f)
  end.

Definition wf_tri (n : Z) (t : TriLT) : Prop :=
  (0 <= lv1 t < n /\ 0 <= lv2 t < n /\ 0 <= lv3 t < n) /\
  (ln1 t = -1 /\ ln2 t = -1 /\ ln3 t = -1) /\ (lunl t = 0 \/ lunl t = -1).
Definition wfk k : Prop := Forall (wf_tri (k_nbv k)) (ktris k).
Definition wf m : Prop := wfk (mkern m).

Lemma in_range_ok i n : in_range i n = ok_idx i n.
Proof. reflexivity. Qed.
Lemma in_range_true i n : in_range i n = true <-> 0 <= i < n.
Proof. unfold in_range. rewrite andb_true_iff, Z.leb_le, Z.ltb_lt. reflexivity. Qed.
Lemma in_range_false i n : in_range i n = false <-> ~ (0 <= i < n).
Proof. rewrite <- in_range_true. destruct (in_range i n); split; intros; congruence. Qed.

Lemma len_vsize {A} (l : list A) : len l = vsize l.
Proof. reflexivity. Qed.

Lemma abs_nbv m : len (averts (abs m)) = nb_vertices m.
Proof. reflexivity. Qed.
Lemma abs_nbt m : len (atris (abs m)) = nb_triangles m.
Proof. unfold len, abs, nb_triangles, k_nbt, vsize; simpl. rewrite map_length. reflexivity. Qed.

Lemma upd_list_set {A} (l : list A) n x : upd l n (fun _ => x) = list_set l n x.
Proof.
  unfold upd. revert n. induction l as [|a l IH]; intros [|n]; simpl; try reflexivity.
  specialize (IH n). destruct (nth_error l n) eqn:E; simpl in *; [f_equal; assumption|].
  f_equal. symmetry. apply list_set_ge. apply nth_error_None. assumption.
Qed.

Lemma upd_map {A} (l : list A) n f x :
  nth_error l n = Some x -> upd l n f = list_set l n (f x).
Proof.
  intros E. rewrite <- upd_list_set. unfold upd. rewrite E. reflexivity.
Qed.

Lemma upd_none {A} (l : list A) n (f : A -> A) : nth_error l n = None -> upd l n f = l.
Proof. unfold upd. intros ->. reflexivity. Qed.

Lemma wf_tri_mono n n' t : n <= n' -> wf_tri n t -> wf_tri n' t.
Proof. unfold wf_tri. intuition lia. Qed.

Lemma wf_tris_mono n n' ts : n <= n' -> Forall (wf_tri n) ts -> Forall (wf_tri n') ts.
Proof. intros H. apply Forall_impl. intros t. apply wf_tri_mono. assumption. Qed.

Lemma wf_get k i t : wfk k -> vget (ktris k) i = Ok t -> wf_tri (k_nbv k) t.
Proof. intros W E. apply vget_In in E. eapply Forall_forall in W; eauto. Qed.

Lemma forall_list_set {A} (P : A -> Prop) l n x : Forall P l -> P x -> Forall P (list_set l n x).
Proof.
  intros H Hx. revert n. induction H; intros [|n]; simpl; constructor; auto.
Qed.

(** ** Kernel operations in functional form *)

Definition unlinked_tri (t : TriLT) := mkLT (lv1 t) (lv2 t) (lv3 t) (ln1 t) (ln2 t) (ln3 t) (-1).

Lemma k_unlink_spec k i : wfk k ->
  k_unlink k i =
  if in_range i (k_nbt k)
  then match vget (ktris k) i with
       | Ok t => Ok (mkK (kverts k) (list_set (ktris k) (Z.to_nat i) (unlinked_tri t)))
       | Err f => Err f
       end
  else Err FAssert.
Proof.
  intros W. unfold k_unlink.
  destruct (in_range i (k_nbt k)) eqn:R; simpl; [|reflexivity].
  apply in_range_true in R.
  destruct (vget_in_range (ktris k) i R) as [t E]. rewrite E. cbn [bind].
  rewrite vset_in_range by assumption. cbn [bind].
  unfold k_get_near. cbn [kverts ktris].
  assert (in_range i (k_nbt (mkK (kverts k) (list_set (ktris k) (Z.to_nat i) (unlinked_tri t)))) = true) as R2.
  { apply in_range_true. unfold k_nbt, vsize in *. cbn [ktris]. rewrite list_set_length. assumption. }
  fold (unlinked_tri t). rewrite R2. cbn [massert bind].
  rewrite (vget_vset (ktris k) i (unlinked_tri t) _ i) by (apply vset_Ok; auto).
  rewrite Z.eqb_refl. cbn [bind].
  destruct (wf_get k i t W E) as [_ [[A1 [A2 A3]] _]].
  change (ln1 (unlinked_tri t)) with (ln1 t). change (ln2 (unlinked_tri t)) with (ln2 t).
  change (ln3 (unlinked_tri t)) with (ln3 t). rewrite A1, A2, A3. reflexivity.
Qed.

Lemma k_add_triangle_spec k a b c :
  k_add_triangle k a b c =
  if in_range a (k_nbv k) && in_range b (k_nbv k) && in_range c (k_nbv k)
  then Ok (mkK (kverts k) (ktris k ++ [lt_new a b c]), k_nbt k) else Err FAssert.
Proof.
  unfold k_add_triangle.
  destruct (in_range a (k_nbv k)); [|reflexivity]. simpl.
  destruct (in_range b (k_nbv k)); [|reflexivity]. simpl.
  destruct (in_range c (k_nbv k)); [|reflexivity]. simpl.
  rewrite vsize_push. unfold k_nbt, vpush. do 2 f_equal. lia.
Qed.

Lemma kern_add_triangle_spec m a b c :
  kern_add_triangle m a b c =
  if in_range a (nb_vertices m) && in_range b (nb_vertices m) && in_range c (nb_vertices m)
  then Ok (mkMesh (mkK (kverts (mkern m)) (ktris (mkern m) ++ [lt_new a b c])) (mcolor m), nb_triangles m)
  else Err FAssert.
Proof.
  unfold kern_add_triangle. rewrite k_add_triangle_spec.
  unfold nb_vertices, nb_triangles.
  destruct (in_range a (k_nbv (mkern m)) && in_range b (k_nbv (mkern m)) && in_range c (k_nbv (mkern m)));
    reflexivity.
Qed.

Definition push_tri m (a b c : Z) : Mesh T :=
  mkMesh (mkK (kverts (mkern m)) (ktris (mkern m) ++ [lt_new a b c])) (mcolor m).
Definition push_vert m (p : Point3 T) : Mesh T :=
  mkMesh (mkK (kverts (mkern m) ++ [p]) (ktris (mkern m))) (mcolor m).

Lemma nbv_push_tri m a b c : nb_vertices (push_tri m a b c) = nb_vertices m.
Proof. reflexivity. Qed.
Lemma nbt_push_tri m a b c : nb_triangles (push_tri m a b c) = nb_triangles m + 1.
Proof. unfold nb_triangles, k_nbt. simpl. rewrite vsize_app. reflexivity. Qed.
Lemma nbv_push_vert m p : nb_vertices (push_vert m p) = nb_vertices m + 1.
Proof. unfold nb_vertices, k_nbv. simpl. rewrite vsize_app. reflexivity. Qed.
Lemma nbt_push_vert m p : nb_triangles (push_vert m p) = nb_triangles m.
Proof. reflexivity. Qed.

Lemma add_vertex_spec m p : add_vertex m p = (push_vert m p, nb_vertices m).
Proof.
  unfold add_vertex, k_add_vertex, push_vert. rewrite vsize_push. unfold vpush.
  f_equal. unfold nb_vertices, k_nbv. lia.
Qed.

Lemma kadd m a b c :
  0 <= a < nb_vertices m -> 0 <= b < nb_vertices m -> 0 <= c < nb_vertices m ->
  kern_add_triangle m a b c = Ok (push_tri m a b c, nb_triangles m).
Proof.
  intros. rewrite kern_add_triangle_spec.
  replace (in_range a (nb_vertices m)) with true by (symmetry; apply in_range_true; assumption).
  replace (in_range b (nb_vertices m)) with true by (symmetry; apply in_range_true; assumption).
  replace (in_range c (nb_vertices m)) with true by (symmetry; apply in_range_true; assumption).
  reflexivity.
Qed.

Lemma kadd_fail m a b c :
  in_range a (nb_vertices m) && in_range b (nb_vertices m) && in_range c (nb_vertices m) = false ->
  kern_add_triangle m a b c = Err FAssert.
Proof. intros H. rewrite kern_add_triangle_spec, H. reflexivity. Qed.

Lemma add_triangle_spec m a b c :
  add_triangle m a b c =
  if in_range a (nb_vertices m) && in_range b (nb_vertices m) && in_range c (nb_vertices m)
  then Ok (push_tri m a b c, nb_triangles m) else Err FAssert.
Proof.
  unfold add_triangle. rewrite kern_add_triangle_spec. unfold in_range, push_tri.
  destruct (0 <=? a); [|reflexivity]. simpl.
  destruct (0 <=? b); [|rewrite andb_false_r; reflexivity]. simpl.
  destruct (0 <=? c); [|rewrite andb_false_r; reflexivity]. simpl.
  destruct (a <? nb_vertices m); [|reflexivity]. simpl.
  destruct (b <? nb_vertices m); [|reflexivity]. simpl.
  destruct (c <? nb_vertices m); reflexivity.
Qed.

Lemma tadd m a b c :
  0 <= a < nb_vertices m -> 0 <= b < nb_vertices m -> 0 <= c < nb_vertices m ->
  add_triangle m a b c = Ok (push_tri m a b c, nb_triangles m).
Proof.
  intros. rewrite add_triangle_spec.
  replace (in_range a (nb_vertices m)) with true by (symmetry; apply in_range_true; assumption).
  replace (in_range b (nb_vertices m)) with true by (symmetry; apply in_range_true; assumption).
  replace (in_range c (nb_vertices m)) with true by (symmetry; apply in_range_true; assumption).
  reflexivity.
Qed.

Lemma add_triangle_points_spec m p q r :
  add_triangle_points m p q r =
  Ok (push_tri (push_vert (push_vert (push_vert m p) q) r)
        (nb_vertices m) (nb_vertices m + 1) (nb_vertices m + 2), nb_triangles m).
Proof.
  unfold add_triangle_points. rewrite add_vertex_spec. cbn iota. rewrite add_vertex_spec. cbn iota.
  rewrite add_vertex_spec. rewrite !nbv_push_vert.
  pose proof (vsize_nonneg (kverts (mkern m))). unfold nb_vertices, k_nbv in *.
  replace (vsize (kverts (mkern m)) + 1 + 1) with (vsize (kverts (mkern m)) + 2) by lia.
  rewrite tadd; [|rewrite !nbv_push_vert; unfold nb_vertices, k_nbv; lia ..].
  reflexivity.
Qed.

(** ** Well-formedness is preserved *)

Lemma wf_new : wf mesh_new.
Proof. constructor. Qed.

Lemma wf_push_tri m a b c : wf m ->
  0 <= a < nb_vertices m -> 0 <= b < nb_vertices m -> 0 <= c < nb_vertices m ->
  wf (push_tri m a b c).
Proof.
  intros W Ha Hb Hc. unfold wf, wfk, push_tri. cbn [mkern ktris]. apply Forall_app. split.
  - exact W.
  - constructor; [|constructor]. unfold wf_tri, lt_new; simpl.
    unfold nb_vertices, k_nbv in *. simpl. intuition lia.
Qed.

Lemma wf_push_vert m p : wf m -> wf (push_vert m p).
Proof.
  intros W. unfold wf, wfk, push_vert. cbn [mkern ktris].
  eapply wf_tris_mono; [|exact W]. unfold k_nbv. simpl. rewrite vsize_app. change (vsize [p]) with 1. lia.
Qed.

Lemma wf_unlinked n t : wf_tri n t -> wf_tri n (unlinked_tri t).
Proof. unfold wf_tri, unlinked_tri. simpl. intuition. Qed.

Definition unlinked_mesh m (i : Z) (t : TriLT) : Mesh T :=
  mkMesh (mkK (kverts (mkern m)) (list_set (ktris (mkern m)) (Z.to_nat i) (unlinked_tri t))) (mcolor m).

Lemma wf_unlinked_mesh m i t : wf m -> wf_tri (nb_vertices m) t -> wf (unlinked_mesh m i t).
Proof.
  intros W Ht. unfold wf, wfk, unlinked_mesh; cbn [mkern ktris]. apply forall_list_set.
  - exact W.
  - apply wf_unlinked. exact Ht.
Qed.

Lemma wf_tri_get m i : wf m -> 0 <= i < nb_triangles m ->
  exists t, vget (ktris (mkern m)) i = Ok t /\ wf_tri (nb_vertices m) t.
Proof.
  intros W H. destruct (vget_in_range (ktris (mkern m)) i H) as [t E].
  exists t. split; [assumption|]. eapply wf_get; eauto.
Qed.

Lemma k_unlink_ok m i t : wf m -> 0 <= i < nb_triangles m -> vget (ktris (mkern m)) i = Ok t ->
  k_unlink (mkern m) i = Ok (mkern (unlinked_mesh m i t)).
Proof.
  intros W H E. rewrite k_unlink_spec by exact W.
  replace (in_range i (k_nbt (mkern m))) with true by (symmetry; apply in_range_true; exact H).
  rewrite E. reflexivity.
Qed.

Lemma get_tv_ok m i t : vget (ktris (mkern m)) i = Ok t ->
  k_get_triangle_vertices (mkern m) i = Ok (lv1 t, lv2 t, lv3 t).
Proof.
  intros E. unfold k_get_triangle_vertices. pose proof (vget_range _ _ _ E).
  rewrite bind_massert_true by (apply in_range_true; assumption). rewrite E. reflexivity.
Qed.

Lemma get_triangle_vertices_ok m i t : vget (ktris (mkern m)) i = Ok t ->
  get_triangle_vertices m i = Ok (lv1 t, lv2 t, lv3 t).
Proof.
  intros E. unfold get_triangle_vertices. pose proof (vget_range _ _ _ E).
  rewrite bind_massert_true by (apply in_range_true; assumption). apply get_tv_ok. assumption.
Qed.

Lemma is_unlinked_ok m i t : vget (ktris (mkern m)) i = Ok t ->
  is_triangle_unlinked m i = Ok (lunl t =? -1).
Proof.
  intros E. unfold is_triangle_unlinked, k_is_unlinked. pose proof (vget_range _ _ _ E).
  rewrite bind_massert_true by (apply in_range_true; assumption).
  rewrite bind_massert_true by (apply in_range_true; assumption). rewrite E. reflexivity.
Qed.

Lemma get_vertex_spec m i : get_vertex m i = if in_range i (nb_vertices m) then vget (kverts (mkern m)) i else Err FAssert.
Proof.
  unfold get_vertex, k_get_vertex. unfold nb_vertices.
  destruct (in_range i (k_nbv (mkern m))); reflexivity.
Qed.

Lemma get_vertex_ok m i p : vget (kverts (mkern m)) i = Ok p -> get_vertex m i = Ok p.
Proof.
  intros E. rewrite get_vertex_spec. pose proof (vget_range _ _ _ E).
  replace (in_range i (nb_vertices m)) with true by (symmetry; apply in_range_true; assumption). assumption.
Qed.

Lemma k_get_vertex_ok m i p : vget (kverts (mkern m)) i = Ok p -> k_get_vertex (mkern m) i = Ok p.
Proof.
  intros E. unfold k_get_vertex. pose proof (vget_range _ _ _ E).
  rewrite bind_massert_true by (apply in_range_true; assumption). assumption.
Qed.

Lemma get_triangle_ok m i t : wf m -> vget (ktris (mkern m)) i = Ok t ->
  exists p q r, vget (kverts (mkern m)) (lv1 t) = Ok p /\ vget (kverts (mkern m)) (lv2 t) = Ok q /\
    vget (kverts (mkern m)) (lv3 t) = Ok r /\ get_triangle m i = Ok (mkTri p q r).
Proof.
  intros W E. pose proof (wf_get _ _ _ W E) as [[H1 [H2 H3]] _].
  destruct (vget_in_range _ _ H1) as [p Ep]. destruct (vget_in_range _ _ H2) as [q Eq].
  destruct (vget_in_range _ _ H3) as [r Er].
  exists p, q, r. repeat split; try assumption.
  unfold get_triangle. pose proof (vget_range _ _ _ E).
  rewrite bind_massert_true by (apply in_range_true; assumption).
  rewrite (get_triangle_vertices_ok _ _ _ E). cbn [bind].
  rewrite (k_get_vertex_ok _ _ _ Ep), (k_get_vertex_ok _ _ _ Eq), (k_get_vertex_ok _ _ _ Er). reflexivity.
Qed.

(** ** Abstraction of the elementary updates *)

Lemma abs_push_tri m a b c : abs (push_tri m a b c) = with_tris (abs m) [(a, b, c)].
Proof. unfold abs, push_tri, with_tris. cbn. rewrite map_app. reflexivity. Qed.
Lemma abs_push_vert m p : abs (push_vert m p) = with_verts (abs m) [p].
Proof. reflexivity. Qed.
Lemma abs_tri_unlinked t : abs_tri (unlinked_tri t) = (fst (abs_tri t), false).
Proof. reflexivity. Qed.

Lemma abs_unlinked m i t : vget (ktris (mkern m)) i = Ok t ->
  abs (unlinked_mesh m i t) = kill_in (abs m) i.
Proof.
  intros E. unfold abs, unlinked_mesh, kill_in, kill. cbn [mkern kverts ktris mcolor averts atris acolor].
  f_equal. rewrite map_list_set, abs_tri_unlinked.
  apply vget_Ok in E. destruct E as [_ E].
  rewrite (upd_map _ _ _ (abs_tri t)); [reflexivity|]. rewrite nth_error_map, E. reflexivity.
Qed.

Lemma with_tris_app a ts us : with_tris (with_tris (T:=T) a ts) us = with_tris a (ts ++ us).
Proof. unfold with_tris. cbn. rewrite map_app, app_assoc. reflexivity. Qed.
Lemma with_verts_app a ts us : with_verts (with_verts (T:=T) a ts) us = with_verts a (ts ++ us).
Proof. unfold with_verts. cbn. rewrite app_assoc. reflexivity. Qed.

(** ** add_mesh *)

Definition push_verts m (vs : list (Point3 T)) : Mesh T :=
  mkMesh (mkK (kverts (mkern m) ++ vs) (ktris (mkern m))) (mcolor m).
Definition push_tris m (ts : list triple) : Mesh T :=
  mkMesh (mkK (kverts (mkern m)) (ktris (mkern m) ++ map (fun t => let '(a,b,c) := t in lt_new a b c) ts)) (mcolor m).

Lemma firstn_vget {A} (l : list A) i x : vget l i = Ok x ->
  firstn (Z.to_nat (i + 1)) l = firstn (Z.to_nat i) l ++ [x].
Proof.
  intros E. apply vget_Ok in E. destruct E as [H E].
  replace (Z.to_nat (i + 1)) with (S (Z.to_nat i)) by lia. revert E. generalize (Z.to_nat i). clear.
  intros n. revert n. induction l; intros [|n] E; simpl in *; try discriminate.
  - congruence.
  - f_equal. auto.
Qed.

Lemma firstn_vsize {A} (l : list A) : firstn (Z.to_nat (vsize l)) l = l.
Proof. unfold vsize. rewrite Nat2Z.id. apply firstn_all. Qed.

Lemma add_mesh_vertices_spec m f : add_mesh_vertices m f = Ok (push_verts m (kverts (mkern f))).
Proof.
  unfold add_mesh_vertices.
  edestruct (for_inv (fun i s => s = push_verts m (firstn (Z.to_nat i) (kverts (mkern f))))) as [s [E H]];
    [| | |rewrite E, H].
  - unfold nb_vertices. apply vsize_nonneg.
  - simpl. unfold push_verts. rewrite app_nil_r. destruct m as [[? ?] ?]. reflexivity.
  - intros i s Hi ->. destruct (vget_in_range _ _ Hi) as [p Ep].
    eexists. rewrite (get_vertex_ok _ _ _ Ep). cbn [bind]. split; [reflexivity|].
    rewrite add_vertex_spec. cbn [fst]. rewrite (firstn_vget _ _ _ Ep).
    unfold push_verts, push_vert. cbn. rewrite app_assoc. reflexivity.
  - unfold nb_vertices, k_nbv. rewrite firstn_vsize. reflexivity.
Qed.

Definition live_lt (ts : list TriLT) : list triple := map fst (filter snd (map abs_tri ts)).

Lemma live_lt_app u v : live_lt (u ++ v) = live_lt u ++ live_lt v.
Proof. unfold live_lt. rewrite map_app, filter_app, map_app. reflexivity. Qed.

Lemma live_abs m : live (abs m) = live_lt (ktris (mkern m)).
Proof. reflexivity. Qed.

Lemma add_mesh_triangles_spec m f off :
  wf f -> 0 <= off -> off + nb_vertices f <= nb_vertices m ->
  add_mesh_triangles m f off = Ok (push_tris m (map (shift_triple off) (live (abs f)))).
Proof.
  intros W Ho Hb. unfold add_mesh_triangles.
  edestruct (for_inv (fun i s => s = push_tris m (map (shift_triple off) (live_lt (firstn (Z.to_nat i) (ktris (mkern f)))))))
    as [s [E H]]; [| | |rewrite E, H].
  - unfold nb_triangles. apply vsize_nonneg.
  - simpl. unfold push_tris. cbn. rewrite app_nil_r. destruct m as [[? ?] ?]. reflexivity.
  - intros i s Hi ->. destruct (wf_tri_get f i W Hi) as [t [E Wt]].
    rewrite (is_unlinked_ok _ _ _ E). cbn [bind].
    rewrite (firstn_vget _ _ _ E), live_lt_app, map_app.
    destruct (lunl t =? -1) eqn:U.
    + eexists. split; [reflexivity|]. unfold live_lt at 3. cbn. rewrite U. cbn. rewrite app_nil_r. reflexivity.
    + rewrite (get_triangle_vertices_ok _ _ _ E). cbn [bind].
      destruct Wt as [[H1 [H2 H3]] _].
      rewrite tadd.
      * cbn [bind fst]. eexists. split; [reflexivity|]. unfold live_lt at 3. cbn. rewrite U. cbn.
        unfold push_tris, push_tri. cbn. rewrite map_app, app_assoc. reflexivity.
      * change (nb_vertices (push_tris m _)) with (nb_vertices m). lia.
      * change (nb_vertices (push_tris m _)) with (nb_vertices m). lia.
      * change (nb_vertices (push_tris m _)) with (nb_vertices m). lia.
  - unfold nb_triangles, k_nbt. rewrite firstn_vsize. reflexivity.
Qed.

Definition appended m f : Mesh T :=
  push_tris (push_verts (set_color m (get_color f)) (kverts (mkern f)))
            (map (shift_triple (nb_vertices m)) (live (abs f))).

Lemma add_mesh_spec m f : wf f -> add_mesh m f = Ok (appended m f).
Proof.
  intros W. unfold add_mesh. rewrite add_mesh_vertices_spec. cbn [bind].
  rewrite add_mesh_triangles_spec; [reflexivity|assumption|apply vsize_nonneg|].
  unfold nb_vertices, k_nbv, push_verts, set_color. cbn. rewrite vsize_app. lia.
Qed.

Lemma abs_push_tris m ts : abs (push_tris m ts) = with_tris (abs m) ts.
Proof.
  unfold abs, push_tris, with_tris. cbn. f_equal. rewrite map_app. f_equal. rewrite map_map.
  apply map_ext. intros [[a b] c]. reflexivity.
Qed.

Lemma abs_appended m f :
  abs (appended m f) =
  mkA (averts (abs m) ++ averts (abs f))
      (atris (abs m) ++ map (fun t => (shift_triple (nb_vertices m) t, true)) (live (abs f)))
      (acolor (abs f)).
Proof.
  unfold appended. rewrite abs_push_tris. unfold with_tris. cbn. f_equal. f_equal. rewrite map_map. reflexivity.
Qed.

Lemma live_in f x y z : wf f -> In (x, y, z) (live (abs f)) ->
  0 <= x < nb_vertices f /\ 0 <= y < nb_vertices f /\ 0 <= z < nb_vertices f.
Proof.
  intros W H. unfold live in H. apply in_map_iff in H. destruct H as [[t b] [E H]].
  simpl in E. subst t. apply filter_In in H. destruct H as [H _].
  cbn in H. apply in_map_iff in H. destruct H as [t [E H]].
  eapply Forall_forall in W; [|exact H]. injection E as <- <- <- <-. apply W.
Qed.

Lemma wf_push_tris m ts : wf m ->
  (forall a b c, In (a, b, c) ts -> 0 <= a < nb_vertices m /\ 0 <= b < nb_vertices m /\ 0 <= c < nb_vertices m) ->
  wf (push_tris m ts).
Proof.
  intros W H. unfold wf, wfk, push_tris; cbn [mkern ktris]. apply Forall_app. split; [exact W|].
  apply Forall_forall. intros t Ht. apply in_map_iff in Ht. destruct Ht as [[[a b] c] [<- Ht]].
  apply H in Ht. unfold wf_tri, lt_new; cbn. unfold nb_vertices, k_nbv in *. cbn. intuition lia.
Qed.

Lemma wf_push_verts m vs : wf m -> wf (push_verts m vs).
Proof.
  intros W. unfold wf, wfk, push_verts. cbn [mkern ktris].
  eapply wf_tris_mono; [|exact W]. unfold k_nbv. cbn. rewrite vsize_app. pose proof (vsize_nonneg vs). lia.
Qed.

Lemma wf_set_color m c : wf m -> wf (set_color m c).
Proof. intros W; exact W. Qed.
Lemma wf_clear m : wf (clear m).
Proof. constructor. Qed.

Lemma wf_appended m f : wf m -> wf f -> wf (appended m f).
Proof.
  intros Wm Wf. unfold appended. apply wf_push_tris.
  - apply wf_push_verts, wf_set_color, Wm.
  - intros a b c H. apply in_map_iff in H. destruct H as [[[x y] z] [E H]].
    apply (live_in f x y z Wf) in H. cbn in E. injection E as <- <- <-.
    pose proof (vsize_nonneg (kverts (mkern m))).
    unfold nb_vertices, k_nbv, push_verts, set_color in *. cbn in *. rewrite vsize_app. lia.
Qed.

Definition copied (src : Mesh T) : Mesh T := set_color (appended mesh_new src) (get_color src).

Lemma assign_mesh_spec dst src : wf src -> assign_mesh dst src = Ok (copied src).
Proof.
  intros W. unfold assign_mesh. rewrite add_mesh_spec by assumption. cbn [bind]. reflexivity.
Qed.

Lemma map_shift0 ts : map (shift_triple 0) ts = ts.
Proof.
  rewrite <- (map_id ts) at 2. apply map_ext. intros [[a b] c]. unfold shift_triple.
  rewrite !Z.add_0_r. reflexivity.
Qed.

Lemma abs_copied src :
  abs (copied src) = mkA (averts (abs src)) (map (fun t => (t, true)) (live (abs src))) (acolor (abs src)).
Proof.
  unfold copied. change (abs (set_color (appended mesh_new src) (get_color src))) with (abs (appended mesh_new src)).
  rewrite abs_appended. cbn [averts abs mesh_new mkern kverts k_empty app atris map ktris].
  f_equal. apply map_ext. intros [[a b] c]. unfold shift_triple. cbn. rewrite !Z.add_0_r. reflexivity.
Qed.

Lemma wf_copied src : wf src -> wf (copied src).
Proof. intros W. apply wf_set_color, wf_appended; [apply wf_new|assumption]. Qed.

(** ** apply_transform *)

Lemma set_vertex_ok m i p : 0 <= i < nb_vertices m ->
  set_vertex m i p = Ok (mkMesh (mkK (list_set (kverts (mkern m)) (Z.to_nat i) p) (ktris (mkern m))) (mcolor m)).
Proof.
  intros H. unfold set_vertex, k_set_vertex.
  rewrite bind_massert_true by (apply in_range_true; assumption).
  rewrite bind_massert_true by (apply in_range_true; assumption).
  rewrite vset_in_range by assumption. reflexivity.
Qed.

Lemma list_set_mid {A} (u v : list A) n x y : n = length u -> list_set (u ++ x :: v) n y = u ++ y :: v.
Proof. intros ->. induction u; simpl; congruence. Qed.

Lemma apply_transform_spec m f :
  apply_transform m f = Ok (mkMesh (mkK (map f (kverts (mkern m))) (ktris (mkern m))) (mcolor m)).
Proof.
  unfold apply_transform.
  set (vs := kverts (mkern m)).
  edestruct (for_inv (fun i s => s = mkMesh (mkK (map f (firstn (Z.to_nat i) vs) ++ skipn (Z.to_nat i) vs)
                                           (ktris (mkern m))) (mcolor m))) as [s [E H]]; [| | |rewrite E, H].
  - unfold nb_vertices. apply vsize_nonneg.
  - simpl. destruct m as [[? ?] ?]. reflexivity.
  - intros i s Hi ->.
    assert (0 <= i < vsize vs) as Hi' by exact Hi.
    destruct (vget_in_range vs i Hi') as [p Ep].
    assert (skipn (Z.to_nat i) vs = p :: skipn (Z.to_nat (i + 1)) vs) as SK.
    { apply vget_Ok in Ep. destruct Ep as [_ Ep].
      replace (Z.to_nat (i + 1)) with (S (Z.to_nat i)) by lia. revert Ep. generalize (Z.to_nat i) as n. clear.
      intros n. revert n. induction vs; intros [|n] E; simpl in *; try discriminate; [congruence|auto]. }
    assert (length (map f (firstn (Z.to_nat i) vs)) = Z.to_nat i) as L.
    { rewrite map_length, firstn_length. unfold vsize in Hi'. lia. }
    assert (vget (map f (firstn (Z.to_nat i) vs) ++ skipn (Z.to_nat i) vs) i = Ok p) as G.
    { rewrite vget_app_r by (unfold vsize; rewrite L; lia). unfold vsize; rewrite L.
      replace (i - Z.of_nat (Z.to_nat i)) with 0 by lia. rewrite SK. reflexivity. }
    rewrite (get_vertex_ok _ _ p); [|exact G]. cbn [bind].
    rewrite set_vertex_ok.
    2:{ unfold nb_vertices, k_nbv. cbn. eapply vget_range. exact G. }
    eexists. split; [reflexivity|]. cbn [mkern kverts ktris mcolor].
    rewrite SK. rewrite list_set_mid by (symmetry; exact L).
    rewrite (firstn_vget _ _ _ Ep), map_app, <- app_assoc. reflexivity.
  - unfold nb_vertices, k_nbv. fold vs.
    rewrite firstn_vsize. unfold vsize. rewrite Nat2Z.id, skipn_all, app_nil_r. reflexivity.
Qed.

(** ** Refinement of every call *)

Lemma nth_abs m i t : vget (ktris (mkern m)) i = Ok t ->
  nth_error (atris (abs m)) (Z.to_nat i) = Some ((lv1 t, lv2 t, lv3 t), negb (lunl t =? -1)).
Proof. rewrite vget_Ok. intros [_ E]. cbn. rewrite nth_error_map, E. reflexivity. Qed.

(** Mesh arguments of a call are well formed. *)
Definition args_wf (o : op T (Mesh T)) : Prop :=
  match o with OpAddMesh f => wf f | OpAssign f => wf f | _ => True end.

Ltac okr := repeat match goal with |- context [ok_idx ?a ?b] => change (ok_idx a b) with (in_range a b) end.

Lemma mstep_refines m o : wf m -> args_wf o ->
  match mstep m o with
  | Ok (m', x) => sstep (abs m) (abs_op o) = Some (abs m', x) /\ wf m'
  | Err f => sstep (abs m) (abs_op o) = None /\ f = FAssert
  end.
Proof.
  intros W HA. pose proof (vsize_nonneg (kverts (mkern m))) as NV.
  destruct o; cbn [mstep abs_op sstep].
  - (* AddVertex *) rewrite add_vertex_spec. rewrite abs_nbv. split; [reflexivity|]. apply wf_push_vert, W.
  - (* SetVertex *) rewrite abs_nbv. unfold set_vertex, k_set_vertex.
    fold (nb_vertices m). okr.
    destruct (in_range i (nb_vertices m)) eqn:R; cbn [massert bind unit_out]; [|auto].
    apply in_range_true in R. rewrite vset_in_range by exact R. cbn [bind unit_out]. split.
    + rewrite upd_list_set. reflexivity.
    + unfold wf, wfk. cbn [mkern ktris]. eapply wf_tris_mono; [|exact W].
      unfold k_nbv. cbn. unfold vsize. rewrite list_set_length. lia.
  - (* AddTriangle *) rewrite abs_nbv, abs_nbt. unfold id_out. rewrite add_triangle_spec. unfold oks. cbn [forallb].
    okr. rewrite andb_true_r, andb_assoc.
    destruct (in_range a (nb_vertices m)) eqn:R1; cbn [andb bind]; [|auto].
    destruct (in_range b (nb_vertices m)) eqn:R2; cbn [andb bind]; [|auto].
    destruct (in_range c (nb_vertices m)) eqn:R3; cbn [andb bind]; [|auto].
    apply in_range_true in R1, R2, R3. split.
    + cbn [fst snd]. rewrite abs_push_tri. reflexivity.
    + apply wf_push_tri; assumption.
  - (* AddTrianglePts *) rewrite add_triangle_points_spec. cbn [id_out bind fst snd]. rewrite abs_nbv, abs_nbt. split.
    + rewrite abs_push_tri, !abs_push_vert, !with_verts_app. reflexivity.
    + apply wf_push_tri; [repeat apply wf_push_vert; exact W|..];
        rewrite !nbv_push_vert; unfold nb_vertices, k_nbv; lia.
  - (* AddQuad *) rewrite abs_nbv. unfold oks. cbn [forallb]. okr. rewrite andb_true_r.
    unfold add_quad. unfold in_range.
    destruct (0 <=? a) eqn:A1; cbn [andb massert bind unit_out]; [|auto].
    destruct (0 <=? b) eqn:B1; cbn [andb massert bind unit_out]; [|rewrite andb_false_r; auto].
    destruct (0 <=? c) eqn:C1; cbn [andb massert bind unit_out]; [|rewrite !andb_false_r; auto].
    destruct (0 <=? d) eqn:D1; cbn [andb massert bind unit_out]; [|rewrite !andb_false_r; auto].
    destruct (a <? nb_vertices m) eqn:A2; cbn [andb massert bind unit_out]; [|auto].
    destruct (b <? nb_vertices m) eqn:B2; cbn [andb massert bind unit_out]; [|auto].
    destruct (c <? nb_vertices m) eqn:C2; cbn [andb massert bind unit_out]; [|auto].
    destruct (d <? nb_vertices m) eqn:D2; cbn [andb massert bind unit_out]; [|auto].
    apply Z.leb_le in A1, B1, C1, D1. apply Z.ltb_lt in A2, B2, C2, D2.
    rewrite kadd by lia. cbn [bind fst].
    rewrite kadd by (rewrite nbv_push_tri; lia). cbn [bind fst]. split.
    + rewrite !abs_push_tri, with_tris_app. reflexivity.
    + repeat apply wf_push_tri; rewrite ?nbv_push_tri; try lia. exact W.
  - (* AddQuadPts *) rewrite abs_nbv. unfold add_quad_points. repeat (rewrite add_vertex_spec; cbn iota). cbn [negb].
    rewrite !nbv_push_vert. unfold add_quad.
    rewrite !bind_massert_true by
      (first [apply Z.leb_le | apply Z.ltb_lt]; rewrite ?nbv_push_vert; unfold nb_vertices, k_nbv in *; lia).
    rewrite kadd by (rewrite !nbv_push_vert; unfold nb_vertices, k_nbv in *; lia). cbn [bind fst].
    rewrite kadd by (rewrite nbv_push_tri, !nbv_push_vert; unfold nb_vertices, k_nbv in *; lia).
    cbn [bind fst unit_out]. split.
    + rewrite !abs_push_tri, !abs_push_vert, with_tris_app, !with_verts_app. cbn [app].
      replace (nb_vertices m + 1 + 1 + 1) with (nb_vertices m + 3) by lia.
      replace (nb_vertices m + 1 + 1) with (nb_vertices m + 2) by lia. reflexivity.
    + repeat apply wf_push_tri; rewrite ?nbv_push_tri, ?nbv_push_vert; try (unfold nb_vertices, k_nbv in *; lia).
      repeat apply wf_push_vert. exact W.
  - (* Pentagon *) rewrite abs_nbv. unfold oks. cbn [forallb]. okr. rewrite andb_true_r.
    unfold add_pentagon. unfold in_range.
    destruct (0 <=? a) eqn:A1; cbn [andb massert bind unit_out]; [|auto].
    destruct (0 <=? b) eqn:B1; cbn [andb massert bind unit_out]; [|rewrite andb_false_r; auto].
    destruct (0 <=? c) eqn:C1; cbn [andb massert bind unit_out]; [|rewrite !andb_false_r; auto].
    destruct (0 <=? d) eqn:D1; cbn [andb massert bind unit_out]; [|rewrite !andb_false_r; auto].
    destruct (0 <=? e) eqn:E1; cbn [andb massert bind unit_out]; [|rewrite !andb_false_r; auto].
    destruct (a <? nb_vertices m) eqn:A2; cbn [andb massert bind unit_out]; [|auto].
    destruct (b <? nb_vertices m) eqn:B2; cbn [andb massert bind unit_out]; [|auto].
    destruct (c <? nb_vertices m) eqn:C2; cbn [andb massert bind unit_out]; [|auto].
    destruct (d <? nb_vertices m) eqn:D2; cbn [andb massert bind unit_out]; [|auto].
    destruct (e <? nb_vertices m) eqn:E2; cbn [andb massert bind unit_out]; [|auto].
    apply Z.leb_le in A1, B1, C1, D1, E1. apply Z.ltb_lt in A2, B2, C2, D2, E2.
    rewrite kadd by lia. cbn [bind fst].
    rewrite kadd by (rewrite nbv_push_tri; lia). cbn [bind fst].
    rewrite kadd by (rewrite !nbv_push_tri; lia). cbn [bind fst]. split.
    + rewrite !abs_push_tri, !with_tris_app. reflexivity.
    + repeat apply wf_push_tri; rewrite ?nbv_push_tri; try lia. exact W.
  - (* Unlink *) rewrite abs_nbt. unfold unlink_triangle. okr.
    destruct (in_range i (nb_triangles m)) eqn:R; cbn [massert bind unit_out]; [|auto].
    apply in_range_true in R. destruct (wf_tri_get m i W R) as [t [E Wt]].
    rewrite (k_unlink_ok m i t W R E). cbn [bind unit_out]. split.
    + rewrite <- (abs_unlinked m i t E). reflexivity.
    + apply wf_unlinked_mesh; assumption.
  - (* Split *) rewrite abs_nbt, abs_nbv. unfold split_triangle_with_vertex. okr.
    destruct (in_range i (nb_triangles m)) eqn:R; cbn [massert bind unit_out andb]; [|auto].
    destruct (in_range iv (nb_vertices m)) eqn:R2; cbn [massert bind unit_out andb]; [|auto].
    apply in_range_true in R, R2. destruct (wf_tri_get m i W R) as [t [E Wt]].
    rewrite (get_tv_ok _ _ _ E). cbn [bind]. rewrite (nth_abs _ _ _ E).
    rewrite (k_unlink_ok m i t W R E). cbn [bind].
    change (mkMesh (mkern (unlinked_mesh m i t)) (mcolor m)) with (unlinked_mesh m i t).
    pose proof Wt as [[H1 [H2 H3]] _].
    assert (nb_vertices (unlinked_mesh m i t) = nb_vertices m) as NU by reflexivity.
    rewrite kadd by (rewrite NU; lia). cbn [bind fst].
    rewrite kadd by (rewrite nbv_push_tri, NU; lia). cbn [bind fst].
    rewrite kadd by (rewrite !nbv_push_tri, NU; lia). cbn [bind fst unit_out]. split.
    + rewrite !abs_push_tri, !with_tris_app, (abs_unlinked m i t E). reflexivity.
    + repeat apply wf_push_tri; rewrite ?nbv_push_tri, ?NU; try lia. apply wf_unlinked_mesh; assumption.
  - (* SplitPt *) rewrite abs_nbt, abs_nbv. unfold split_triangle_with_point. okr.
    destruct (in_range i (nb_triangles m)) eqn:R; cbn [massert bind unit_out andb]; [|auto].
    rewrite add_vertex_spec. unfold split_triangle_with_vertex.
    rewrite nbt_push_vert, R. cbn [massert bind].
    rewrite bind_massert_true.
    2:{ apply in_range_true. rewrite nbv_push_vert. unfold nb_vertices, k_nbv. lia. }
    apply in_range_true in R. destruct (wf_tri_get m i W R) as [t [E Wt]].
    assert (vget (ktris (mkern (push_vert m p))) i = Ok t) as E' by exact E.
    rewrite (get_tv_ok _ _ _ E'). cbn [bind]. rewrite (nth_abs _ _ _ E).
    pose proof (wf_push_vert m p W) as W'.
    rewrite (k_unlink_ok (push_vert m p) i t W' R E'). cbn [bind].
    change (mkMesh (mkern (unlinked_mesh (push_vert m p) i t)) (mcolor (push_vert m p))) with (unlinked_mesh (push_vert m p) i t).
    pose proof Wt as [[H1 [H2 H3]] _].
    assert (nb_vertices (unlinked_mesh (push_vert m p) i t) = nb_vertices m + 1) as NU by apply nbv_push_vert.
    assert (0 <= nb_vertices m) as NN by exact NV.
    rewrite kadd by (rewrite NU; lia). cbn [bind fst].
    rewrite kadd by (rewrite nbv_push_tri, NU; lia). cbn [bind fst].
    rewrite kadd by (rewrite !nbv_push_tri, NU; lia). cbn [bind fst unit_out]. split.
    + rewrite !abs_push_tri, !with_tris_app, (abs_unlinked _ i t E'), abs_push_vert. reflexivity.
    + repeat apply wf_push_tri; rewrite ?nbv_push_tri, ?NU; try lia.
      apply wf_unlinked_mesh; [assumption|]. rewrite nbv_push_vert. eapply wf_tri_mono; [|exact Wt]. lia.
  - (* Flip *) rewrite abs_nbt. unfold flip_triangle. okr.
    destruct (in_range i (nb_triangles m)) eqn:R; cbn [massert bind unit_out andb]; [|auto].
    apply in_range_true in R. destruct (wf_tri_get m i W R) as [t [E Wt]].
    rewrite (get_tv_ok _ _ _ E). cbn [bind]. rewrite (nth_abs _ _ _ E).
    rewrite (k_unlink_ok m i t W R E). cbn [bind].
    change (mkMesh (mkern (unlinked_mesh m i t)) (mcolor m)) with (unlinked_mesh m i t).
    pose proof Wt as [[H1 [H2 H3]] _].
    assert (nb_vertices (unlinked_mesh m i t) = nb_vertices m) as NU by reflexivity.
    rewrite kadd by (rewrite NU; lia). cbn [bind fst unit_out]. split.
    + rewrite !abs_push_tri, (abs_unlinked m i t E). reflexivity.
    + repeat apply wf_push_tri; rewrite ?NU; try lia. apply wf_unlinked_mesh; assumption.
  - (* Transform *) rewrite apply_transform_spec. cbn [unit_out bind]. split; [reflexivity|].
    unfold wf, wfk. cbn [mkern ktris]. eapply wf_tris_mono; [|exact W].
    unfold k_nbv. cbn. rewrite vsize_map. lia.
  - split; [reflexivity|exact W].
  - split; [reflexivity|constructor].
  - (* AddMesh *) cbn [args_wf] in HA. rewrite add_mesh_spec by assumption. cbn [unit_out bind]. split.
    + rewrite abs_appended. rewrite abs_nbv. reflexivity.
    + apply wf_appended; assumption.
  - (* Assign *) cbn [args_wf] in HA. rewrite assign_mesh_spec by assumption. cbn [unit_out bind]. split.
    + rewrite abs_copied. reflexivity.
    + apply wf_copied; assumption.
Qed.

Lemma mrun_refines os : forall m, wf m -> Forall args_wf os ->
  match mrun m os with
  | Ok (m', xs) => srun (abs m) (map abs_op os) = Some (abs m', xs) /\ wf m'
  | Err f => srun (abs m) (map abs_op os) = None /\ f = FAssert
  end.
Proof.
  induction os as [|o os IH]; intros m W HA; cbn [mrun map srun].
  - auto.
  - inversion HA as [|? ? H1 H2]; subst. pose proof (mstep_refines m o W H1) as H.
    destruct (mstep m o) as [[m' x]|f]; cbn [bind].
    + destruct H as [E W']. rewrite E. specialize (IH m' W' H2). cbn [fst snd].
      destruct (mrun m' os) as [[m'' xs]|f]; cbn [bind fst snd].
      * destruct IH as [-> W'']. auto.
      * destruct IH as [-> ->]. auto.
    + destruct H as [-> ->]. auto.
Qed.

(** Observers read the abstraction. *)
Lemma obs_vertex m i : 0 <= i < nb_vertices m -> exists p,
  get_vertex m i = Ok p /\ nth_error (averts (abs m)) (Z.to_nat i) = Some p.
Proof.
  intros H. destruct (vget_in_range _ _ H) as [p E]. exists p. split.
  - apply get_vertex_ok. exact E.
  - apply vget_Ok in E. apply E.
Qed.

End LMesh.
