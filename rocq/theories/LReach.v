(** Every reachable mesh is well formed. *)
From Coq Require Import ZArith List Bool Lia.
From Verif Require Import Base Num MGeometry MKernel MMesh MMeshRun MUtil SMesh SReach LBase LMesh.
Import ListNotations.
Open Scope Z_scope.

Section LReach.
Context {T : Type} {N : Num T}.
Implicit Types m : Mesh T.

Lemma wf_kern_add m a b c r : wf m -> kern_add_triangle m a b c = Ok r -> wf (fst r).
Proof.
  intros W E. rewrite kern_add_triangle_spec in E.
  destruct (in_range a (nb_vertices m)) eqn:A; [|discriminate].
  destruct (in_range b (nb_vertices m)) eqn:B; [|discriminate].
  destruct (in_range c (nb_vertices m)) eqn:C; [|discriminate].
  cbn [andb] in E.
  injection E as <-. cbn [fst]. apply in_range_true in A, B, C.
  apply (wf_push_tri m a b c); assumption.
Qed.

Lemma wf_add_triangle m a b c r : wf m -> add_triangle m a b c = Ok r -> wf (fst r).
Proof.
  intros W E. unfold add_triangle in E. repeat (inv_bind E). eapply wf_kern_add; eauto.
Qed.

Lemma wf_k_unlink m i k c : wf m -> k_unlink (mkern m) i = Ok k -> wf (mkMesh k c).
Proof.
  intros W E. rewrite k_unlink_spec in E by exact W.
  destruct (in_range i (k_nbt (mkern m))) eqn:R; [|discriminate].
  apply in_range_true in R. destruct (wf_tri_get m i W R) as [t [Et Wt]].
  rewrite Et in E. injection E as <-. apply (wf_unlinked_mesh m i t W Wt).
Qed.

Lemma wf_unlink m i m' : wf m -> unlink_triangle m i = Ok m' -> wf m'.
Proof.
  intros W E. unfold unlink_triangle in E. inv_bind E. inv_bind E. injection E as <-.
  eapply wf_k_unlink; eauto.
Qed.

Lemma wf_add_vertex m p : wf m -> wf (fst (add_vertex m p)).
Proof. intros W. rewrite add_vertex_spec. apply wf_push_vert, W. Qed.

Lemma wf_add_quad m a b c d m' : wf m -> add_quad m a b c d = Ok m' -> wf m'.
Proof.
  intros W E. unfold add_quad in E. do 8 (inv_bind E). inv_bind E. inv_bind E. injection E as <-.
  eapply wf_kern_add; [|eassumption]. eapply wf_kern_add; eassumption.
Qed.

Lemma wf_add_quad_points m p q r s b m' : wf m -> add_quad_points m p q r s b = Ok m' -> wf m'.
Proof.
  intros W E. unfold add_quad_points in E.
  repeat (rewrite add_vertex_spec in E; cbn iota in E).
  assert (wf (push_vert (push_vert (push_vert (push_vert m p) q) r) s)) as W4
    by (repeat apply wf_push_vert; exact W).
  destruct b; cbn [negb] in E.
  - do 4 (inv_bind E).
    destruct (nleb _ _); eapply wf_add_quad; eassumption.
  - eapply wf_add_quad; eassumption.
Qed.

Lemma wf_add_triangle_points m p q r x : wf m -> add_triangle_points m p q r = Ok x -> wf (fst x).
Proof.
  intros W E. unfold add_triangle_points in E.
  repeat (rewrite add_vertex_spec in E; cbn iota in E).
  eapply wf_add_triangle; [|exact E]. repeat apply wf_push_vert; exact W.
Qed.

Lemma wf_split_edge m a b c d e m' : wf m -> split_edge_with_vertex m a b c d e = Ok m' -> wf m'.
Proof.
  intros W E. unfold split_edge_with_vertex in E.
  inv_bind E. inv_bind E. inv_bind E. inv_bind E.
  set (v := if negb _ then rotate_macro (if negb _ then rotate_macro x1 else x1) else _) in E.
  destruct v as [[a1 a2] a3].
  do 4 (inv_bind E).
  assert (wf (fst x4)) as W2 by (eapply wf_kern_add; [|eassumption]; eapply wf_kern_add; eassumption).
  assert (wf (mkMesh x5 (mcolor m))) as W3 by (eapply wf_k_unlink; eassumption).
  inv_bind E.
  set (w := if negb _ then rotate_macro (if negb _ then rotate_macro x6 else x6) else _) in E.
  destruct w as [[b1 b2] b3].
  do 3 (inv_bind E). injection E as <-.
  eapply wf_k_unlink; [|eassumption].
  eapply wf_kern_add; [|eassumption]; eapply wf_kern_add; eassumption.
Qed.

Lemma wf_step m o m' x : wf m -> args_wf o -> mstep m o = Ok (m', x) -> wf m'.
Proof.
  intros W A E. pose proof (mstep_refines m o W A) as H. rewrite E in H. apply H.
Qed.

Lemma wf_split_triangle_with_point m i p m' : wf m -> split_triangle_with_point m i p = Ok m' -> wf m'.
Proof.
  intros W E. eapply (wf_step m (OpSplitPt i p) m' OutUnit W I).
  cbn [mstep]. rewrite E. reflexivity.
Qed.

Lemma wf_split_triangle m i t m' : wf m -> split_triangle m i t = Ok m' -> wf m'.
Proof.
  intros W E. unfold split_triangle in E.
  inv_bind E. inv_bind E. destruct (negb (cutted_by x x0)); [injection E as <-; exact W|].
  inv_bind E. destruct (negb (cutted_by t x1)); [injection E as <-; exact W|].
  do 4 (inv_bind E).
  destruct x4 as [|P1 [|P2 r]].
  - injection E as <-; exact W.
  - destruct (tri_contains x P1); [|injection E as <-; exact W].
    eapply wf_split_triangle_with_point; eassumption.
  - destruct (negb (tri_contains x P1) && negb (tri_contains x P2)); [|injection E as <-; exact W].
    do 3 (inv_bind E).
    match type of E with (if ?b then _ else _) = _ => destruct b end; [injection E as <-; exact W|].
    inv_bind E. injection E as <-; exact W.
Qed.

Lemma wf_for a b (body : Z -> Mesh T -> res (Mesh T)) m m' :
  wf m -> (forall i m m', a <= i < b -> wf m -> body i m = Ok m' -> wf m') ->
  for_ a b body m = Ok m' -> wf m'.
Proof.
  intros W H E. destruct (Z.le_gt_cases a b) as [L|G].
  - eapply (for_inv_part (fun _ m => wf m)); eauto.
  - rewrite for_empty in E by lia. injection E as <-. exact W.
Qed.

Lemma wf_for_pair {A} a b (body : Z -> A * Mesh T -> res (A * Mesh T)) s s' :
  wf (snd s) -> (forall i s s', a <= i < b -> wf (snd s) -> body i s = Ok s' -> wf (snd s')) ->
  for_ a b body s = Ok s' -> wf (snd s').
Proof.
  intros W H E. destruct (Z.le_gt_cases a b) as [L|G].
  - eapply (for_inv_part (fun _ s => wf (snd s))); eauto.
  - rewrite for_empty in E by lia. injection E as <-. exact W.
Qed.

Lemma wf_grid_quads sx sy m m' : wf m -> grid_quads sx sy m = Ok m' -> wf m'.
Proof.
  intros W E. unfold grid_quads in E. eapply wf_for; [exact W| |exact E].
  intros j q q' _ Wq Eq. eapply wf_for; [exact Wq| |exact Eq].
  intros i r r' _ Wr Er. eapply wf_add_quad; [exact Wr|exact Er].
Qed.

Lemma wf_create_from_z vz sx sy m m' : create_from_z vz sx sy m = Ok m' -> wf m'.
Proof.
  intros E. unfold create_from_z in E. inv_bind E. inv_bind E. inv_bind E.
  eapply wf_grid_quads; [|exact E].
  eapply (wf_for_pair 0 sy); [| |eassumption]; [apply wf_clear|].
  intros i s s' _ Ws Es. eapply (wf_for_pair 0 sx); [exact Ws| |exact Es].
  intros j t t' _ Wt Et. inv_bind Et. injection Et as <-. cbn [snd]. apply wf_add_vertex. exact Wt.
Qed.

Lemma wf_create_from_grid vp sx sy m m' : create_from_grid vp sx sy m = Ok m' -> wf m'.
Proof.
  intros E. unfold create_from_grid in E. inv_bind E. inv_bind E. inv_bind E.
  eapply wf_grid_quads; [|exact E].
  eapply (wf_for 0 sy); [| |eassumption]; [apply wf_clear|].
  intros i s s' _ Ws Es. eapply (wf_for 0 sx); [exact Ws| |exact Es].
  intros j t t' _ Wt Et. inv_bind Et. injection Et as <-. apply wf_add_vertex. exact Wt.
Qed.

Lemma wf_merge m tol m' : merge_vertices m tol = Ok m' -> wf m'.
Proof.
  intros E. unfold merge_vertices in E. inv_bind E. inv_bind E. inv_bind E.
  unfold merge_triangles in E. eapply wf_for; [| |exact E].
  - unfold merge_readd in E2. eapply wf_for_pair; [| |exact E2]; [apply wf_clear|].
    intros i [al q] s' _ Wq Eq. cbn [snd] in Wq. inv_bind Eq.
    destruct (x2 =? -1).
    + inv_bind Eq. rewrite add_vertex_spec in Eq. inv_bind Eq. injection Eq as <-. apply wf_push_vert. exact Wq.
    + inv_bind Eq. inv_bind Eq. injection Eq as <-. exact Wq.
  - intros i q q' _ Wq Eq. inv_bind Eq. destruct x2; [injection Eq as <-; exact Wq|].
    inv_bind Eq. destruct x2 as [[i1 i2] i3]. do 7 (inv_bind Eq). injection Eq as <-.
    eapply wf_add_triangle; eassumption.
Qed.

Lemma wf_remove_empty m tol m' : wf m -> remove_empty_triangles m tol = Ok m' -> wf m'.
Proof.
  intros W E. unfold remove_empty_triangles in E. eapply wf_for; [exact W| |exact E].
  intros i q q' _ Wq Eq. inv_bind Eq. destruct x; [injection Eq as <-; exact Wq|].
  inv_bind Eq.
  repeat match type of Eq with (if ?b then _ else _) = _ => destruct b end;
    try (eapply wf_unlink; eassumption). injection Eq as <-; exact Wq.
Qed.

Lemma wf_tessellate m n mo m' : tessellate m n mo = Ok m' -> wf m'.
Proof.
  intros E. unfold tessellate in E. eapply wf_for; [apply wf_clear| |exact E].
  intros i q q' _ Wq Eq. inv_bind Eq. destruct x; [injection Eq as <-; exact Wq|].
  inv_bind Eq. destruct x as [[ia ib] ic]. do 3 (inv_bind Eq).
  unfold tessellate_triangle in Eq. eapply wf_for; [exact Wq| |exact Eq].
  intros j r r' _ Wr Er. do 4 (inv_bind Er).
  eapply wf_for; [| |exact Er].
  - eapply wf_add_triangle_points; eassumption.
  - intros k s s' _ Ws Es. do 6 (inv_bind Es). injection Es as <-.
    eapply wf_add_triangle_points; [|eassumption]. eapply wf_add_triangle_points; eassumption.
Qed.

Lemma wf_split_meshes A B Ao Bo : wf A -> wf B -> split_meshes A B = Ok (Ao, Bo) -> wf Ao /\ wf Bo.
Proof.
  intros WA WB E. unfold split_meshes in E. inv_bind E. inv_bind E.
  assert (wf x) as W1 by (unfold copy_mesh in E0; rewrite assign_mesh_spec in E0 by exact WA; injection E0 as <-; apply wf_copied, WA).
  assert (wf x0) as W2 by (unfold copy_mesh in E1; rewrite assign_mesh_spec in E1 by exact WB; injection E1 as <-; apply wf_copied, WB).
  change (wf Ao /\ wf Bo) with ((fun s => wf (fst s) /\ wf (snd s)) (Ao, Bo)).
  destruct (Z.le_gt_cases 0 (nb_triangles A)) as [L|G].
  2:{ rewrite for_empty in E by lia. injection E as <- <-. auto. }
  eapply (for_inv_part (fun _ s => wf (fst s) /\ wf (snd s)) 0 (nb_triangles A) _ (x, x0)); [exact L|split; [exact W1|exact W2]| |exact E].
  intros i s s' _ [Wa Wb] Es. inv_bind Es. destruct x1; [injection Es as <-; auto|]. inv_bind Es.
  destruct (Z.le_gt_cases 0 (nb_triangles B)) as [L2|G2].
  2:{ rewrite for_empty in Es by lia. injection Es as <-. auto. }
  eapply (for_inv_part (fun _ s => wf (fst s) /\ wf (snd s)) 0 (nb_triangles B) _ s); [exact L2|split; [exact Wa|exact Wb]| |exact Es].
  intros j t t' _ [Va Vb] Et. inv_bind Et. destruct x2; [injection Et as <-; auto|]. inv_bind Et.
  destruct (negb _); [injection Et as <-; auto|]. inv_bind Et. inv_bind Et. injection Et as <-. cbn [fst snd].
  split; (eapply wf_split_triangle; [|eassumption]; assumption).
Qed.

Lemma wf_while (cond : Z * Mesh T -> res bool) body fuel : forall s s',
  wf (snd s) -> (forall s s', wf (snd s) -> body s = Ok s' -> wf (snd s')) ->
  while_ fuel cond body s = Ok s' -> wf (snd s').
Proof.
  induction fuel; intros s s' W H E; [discriminate|].
  cbn [while_] in E. inv_bind E. destruct x.
  - inv_bind E. eapply IHfuel; [|exact H|exact E]. eapply H; eassumption.
  - injection E as <-. exact W.
Qed.

Lemma wf_add_self m m' fuel : wf m -> add_mesh_self fuel m = Ok m' -> wf m'.
Proof.
  intros W E. unfold add_mesh_self in E. inv_bind E. inv_bind E. injection E as <-.
  eapply wf_while; [| |exact E1].
  - cbn [snd]. eapply wf_while; [| |exact E0]; [exact W|].
    intros s s' Ws Es. inv_bind Es. injection Es as <-. cbn [snd]. apply wf_add_vertex, Ws.
  - intros s s' Ws Es. inv_bind Es. destruct x1; [injection Es as <-; exact Ws|].
    inv_bind Es. destruct x1 as [[a b] c]. inv_bind Es. injection Es as <-. cbn [snd].
    eapply wf_add_triangle; eassumption.
Qed.

Lemma reach_wf m : reach m -> wf m.
Proof.
  induction 1.
  - apply wf_new.
  - unfold copy_mesh in H0. rewrite assign_mesh_spec in H0 by assumption. injection H0 as <-.
    apply wf_copied; assumption.
  - eapply wf_step; [eassumption| |eassumption]. destruct o; cbn; try exact I; auto.
  - unfold assign_self in H0. inv_bind H0. injection H0 as <-. apply wf_set_color.
    eapply wf_add_self; [|eassumption]. apply wf_clear.
  - eapply wf_add_self; eassumption.
  - eapply wf_add_quad_points; eassumption.
  - eapply wf_split_edge; eassumption.
  - eapply wf_split_triangle; eassumption.
  - eapply wf_create_from_z; eassumption.
  - eapply wf_create_from_grid; eassumption.
  - eapply wf_merge; eassumption.
  - eapply wf_remove_empty; eassumption.
  - eapply wf_tessellate; eassumption.
  - destruct (wf_split_meshes A B Ao Bo); assumption.
  - destruct (wf_split_meshes A B Ao Bo); assumption.
Qed.

Lemma reach_indices m : reach m ->
  forall i, 0 <= i < nb_triangles m ->
  exists a b c t, get_triangle_vertices m i = Ok (a, b, c) /\
    0 <= a < nb_vertices m /\ 0 <= b < nb_vertices m /\ 0 <= c < nb_vertices m /\
    get_triangle m i = Ok t /\
    get_vertex m a = Ok (t1 t) /\ get_vertex m b = Ok (t2 t) /\ get_vertex m c = Ok (t3 t).
Proof.
  intros R i Hi. pose proof (reach_wf m R) as W.
  destruct (wf_tri_get m i W Hi) as [t [E [[H1 [H2 H3]] _]]].
  destruct (get_triangle_ok m i t W E) as [p [q [r [Ep [Eq [Er G]]]]]].
  exists (lv1 t), (lv2 t), (lv3 t), (mkTri p q r).
  rewrite (get_triangle_vertices_ok _ _ _ E). repeat split; try lia; try assumption.
  - apply get_vertex_ok; assumption.
  - apply get_vertex_ok; assumption.
  - apply get_vertex_ok; assumption.
Qed.

(** ** Locality and permanence of unlinking *)

Lemma unlink_local m i m' : wf m -> unlink_triangle m i = Ok m' ->
  nb_triangles m' = nb_triangles m /\ nb_vertices m' = nb_vertices m /\
  is_triangle_unlinked m' i = Ok true /\
  (forall j, get_triangle_vertices m' j = get_triangle_vertices m j) /\
  (forall j, j <> i -> is_triangle_unlinked m' j = is_triangle_unlinked m j) /\
  (forall j, get_vertex m' j = get_vertex m j).
Proof.
  intros W E. unfold unlink_triangle in E. inv_bind E. inv_bind E. apply massert_Ok in E0.
  apply in_range_true in E0. destruct (wf_tri_get m i W E0) as [t [Et Wt]].
  rewrite (k_unlink_ok m i t W E0 Et) in E1. injection E1 as <-. injection E as <-.
  set (m' := mkMesh _ _).
  assert (ktris (mkern m') = list_set (ktris (mkern m)) (Z.to_nat i) (unlinked_tri t)) as KT by reflexivity.
  assert (nb_triangles m' = nb_triangles m) as NT.
  { unfold nb_triangles, k_nbt. rewrite KT. unfold vsize. rewrite list_set_length. reflexivity. }
  assert (forall j, vget (ktris (mkern m')) j = if j =? i then Ok (unlinked_tri t) else vget (ktris (mkern m)) j) as VG.
  { intros j. apply vget_vset. apply vset_Ok. split; [exact E0|exact KT]. }
  split; [exact NT|]. split; [reflexivity|]. split.
  - rewrite (is_unlinked_ok m' i (unlinked_tri t)); [reflexivity|]. rewrite VG, Z.eqb_refl. reflexivity.
  - split; [|split].
    + intros j. unfold get_triangle_vertices, k_get_triangle_vertices. rewrite NT.
      change (k_nbt (mkern m')) with (nb_triangles m'). rewrite NT. change (k_nbt (mkern m)) with (nb_triangles m).
      rewrite VG. destruct (Z.eqb_spec j i); [|reflexivity]. subst j. rewrite Et. reflexivity.
    + intros j Hj. unfold is_triangle_unlinked, k_is_unlinked.
      change (k_nbt (mkern m')) with (nb_triangles m'). rewrite NT. change (k_nbt (mkern m)) with (nb_triangles m).
      rewrite VG. destruct (Z.eqb_spec j i); [contradiction|reflexivity].
    + intros j. reflexivity.
Qed.

(** [m'] has all triangles of [m] under the same ids, and unlinked ones are still unlinked. *)
Definition keeps m m' : Prop :=
  nb_triangles m <= nb_triangles m' /\
  (forall i a b c, get_triangle_vertices m i = Ok (a, b, c) -> get_triangle_vertices m' i = Ok (a, b, c)) /\
  (forall i, is_triangle_unlinked m i = Ok true -> is_triangle_unlinked m' i = Ok true).

Definition no_reset (o : op T (Mesh T)) : Prop :=
  match o with OpClear => False | OpAssign _ => False | _ => True end.

(** Prefix order on abstract triangle lists. *)
Definition tri_le (u v : list (triple * bool)) : Prop :=
  forall n t b, nth_error u n = Some (t, b) -> exists b', nth_error v n = Some (t, b') /\ (b = false -> b' = false).

Lemma tri_le_refl u : tri_le u u.
Proof. intros n t b E. eauto. Qed.
Lemma tri_le_trans u v w : tri_le u v -> tri_le v w -> tri_le u w.
Proof.
  intros H1 H2 n t b E. destruct (H1 n t b E) as [b' [E' F]]. destruct (H2 n t b' E') as [b'' [E'' F']].
  exists b''. auto.
Qed.
Lemma tri_le_app u v : tri_le u (u ++ v).
Proof.
  intros n t b E. exists b. split; [|auto]. rewrite nth_error_app1; [assumption|].
  apply nth_error_Some. congruence.
Qed.
Lemma tri_le_kill u i : tri_le u (kill u i).
Proof.
  intros n t b E. unfold kill.
  destruct (nth_error u (Z.to_nat i)) as [[t' b']|] eqn:F.
  - rewrite (upd_map _ _ _ _ F). rewrite nth_error_list_set.
    + destruct (Nat.eqb_spec n (Z.to_nat i)).
      * subst n. rewrite F in E. injection E as -> ->. exists false. auto.
      * exists b. auto.
    + apply nth_error_Some. congruence.
  - rewrite (upd_none _ _ _ F). eauto.
Qed.

Lemma sstep_tri_le a o a' x : sstep (T:=T) a o = Some (a', x) ->
  match o with OpClear => True | OpAssign _ => True | _ => tri_le (atris a) (atris a') end.
Proof.
  destruct o; cbn [sstep]; intros E; try exact I;
    repeat match type of E with
           | (if ?b then _ else _) = _ => destruct b
           | match ?x with Some _ => _ | None => _ end = _ => destruct x as [[[[? ?] ?] ?]|]
           end; try discriminate; injection E as <- <-; cbn;
    try apply tri_le_refl; try apply tri_le_app; try apply tri_le_kill;
    eapply tri_le_trans; try apply tri_le_kill; apply tri_le_app.
Qed.

Lemma tri_le_keeps m m' : tri_le (atris (abs m)) (atris (abs m')) -> keeps m m'.
Proof.
  intros H. split; [|split].
  - rewrite <- !abs_nbt. unfold len.
    destruct (Nat.le_gt_cases (length (atris (abs m))) (length (atris (abs m')))) as [L|G]; [lia|].
    destruct (nth_error (atris (abs m)) (length (atris (abs m')))) as [[t b]|] eqn:E.
    + destruct (H _ _ _ E) as [b' [E' _]].
      assert (nth_error (atris (abs m')) (length (atris (abs m'))) <> None) as HN by congruence.
      apply nth_error_Some in HN. lia.
    + apply nth_error_None in E. lia.
  - intros i a b c E. unfold get_triangle_vertices, k_get_triangle_vertices in E.
    inv_bind E. inv_bind E. inv_bind E. injection E as <- <- <-.
    pose proof (nth_abs _ _ _ E2) as F. destruct (H _ _ _ F) as [b' [F' _]].
    cbn in F'. rewrite nth_error_map in F'.
    destruct (nth_error (ktris (mkern m')) (Z.to_nat i)) as [t'|] eqn:G; [|discriminate].
    cbn in F'. injection F' as A B C _.
    rewrite (get_triangle_vertices_ok m' i t'); [congruence|].
    apply vget_Ok. split; [|assumption]. apply vget_range in E2. lia.
  - intros i E. unfold is_triangle_unlinked, k_is_unlinked in E.
    inv_bind E. inv_bind E. inv_bind E. injection E as U.
    pose proof (nth_abs _ _ _ E2) as F. rewrite U in F. destruct (H _ _ _ F) as [b' [F' K]].
    specialize (K eq_refl). subst b'.
    cbn in F'. rewrite nth_error_map in F'.
    destruct (nth_error (ktris (mkern m')) (Z.to_nat i)) as [t'|] eqn:G; [|discriminate].
    cbn in F'. injection F' as A B C D.
    rewrite (is_unlinked_ok m' i t'); [destruct (lunl t' =? -1); [reflexivity|discriminate]|].
    apply vget_Ok. split; [|assumption]. apply vget_range in E2. lia.
Qed.

Lemma shows_abs m : shows m (abs m).
Proof.
  split; [reflexivity|]. split; [symmetry; apply abs_nbt|]. split; [reflexivity|]. split.
  - intros i. cbn [abs averts]. destruct (nth_error (kverts (mkern m)) (Z.to_nat i)) eqn:E.
    + intros Hi. apply get_vertex_ok. apply vget_Ok. auto.
    + rewrite get_vertex_spec. destruct (in_range i (nb_vertices m)) eqn:R; [|reflexivity].
      apply in_range_true in R. apply nth_error_None in E. unfold nb_vertices, k_nbv, vsize in R. lia.
  - intros i. cbn [abs atris]. rewrite nth_error_map.
    destruct (nth_error (ktris (mkern m)) (Z.to_nat i)) as [t|] eqn:E; cbn [option_map abs_tri].
    + intros Hi. assert (vget (ktris (mkern m)) i = Ok t) as G by (apply vget_Ok; auto).
      rewrite (get_triangle_vertices_ok _ _ _ G), (is_unlinked_ok _ _ _ G).
      rewrite negb_involutive. auto.
    + unfold get_triangle_vertices, is_triangle_unlinked.
      destruct (in_range i (nb_triangles m)) eqn:R; [|split; reflexivity].
      apply in_range_true in R. apply nth_error_None in E. unfold nb_triangles, k_nbt, vsize in R. lia.
Qed.

Lemma nth_error_ext {A} (u v : list A) : (forall n, nth_error u n = nth_error v n) -> u = v.
Proof.
  revert v. induction u as [|x u IH]; intros [|y v] H.
  - reflexivity.
  - specialize (H O). discriminate.
  - specialize (H O). discriminate.
  - pose proof (H O) as H0. cbn in H0. injection H0 as ->. f_equal. apply IH. intros n. apply (H (S n)).
Qed.

Lemma shows_unique m a b : shows m a -> shows m b -> a = b.
Proof.
  intros [V1 [T1 [C1 [G1 H1]]]] [V2 [T2 [C2 [G2 H2]]]].
  destruct a as [va ta ca], b as [vb tb cb]; cbn in *. f_equal; [| |congruence].
  - apply nth_error_ext. intros n. specialize (G1 (Z.of_nat n)). specialize (G2 (Z.of_nat n)).
    rewrite Nat2Z.id in G1, G2.
    destruct (nth_error va n), (nth_error vb n).
    + specialize (G1 ltac:(lia)). specialize (G2 ltac:(lia)). congruence.
    + specialize (G1 ltac:(lia)). congruence.
    + specialize (G2 ltac:(lia)). congruence.
    + reflexivity.
  - apply nth_error_ext. intros n. specialize (H1 (Z.of_nat n)). specialize (H2 (Z.of_nat n)).
    rewrite Nat2Z.id in H1, H2.
    destruct (nth_error ta n) as [[t1 b1]|], (nth_error tb n) as [[t2 b2]|].
    + destruct (H1 ltac:(lia)) as [A1 B1]. destruct (H2 ltac:(lia)) as [A2 B2].
      rewrite A1 in A2. rewrite B1 in B2. injection A2 as ->. injection B2 as B. destruct b1, b2; try discriminate; reflexivity.
    + destruct (H1 ltac:(lia)). destruct H2. congruence.
    + destruct (H2 ltac:(lia)). destruct H1. congruence.
    + reflexivity.
Qed.

Lemma op_shows_abs o o' : op_shows o o' -> o' = abs_op o /\ args_wf o.
Proof.
  destruct o, o'; cbn; intros H; try contradiction;
    try (match type of H with reach _ /\ _ => idtac end; destruct H as [R S]; split; [f_equal; eapply shows_unique; [exact S|apply shows_abs]|apply reach_wf, R]);
    split; try exact I; try (injection H; intros; subst; reflexivity); subst; try reflexivity.
  destruct H as [-> ->]. reflexivity.
Qed.

Lemma shows_run os os' m a : reach m -> shows m a -> Forall2 op_shows os os' ->
  match srun a os' with
  | Some (a', xs) => exists m', mrun m os = Ok (m', xs) /\ reach m' /\ shows m' a'
  | None => mrun m os = Err FAssert
  end.
Proof.
  intros R S F. assert (os' = map abs_op os /\ Forall args_wf os) as [-> A].
  { clear -F. induction F as [|o o' os os' H F IH]; [split; constructor|].
    apply op_shows_abs in H. destruct H as [-> H], IH as [-> IH]. split; [reflexivity|constructor; assumption]. }
  rewrite (shows_unique m a (abs m) S (shows_abs m)).
  pose proof (mrun_refines os m (reach_wf m R) A) as H.
  destruct (mrun m os) as [[m' xs]|f] eqn:E.
  - destruct H as [-> _]. exists m'. split; [reflexivity|]. split; [|apply shows_abs].
    clear -R F E. revert m xs R E. induction F as [|o o' os os' H F IH]; intros m xs R E.
    + injection E as <- _. exact R.
    + cbn in E. inv_bind E. inv_bind E. injection E as <- <-. destruct x as [m1 y]. destruct x0 as [m2 ys]. cbn in *.
      eapply IH; [|exact E1]. eapply R_step; [exact R| |exact E0].
      intros f [->| ->]; destruct o'; cbn in H; try contradiction; apply H.
  - destruct H as [-> ->]. reflexivity.
Qed.

Definition tle m m' := tri_le (atris (abs m)) (atris (abs m')).

Lemma tle_trans m1 m2 m3 : tle m1 m2 -> tle m2 m3 -> tle m1 m3.
Proof. apply tri_le_trans. Qed.

Lemma tle_kern_add m a b c r : kern_add_triangle m a b c = Ok r -> tle m (fst r).
Proof.
  intros E. rewrite kern_add_triangle_spec in E. destruct (_ && _); [|discriminate]. injection E as <-.
  unfold tle. change (mkMesh _ _) with (push_tri m a b c). cbn [fst]. rewrite abs_push_tri. apply tri_le_app.
Qed.
Lemma tle_k_unlink m i k c : wf m -> k_unlink (mkern m) i = Ok k -> tle m (mkMesh k c).
Proof.
  intros W E. rewrite k_unlink_spec in E by exact W.
  destruct (in_range i (k_nbt (mkern m))) eqn:R; [|discriminate].
  apply in_range_true in R. destruct (wf_tri_get m i W R) as [t [Et Wt]].
  rewrite Et in E. injection E as <-. unfold tle.
  change (atris (abs (mkMesh (mkK (kverts (mkern m)) (list_set (ktris (mkern m)) (Z.to_nat i) (unlinked_tri t))) c)))
    with (atris (abs (unlinked_mesh m i t))).
  rewrite (abs_unlinked m i t Et). apply tri_le_kill.
Qed.
Lemma tle_add_triangle m a b c r : add_triangle m a b c = Ok r -> tle m (fst r).
Proof. intros E. unfold add_triangle in E. repeat (inv_bind E). eapply tle_kern_add; eauto. Qed.
Lemma tle_add_quad m a b c d m' : add_quad m a b c d = Ok m' -> tle m m'.
Proof.
  intros E. unfold add_quad in E. do 10 (inv_bind E). injection E as <-.
  eapply tle_trans; [eapply tle_kern_add; eassumption|eapply tle_kern_add; eassumption].
Qed.

Lemma evolves_tle m m' : wf m -> evolves m m' -> tle m m' /\ wf m'.
Proof.
  intros W E. induction E.
  - split; [apply tri_le_refl|exact W].
  - destruct (IHE W) as [L W1]. assert (args_wf o) as A.
    { destruct o; cbn; try exact I; [apply reach_wf; auto|exfalso; eapply H0; reflexivity]. }
    split; [|eapply wf_step; eassumption].
    eapply tle_trans; [exact L|].
    pose proof (mstep_refines m1 o W1 A) as R. rewrite H2 in R. destruct R as [R _].
    apply sstep_tri_le in R. destruct o; cbn in R; try exact R; [contradiction|exfalso; eapply H0; reflexivity].
  - destruct (IHE W) as [L W1]. split; [|eapply wf_add_self; eassumption].
    eapply tle_trans; [exact L|]. unfold add_mesh_self in H. inv_bind H. inv_bind H. injection H as <-.
    assert (forall cond body (s s' : Z * Mesh T) n,
      (forall s s', body s = Ok s' -> tle (snd s) (snd s')) -> while_ n cond body s = Ok s' -> tle (snd s) (snd s')) as WH.
    { clear. intros cond body s s' n HB. revert s. induction n; intros s Hs; [discriminate|]. cbn [while_] in Hs.
      inv_bind Hs. destruct x; [|injection Hs as <-; apply tri_le_refl]. inv_bind Hs.
      eapply tle_trans; [apply HB; eassumption|]. apply IHn. exact Hs. }
    eapply tle_trans.
    + refine (WH _ _ (0, m1) x _ _ E0). intros s s' Hs. inv_bind Hs. injection Hs as <-. apply tri_le_refl.
    + refine (WH _ _ (0, snd x) x0 _ _ E1). intros s s' Hs. inv_bind Hs. destruct x1; [injection Hs as <-; apply tri_le_refl|].
      inv_bind Hs. destruct x1 as [[a b] c]. inv_bind Hs. injection Hs as <-. eapply tle_add_triangle; eassumption.
  - destruct (IHE W) as [L W1]. split; [|eapply wf_add_quad_points; eassumption].
    eapply tle_trans; [exact L|]. unfold add_quad_points in H.
    repeat (rewrite add_vertex_spec in H; cbn iota in H). cbn [negb] in H. do 4 (inv_bind H).
    match goal with |- tle ?m _ => change (tle (push_vert (push_vert (push_vert (push_vert m p) q) r) s) m') end.
    destruct (nleb _ _); eapply tle_add_quad; eassumption.
  - destruct (IHE W) as [L W1]. split; [|eapply wf_split_edge; eassumption].
    eapply tle_trans; [exact L|]. unfold split_edge_with_vertex in H.
    inv_bind H. inv_bind H. inv_bind H. inv_bind H.
    set (v := if negb _ then rotate_macro (if negb _ then rotate_macro x1 else x1) else _) in H.
    destruct v as [[a1 a2] a3].
    do 4 (inv_bind H).
    assert (wf (fst x4)) as W2 by (eapply wf_kern_add; [|eassumption]; eapply wf_kern_add; eassumption).
    assert (wf (mkMesh x5 (mcolor m1))) as W3 by (eapply wf_k_unlink; eassumption).
    inv_bind H.
    set (w := if negb _ then rotate_macro (if negb _ then rotate_macro x6 else x6) else _) in H.
    destruct w as [[b1 b2] b3].
    do 3 (inv_bind H). injection H as <-.
    eapply tle_trans; [eapply tle_kern_add; exact E4|].
    eapply tle_trans; [eapply tle_kern_add; exact E5|].
    eapply tle_trans; [eapply tle_k_unlink; [exact W2|exact E6]|].
    eapply tle_trans; [eapply tle_kern_add; exact E9|].
    eapply tle_trans; [eapply tle_kern_add; exact E10|].
    eapply tle_k_unlink; [|exact E11].
    eapply wf_kern_add; [|exact E10]. eapply wf_kern_add; [|exact E9]. exact W3.
  - destruct (IHE W) as [L W1]. split; [|eapply wf_split_triangle; eassumption].
    eapply tle_trans; [exact L|]. unfold split_triangle in H.
    inv_bind H. inv_bind H. destruct (negb (cutted_by x x0)); [injection H as <-; apply tri_le_refl|].
    inv_bind H. destruct (negb (cutted_by t x1)); [injection H as <-; apply tri_le_refl|].
    do 4 (inv_bind H).
    destruct x4 as [|P1 [|P2 r]].
    + injection H as <-; apply tri_le_refl.
    + destruct (tri_contains x P1); [|injection H as <-; apply tri_le_refl].
      assert (mstep m1 (OpSplitPt i P1) = Ok (m', OutUnit)) as S by (cbn [mstep]; rewrite H; reflexivity).
      pose proof (mstep_refines m1 (OpSplitPt i P1) W1 I) as R. rewrite S in R. destruct R as [R _].
      apply sstep_tri_le in R. exact R.
    + destruct (negb (tri_contains x P1) && negb (tri_contains x P2)); [|injection H as <-; apply tri_le_refl].
      do 3 (inv_bind H).
      match type of H with (if ?b then _ else _) = _ => destruct b end; [injection H as <-; apply tri_le_refl|].
      inv_bind H. injection H as <-; apply tri_le_refl.
  - destruct (IHE W) as [L W1]. split; [|eapply wf_remove_empty; eassumption].
    eapply tle_trans; [exact L|]. unfold remove_empty_triangles in H.
    assert (0 <= nb_triangles m1) as NN by apply vsize_nonneg.
    refine (proj1 (for_inv_part (fun _ s => tle m1 s /\ wf s) 0 (nb_triangles m1) _ m1 m' NN _ _ H)); [split; [apply tri_le_refl|exact W1]|].
    intros i q q' _ [Lq Wq] Eq. split; [|
      inv_bind Eq; destruct x; [injection Eq as <-; exact Wq|]; inv_bind Eq;
      repeat match type of Eq with (if ?b then _ else _) = _ => destruct b end;
      try (eapply wf_unlink; eassumption); injection Eq as <-; exact Wq].
    eapply tle_trans; [exact Lq|]. clear Lq.
    inv_bind Eq. destruct x; [injection Eq as <-; apply tri_le_refl|]. inv_bind Eq.
    repeat match type of Eq with (if ?b then _ else _) = _ => destruct b end;
      try (unfold unlink_triangle in Eq; inv_bind Eq; inv_bind Eq; injection Eq as <-; eapply tle_k_unlink; [exact Wq|eassumption]);
      injection Eq as <-; apply tri_le_refl.
Qed.

Lemma evolves_keeps m m' : reach m -> evolves m m' -> keeps m m'.
Proof. intros R E. apply tri_le_keeps. apply evolves_tle; [apply reach_wf, R|exact E]. Qed.

(** ** Copies *)

Lemma copy_spec m : reach m ->
  copy_mesh m = Ok (copied m) /\ (forall d, assign_mesh d m = Ok (copied m)).
Proof.
  intros R. pose proof (reach_wf m R). split; [|intros]; unfold copy_mesh; apply assign_mesh_spec; assumption.
Qed.

Lemma copy_shows m a : reach m -> shows m a ->
  forall d, exists m', assign_mesh d m = Ok m' /\ copy_mesh m = Ok m' /\
    shows m' (mkA (averts a) (map (fun t => (t, true)) (live a)) (acolor a)).
Proof.
  intros R S d. destruct (copy_spec m R) as [C A]. exists (copied m). split; [apply A|]. split; [exact C|].
  rewrite (shows_unique m a (abs m) S (shows_abs m)). rewrite <- abs_copied. apply shows_abs.
Qed.

Lemma add_mesh_shows m f a b : reach m -> reach f -> shows m a -> shows f b ->
  exists m', add_mesh m f = Ok m' /\
    shows m' (mkA (averts a ++ averts b)
                  (atris a ++ map (fun t => (shift_triple (len (averts a)) t, true)) (live b)) (acolor b)).
Proof.
  intros Rm Rf Sm Sf. rewrite (shows_unique m a (abs m) Sm (shows_abs m)), (shows_unique f b (abs f) Sf (shows_abs f)).
  exists (appended m f). split; [apply add_mesh_spec, reach_wf, Rf|]. rewrite abs_nbv, <- abs_appended. apply shows_abs.
Qed.

(** ** Self assignment and self append *)

Lemma assign_self_empties m fuel : (0 < fuel)%nat -> assign_self fuel m = Ok (clear m).
Proof. destruct fuel; [lia|]. reflexivity. Qed.

Lemma while_diverge_inv {S} (I : S -> Prop) cond body fuel : forall s,
  I s -> (forall s, I s -> cond s = Ok true /\ exists s', body s = Ok s' /\ I s') ->
  while_ (S := S) fuel cond body s = Err FDiverge.
Proof.
  induction fuel; intros s Hs HI; [reflexivity|]. cbn [while_].
  destruct (HI s Hs) as [-> [s' [-> Hs']]]. cbn [bind]. apply IHfuel; assumption.
Qed.

Lemma add_self_diverges m fuel : 0 < nb_vertices m -> add_mesh_self fuel m = Err FDiverge.
Proof.
  intros H. unfold add_mesh_self.
  rewrite (while_diverge_inv (fun s => 0 <= fst s < nb_vertices (snd s))); [reflexivity| |].
  - cbn. lia.
  - intros s [H1 H2]. split; [f_equal; apply Z.ltb_lt; exact H2|].
    destruct (vget_in_range (kverts (mkern (snd s))) (fst s)) as [p Ep]; [split; assumption|].
    rewrite (get_vertex_ok _ _ _ Ep). cbn [bind]. eexists; split; [reflexivity|].
    rewrite add_vertex_spec. cbn [fst snd]. rewrite nbv_push_vert. lia.
Qed.

Lemma add_self_no_vertices m fuel : reach m -> nb_vertices m = 0 -> (0 < fuel)%nat -> add_mesh_self fuel m = Ok m.
Proof.
  intros R H F. destruct fuel; [lia|]. unfold add_mesh_self.
  cbn [while_ fst snd bind]. rewrite H. cbn [Z.ltb Z.compare bind]. cbn [while_ fst snd bind].
  pose proof (reach_indices m R) as HI. destruct (Z.ltb_spec 0 (nb_triangles m)) as [L|L].
  - destruct (HI 0 ltac:(lia)) as [a [b [c [t HH]]]]. lia.
  - reflexivity.
Qed.

(** ** Flipping *)

Lemma flip_shows m a i x y z l : reach m -> shows m a -> 0 <= i ->
  nth_error (atris a) (Z.to_nat i) = Some ((x, y, z), l) ->
  exists m', flip_triangle m i = Ok m' /\ reach m' /\
    shows m' (mkA (averts a) (upd (atris a) (Z.to_nat i) (fun t => (fst t, false)) ++ [((x, z, y), true)]) (acolor a)).
Proof.
  intros R S Hi E.
  pose proof (shows_run [OpFlip i] [OpFlip i] m a R S) as H.
  specialize (H ltac:(repeat constructor)). cbn [srun sstep] in H.
  assert (ok_idx i (len (atris a)) = true) as K.
  { apply in_range_true. unfold len. split; [lia|]. assert (nth_error (atris a) (Z.to_nat i) <> None) as NN by congruence.
    apply nth_error_Some in NN. lia. }
  rewrite K, E in H. destruct H as [m' [EM [R' S']]]. exists m'. split; [|split; assumption].
  cbn in EM. unfold unit_out in EM. destruct (flip_triangle m i); cbn in EM; [|discriminate]. injection EM as <-. reflexivity.
Qed.

Lemma transform_shows m a f : reach m -> shows m a ->
  exists m', apply_transform m f = Ok m' /\ reach m' /\ shows m' (mkA (map f (averts a)) (atris a) (acolor a)).
Proof.
  intros R S. pose proof (shows_run [OpTransform f] [OpTransform f] m a R S ltac:(repeat constructor)) as H.
  cbn [srun sstep] in H. destruct H as [m' [EM [R' S']]]. exists m'. split; [|split; assumption].
  cbn in EM. unfold unit_out in EM. destruct (apply_transform m f); cbn in EM; [|discriminate]. injection EM as <-. reflexivity.
Qed.

Lemma reach_add_vertex m p : reach m -> reach (fst (add_vertex m p)).
Proof.
  intros R. eapply (R_step m (OpAddVertex p) _ (OutId (snd (add_vertex m p)))); [exact R|intros f [H|H]; discriminate|].
  cbn [mstep]. destruct (add_vertex m p). reflexivity.
Qed.

Lemma add_vertex_ids m p : let '(m', i) := add_vertex m p in
  i = nb_vertices m /\ nb_vertices m' = nb_vertices m + 1 /\ get_vertex m' i = Ok p /\
  (forall j q, get_vertex m j = Ok q -> get_vertex m' j = Ok q) /\
  nb_triangles m' = nb_triangles m /\
  (forall j, get_triangle_vertices m' j = get_triangle_vertices m j /\ is_triangle_unlinked m' j = is_triangle_unlinked m j).
Proof.
  rewrite add_vertex_spec. split; [reflexivity|]. split; [apply nbv_push_vert|]. split; [|split; [|split; [reflexivity|intros; split; reflexivity]]].
  - apply get_vertex_ok. cbn. apply vget_last.
  - intros j q E. rewrite get_vertex_spec in E. destruct (in_range j (nb_vertices m)) eqn:R; [|discriminate].
    apply in_range_true in R. apply get_vertex_ok. cbn. rewrite vget_app_l; [exact E|]. apply R.
Qed.

Lemma add_triangle_ids m a b c :
  if oks (nb_vertices m) [a; b; c] then
    exists m', add_triangle m a b c = Ok (m', nb_triangles m) /\
      nb_triangles m' = nb_triangles m + 1 /\
      get_triangle_vertices m' (nb_triangles m) = Ok (a, b, c) /\
      is_triangle_unlinked m' (nb_triangles m) = Ok false /\
      (forall j t, get_triangle_vertices m j = Ok t -> get_triangle_vertices m' j = Ok t) /\
      (forall j u, is_triangle_unlinked m j = Ok u -> is_triangle_unlinked m' j = Ok u) /\
      nb_vertices m' = nb_vertices m /\ (forall j, get_vertex m' j = get_vertex m j)
  else add_triangle m a b c = Err FAssert.
Proof.
  rewrite add_triangle_spec. cbn [oks forallb]. rewrite andb_true_r, andb_assoc.
  change (ok_idx a (nb_vertices m)) with (in_range a (nb_vertices m)).
  change (ok_idx b (nb_vertices m)) with (in_range b (nb_vertices m)).
  change (ok_idx c (nb_vertices m)) with (in_range c (nb_vertices m)).
  destruct (_ && _ && _); [|reflexivity].
  exists (push_tri m a b c). split; [reflexivity|]. split; [apply nbt_push_tri|].
  assert (vget (ktris (mkern (push_tri m a b c))) (nb_triangles m) = Ok (lt_new a b c)) as G by apply vget_last.
  rewrite (get_triangle_vertices_ok _ _ _ G), (is_unlinked_ok _ _ _ G).
  do 2 (split; [reflexivity|]).
  assert (forall j t, vget (ktris (mkern m)) j = Ok t -> vget (ktris (mkern (push_tri m a b c))) j = Ok t) as K.
  { intros j t Ej. cbn. rewrite vget_app_l; [exact Ej|]. eapply vget_range; exact Ej. }
  split; [|split; [|split; [reflexivity|intros; reflexivity]]].
  - intros j t Ej. unfold get_triangle_vertices, k_get_triangle_vertices in Ej. do 3 (inv_bind Ej). injection Ej as <-.
    apply get_triangle_vertices_ok, K. assumption.
  - intros j t Ej. unfold is_triangle_unlinked, k_is_unlinked in Ej. do 3 (inv_bind Ej). injection Ej as <-.
    apply is_unlinked_ok, K. assumption.
Qed.

End LReach.
