(** Properties C01-C09, C13: the Mesh container. *)
From Coq Require Import ZArith List Bool Reals Lia.
From Verif Require Import Base Num MGeometry MKernel MMesh MMeshRun MUtil MHeap SMesh SReach SHeap LBase LMesh LReach LHeap.
Import ListNotations.
Open Scope Z_scope.

(** A concrete mesh used in the examples: three vertices, two triangles, the first unlinked. *)
Definition ex_ops : list (op R (Mesh R)) :=
  [OpAddVertex (mkP 0%R 0%R 0%R); OpAddVertex (mkP 1%R 0%R 0%R); OpAddVertex (mkP 0%R 1%R 0%R);
   OpAddTriangle 0 1 2; OpAddTriangle 2 1 0; OpUnlink 0; OpSetColor 7].
Definition ex_mesh : Mesh R :=
  mkMesh (mkK [mkP 0%R 0%R 0%R; mkP 1%R 0%R 0%R; mkP 0%R 1%R 0%R]
              [mkLT 0 1 2 (-1) (-1) (-1) (-1); mkLT 2 1 0 (-1) (-1) (-1) 0]) 7.
Example ex_mesh_run :
  mrun mesh_new ex_ops = Ok (ex_mesh, [OutId 0; OutId 1; OutId 2; OutId 0; OutId 1; OutUnit; OutUnit]).
Proof. reflexivity. Qed.
Example ex_mesh_reach : reach ex_mesh.
Proof.
  pose proof (shows_run ex_ops (map abs_op ex_ops) (@mesh_new R) a_new (R_new) (shows_abs mesh_new)) as H.
  specialize (H ltac:(repeat constructor)).
  assert (srun a_new (map abs_op ex_ops) = Some (abs ex_mesh, [OutId 0; OutId 1; OutId 2; OutId 0; OutId 1; OutUnit; OutUnit])) as EQ by reflexivity.
  rewrite EQ in H. clear EQ. destruct H as [m' [E [R _]]].
  change (mrun mesh_new ex_ops = Ok (m', [OutId 0; OutId 1; OutId 2; OutId 0; OutId 1; OutUnit; OutUnit])) in E.
  rewrite ex_mesh_run in E. injection E as <-. exact R.
Qed.

(** C01. Any client program sees the mesh as a list of points plus a list of (triple, linked flag):
    same results, same later observations, and an abort exactly when the list program is undefined. *)
Theorem C01_mesh_refines_lists : forall (T : Type) (N : Num T) (os : list (op T (Mesh T))) (os' : list (op T (AMesh T)))
    (m : Mesh T) (a : AMesh T),
  reach m -> shows m a -> Forall2 op_shows os os' ->
  match srun a os' with
  | Some (a', xs) => exists m', mrun m os = Ok (m', xs) /\ reach m' /\ shows m' a'
  | None => mrun m os = Err FAssert
  end.
Proof. intros T N. exact shows_run. Qed.
Print Assumptions C01_mesh_refines_lists.

Theorem C01_add_vertex : forall (T : Type) (N : Num T) (m : Mesh T) (p : Point3 T),
  let '(m', i) := add_vertex m p in
  i = nb_vertices m /\ nb_vertices m' = nb_vertices m + 1 /\ get_vertex m' i = Ok p /\
  (forall j q, get_vertex m j = Ok q -> get_vertex m' j = Ok q) /\
  nb_triangles m' = nb_triangles m /\
  (forall j, get_triangle_vertices m' j = get_triangle_vertices m j /\ is_triangle_unlinked m' j = is_triangle_unlinked m j).
Proof. intros T N. exact add_vertex_ids. Qed.
Print Assumptions C01_add_vertex.

Theorem C01_add_triangle : forall (T : Type) (N : Num T) (m : Mesh T) (a b c : Z),
  if oks (nb_vertices m) [a; b; c] then
    exists m', add_triangle m a b c = Ok (m', nb_triangles m) /\
      nb_triangles m' = nb_triangles m + 1 /\
      get_triangle_vertices m' (nb_triangles m) = Ok (a, b, c) /\
      is_triangle_unlinked m' (nb_triangles m) = Ok false /\
      (forall j t, get_triangle_vertices m j = Ok t -> get_triangle_vertices m' j = Ok t) /\
      (forall j u, is_triangle_unlinked m j = Ok u -> is_triangle_unlinked m' j = Ok u) /\
      nb_vertices m' = nb_vertices m /\ (forall j, get_vertex m' j = get_vertex m j)
  else add_triangle m a b c = Err FAssert.
Proof. intros T N. exact add_triangle_ids. Qed.
Print Assumptions C01_add_triangle.

Example C01_ex : exists a', srun a_new (map abs_op ex_ops) = Some (a', [OutId 0; OutId 1; OutId 2; OutId 0; OutId 1; OutUnit; OutUnit])
  /\ shows ex_mesh a' /\ Forall2 op_shows ex_ops (map abs_op ex_ops) /\ shows (@mesh_new R) a_new.
Proof.
  eexists. split; [reflexivity|]. split; [exact (shows_abs ex_mesh)|]. split; [repeat constructor|exact (shows_abs mesh_new)].
Qed.

(** C02. Every triangle of every reachable mesh refers to existing vertices. *)
Theorem C02_triangles_have_vertices : forall (T : Type) (N : Num T) (m : Mesh T), reach m ->
  forall i, 0 <= i < nb_triangles m ->
  exists a b c t, get_triangle_vertices m i = Ok (a, b, c) /\
    0 <= a < nb_vertices m /\ 0 <= b < nb_vertices m /\ 0 <= c < nb_vertices m /\
    get_triangle m i = Ok t /\
    get_vertex m a = Ok (t1 t) /\ get_vertex m b = Ok (t2 t) /\ get_vertex m c = Ok (t3 t).
Proof. intros T N. exact reach_indices. Qed.
Print Assumptions C02_triangles_have_vertices.

Example C02_ex : reach ex_mesh /\ 0 <= 1 < nb_triangles ex_mesh.
Proof. split; [exact ex_mesh_reach|]. change (nb_triangles ex_mesh) with 2. lia. Qed.

(** C03. unlink_triangle changes one flag only; nothing short of clear, assignment or a rebuild
    links the triangle again. *)
Theorem C03_unlink_is_local : forall (T : Type) (N : Num T) (m : Mesh T) (i : Z) (m' : Mesh T), reach m ->
  unlink_triangle m i = Ok m' ->
  nb_triangles m' = nb_triangles m /\ nb_vertices m' = nb_vertices m /\
  is_triangle_unlinked m' i = Ok true /\
  (forall j, get_triangle_vertices m' j = get_triangle_vertices m j) /\
  (forall j, j <> i -> is_triangle_unlinked m' j = is_triangle_unlinked m j) /\
  (forall j, get_vertex m' j = get_vertex m j).
Proof. intros T N m i m' R. exact (unlink_local m i m' (reach_wf m R)). Qed.
Print Assumptions C03_unlink_is_local.

Theorem C03_unlink_is_permanent : forall (T : Type) (N : Num T) (m m' : Mesh T), reach m -> evolves m m' ->
  nb_triangles m <= nb_triangles m' /\
  (forall i a b c, get_triangle_vertices m i = Ok (a, b, c) -> get_triangle_vertices m' i = Ok (a, b, c)) /\
  (forall i, is_triangle_unlinked m i = Ok true -> is_triangle_unlinked m' i = Ok true).
Proof. intros T N. exact evolves_keeps. Qed.
Print Assumptions C03_unlink_is_permanent.

Example C03_ex : exists m', unlink_triangle ex_mesh 1 = Ok m' /\ is_triangle_unlinked ex_mesh 1 = Ok false /\
  evolves ex_mesh m' /\ m' <> ex_mesh.
Proof.
  eexists. split; [reflexivity|]. split; [reflexivity|]. split; [|discriminate].
  eapply (E_step ex_mesh ex_mesh (OpUnlink 1) _ OutUnit); [apply E_refl|discriminate|discriminate|discriminate|reflexivity].
Qed.

(** C04. Copying and assigning give the linked part of the source, with any destination. *)
Theorem C04_copy_is_faithful : forall (T : Type) (N : Num T) (m : Mesh T) (a : AMesh T), reach m -> shows m a ->
  forall d, exists m', assign_mesh d m = Ok m' /\ copy_mesh m = Ok m' /\
    shows m' (mkA (averts a) (map (fun t => (t, true)) (live a)) (acolor a)).
Proof. intros T N. exact copy_shows. Qed.
Print Assumptions C04_copy_is_faithful.

Example C04_ex : reach ex_mesh /\ shows ex_mesh (abs ex_mesh) /\ live (abs ex_mesh) = [(2, 1, 0)].
Proof. split; [exact ex_mesh_reach|]. split; [apply shows_abs|reflexivity]. Qed.

(** C05 is false: m = m empties every mesh. *)
Theorem C05_self_assignment_empties : forall (T : Type) (N : Num T) (m : Mesh T) (fuel : nat), (0 < fuel)%nat ->
  assign_self fuel m = Ok (clear m).
Proof. intros T N. exact assign_self_empties. Qed.
Print Assumptions C05_self_assignment_empties.

Theorem C05_refuted : exists (m m' : Mesh R) (fuel : nat), reach m /\ assign_self fuel m = Ok m' /\
  nb_vertices m = 3 /\ nb_vertices m' = 0 /\ nb_triangles m = 2 /\ nb_triangles m' = 0.
Proof.
  exists ex_mesh, (clear ex_mesh), 1%nat. split; [exact ex_mesh_reach|]. repeat split.
Qed.
Print Assumptions C05_refuted.

(** C06. Objects never share a kernel, no use after free or double free, and a command only
    affects the object it is applied to. *)
Theorem C06_no_sharing_no_double_free : forall (T : Type) (N : Num T) (fuel : nat) (cs : list (hcmd T)) (st : Store T) (c : hcmd T),
  well_used fuel store0 cs -> hrun fuel store0 cs = Ok st -> Forall (alive st) (uses c) ->
  no_sharing st /\
  match hstep fuel st c with
  | Ok st' => no_sharing st' /\ (forall k, k <> target st c -> mesh_of st' k = mesh_of st k) /\
              effect fuel st c (mesh_of st' (target st c))
  | Err f => f = FAssert \/ f = FDiverge
  end.
Proof. intros T N. exact heap_safe. Qed.
Print Assumptions C06_no_sharing_no_double_free.

(** Exactly one kernel is leaked per assignment. *)
Theorem C06_one_leak_per_assignment : forall (T : Type) (N : Num T) (fuel : nat) (cs : list (hcmd T)) (st : Store T),
  well_used fuel store0 cs -> hrun fuel store0 cs = Ok st ->
  count (heap st) = count (objs st) + nb_assign cs.
Proof. intros T N. exact heap_count. Qed.
Print Assumptions C06_one_leak_per_assignment.

Definition ex_prog : list (hcmd R) :=
  [HNew; HCall 0 (OpAddVertex (mkP 1%R 2%R 3%R)); HCopy 0; HNew; HAssign 2 0; HDestroy 0; HDestroy 1; HDestroy 2].

Example C06_ex : well_used 5 store0 ex_prog.
Proof. apply well_usedb_ok. vm_compute. reflexivity. Qed.

(** "No leak" is false: all objects destroyed, one kernel still allocated. *)
Theorem C06_no_leak_refuted : exists cs (st : Store R), well_used 5 store0 cs /\ hrun 5 store0 cs = Ok st /\
  count (objs st) = 0 /\ count (heap st) = 1.
Proof.
  exists ex_prog. destruct (hrun 5 store0 ex_prog) as [st|f] eqn:E.
  - exists st. split; [exact C06_ex|]. split; [reflexivity|].
    assert (match hrun 5 store0 ex_prog with Ok st => (count (objs st), count (heap st)) | Err _ => (2, 2) end = (0, 1)) as K by (vm_compute; reflexivity).
    rewrite E in K. injection K as -> ->. split; reflexivity.
  - exfalso. assert (match hrun 5 store0 ex_prog with Ok st => true | Err _ => false end = true) as K by (vm_compute; reflexivity).
    rewrite E in K. discriminate.
Qed.
Print Assumptions C06_no_leak_refuted.

(** C07. add_mesh with a different object. *)
Theorem C07_add_mesh_appends : forall (T : Type) (N : Num T) (m f : Mesh T) (a b : AMesh T),
  reach m -> reach f -> shows m a -> shows f b ->
  exists m', add_mesh m f = Ok m' /\
    shows m' (mkA (averts a ++ averts b)
                  (atris a ++ map (fun t => (shift_triple (len (averts a)) t, true)) (live b)) (acolor b)).
Proof. intros T N. exact add_mesh_shows. Qed.
Print Assumptions C07_add_mesh_appends.

Example C07_ex : exists m', add_mesh ex_mesh ex_mesh = Ok m' /\ nb_vertices m' = 6 /\ nb_triangles m' = 3 /\
  get_triangle_vertices m' 2 = Ok (5, 4, 3).
Proof. eexists. split; [reflexivity|]. repeat split. Qed.

(** C08 is false: m.add_mesh(m) never returns as soon as m has a vertex. *)
Theorem C08_self_append_diverges : forall (T : Type) (N : Num T) (m : Mesh T) (fuel : nat),
  0 < nb_vertices m -> add_mesh_self fuel m = Err FDiverge.
Proof. intros T N. exact add_self_diverges. Qed.
Print Assumptions C08_self_append_diverges.

Theorem C08_refuted : exists m : Mesh R, reach m /\ forall fuel, add_mesh_self fuel m = Err FDiverge.
Proof.
  exists ex_mesh. split; [exact ex_mesh_reach|]. intros fuel. apply (C08_self_append_diverges R RNum). exact eq_refl.
Qed.
Print Assumptions C08_refuted.

Theorem C08_self_append_without_vertices : forall (T : Type) (N : Num T) (m : Mesh T) (fuel : nat),
  reach m -> nb_vertices m = 0 -> (0 < fuel)%nat -> add_mesh_self fuel m = Ok m.
Proof. intros T N. exact add_self_no_vertices. Qed.
Print Assumptions C08_self_append_without_vertices.

(** C09. flip_triangle: the triangle is unlinked and its reverse appended; the rest is untouched.
    (The geometric part, opposite normal and opposite volume, is in PMeasure.v.) *)
Theorem C09_flip_replaces_one_triangle : forall (T : Type) (N : Num T) (m : Mesh T) (a : AMesh T) (i x y z : Z) (l : bool),
  reach m -> shows m a -> 0 <= i -> nth_error (atris a) (Z.to_nat i) = Some ((x, y, z), l) ->
  exists m', flip_triangle m i = Ok m' /\ reach m' /\
    shows m' (mkA (averts a) (upd (atris a) (Z.to_nat i) (fun t => (fst t, false)) ++ [((x, z, y), true)]) (acolor a)).
Proof. intros T N. exact flip_shows. Qed.
Print Assumptions C09_flip_replaces_one_triangle.

Example C09_ex : nth_error (atris (abs ex_mesh)) (Z.to_nat 1) = Some ((2, 1, 0), true).
Proof. reflexivity. Qed.

(** C13. *)
Theorem C13_apply_transform : forall (T : Type) (N : Num T) (m : Mesh T) (a : AMesh T) (f : Point3 T -> Point3 T),
  reach m -> shows m a ->
  exists m', apply_transform m f = Ok m' /\ reach m' /\ shows m' (mkA (map f (averts a)) (atris a) (acolor a)).
Proof. intros T N. exact transform_shows. Qed.
Print Assumptions C13_apply_transform.

Example C13_ex : exists m', apply_transform ex_mesh (fun p => padd p (mkP 1%R 1%R 1%R)) = Ok m' /\
  get_vertex m' 0 = Ok (mkP (0 + 1)%R (0 + 1)%R (0 + 1)%R).
Proof. eexists. split; reflexivity. Qed.
