(** Property C98: the neighbour queries of Mesh and of its kernels. *)
From Coq Require Import ZArith List Bool Reals Lia.
From Verif Require Import Base Num MGeometry MKernel MKernelRun MMesh MMeshRun MMeasure SMesh SReach SSurface LNear PMesh.
Import ListNotations.
Open Scope Z_scope.

(** C98. False: two linked triangles on the two sides of one edge do not see each other. *)
Theorem C98_refuted : exists m : Mesh R, reach m /\ nb_triangles m = 2 /\ is_triangle_unlinked m 0 = Ok false /\ is_triangle_unlinked m 1 = Ok false /\
  has_edge m 0 2 0 /\ has_edge m 1 0 2 /\ get_near_triangles m 0 = Ok (-1, -1, -1) /\ get_near_triangles m 1 = Ok (-1, -1, -1).
Proof. exact near_none_refuted. Qed.
Print Assumptions C98_refuted.
(** Nor does the query by edge find them: it says that there is none. *)
Theorem C98_edge_query_refuted : exists m : Mesh R, reach m /\ nb_triangles m = 2 /\ is_triangle_unlinked m 0 = Ok false /\ is_triangle_unlinked m 1 = Ok false /\
  has_edge m 0 2 0 /\ has_edge m 1 0 2 /\ k_near_edge (mkern m) 0 2 = false /\ k_near_edge (mkern m) 2 0 = false.
Proof. exact edge_query_none. Qed.
Print Assumptions C98_edge_query_refuted.
(** In no mesh does any triangle have a neighbour, whatever was done before; an id out of range stops on an assertion. *)
Theorem C98_never_a_neighbour : forall {T} {N : Num T} (m : Mesh T) i, reach m -> get_near_triangles m i = if ok_idx i (nb_triangles m) then Ok (-1, -1, -1) else Err FAssert.
Proof. intros T N. exact near_none. Qed.
Print Assumptions C98_never_a_neighbour.
Example C98_case : reach ex_mesh /\ ok_idx 1 (nb_triangles ex_mesh) = true /\ ok_idx 2 (nb_triangles ex_mesh) = false.
Proof. split; [exact ex_mesh_reach|split; reflexivity]. Qed.
(** The TIN kernel hands back what the caller's variables held before the call. *)
Theorem C98_tin_kernel : forall {T} (k : KernelTIN T) i out, kt_get_near k i out = if ok_idx i (kt_nbt k) then Ok out else Err FAssert.
Proof. intros T. exact near_tin. Qed.
Print Assumptions C98_tin_kernel.
Example C98_tin_case : exists k, final tin_call kt_empty [KAddVertex (mkP 0%R 0%R 0%R); KAddTriangle 0 0 0] = Ok k /\ ok_idx 0 (kt_nbt k) = true.
Proof. eexists. split; reflexivity. Qed.
(** The half-edge kernel stops on its assertion after every history and for every id. *)
Theorem C98_half_edge_kernel : forall {T} (cs : list (kcall T)) k i, final he_call kh_empty cs = Ok k -> kh_get_near k i = Err FAssert.
Proof. intros T. exact near_half_edge. Qed.
Print Assumptions C98_half_edge_kernel.
Example C98_half_edge_case : exists k, final he_call kh_empty [KAddVertex (mkP 0%R 0%R 0%R); KAddTriangle 0 0 0] = Ok k.
Proof. eexists. reflexivity. Qed.

(** C20, over meshes in any state, also those no call builds: is_closed asks every linked triangle for three neighbours.
    Were neighbours recorded, its answer would be the closedness of the mesh. *)
Theorem C20_reads_the_links : forall {T} {N : Num T} (m : Mesh T), exists b, is_closed m = Ok b /\
  (b = true <-> forall i, 0 <= i < nb_triangles m -> is_triangle_unlinked m i = Ok false ->
     exists a b c, get_near_triangles m i = Ok (a, b, c) /\ a <> -1 /\ b <> -1 /\ c <> -1).
Proof. intros T N. exact closed_any. Qed.
Print Assumptions C20_reads_the_links.
Example C20_links_case : exists m : Mesh R, nb_triangles m = 2 /\ get_near_triangles m 0 = Ok (1, 1, -1) /\ get_near_triangles m 1 = Ok (0, 0, 0) /\ is_closed m = Ok false.
Proof. exists (mkMesh (mkK [mkP 0 0 0]%R [mkLT 0 0 0 1 1 (-1) 0; mkLT 0 0 0 0 0 0 0]) (-1)). repeat split. Qed.
