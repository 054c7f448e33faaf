(** Models of the three mesh kernels:
    src/MeshKernelLinkedTriangles.{h,cpp} (the one Mesh uses), src/MeshKernelTIN.{h,cpp},
    src/MeshKernelHalfEdge.{h,cpp}. *)
From Coq Require Import ZArith List Bool.
From Verif Require Import Base Num MGeometry.
Import ListNotations.
Open Scope Z_scope.

(** MeshKernelLinkedTriangles.h:11-19 (the field _reserved is never read and is dropped) *)
Record TriLT := mkLT { lv1 : Z; lv2 : Z; lv3 : Z; ln1 : Z; ln2 : Z; ln3 : Z; lunl : Z }.

(** MeshKernelLinkedTriangles.h:44-45 *)
Record Kernel (T : Type) := mkK { kverts : list (Point3 T); ktris : list TriLT }.
Arguments mkK {T}. Arguments kverts {T}. Arguments ktris {T}.

Section Linked.
Context {T : Type}.
Implicit Types k : Kernel T.

(** MeshKernelLinkedTriangles.cpp:6-14 *)
Definition lt_new (a b c : Z) : TriLT := mkLT a b c (-1) (-1) (-1) 0.

(** MeshKernelLinkedTriangles.cpp:16-28 (constructor and clear) *)
Definition k_empty : Kernel T := mkK [] [].

(** MeshKernelLinkedTriangles.cpp:53-56, 150-153 *)
Definition k_nbv k : Z := vsize (kverts k).
Definition k_nbt k : Z := vsize (ktris k).

(** [assert(i >= 0); assert(i < n);] *)
Definition in_range (i n : Z) : bool := (0 <=? i) && (i <? n).

(** MeshKernelLinkedTriangles.cpp:31-35 *)
Definition k_add_vertex k (p : Point3 T) : Kernel T * Z :=
  let v := vpush (kverts k) p in (mkK v (ktris k), vsize v - 1).

(** MeshKernelLinkedTriangles.cpp:37-43 *)
Definition k_set_vertex k (i : Z) (p : Point3 T) : res (Kernel T) :=
  do _ <- massert (in_range i (k_nbv k));
  do v <- vset (kverts k) i p; Ok (mkK v (ktris k)).

(** MeshKernelLinkedTriangles.cpp:45-51 *)
Definition k_get_vertex k (i : Z) : res (Point3 T) :=
  do _ <- massert (in_range i (k_nbv k)); vget (kverts k) i.

(** MeshKernelLinkedTriangles.cpp:58-80. The branch on the uninitialised iTriangle1
    (lines 72-77) has an empty body; that read has no modelled effect. *)
Definition k_add_triangle k (a b c : Z) : res (Kernel T * Z) :=
  do _ <- massert (in_range a (k_nbv k));
  do _ <- massert (in_range b (k_nbv k));
  do _ <- massert (in_range c (k_nbv k));
  let t := vpush (ktris k) (lt_new a b c) in
  Ok (mkK (kverts k) t, vsize t - 1).

(** MeshKernelLinkedTriangles.cpp:82-90 *)
Definition k_get_triangle_vertices k (i : Z) : res (Z * Z * Z) :=
  do _ <- massert (in_range i (k_nbt k));
  do t <- vget (ktris k) i; Ok (lv1 t, lv2 t, lv3 t).

(** MeshKernelLinkedTriangles.cpp:155-165 *)
Definition k_get_near k (i : Z) : res (Z * Z * Z) :=
  do _ <- massert (in_range i (k_nbt k));
  do t <- vget (ktris k) i; Ok (ln1 t, ln2 t, ln3 t).

(** MeshKernelLinkedTriangles.cpp:104-113 (repeated at 115-124 and 126-135) *)
Definition lt_forget (ts : list TriLT) (near i : Z) : res (list TriLT) :=
  if near =? -1 then Ok ts else
  do t <- vget ts near;
  let t' := if ln1 t =? i then mkLT (lv1 t) (lv2 t) (lv3 t) (-1) (ln2 t) (ln3 t) (lunl t)
            else if ln2 t =? i then mkLT (lv1 t) (lv2 t) (lv3 t) (ln1 t) (-1) (ln3 t) (lunl t)
            else if ln3 t =? i then mkLT (lv1 t) (lv2 t) (lv3 t) (ln1 t) (ln2 t) (-1) (lunl t)
            else t in
  vset ts near t'.

(** MeshKernelLinkedTriangles.cpp:92-140 *)
Definition k_unlink k (i : Z) : res (Kernel T) :=
  do _ <- massert (in_range i (k_nbt k));
  do t <- vget (ktris k) i;
  do ts <- vset (ktris k) i (mkLT (lv1 t) (lv2 t) (lv3 t) (ln1 t) (ln2 t) (ln3 t) (-1));
  do near <- k_get_near (mkK (kverts k) ts) i;
  let '(i1, i2, i3) := near in
  do ts <- lt_forget ts i1 i;
  do ts <- lt_forget ts i2 i;
  do ts <- lt_forget ts i3 i;
  Ok (mkK (kverts k) ts).

(** MeshKernelLinkedTriangles.cpp:142-148 *)
Definition k_is_unlinked k (i : Z) : res bool :=
  do _ <- massert (in_range i (k_nbt k));
  do t <- vget (ktris k) i; Ok (lunl t =? -1).

(** MeshKernelLinkedTriangles.cpp:167-171: returns false and leaves both outputs unset. *)
Definition k_near_edge k (v1 v2 : Z) : bool := false.

End Linked.

(** ** MeshKernelTIN *)

(** MeshKernelTIN.h:11-17 *)
Record TriTIN := mkTIN { tv1 : Z; tv2 : Z; tv3 : Z; tunl : bool }.
(** MeshKernelTIN.h:49-50 (VertexTIN only wraps a Point3) *)
Record KernelTIN (T : Type) := mkKT { ktverts : list (Point3 T); kttris : list TriTIN }.
Arguments mkKT {T}. Arguments ktverts {T}. Arguments kttris {T}.

Section TIN.
Context {T : Type}.
Implicit Types k : KernelTIN T.
(** MeshKernelTIN.cpp:16-28 *)
Definition kt_empty : KernelTIN T := mkKT [] [].
(** MeshKernelTIN.cpp:52-55, 98-101 *)
Definition kt_nbv k : Z := vsize (ktverts k).
Definition kt_nbt k : Z := vsize (kttris k).
(** MeshKernelTIN.cpp:30-34 *)
Definition kt_add_vertex k (p : Point3 T) : KernelTIN T * Z :=
  let v := vpush (ktverts k) p in (mkKT v (kttris k), vsize v - 1).
(** MeshKernelTIN.cpp:36-42 *)
Definition kt_set_vertex k (i : Z) (p : Point3 T) : res (KernelTIN T) :=
  do _ <- massert (in_range i (kt_nbv k));
  do v <- vset (ktverts k) i p; Ok (mkKT v (kttris k)).
(** MeshKernelTIN.cpp:44-50 *)
Definition kt_get_vertex k (i : Z) : res (Point3 T) :=
  do _ <- massert (in_range i (kt_nbv k)); vget (ktverts k) i.
(** MeshKernelTIN.cpp:57-70 *)
Definition kt_add_triangle k (a b c : Z) : res (KernelTIN T * Z) :=
  do _ <- massert (in_range a (kt_nbv k));
  do _ <- massert (in_range b (kt_nbv k));
  do _ <- massert (in_range c (kt_nbv k));
  let t := vpush (kttris k) (mkTIN a b c false) in
  Ok (mkKT (ktverts k) t, vsize t - 1).
(** MeshKernelTIN.cpp:72-80 *)
Definition kt_get_triangle_vertices k (i : Z) : res (Z * Z * Z) :=
  do _ <- massert (in_range i (kt_nbt k));
  do t <- vget (kttris k) i; Ok (tv1 t, tv2 t, tv3 t).
(** MeshKernelTIN.cpp:82-88 *)
Definition kt_unlink k (i : Z) : res (KernelTIN T) :=
  do _ <- massert (in_range i (kt_nbt k));
  do t <- vget (kttris k) i;
  do ts <- vset (kttris k) i (mkTIN (tv1 t) (tv2 t) (tv3 t) true);
  Ok (mkKT (ktverts k) ts).
(** MeshKernelTIN.cpp:90-96 *)
Definition kt_is_unlinked k (i : Z) : res bool :=
  do _ <- massert (in_range i (kt_nbt k));
  do t <- vget (kttris k) i; Ok (tunl t).
(** MeshKernelTIN.cpp:103-109: the three output arguments are left as they were. *)
Definition kt_get_near k (i : Z) (out : Z * Z * Z) : res (Z * Z * Z) :=
  do _ <- massert (in_range i (kt_nbt k)); Ok out.
End TIN.

(** ** MeshKernelHalfEdge *)

(** MeshKernelHalfEdge.cpp:6-27 and the header: fields in declaration order. *)
Record TriHE := mkTHE { the_edge : Z; the_unl : bool }.
Record HalfEdge := mkHE { he_orig : Z; he_pair : Z; he_tri : Z; he_next : Z; he_prev : Z }.
Record KernelHE (T : Type) := mkKH
  { khverts : list (Point3 T); khtris : list TriHE; khedges : list HalfEdge }.
Arguments mkKH {T}. Arguments khverts {T}. Arguments khtris {T}. Arguments khedges {T}.

Section HalfEdgeKernel.
Context {T : Type}.
Implicit Types k : KernelHE T.
(** MeshKernelHalfEdge.cpp:29-40 *)
Definition kh_empty : KernelHE T := mkKH [] [] [].
(** MeshKernelHalfEdge.cpp:42-45, 67-70 *)
Definition kh_nbv k : Z := vsize (khverts k).
Definition kh_nbt k : Z := vsize (khtris k).
(** MeshKernelHalfEdge.cpp:47-51 *)
Definition kh_add_vertex k (p : Point3 T) : KernelHE T * Z :=
  let v := vpush (khverts k) p in (mkKH v (khtris k) (khedges k), vsize v - 1).
(** MeshKernelHalfEdge.cpp:53-57: no check that the index is non-negative *)
Definition kh_set_vertex k (i : Z) (p : Point3 T) : res (KernelHE T) :=
  do _ <- massert (i <? kh_nbv k);
  do v <- vset (khverts k) i p; Ok (mkKH v (khtris k) (khedges k)).
(** MeshKernelHalfEdge.cpp:59-63 *)
Definition kh_get_vertex k (i : Z) : res (Point3 T) :=
  do _ <- massert (i <? kh_nbv k); vget (khverts k) i.
(** MeshKernelHalfEdge.cpp:72-87 *)
Definition kh_get_triangle_vertices k (i : Z) : res (Z * Z * Z) :=
  do _ <- massert (in_range i (kh_nbt k));
  do t <- vget (khtris k) i;
  let h1 := the_edge t in
  do e1 <- vget (khedges k) h1;
  let h2 := he_next e1 in
  do e2 <- vget (khedges k) h2;
  let h3 := he_next e2 in
  do e3 <- vget (khedges k) h3;
  do _ <- massert (he_next e3 =? h1);
  Ok (he_orig e1, he_orig e2, he_orig e3).
(** MeshKernelHalfEdge.cpp:109-115 *)
Definition kh_is_unlinked k (i : Z) : res bool :=
  do _ <- massert (in_range i (kh_nbt k));
  do t <- vget (khtris k) i; Ok (the_unl t).
(** MeshKernelHalfEdge.cpp:96-102: [_vHalfEdges[i].triangle = -1] *)
Definition he_clear_tri (es : list HalfEdge) (i : Z) : res (list HalfEdge) :=
  do e <- vget es i; vset es i (mkHE (he_orig e) (he_pair e) (-1) (he_next e) (he_prev e)).
(** MeshKernelHalfEdge.cpp:89-107 *)
Definition kh_unlink k (i : Z) : res (KernelHE T) :=
  do _ <- massert (in_range i (kh_nbt k));
  do t <- vget (khtris k) i;
  let h0 := the_edge t in
  do es <- he_clear_tri (khedges k) h0;
  do e0 <- vget es h0;
  let h1 := he_next e0 in
  do es <- he_clear_tri es h1;
  do e1 <- vget es h1;
  let h2 := he_next e1 in
  do es <- he_clear_tri es h2;
  do e2 <- vget es h2;
  do _ <- massert (he_next e2 =? h0);
  do ts <- vset (khtris k) i (mkTHE h0 true);
  Ok (mkKH (khverts k) ts es).
(** MeshKernelHalfEdge.cpp:131-147 (note that the second neighbour is read from the first edge and the
    third from the second one) *)
Definition kh_get_near k (i : Z) : res (Z * Z * Z) :=
  do _ <- massert (in_range i (kh_nbt k));
  do t <- vget (khtris k) i;
  let h0 := the_edge t in
  do e0 <- vget (khedges k) h0;
  do f0 <- vget (khedges k) (he_pair e0);
  let h1 := he_next e0 in
  do e1 <- vget (khedges k) h1;
  let h2 := he_next e1 in
  do f1 <- vget (khedges k) (he_pair e1);
  do e2 <- vget (khedges k) h2;
  do _ <- massert (he_next e2 =? h0);
  Ok (he_tri f0, he_tri f0, he_tri f1).
(** MeshKernelHalfEdge.cpp:117-129: nothing is stored *)
Definition kh_add_triangle k (a b c : Z) : KernelHE T * Z := (k, vsize (khtris k) - 1).
End HalfEdgeKernel.
