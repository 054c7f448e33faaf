(** Client programs of a mesh kernel (src/MeshKernel.h: the virtual interface), and their traces. *)
From Coq Require Import ZArith List Bool.
From Verif Require Import Base MGeometry MKernel.
Import ListNotations.
Open Scope Z_scope.

(** One call. Nearness queries are not included: MeshKernelTIN answers none (see C14). *)
Inductive kcall (T : Type) :=
| KAddVertex (p : Point3 T) | KSetVertex (i : Z) (p : Point3 T) | KGetVertex (i : Z) | KNbVertices
| KAddTriangle (a b c : Z) | KGetTriangle (i : Z) | KUnlink (i : Z) | KIsUnlinked (i : Z) | KNbTriangles | KClear.
Arguments KAddVertex {T}. Arguments KSetVertex {T}. Arguments KGetVertex {T}. Arguments KNbVertices {T}.
Arguments KAddTriangle {T}. Arguments KGetTriangle {T}. Arguments KUnlink {T}. Arguments KIsUnlinked {T}.
Arguments KNbTriangles {T}. Arguments KClear {T}.

(** What the call returns. *)
Inductive kans (T : Type) := AUnit | ANum (i : Z) | APoint (p : Point3 T) | ATri (t : Z * Z * Z) | ABool (b : bool).
Arguments AUnit {T}. Arguments ANum {T}. Arguments APoint {T}. Arguments ATri {T}. Arguments ABool {T}.

Section Run.
Context {T : Type}.

Definition rmap {A B} (f : A -> B) (r : res A) : res B := do x <- r; Ok (f x).

(** MeshKernelLinkedTriangles behind the interface *)
Definition lt_call (k : Kernel T) (c : kcall T) : res (Kernel T * kans T) :=
  match c with
  | KAddVertex p => let '(k', i) := k_add_vertex k p in Ok (k', ANum i)
  | KSetVertex i p => rmap (fun k' => (k', AUnit)) (k_set_vertex k i p)
  | KGetVertex i => rmap (fun p => (k, APoint p)) (k_get_vertex k i)
  | KNbVertices => Ok (k, ANum (k_nbv k))
  | KAddTriangle a b c => rmap (fun r => (fst r, ANum (snd r))) (k_add_triangle k a b c)
  | KGetTriangle i => rmap (fun t => (k, ATri t)) (k_get_triangle_vertices k i)
  | KUnlink i => rmap (fun k' => (k', AUnit)) (k_unlink k i)
  | KIsUnlinked i => rmap (fun b => (k, ABool b)) (k_is_unlinked k i)
  | KNbTriangles => Ok (k, ANum (k_nbt k))
  | KClear => Ok (k_empty, AUnit)
  end.
(** MeshKernelTIN behind the interface *)
Definition tin_call (k : KernelTIN T) (c : kcall T) : res (KernelTIN T * kans T) :=
  match c with
  | KAddVertex p => let '(k', i) := kt_add_vertex k p in Ok (k', ANum i)
  | KSetVertex i p => rmap (fun k' => (k', AUnit)) (kt_set_vertex k i p)
  | KGetVertex i => rmap (fun p => (k, APoint p)) (kt_get_vertex k i)
  | KNbVertices => Ok (k, ANum (kt_nbv k))
  | KAddTriangle a b c => rmap (fun r => (fst r, ANum (snd r))) (kt_add_triangle k a b c)
  | KGetTriangle i => rmap (fun t => (k, ATri t)) (kt_get_triangle_vertices k i)
  | KUnlink i => rmap (fun k' => (k', AUnit)) (kt_unlink k i)
  | KIsUnlinked i => rmap (fun b => (k, ABool b)) (kt_is_unlinked k i)
  | KNbTriangles => Ok (k, ANum (kt_nbt k))
  | KClear => Ok (kt_empty, AUnit)
  end.
(** MeshKernelHalfEdge behind the interface *)
Definition he_call (k : KernelHE T) (c : kcall T) : res (KernelHE T * kans T) :=
  match c with
  | KAddVertex p => let '(k', i) := kh_add_vertex k p in Ok (k', ANum i)
  | KSetVertex i p => rmap (fun k' => (k', AUnit)) (kh_set_vertex k i p)
  | KGetVertex i => rmap (fun p => (k, APoint p)) (kh_get_vertex k i)
  | KNbVertices => Ok (k, ANum (kh_nbv k))
  | KAddTriangle a b c => let '(k', i) := kh_add_triangle k a b c in Ok (k', ANum i)
  | KGetTriangle i => rmap (fun t => (k, ATri t)) (kh_get_triangle_vertices k i)
  | KUnlink i => rmap (fun k' => (k', AUnit)) (kh_unlink k i)
  | KIsUnlinked i => rmap (fun b => (k, ABool b)) (kh_is_unlinked k i)
  | KNbTriangles => Ok (k, ANum (kh_nbt k))
  | KClear => Ok (kh_empty, AUnit)
  end.

(** Run a program: the answers given before the end, and the fault that stopped it, if any. *)
Fixpoint trace {K} (call : K -> kcall T -> res (K * kans T)) (k : K) (cs : list (kcall T)) : list (kans T) * option fault :=
  match cs with
  | [] => ([], None)
  | c :: cs => match call k c with
               | Ok (k', a) => let '(l, f) := trace call k' cs in (a :: l, f)
               | Err f => ([], Some f)
               end
  end.
(** The kernel at the end of a program that did not stop early. *)
Fixpoint final {K} (call : K -> kcall T -> res (K * kans T)) (k : K) (cs : list (kcall T)) : res K :=
  match cs with
  | [] => Ok k
  | c :: cs => do r <- call k c; final call (fst r) cs
  end.
End Run.
