(** Mesh objects and the kernels they own: construction, copy, assignment, destruction
    (src/Mesh.cpp:15-31, 110-143). *)
From Coq Require Import ZArith List Bool.
From Verif Require Import Base Num MGeometry MKernel MMesh MMeshRun SMesh.
Import ListNotations.
Open Scope Z_scope.

Section Heap.
Context {T : Type} {N : Num T}.

(** [heap]: the kernels ever allocated by [new], [None] once deleted.
    [objs]: the Mesh objects ever constructed as (kernel pointer, colour), [None] once destroyed
    (Mesh.h:56-57). *)
Record Store := mkStore { heap : list (option (Kernel T)); objs : list (option (Z * Z)) }.

Definition store0 : Store := mkStore [] [].

(** A client program; [HCall] is any call without mesh argument. *)
Inductive hcmd :=
| HNew                       (* Mesh m;        *)
| HCopy (j : Z)              (* Mesh m(mj);    *)
| HAssign (i j : Z)          (* mi = mj;       *)
| HAdd (i j : Z)             (* mi.add_mesh(mj); *)
| HCall (i : Z) (o : op T Empty_set)  (* mi.o(); *)
| HDestroy (i : Z).          (* ~mi            *)

Definition call_op (o : op T Empty_set) : op T (Mesh T) :=
  match o with
  | OpAddVertex p => OpAddVertex p
  | OpSetVertex i p => OpSetVertex i p
  | OpAddTriangle a b c => OpAddTriangle a b c
  | OpAddTrianglePts p q r => OpAddTrianglePts p q r
  | OpAddQuad a b c d => OpAddQuad a b c d
  | OpAddQuadPts p q r s => OpAddQuadPts p q r s
  | OpAddPentagon a b c d e => OpAddPentagon a b c d e
  | OpUnlink i => OpUnlink i
  | OpSplit i v => OpSplit i v
  | OpSplitPt i p => OpSplitPt i p
  | OpFlip i => OpFlip i
  | OpTransform f => OpTransform f
  | OpSetColor c => OpSetColor c
  | OpClear => OpClear
  | OpAddMesh f => match f with end
  | OpAssign f => match f with end
  end.

(** Access through the kernel pointer of object [i]; use of a destroyed object or of a deleted
    kernel is reported as [FOob]. *)
Definition load (st : Store) (i : Z) : res (Z * Mesh T) :=
  do o <- vget (objs st) i;
  match o with
  | None => Err FOob
  | Some (p, c) =>
      do k <- vget (heap st) p;
      match k with None => Err FOob | Some k => Ok (p, mkMesh k c) end
  end.

(** Write back the kernel at pointer [p] and the object's fields. *)
Definition store (st : Store) (i p : Z) (m : Mesh T) : res Store :=
  do h <- vset (heap st) p (Some (mkern m));
  do o <- vset (objs st) i (Some (p, mcolor m));
  Ok (mkStore h o).

(** [new MeshKernelLinkedTriangles] *)
Definition alloc (st : Store) : Store * Z :=
  (mkStore (vpush (heap st) (Some k_empty)) (objs st), vsize (heap st)).

(** Mesh.cpp:110-117 on object [i], whose pointer field currently holds anything.
    [c] is the current (possibly indeterminate) colour, overwritten by add_mesh. *)
Definition op_assign (fuel : nat) (st : Store) (i j c : Z) : res Store :=
  let '(st, p) := alloc st in
  do o <- vset (objs st) i (Some (p, c));           (* _pKernel = new ... *)
  let st := mkStore (heap st) o in
  let m := clear (mkMesh k_empty c) in
  do m <- (if i =? j
           then do m <- add_mesh_self fuel m; Ok (set_color m (get_color m))
           else do s <- load st j;
                do m <- add_mesh m (snd s); Ok (set_color m (get_color (snd s))));
  store st i p m.

Definition hstep (fuel : nat) (st : Store) (c : hcmd) : res Store :=
  match c with
  | HNew =>
      let '(st, p) := alloc st in
      Ok (mkStore (heap st) (vpush (objs st) (Some (p, -1))))
  | HCopy j =>
      do s <- load st j;
      let i := vsize (objs st) in
      op_assign fuel (mkStore (heap st) (vpush (objs st) None)) i j (-1)
  | HAssign i j =>
      do s <- load st i;
      op_assign fuel st i j (mcolor (snd s))
  | HAdd i j =>
      do s <- load st i;
      do m <- (if i =? j then add_mesh_self fuel (snd s)
               else do f <- load st j; add_mesh (snd s) (snd f));
      store st i (fst s) m
  | HCall i o =>
      do s <- load st i;
      do r <- mstep (snd s) (call_op o);
      store st i (fst s) (fst r)
  | HDestroy i =>
      do o <- vget (objs st) i;
      match o with
      | None => Err FOob                            (* destroying a dead object *)
      | Some (p, _) =>
          do k <- vget (heap st) p;
          match k with
          | None => Err FOob                        (* double delete *)
          | Some _ =>
              do h <- vset (heap st) p None;
              do o <- vset (objs st) i None;
              Ok (mkStore h o)
          end
      end
  end.

Fixpoint hrun (fuel : nat) (st : Store) (cs : list hcmd) : res Store :=
  match cs with
  | [] => Ok st
  | c :: cs => do st <- hstep fuel st c; hrun fuel st cs
  end.

End Heap.
Arguments Store : clear implicits.
Arguments hcmd : clear implicits.
