(** Specification of the mesh container: a list of points and a list of index triples,
    each with a flag telling whether the triangle is part of the surface. *)
From Coq Require Import ZArith List Bool.
From Verif Require Import MGeometry.
Import ListNotations.
Open Scope Z_scope.

Definition triple : Type := (Z * Z * Z)%type.

Record AMesh (T : Type) := mkA
  { averts : list (Point3 T); atris : list (triple * bool); acolor : Z }.
Arguments mkA {T}. Arguments averts {T}. Arguments atris {T}. Arguments acolor {T}.

Definition len {A} (l : list A) : Z := Z.of_nat (length l).
Definition ok_idx (i n : Z) : bool := (0 <=? i) && (i <? n).

(** The triangles that belong to the surface, in order. *)
Definition live {T} (a : AMesh T) : list triple := map fst (filter snd (atris a)).

(** Replace the [n]-th element of a list, if there is one. *)
Definition upd {A} (l : list A) (n : nat) (f : A -> A) : list A :=
  match nth_error l n with
  | Some x => firstn n l ++ f x :: skipn (S n) l
  | None => l
  end.

Definition kill (ts : list (triple * bool)) (i : Z) : list (triple * bool) :=
  upd ts (Z.to_nat i) (fun t => (fst t, false)).

Definition shift_triple (off : Z) (t : triple) : triple :=
  let '(a, b, c) := t in (a + off, b + off, c + off).

(** Calls of the public interface; [M] is the type of mesh arguments. *)
Inductive op (T M : Type) :=
| OpAddVertex (p : Point3 T)
| OpSetVertex (i : Z) (p : Point3 T)
| OpAddTriangle (a b c : Z)
| OpAddTrianglePts (p q r : Point3 T)
| OpAddQuad (a b c d : Z)
| OpAddQuadPts (p q r s : Point3 T)
| OpAddPentagon (a b c d e : Z)
| OpUnlink (i : Z)
| OpSplit (i iv : Z)
| OpSplitPt (i : Z) (p : Point3 T)
| OpFlip (i : Z)
| OpTransform (f : Point3 T -> Point3 T)
| OpSetColor (c : Z)
| OpClear
| OpAddMesh (f : M)
| OpAssign (f : M).
Arguments OpAddVertex {T M}. Arguments OpSetVertex {T M}. Arguments OpAddTriangle {T M}.
Arguments OpAddTrianglePts {T M}. Arguments OpAddQuad {T M}. Arguments OpAddQuadPts {T M}.
Arguments OpAddPentagon {T M}. Arguments OpUnlink {T M}. Arguments OpSplit {T M}.
Arguments OpSplitPt {T M}. Arguments OpFlip {T M}. Arguments OpTransform {T M}.
Arguments OpSetColor {T M}. Arguments OpClear {T M}. Arguments OpAddMesh {T M}. Arguments OpAssign {T M}.

(** What a call returns: nothing or an id. *)
Inductive out := OutUnit | OutId (i : Z).

Section SpecStep.
Context {T : Type}.
Implicit Types a : AMesh T.

Definition oks (n : Z) (l : list Z) : bool := forallb (fun i => ok_idx i n) l.
Definition with_tris a ts := mkA (averts a) (atris a ++ map (fun t => (t, true)) ts) (acolor a).
Definition with_verts a vs := mkA (averts a ++ vs) (atris a) (acolor a).
Definition kill_in a i := mkA (averts a) (kill (atris a) i) (acolor a).

Definition sstep a (o : op T (AMesh T)) : option (AMesh T * out) :=
  let nv := len (averts a) in
  let nt := len (atris a) in
  match o with
  | OpAddVertex p => Some (with_verts a [p], OutId nv)
  | OpSetVertex i p =>
      if ok_idx i nv
      then Some (mkA (upd (averts a) (Z.to_nat i) (fun _ => p)) (atris a) (acolor a), OutUnit)
      else None
  | OpAddTriangle x y z =>
      if oks nv [x; y; z] then Some (with_tris a [(x, y, z)], OutId nt) else None
  | OpAddTrianglePts p q r =>
      Some (with_tris (with_verts a [p; q; r]) [(nv, nv + 1, nv + 2)], OutId nt)
  | OpAddQuad x y z w =>
      if oks nv [x; y; z; w] then Some (with_tris a [(x, y, z); (z, w, x)], OutUnit) else None
  | OpAddQuadPts p q r s =>
      Some (with_tris (with_verts a [p; q; r; s])
              [(nv, nv + 1, nv + 2); (nv + 2, nv + 3, nv)], OutUnit)
  | OpAddPentagon x y z w v =>
      if oks nv [x; y; z; w; v]
      then Some (with_tris a [(x, y, z); (z, w, v); (x, z, v)], OutUnit) else None
  | OpUnlink i => if ok_idx i nt then Some (kill_in a i, OutUnit) else None
  | OpSplit i iv =>
      if ok_idx i nt && ok_idx iv nv then
        match nth_error (atris a) (Z.to_nat i) with
        | Some ((x, y, z), _) =>
            Some (with_tris (kill_in a i) [(x, y, iv); (y, z, iv); (z, x, iv)], OutUnit)
        | None => None
        end
      else None
  | OpSplitPt i p =>
      if ok_idx i nt then
        match nth_error (atris a) (Z.to_nat i) with
        | Some ((x, y, z), _) =>
            Some (with_tris (kill_in (with_verts a [p]) i) [(x, y, nv); (y, z, nv); (z, x, nv)], OutUnit)
        | None => None
        end
      else None
  | OpFlip i =>
      if ok_idx i nt then
        match nth_error (atris a) (Z.to_nat i) with
        | Some ((x, y, z), _) => Some (with_tris (kill_in a i) [(x, z, y)], OutUnit)
        | None => None
        end
      else None
  | OpTransform f => Some (mkA (map f (averts a)) (atris a) (acolor a), OutUnit)
  | OpSetColor c => Some (mkA (averts a) (atris a) c, OutUnit)
  | OpClear => Some (mkA [] [] (acolor a), OutUnit)
  | OpAddMesh f =>
      Some (mkA (averts a ++ averts f)
                (atris a ++ map (fun t => (shift_triple nv t, true)) (live f)) (acolor f), OutUnit)
  | OpAssign f =>
      Some (mkA (averts f) (map (fun t => (t, true)) (live f)) (acolor f), OutUnit)
  end.

Fixpoint srun a (os : list (op T (AMesh T))) : option (AMesh T * list out) :=
  match os with
  | [] => Some (a, [])
  | o :: os =>
      match sstep a o with
      | Some (a', x) =>
          match srun a' os with Some (a'', xs) => Some (a'', x :: xs) | None => None end
      | None => None
      end
  end.

(** The empty mesh. *)
Definition a_new : AMesh T := mkA [] [] (-1).

(** Every triangle refers to existing vertices. *)
Definition closed_indices a : Prop :=
  forall x y z b, In ((x, y, z), b) (atris a) ->
    0 <= x < len (averts a) /\ 0 <= y < len (averts a) /\ 0 <= z < len (averts a).

(** Points of a triple. *)
Definition pt a (i : Z) (d : Point3 T) : Point3 T := nth (Z.to_nat i) (averts a) d.

End SpecStep.
