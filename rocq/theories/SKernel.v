(** What storing a triangle means, for any kernel behind the interface. *)
From Coq Require Import ZArith List Bool.
From Verif Require Import Base MGeometry MKernelRun.
Open Scope Z_scope.

(** add_triangle returns the next free id; afterwards there is one more triangle, it can be read back
    under that id and it is linked. *)
Definition stores {T K : Type} (call : K -> kcall T -> res (K * kans T)) (k : K) (a b c : Z) : Prop :=
  exists k' n n', call k KNbTriangles = Ok (k, ANum n) /\
    call k (KAddTriangle a b c) = Ok (k', ANum n) /\
    call k' KNbTriangles = Ok (k', ANum n') /\ n' = n + 1 /\
    call k' (KGetTriangle n) = Ok (k', ATri (a, b, c)) /\
    call k' (KIsUnlinked n) = Ok (k', ABool false).

(** Calls about vertices only, with indices that are not negative. *)
Definition vertex_call {T : Type} (c : kcall T) : Prop :=
  match c with KAddVertex _ | KNbVertices | KClear => True | KSetVertex i _ | KGetVertex i => 0 <= i | _ => False end.
