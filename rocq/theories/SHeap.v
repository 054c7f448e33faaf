(** Specification vocabulary for programs over several Mesh objects. *)
From Coq Require Import ZArith List Bool.
From Verif Require Import Base Num MGeometry MKernel MMesh MMeshRun MHeap SMesh.
Import ListNotations.
Open Scope Z_scope.

Section SHeap.
Context {T : Type} {N : Num T}.
Implicit Types st : Store T.

(** Object [i] exists and is not destroyed. *)
Definition alive st i := exists p c, vget (objs st) i = Ok (Some (p, c)).

(** The mesh that object [i] currently holds. *)
Definition mesh_of st i : option (Mesh T) := match load st i with Ok (_, m) => Some m | Err _ => None end.

(** Number of entries that are not [None]. *)
Definition count {A} (l : list (option A)) : Z :=
  vsize (filter (fun x => match x with Some _ => true | None => false end) l).

(** Assignments in a program. *)
Definition leaks (c : hcmd T) : Z := match c with HAssign _ _ => 1 | _ => 0 end.

(** Which object a command writes. *)
Definition target st (c : hcmd T) : Z :=
  match c with
  | HNew => vsize (objs st) | HCopy _ => vsize (objs st)
  | HAssign i _ => i | HAdd i _ => i | HCall i _ => i | HDestroy i => i
  end.

(** What the written object holds after a successful command. *)
Definition effect fuel st (c : hcmd T) (m' : option (Mesh T)) : Prop :=
  match c with
  | HNew => m' = Some mesh_new
  | HCopy j => exists f d, mesh_of st j = Some f /\ copy_mesh f = Ok d /\ m' = Some d
  | HAssign i j =>
      exists m f d, mesh_of st i = Some m /\ mesh_of st j = Some f /\ m' = Some d /\
        (if i =? j then assign_self fuel m = Ok d else assign_mesh m f = Ok d)
  | HAdd i j =>
      exists m f d, mesh_of st i = Some m /\ mesh_of st j = Some f /\ m' = Some d /\
        (if i =? j then add_mesh_self fuel m = Ok d else add_mesh m f = Ok d)
  | HCall i o => exists m d x, mesh_of st i = Some m /\ mstep m (call_op o) = Ok (d, x) /\ m' = Some d
  | HDestroy _ => m' = None
  end.

(** Objects a command uses. *)
Definition uses (c : hcmd T) : list Z :=
  match c with
  | HNew => [] | HCopy j => [j] | HAssign i j => [i; j] | HAdd i j => [i; j]
  | HCall i _ => [i] | HDestroy i => [i]
  end.

(** A program that only uses objects that are alive when used. *)
Fixpoint well_used fuel st (cs : list (hcmd T)) : Prop :=
  match cs with
  | [] => True
  | c :: cs => Forall (alive st) (uses c) /\
               match hstep fuel st c with Ok st' => well_used fuel st' cs | Err _ => True end
  end.

(** Object [i] points to kernel [p]. *)
Definition ptr st i p := exists c, vget (objs st) i = Ok (Some (p, c)).

(** Every live object owns a live kernel and no kernel has two owners. *)
Definition no_sharing st : Prop :=
  (forall i p, ptr st i p -> exists k, vget (heap st) p = Ok (Some k)) /\
  (forall i j p, ptr st i p -> ptr st j p -> i = j).

Definition nb_assign (cs : list (hcmd T)) : Z := fold_right Z.add 0 (map leaks cs).

End SHeap.
