(** Fault monad, std::vector access and for-loops used by all model files. *)
From Coq Require Import ZArith List Bool Lia.
Import ListNotations.
Open Scope Z_scope.

(** Outcomes that are not a normal return.
    - [FAssert]  : a C++ [assert] fails (abort in debug builds; undefined later in NDEBUG builds)
    - [FOob]     : out-of-bounds element access (undefined behaviour)
    - [FDivZero] : floating division by zero, or square root of a negative number,
                   in an instance where the result would not be a number
    - [FBadConv] : floating value not representable in the integer type (undefined behaviour)
    - [FUninit]  : read of an uninitialised variable (undefined behaviour)
    - [FDiverge] : the loop did not end within the fuel of the model
    - [FOverflow]: the result of an operation on int is not an int (undefined behaviour) *)
Inductive fault := FAssert | FOob | FDivZero | FBadConv | FUninit | FDiverge | FOverflow.

Inductive res (A : Type) : Type := Ok (a : A) | Err (f : fault).
Arguments Ok {A} a. Arguments Err {A} f.

Definition bind {A B} (x : res A) (k : A -> res B) : res B :=
  match x with Ok a => k a | Err f => Err f end.

Declare Scope res_scope.
Delimit Scope res_scope with res.
Notation "'do' x <- e ; k" := (bind e (fun x => k))
  (at level 200, x pattern, e at level 100, k at level 200, right associativity) : res_scope.
Open Scope res_scope.

(** C++ [assert(b)]. *)
Definition massert (b : bool) : res unit := if b then Ok tt else Err FAssert.

(** The range of int, 32 bits. *)
Definition int_min : Z := -2147483648.
Definition int_max : Z := 2147483647.
(** The result of an operation on int whose exact value is [z]. *)
Definition iint (z : Z) : res Z := if (int_min <=? z) && (z <=? int_max) then Ok z else Err FOverflow.

(** [(int)v.size()]; the narrowing to 32 bits is not modelled. *)
Definition vsize {A} (v : list A) : Z := Z.of_nat (length v).

(** [v[i]] as a read, with out-of-bounds access reported. *)
Definition vget {A} (v : list A) (i : Z) : res A :=
  if i <? 0 then Err FOob
  else match nth_error v (Z.to_nat i) with Some x => Ok x | None => Err FOob end.

Fixpoint list_set {A} (v : list A) (n : nat) (x : A) : list A :=
  match v, n with
  | [], _ => []
  | _ :: t, O => x :: t
  | h :: t, S n' => h :: list_set t n' x
  end.

(** [v[i] = x]. *)
Definition vset {A} (v : list A) (i : Z) (x : A) : res (list A) :=
  if (i <? 0) || (vsize v <=? i) then Err FOob
  else Ok (list_set v (Z.to_nat i) x).

(** [v.push_back(x)]. *)
Definition vpush {A} (v : list A) (x : A) : list A := v ++ [x].

(** [for (int i = a; i < a + n; i++) s = body(i,s)]. *)
Fixpoint loop {S} (n : nat) (i : Z) (body : Z -> S -> res S) (s : S) : res S :=
  match n with
  | O => Ok s
  | Datatypes.S n' => do s' <- body i s; loop n' (i + 1) body s'
  end.

(** [for (int i = a; i < b; i++) s = body(i,s)] with a bound [b] that the body does not change. *)
Definition for_ {S} (a b : Z) (body : Z -> S -> res S) (s : S) : res S :=
  loop (Z.to_nat (b - a)) a body s.

(** [while (cond s) s = body s] with explicit fuel: running out of fuel is [FDiverge]. *)
Fixpoint while_ {S} (fuel : nat) (cond : S -> res bool) (body : S -> res S) (s : S) : res S :=
  match fuel with
  | O => Err FDiverge
  | Datatypes.S f =>
      do b <- cond s;
      if b then (do s' <- body s; while_ f cond body s') else Ok s
  end.
