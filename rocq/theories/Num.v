(** The operations the C++ code performs on [double]. *)
From Coq Require Import ZArith Reals Bool.
From Verif Require Import Base.
Open Scope Z_scope.

(** Model files are written against this class.
    [nlit n d] is the decimal literal n/d. *)
Class Num (T : Type) := {
  nofZ  : Z -> T;
  nlit  : Z -> positive -> T;
  nadd  : T -> T -> T;
  nsub  : T -> T -> T;
  nmul  : T -> T -> T;
  ndiv  : T -> T -> res T;
  nneg  : T -> T;
  nabs  : T -> T;
  nsqrt : T -> res T;
  nltb  : T -> T -> bool;
  nleb  : T -> T -> bool;
  neqb  : T -> T -> bool;
  ntrunc : T -> res Z   (** [(int)x] : truncation toward zero, fault if out of the int range *)
}.

(** [sin], [cos] are a separate class: only needed where the C++ calls them. *)
Class Trig (T : Type) := { ncos : T -> T; nsin : T -> T }.

Declare Scope num_scope.
Delimit Scope num_scope with num.
Infix "+" := nadd : num_scope.
Infix "-" := nsub : num_scope.
Infix "*" := nmul : num_scope.
Notation "- x" := (nneg x) : num_scope.
Infix "<?" := nltb : num_scope.
Infix "<=?" := nleb : num_scope.
Infix "=?" := neqb : num_scope.

(** The literals 0., 1., 2. *)
Definition n0 {T} `{Num T} : T := nofZ 0.
Definition n1 {T} `{Num T} : T := nofZ 1.
Definition n2 {T} `{Num T} : T := nofZ 2.

(** Exact real arithmetic. Division by zero and square root of a negative number are faults. *)
Definition Rltb (x y : R) : bool := if Rlt_dec x y then true else false.
Definition Rleb (x y : R) : bool := if Rle_dec x y then true else false.
Definition Reqb (x y : R) : bool := if Req_EM_T x y then true else false.
Definition Rtrunc (x : R) : Z := if Rlt_dec x 0 then - Int_part (- x) else Int_part x.

#[global] Instance RNum : Num R := {
  nofZ := IZR;
  nlit n d := (IZR n / IZR (Zpos d))%R;
  nadd := Rplus;
  nsub := Rminus;
  nmul := Rmult;
  ndiv x y := if Req_EM_T y 0 then Err FDivZero else Ok (x / y)%R;
  nneg := Ropp;
  nabs := Rabs;
  nsqrt x := if Rlt_dec x 0 then Err FDivZero else Ok (sqrt x);
  nltb := Rltb;
  nleb := Rleb;
  neqb := Reqb;
  ntrunc x := let z := Rtrunc x in
              if (int_min <=? z) && (z <=? int_max) then Ok z else Err FBadConv
}.

#[global] Instance RTrig : Trig R := { ncos := cos; nsin := sin }.
