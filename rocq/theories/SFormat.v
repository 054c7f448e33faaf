(** Numbers printed with six significant digits. *)
From Coq Require Import ZArith List Bool Reals.
From Flocq Require Import Core IEEE754.Binary.
From Verif Require Import Base MGeometry MText MF64.
Import ListNotations.

Definition radix10 : radix := Build_radix 10 eq_refl.
(** The decimal number of six significant digits nearest to x, and the double nearest to x (ties to even; exponents unbounded above). *)
Definition six_digits (x : R) : R := round radix10 (FLX_exp 6) ZnearestE x.
Definition to_double (x : R) : R := round radix2 (FLT_exp (-1074) 53) ZnearestE x.
Definition six_digit (x : R) : Prop := generic_format radix10 (FLX_exp 6) x.

(** [q] is the double nearest to the six digits of [x], with the sign of [x] (which matters for zeros). *)
Definition rounded_to (x q : f64) : Prop :=
  Binary.is_finite 53 1024 q = true /\ Binary.B2R 53 1024 q = to_double (six_digits (Binary.B2R 53 1024 x)) /\ Binary.Bsign 53 1024 q = Binary.Bsign 53 1024 x.
Definition finite64 (x : f64) : Prop := Binary.is_finite 53 1024 x = true.
Definition finite_pt (p : Point3 f64) : Prop := finite64 (px p) /\ finite64 (py p) /\ finite64 (pz p).
Definition finite_xy (p : Point3 f64) : Prop := finite64 (px p) /\ finite64 (py p).
(** How a point comes back from a file: an infinite or undefined z becomes 0. *)
Definition pt_rounded (p q : Point3 f64) : Prop :=
  rounded_to (px p) (px q) /\ rounded_to (py p) (py q) /\
  ((finite64 (pz p) /\ rounded_to (pz p) (pz q)) \/ (~ finite64 (pz p) /\ pz q = Binary.B754_zero 53 1024 false)).
(** Zero or not below 2^-1021 *)
Definition not_tiny (x : f64) : Prop := (Binary.B2R 53 1024 x = 0 \/ bpow radix2 (-1021) <= Rabs (Binary.B2R 53 1024 x))%R.

(** Between 0.0001 and 1000000 and not an integer *)
Definition a_step_value (x : R) : Prop := (/ 10000 <= Rabs x < 1000000)%R /\ forall n, x <> IZR n.

(** REAL of ISO 10303-21: [sign] digit { digit } "." { digit } [ "E" [ sign ] digit { digit } ]. *)
Open Scope Z_scope.
Fixpoint drop_digits (l : list Z) : list Z := match l with c :: l' => if is_digit c then drop_digits l' else l | [] => [] end.
Definition drop_sign (l : list Z) : list Z := match l with c :: l' => if (c =? 43) || (c =? 45) then l' else l | [] => [] end.
(** At least one digit, then what is left *)
Definition digits1 (l : list Z) : option (list Z) := match l with c :: l' => if is_digit c then Some (drop_digits l') else None | [] => None end.
Definition step_real (l : list Z) : bool :=
  match digits1 (drop_sign l) with
  | Some (46 :: r) =>
    match drop_digits r with
    | [] => true
    | 69 :: r => match digits1 (drop_sign r) with Some [] => true | _ => false end
    | _ => false
    end
  | _ => false
  end.
