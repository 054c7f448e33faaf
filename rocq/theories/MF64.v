(** The double and float of the compiled program: IEEE 754 binary64 and binary32 (Flocq),
    rounding to nearest even.  Simplified: which NaN an operation returns is not modelled
    beyond "a NaN". *)
From Coq Require Import ZArith Bool.
From Flocq Require Import IEEE754.Binary IEEE754.Bits IEEE754.BinarySingleNaN.
From Verif Require Import Base Num MStl.
Open Scope Z_scope.

Definition f64 : Type := binary64.

(** The double nearest to an integer (the C++ conversion int to double, and the literals 0., 1.). *)
Definition f64_ofZ (z : Z) : f64 := Binary.binary_normalize 53 1024 eq_refl eq_refl mode_NE z 0 false.

Definition f64_ltb (x y : f64) : bool :=
  match b64_compare x y with Some Lt => true | _ => false end.
Definition f64_leb (x y : f64) : bool :=
  match b64_compare x y with Some Lt | Some Eq => true | _ => false end.
Definition f64_eqb (x y : f64) : bool :=
  match b64_compare x y with Some Eq => true | _ => false end.

(** The conversion double to int: undefined for NaN, infinities and values out of range. *)
Definition f64_trunc (x : f64) : res Z :=
  let z := Binary.Btrunc 53 1024 x in
  if Binary.is_finite 53 1024 x && (int_min <=? z) && (z <=? int_max) then Ok z else Err FBadConv.

(** Division and square root never stop the program: they return infinities and NaNs. *)
#[global] Instance F64Num : Num f64 := {
  nofZ := f64_ofZ;
  nlit n d := b64_div mode_NE (f64_ofZ n) (f64_ofZ (Zpos d));
  nadd := b64_plus mode_NE;
  nsub := b64_minus mode_NE;
  nmul := b64_mult mode_NE;
  ndiv x y := Ok (b64_div mode_NE x y);
  nneg := b64_opp;
  nabs := b64_abs;
  nsqrt x := Ok (b64_sqrt mode_NE x);
  nltb := f64_ltb;
  nleb := f64_leb;
  neqb := f64_eqb;
  ntrunc := f64_trunc
}.

(** Conversion double to float: `p = (float)p1._x`, STLFile.cpp:47-57. *)
Definition f64_to_f32 (x : f64) : binary32 :=
  match x with
  | Binary.B754_zero _ _ s => Binary.B754_zero 24 128 s
  | Binary.B754_infinity _ _ s => Binary.B754_infinity 24 128 s
  | Binary.B754_nan _ _ _ _ _ => proj1_sig default_nan_pl32
  | Binary.B754_finite _ _ s m e _ =>
      Binary.binary_normalize 24 128 eq_refl eq_refl mode_NE (SpecFloat.cond_Zopp s (Zpos m)) e s
  end.

(** Conversion float to double: the float variables passed to add_vertex, STLFile.cpp:105-107. *)
Definition f32_to_f64 (x : binary32) : f64 :=
  match x with
  | Binary.B754_zero _ _ s => Binary.B754_zero 53 1024 s
  | Binary.B754_infinity _ _ s => Binary.B754_infinity 53 1024 s
  | Binary.B754_nan _ _ _ _ _ => proj1_sig default_nan_pl64
  | Binary.B754_finite _ _ s m e _ =>
      Binary.binary_normalize 53 1024 eq_refl eq_refl mode_NE (SpecFloat.cond_Zopp s (Zpos m)) e s
  end.

#[global] Instance F64Single : Single f64 := {
  f_bits x := bits_of_b32 (f64_to_f32 x);
  f_val p := f32_to_f64 (b32_of_bits p)
}.
