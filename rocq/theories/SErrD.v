(** Sines and cosines of doubles. *)
From Coq Require Import ZArith List Bool Reals.
From Flocq Require Import Core IEEE754.Binary IEEE754.BinarySingleNaN.
From Verif Require Import Base Num MGeometry MStl MF64 SGeom SErr SErrT.
Open Scope R_scope.

(** The C library's cosine and sine: of magnitude at most 1, and within 2^-53 of the exact value, for arguments up to 1024. *)
Definition good_trig (TR : Trig f64) : Prop :=
  forall x, fits 10 x -> stored (bpow radix2 (-53)) (ncos x) (cos (val x)) /\ stored (bpow radix2 (-53)) (nsin x) (sin (val x)).
(** The double nearest to a real number of magnitude at most 1; correctly rounded cosine and sine. *)
Definition nearest64 (y : R) : f64 :=
  Binary.binary_normalize 53 1024 eq_refl eq_refl mode_NE (ZnearestE (scaled_mantissa radix2 (FLT_exp (-1074) 53) y)) (cexp radix2 (FLT_exp (-1074) 53) y) false.
Definition correct_trig : Trig f64 := {| ncos x := nearest64 (cos (val x)); nsin x := nearest64 (sin (val x)) |}.
(** The direction of a vector. *)
Definition direction (w : pt3) : pt3 := mkP (px w / len3 w) (py w / len3 w) (pz w / len3 w).
