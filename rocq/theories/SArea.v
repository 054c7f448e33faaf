(** Specification words for the surface areas of the round solids. *)
From Coq Require Import ZArith Reals.
From Verif Require Import SRound.
Open Scope R_scope.

(** Sides and caps of the prism over the regular N-gon of radius r.  The perimeter of the N-gon in the unit circle is
    [gon (2 * N)], because 2 N sin (pi / N) is also twice the area of the regular 2N-gon. *)
Definition prism_area (N : Z) (r h : R) : R := gon (2 * N) * Rabs (r * h) + gon N * (r * r).
