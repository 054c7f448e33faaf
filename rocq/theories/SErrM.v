(** Error bounds for the measures of a mesh. *)
From Coq Require Import ZArith Reals.
From Flocq Require Import Core.
Open Scope R_scope.

(** Errors of volume and area for n triangles up to 2^K whose corners are off by e. *)
Definition vol_err (n : R) (K : Z) (e : R) : R := 3 * n * (n + 8) * bpow radix2 (3 * K - 53) + 3 * n * (bpow radix2 K * bpow radix2 K * e).
Definition area_err (n : R) (K : Z) (e : R) : R := n * (4 * n + 70) * bpow radix2 (2 * K - 53) + 14 * n * (bpow radix2 K * e).
