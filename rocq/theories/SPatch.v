(** Quadratic Bezier patches whose points and weights are doubles. *)
From Coq Require Import ZArith Reals List Bool.
From Flocq Require Import Core.
From Verif Require Import Base Num MGeometry MMesh MBezier MStl MF64 SMesh SGeom SMeasure SBezier SErr.
Import ListNotations.
Open Scope R_scope.

(** The patch over the reals that the stored doubles stand for. *)
Definition val_patch (q : QBT f64) : QBT R :=
  mkQBT (val_pt (qP1 q)) (val_pt (qP2 q)) (val_pt (qP3 q)) (val_pt (qC12 q)) (val_pt (qC13 q)) (val_pt (qC23 q))
    (val (qw1 q)) (val (qw2 q)) (val (qw3 q)) (val (qw12 q)) (val (qw13 q)) (val (qw23 q)).
(** Coordinates up to 2^k, weights from 2^i to 2^j. *)
Definition patch_within (k i j : Z) (q : QBT f64) : Prop :=
  Forall (fits_pt k) [qP1 q; qP2 q; qP3 q; qC12 q; qC13 q; qC23 q] /\
  Forall (fun w => fin w /\ bpow radix2 i <= val w <= bpow radix2 j) [qw1 q; qw2 q; qw3 q; qw12 q; qw13 q; qw23 q].
Definition patch_sizes (k i j : Z) : Prop := (-400 <= k <= 400 /\ -200 <= i <= j /\ j <= 200 /\ j - i <= 40)%Z.
(** How far a computed point may be from the patch: 512 roundings of 2^(k+j-i). *)
Definition patch_err (k i j : Z) : R := bpow radix2 (k + j - i - 44).
(** The exact point at (s,u), the third parameter being 1 - s - u. *)
Definition patch_pt (q : QBT R) (s u : R) : pt3 := mean (masses q s u (1 - s - u)).
(** All weights 1. *)
Definition patch_units (q : QBT f64) : Prop := Forall (fun w => w = n1) [qw1 q; qw2 q; qw3 q; qw12 q; qw13 q; qw23 q].
