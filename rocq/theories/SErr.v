(** Exact values of the doubles stored in a mesh. *)
From Coq Require Import ZArith List Bool Reals.
From Flocq Require Import Core IEEE754.Binary.
From Verif Require Import Base Num MGeometry MStl MF64 SMesh SGeom.
Import ListNotations.
Open Scope R_scope.

(** The real number a double stands for (0 for infinities and NaNs, which [fits] excludes). *)
Definition val (x : f64) : R := Binary.B2R 53 1024 x.
Definition fin (x : f64) : Prop := Binary.is_finite 53 1024 x = true.
Definition val_pt (p : Point3 f64) : pt3 := mkP (val (px p)) (val (py p)) (val (pz p)).
(** The mesh over the reals that the stored doubles stand for. *)
Definition val_mesh (a : AMesh f64) : AMesh R := mkA (map val_pt (averts a)) (atris a) (acolor a).
(** [x] is a finite double of magnitude at most 2^k. *)
Definition fits (k : Z) (x : f64) : Prop := fin x /\ Rabs (val x) <= bpow radix2 k.
Definition fits_pt (k : Z) (p : Point3 f64) : Prop := fits k (px p) /\ fits k (py p) /\ fits k (pz p).
(** [x] is finite and within [e] of the real number [y]. *)
Definition close_to (x : f64) (y e : R) : Prop := fin x /\ Rabs (val x - y) <= e.
(** Unit vectors: every component is within 11 * 2^-53 of the exact one. *)
Definition unit_close (q p : Point3 f64) : Prop :=
  let e := 11 * bpow radix2 (-53) in let L := len3 (val_pt p) in
  close_to (px q) (val (px p) / L) e /\ close_to (py q) (val (py p) / L) e /\ close_to (pz q) (val (pz p) / L) e.
