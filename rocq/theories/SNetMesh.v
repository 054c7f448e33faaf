(** Specification of the mesh of a control net: one quad with its own four vertices per cell. *)
From Coq Require Import ZArith List Bool Reals.
From Verif Require Import Base Num MGeometry MNurbs MNurbsSurface SGeom SMesh SMeasure SNurbs SSurface.
Import ListNotations.
Open Scope Z_scope.

Definition upto (n : Z) : list Z := map Z.of_nat (seq 0 (Z.to_nat n)).
(** The cells of a net, u in the outer loop. *)
Definition net_cells (nbU nbV : Z) : list (Z * Z) :=
  flat_map (fun u => map (fun v => (u, v)) (upto (nbV - 1))) (upto (nbU - 1)).
(** The corners of a cell, in order around it. *)
Definition net_quad (s : NurbsSurface R) (c : Z * Z) : list pt3 :=
  let '(u, v) := c in [scp s u v; scp s (u + 1) v; scp s (u + 1) (v + 1); scp s u (v + 1)].
(** A quad on four consecutive vertices, cut along one diagonal or along the other. *)
Definition cut (n : Z) (b : bool) : list (triple * bool) :=
  if b then [((n, n + 1, n + 2), true); ((n + 2, n + 3, n), true)] else [((n + 1, n + 2, n + 3), true); ((n + 3, n, n + 1), true)].
(** [ts] cuts each of the [k] quads starting at vertex [n]. *)
Inductive cuts : Z -> nat -> list (triple * bool) -> Prop :=
| cuts_nil n : cuts n 0 []
| cuts_cons n k b ts : cuts (n + 4) k ts -> cuts n (S k) (cut n b ++ ts).
(** The area of the better of the two cuts. *)
Definition best_area (s : NurbsSurface R) (c : Z * Z) : R :=
  let '(u, v) := c in let p := scp s u v in let q := scp s (u + 1) v in let r := scp s (u + 1) (v + 1) in let t := scp s u (v + 1) in
  Rmin (area3 p q r + area3 r t p) (area3 q r t + area3 t p q).
