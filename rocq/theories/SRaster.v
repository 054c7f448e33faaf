(** Specification vocabulary for filled triangles: points of the screen, in pixels. *)
From Coq Require Import ZArith List Bool Reals.
From Verif Require Import Base Num MGeometry MKernel MMesh MRender SMesh SRender.
Import ListNotations.
Open Scope R_scope.

(** The point ([u], [v]) is in the triangle of the screen points [a], [b], [c]. *)
Definition in_tri2 (a b c : Z * Z) (u v : R) : Prop :=
  exists p q r, 0 <= p /\ 0 <= q /\ 0 <= r /\ p + q + r = 1 /\
    u = p * IZR (fst a) + q * IZR (fst b) + r * IZR (fst c) /\ v = p * IZR (snd a) + q * IZR (snd b) + r * IZR (snd c).
(** Twice the signed area: positive when [a], [b], [c] turn from the x axis to the y axis (y goes down). *)
Definition turn (a b c : Z * Z) : Z := (fst b - fst a) * (snd c - snd a) - (snd b - snd a) * (fst c - fst a).
Definition low3 (x y z : R) : R := Rmin x (Rmin y z).
Definition high3 (x y z : R) : R := Rmax x (Rmax y z).
Definition top3 (x y z : Z) : Z := Z.min x (Z.min y z).
Definition bottom3 (x y z : Z) : Z := Z.max x (Z.max y z).
(** Entirely left of, above, right of or below a window of [X] by [Y] pixels (or on its left or upper border). *)
Definition outside (X Y : Z) (a b c : Z * Z) : Prop :=
  (bottom3 (fst a) (fst b) (fst c) <= 0 \/ bottom3 (snd a) (snd b) (snd c) <= 0 \/
   X <= top3 (fst a) (fst b) (fst c) \/ Y <= top3 (snd a) (snd b) (snd c))%Z.
(** Width and height of a screen triangle are ints. *)
Definition spans_int (a b c : Z * Z) : Prop :=
  (bottom3 (fst a) (fst b) (fst c) - top3 (fst a) (fst b) (fst c) <= int_max /\ bottom3 (snd a) (snd b) (snd c) - top3 (snd a) (snd b) (snd c) <= int_max)%Z.
(** The sides at the first corner have int coordinates. *)
Definition sides_int (a b c : Z * Z) : Prop :=
  let fits z := (int_min <= z <= int_max)%Z in
  fits (fst a - fst b)%Z /\ fits (snd a - snd b)%Z /\ fits (fst a - fst c)%Z /\ fits (snd a - snd c)%Z.
(** Nothing drawn yet: all depths 0 (infinitely far). *)
Definition blank (r : Renderer R) : Prop := forall k, (0 <= k < rd_X r * rd_Y r)%Z -> depth r k = 0.

(** A mesh on the screen: its faces one after the other; the sides of a face only when the face has been drawn. *)
Section Painter.
Context {T : Type} {N : Num T} {TR : Trig T} {FL : Flt T}.
Definition corners_of (a : AMesh T) : list (Point3 T * Point3 T * Point3 T) :=
  let o := mkP n0 n0 n0 in map (fun t => let '(x, y, z) := t in (pt a x o, pt a y o, pt a z o)) (live a).
Fixpoint painted (r : Renderer T) (col : Z) (edges : bool) (fs : list (Point3 T * Point3 T * Point3 T)) : res (Renderer T) :=
  match fs with
  | [] => Ok r
  | (p, q, s) :: fs =>
      do d <- draw_triangle r p q s col false;
      do r <- (if edges && snd d then rrun (fst d) [RLine p q 0%Z; RLine p s 0%Z; RLine q s 0%Z] else Ok (fst d));
      painted r col edges fs
  end.
End Painter.
Fixpoint sides {A} (l : list A) : list (A * A) := match l with p :: ((q :: _) as k) => (p, q) :: sides k | _ => [] end.
