(** Specification of Bezier patches: Bernstein polynomials, weighted means, grids on a triangle. *)
From Coq Require Import ZArith List Bool Reals.
From Verif Require Import Base Num MGeometry MMesh MMeasure MBezier SGeom SMesh SReach SMeasure.
Import ListNotations.
Open Scope R_scope.

(** The Bernstein polynomial of degree [k] and index [i]. *)
Definition bernstein (k i : nat) (u : R) : R := C k i * u ^ i * (1 - u) ^ (k - i).
(** The combination of points [ps] with the coefficients [cs]. *)
Fixpoint combo (cs : list R) (ps : list pt3) : pt3 :=
  match cs, ps with c :: cs, p :: ps => add3 (scal3 c p) (combo cs ps) | _, _ => O3 end.

(** Weighted mean of points, each with a mass. *)
Definition mass (l : list (R * pt3)) : R := sumR (map fst l).
Definition mean (l : list (R * pt3)) : pt3 := scal3 (/ mass l) (combo (map fst l) (map snd l)).
(** Convex hull. *)
Definition in_hull (ps : list pt3) (x : pt3) : Prop :=
  exists cs, length cs = length ps /\ Forall (fun c => 0 <= c) cs /\ sumR cs = 1 /\ x = combo cs ps.

(** The six Bernstein polynomials of degree 2 on a triangle, for (s,u,v) with s + u + v = 1. *)
Definition bernstein_tri (s u v : R) : list R := [s ^ 2; u ^ 2; v ^ 2; 2 * s * u; 2 * s * v; 2 * u * v].
(** Point number (i,j) of a grid with [n] segments per side, counted row by row: row i holds n - i + 1 points. *)
Definition rank (n i j : Z) : Z := (i * (2 * n + 3 - i) / 2 + j)%Z.
Definition on_grid (n i j : Z) : Prop := (0 <= i /\ 0 <= j /\ i + j <= n)%Z.

(** The points of a triangle's grid, row by row. *)
Definition grid {A} (n : Z) (g : Z -> Z -> A) : list A :=
  flat_map (fun i => map (g i) (map Z.of_nat (seq 0 (Z.to_nat (n - i + 1))))) (map Z.of_nat (seq 0 (Z.to_nat (n + 1)))).

(** Number of triangles that QuadBezierTriangle::add_to_mesh really makes with [n] segments. *)
Definition patch_count (n : Z) : Z := if Z.eqb n 1 then 1 else (n * n - 4 * n + 6)%Z.

(** The barycentric map of a triangle. *)
Definition bary_map (p q r : pt3) (s u v : R) : pt3 := add3 (add3 (scal3 s p) (scal3 u q)) (scal3 v r).

(** The functions BezierUtil offers for degree [k]. *)
Definition family (k : nat) : list (R -> R) :=
  match k with
  | 1 => [Bernstein01; Bernstein11]
  | 2 => [Bernstein02; Bernstein12; Bernstein22]
  | 3 => [Bernstein03; Bernstein13; Bernstein23; Bernstein33]
  | _ => []
  end%nat.

(** The masses and points that a quadratic patch combines at (s,u,v). *)
Definition masses (q : QBT R) (s u v : R) : list (R * pt3) :=
  combine (map (fun x => fst x * snd x) (combine [qw1 q; qw2 q; qw3 q; qw12 q; qw13 q; qw23 q] (bernstein_tri s u v)))
    [qP1 q; qP2 q; qP3 q; qC12 q; qC13 q; qC23 q].
(** Rational Bezier curve of degree 2. *)
Definition conic (w0 w1 w2 : R) (p0 p1 p2 : pt3) (t : R) : list (R * pt3) :=
  [(w0 * bernstein 2 0 t, p0); (w1 * bernstein 2 1 t, p1); (w2 * bernstein 2 2 t, p2)].
Definition positive_weights (q : QBT R) : Prop := Forall (fun w => 0 < w) [qw1 q; qw2 q; qw3 q; qw12 q; qw13 q; qw23 q].
(** The point at one third of PQ, next to P. *)
Definition third (P Q : pt3) : pt3 := scal3 (/ 3) (add3 (add3 P P) Q).

(** The patch is the flat triangle [f], parametrised by barycentric coordinates. *)
Definition flat_patch (q : QBT R) (f : pt3 * pt3 * pt3) : Prop :=
  let '(P1, P2, P3) := f in forall s u v, s + u + v = 1 ->
    qbt_eval q s u v = Ok (bary_map P1 P2 P3 s u v) /\ qbt_eval q s u (-1) = Ok (bary_map P1 P2 P3 s u v).
(** The same triangle, possibly starting at another corner. *)
Definition rotated {A} (f g : A * A * A) : Prop := let '(x, y, z) := f in g = (x, y, z) \/ g = (y, z, x) \/ g = (z, x, y).
(** One flat patch per triangle of the list, in the same order. *)
Definition flat_patches (sm : SmoothMesh R) (fs : list (pt3 * pt3 * pt3)) : Prop :=
  Forall2 (fun q f => exists g, rotated f g /\ flat_patch q g) sm fs.
(** Fraction of a flat patch that its triangles cover. *)
Definition coverage (n : Z) : R := IZR (patch_count n) / (IZR n * IZR n).
(** A smooth solid and a mesh with the same faces. *)
Definition smooth_version (s : res (SmoothMesh R)) (r : res (Mesh R)) : Prop :=
  exists sm m a, s = Ok sm /\ r = Ok m /\ reach m /\ shows m a /\ flat_patches sm (faces a).
(** Converted to triangles, the smooth solid adds a part of the mesh's surface, and of its volume with the sign changed. *)
Definition inside_out (s : res (SmoothMesh R)) (r : res (Mesh R)) : Prop :=
  exists sm m, s = Ok sm /\ r = Ok m /\ exists area vol, surface m = Ok area /\ volume m = Ok vol /\
    forall n (m0 : Mesh R) area0 vol0, (1 <= n)%Z -> reach m0 -> surface m0 = Ok area0 -> volume m0 = Ok vol0 ->
      exists m', sm_add_to_mesh sm m0 n = Ok m' /\ surface m' = Ok (area0 + coverage n * area) /\ volume m' = Ok (vol0 - coverage n * vol).
(** The patches of the smooth sphere: distances to the centre at (s,u,v). *)
Definition sq_dist (p : pt3) : R := dot3 p p.
(** The six control points next to the corners, as (corner, other end, normal, control point). *)
Definition pn_edges (P1 P2 P3 N1 N2 N3 : pt3) (c : CBT R) : list (pt3 * pt3 * pt3 * pt3) :=
  [(P1, P2, N1, c12 c); (P2, P1, N2, c21 c); (P1, P3, N1, c13 c); (P3, P1, N3, c31 c); (P2, P3, N2, c23 c); (P3, P2, N3, c32 c)].
Definition sign (i : R) : Prop := i = 1 \/ i = -1.
