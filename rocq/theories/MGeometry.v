(** Model of src/Geometry.h and src/Geometry.cpp. *)
From Coq Require Import ZArith List Bool.
From Verif Require Import Base Num.
Open Scope num_scope.

(** Geometry.h:7-39, class Point3. *)
Record Point3 (T : Type) := mkP { px : T; py : T; pz : T }.
Arguments mkP {T}. Arguments px {T}. Arguments py {T}. Arguments pz {T}.

(** Geometry.h:41-56, class Line3. *)
Record Line3 (T : Type) := mkLine { l1 : Point3 T; l2 : Point3 T }.
Arguments mkLine {T}. Arguments l1 {T}. Arguments l2 {T}.

(** Geometry.h:58-78, class Segment3. *)
Record Segment3 (T : Type) := mkSeg { s1 : Point3 T; s2 : Point3 T }.
Arguments mkSeg {T}. Arguments s1 {T}. Arguments s2 {T}.

(** Geometry.h:80-105, class Triangle3. *)
Record Triangle3 (T : Type) := mkTri { t1 : Point3 T; t2 : Point3 T; t3 : Point3 T }.
Arguments mkTri {T}. Arguments t1 {T}. Arguments t2 {T}. Arguments t3 {T}.

(** Geometry.h:107-130, class Plane3. *)
Record Plane3 (T : Type) := mkPlane { pa : T; pb : T; pc : T; pd : T }.
Arguments mkPlane {T}. Arguments pa {T}. Arguments pb {T}. Arguments pc {T}. Arguments pd {T}.

(** Geometry.h:132-145, class BoundingBox3. *)
Record BBox3 (T : Type) := mkBox
  { bx1 : T; by1 : T; bz1 : T; bx2 : T; by2 : T; bz2 : T; binit : bool }.
Arguments mkBox {T}. Arguments bx1 {T}. Arguments by1 {T}. Arguments bz1 {T}.
Arguments bx2 {T}. Arguments by2 {T}. Arguments bz2 {T}. Arguments binit {T}.

Section Geometry.
Context {T : Type} {N : Num T}.
Implicit Types p q : Point3 T.

(** Geometry.cpp:11-14 *)
Definition P0 : Point3 T := mkP n0 n0 n0.
(** Geometry.cpp:5-8 *)
Definition squared (a : T) : T := a * a.
(** Geometry.cpp:53-60 and 90-99 (operator+= and operator+ compute the same sums) *)
Definition padd p q : Point3 T := mkP (px p + px q) (py p + py q) (pz p + pz q).
(** Geometry.cpp:62-69 and 123-132 *)
Definition psub p q : Point3 T := mkP (px p - px q) (py p - py q) (pz p - pz q).
(** Geometry.cpp:71-78, operator*= *)
Definition pmul_eq p (d : T) : Point3 T := mkP (px p * d) (py p * d) (pz p * d).
(** Geometry.cpp:101-110, operator* (factor on the left) *)
Definition pmul p (d : T) : Point3 T := mkP (d * px p) (d * py p) (d * pz p).
(** Geometry.cpp:80-87 and 112-121, operator/= and operator/ *)
Definition pdiv p (d : T) : res (Point3 T) :=
  do x <- ndiv (px p) d; do y <- ndiv (py p) d; do z <- ndiv (pz p) d; Ok (mkP x y z).
(** Geometry.cpp:134-137 *)
Definition distance_square p q : T :=
  squared (px p - px q) + squared (py p - py q) + squared (pz p - pz q).
(** Geometry.cpp:139-142 *)
Definition dot p q : T := px p * px q + py p * py q + pz p * pz q.
(** Geometry.cpp:144-148 *)
Definition cross p q : Point3 T :=
  mkP (py p * pz q - pz p * py q) (pz p * px q - px p * pz q) (px p * py q - py p * px q).
(** Geometry.cpp:150-153 *)
Definition norm p : res T := nsqrt (px p * px p + py p * py p + pz p * pz p).
(** Geometry.cpp:155-158 *)
Definition norm_square p : T := px p * px p + py p * py p + pz p * pz p.
(** Geometry.cpp:160-164 *)
Definition normalized p : res (Point3 T) :=
  do n <- norm p; do d <- ndiv n1 n; Ok (pmul p d).
(** Geometry.cpp:165-169 *)
Definition normalize p : res (Point3 T) :=
  do n <- norm p; do d <- ndiv n1 n; Ok (pmul_eq p d).

(** Geometry.cpp:231-239 *)
Definition seg_norm (s : Segment3 T) : res T := norm (psub (s1 s) (s2 s)).
Definition seg_norm_square (s : Segment3 T) : T := norm_square (psub (s1 s) (s2 s)).

(** Geometry.cpp:241-293, Segment3::intersect; [None] = returns false (output untouched),
    [Some p] = returns true with pIntersection = p. *)
Definition seg_intersect (self s : Segment3 T) : res (option (Point3 T)) :=
  let P1 := s1 self in let P2 := s2 self in
  let P3 := s1 s in let P4 := s2 s in
  let EPS := nlit 1 10000000000 in
  let p13 := psub P1 P3 in
  let p43 := psub P4 P3 in
  if norm_square p43 <? EPS * EPS then Ok None else
  let p21 := psub P2 P1 in
  if norm_square p21 <? EPS * EPS then Ok None else
  let d4321 := dot p43 p21 in
  let d4343 := dot p43 p43 in
  let d2121 := dot p21 p21 in
  let denom := d2121 * d4343 - d4321 * d4321 in
  if nabs denom <? EPS then Ok None else
  let d1321 := dot p13 p21 in
  let d1343 := dot p13 p43 in
  let numerator := d1343 * d4321 - d1321 * d4343 in
  do mua <- ndiv numerator denom;
  if (mua <? n0) || (n1 <? mua) then Ok None
  else Ok (Some (padd P1 (pmul p21 mua))).

(** Geometry.cpp:436-439 *)
Definition orthogonal (t : Triangle3 T) : Point3 T :=
  cross (psub (t1 t) (t2 t)) (psub (t1 t) (t3 t)).
(** Geometry.cpp:426-429 *)
Definition tri_surface (t : Triangle3 T) : res T :=
  do n <- norm (orthogonal t); Ok (n * nlit 1 2).
(** Geometry.cpp:431-434 *)
Definition tri_normal (t : Triangle3 T) : res (Point3 T) := normalized (orthogonal t).

(** Geometry.cpp:473-476 *)
Definition plane_distance (pl : Plane3 T) p : T :=
  pa pl * px p + pb pl * py p + pc pl * pz p + pd pl.

(** Geometry.cpp:442-445 *)
Definition plane_default : Plane3 T := mkPlane n0 n0 n0 n0.
(** Geometry.cpp:447-471 (constructors and compute_using) *)
Definition plane_of_points p1 p2 p3 : res (Plane3 T) :=
  do pn <- normalized (cross (psub p1 p2) (psub p1 p3));
  Ok (mkPlane (px pn) (py pn) (pz pn)
        (- (px pn * px p1 + py pn * py p1 + pz pn * pz p1))).
Definition plane_of_triangle (t : Triangle3 T) : res (Plane3 T) :=
  plane_of_points (t1 t) (t2 t) (t3 t).

(** Geometry.cpp:531-534 *)
Definition plane_normal (pl : Plane3 T) : Point3 T := mkP (pa pl) (pb pl) (pc pl).

(** Geometry.cpp:483-503 *)
Definition plane_intersect_seg (pl : Plane3 T) (s : Segment3 T) : res (option (Point3 T)) :=
  let p1 := s1 s in let p2 := s2 s in
  let k := pa pl * px p1 + pb pl * py p1 + pc pl * pz p1 + pd pl in
  let u := pa pl * (px p2 - px p1) + pb pl * (py p2 - py p1) + pc pl * (pz p2 - pz p1) in
  if u =? n0 then Ok None else
  do t <- ndiv (- k) u;
  if (t <=? n0) || (n1 <=? t) then Ok None
  else Ok (Some (mkP (px p1 + t * (px p2 - px p1))
                     (py p1 + t * (py p2 - py p1))
                     (pz p1 + t * (pz p2 - pz p1)))).

(** Geometry.cpp:505-522; returns the boolean and the (in/out) line argument. *)
Definition plane_intersect_plane (pl p : Plane3 T) (line : Line3 T) : bool * Line3 T :=
  let eps := nlit 1 100000000 in
  let direction := cross (plane_normal pl) (plane_normal p) in
  if norm_square direction <? eps * eps then (false, line) else (true, line).

(** Geometry.cpp:524-529 *)
Definition plane_project (pl : Plane3 T) p : Point3 T :=
  psub p (pmul (plane_normal pl) (dot (plane_normal pl) p + pd pl)).

(** Geometry.cpp:335-352; the two counters are only compared with 0, kept as Z. *)
Definition cutted_by (t : Triangle3 T) (pl : Plane3 T) : bool :=
  let count (b : bool) : Z := if b then 1%Z else 0%Z in
  let proj1 := plane_distance pl (t1 t) in
  let proj2 := plane_distance pl (t2 t) in
  let proj3 := plane_distance pl (t3 t) in
  let nbPositive := (count (n0 <? proj1)%num + count (n0 <? proj2)%num + count (n0 <? proj3)%num)%Z in
  let nbNegative := (count (proj1 <? n0)%num + count (proj2 <? n0)%num + count (proj3 <? n0)%num)%Z in
  (0 <? nbPositive)%Z && (0 <? nbNegative)%Z.

(** Geometry.cpp:354-373 *)
Definition tri_contains (t : Triangle3 T) p : bool :=
  let a := psub (t1 t) p in
  let b := psub (t2 t) p in
  let c := psub (t3 t) p in
  let u := cross b c in
  let v := cross c a in
  if dot u v <? n0 then false else
  let w := cross a b in
  if dot u w <? n0 then false else true.

(** Geometry.cpp:375-383; the result is (returned bool, pIntersection if it was written). *)
Definition tri_intersect_seg (t : Triangle3 T) (s : Segment3 T) : res (option (Point3 T) * bool) :=
  do pl <- plane_of_triangle t;
  do o <- plane_intersect_seg pl s;
  match o with
  | None => Ok (None, false)
  | Some p => Ok (Some p, tri_contains t p)
  end.

(** Geometry.cpp:536-541 *)
Definition box_empty : BBox3 T := mkBox n0 n0 n0 n0 n0 n0 false.

(** Geometry.cpp:551-579, one axis of BoundingBox3::add *)
Definition axis_add (x lo hi : T) : T * T :=
  if x <? lo then (x, hi) else if hi <? x then (lo, x) else (lo, hi).
(** Geometry.cpp:551-579 *)
Definition box_add (b : BBox3 T) p : BBox3 T :=
  if negb (binit b) then mkBox (px p) (py p) (pz p) (px p) (py p) (pz p) true
  else
    let '(x1, x2) := axis_add (px p) (bx1 b) (bx2 b) in
    let '(y1, y2) := axis_add (py p) (by1 b) (by2 b) in
    let '(z1, z2) := axis_add (pz p) (bz1 b) (bz2 b) in
    mkBox x1 y1 z1 x2 y2 z2 true.
(** Geometry.cpp:543-549 *)
Definition box_of_triangle (t : Triangle3 T) : BBox3 T :=
  box_add (box_add (box_add box_empty (t1 t)) (t2 t)) (t3 t).
(** Geometry.cpp:581-602 *)
Definition box_intersect (a b : BBox3 T) : bool :=
  if bx2 a <? bx1 b then false else
  if by2 a <? by1 b then false else
  if bz2 a <? bz1 b then false else
  if bx2 b <? bx1 a then false else
  if by2 b <? by1 a then false else
  if bz2 b <? bz1 a then false else true.

(** Geometry.cpp:385-424 *)
Definition tri_intersect_tri (self t : Triangle3 T) : res bool :=
  if negb (box_intersect (box_of_triangle self) (box_of_triangle t)) then Ok false else
  do planeB <- plane_of_triangle t;
  if negb (cutted_by self planeB) then Ok false else
  do planeA <- plane_of_triangle self;
  if negb (cutted_by t planeA) then Ok false else
  do r1 <- tri_intersect_seg self (mkSeg (t1 t) (t2 t));
  if snd r1 then Ok true else
  do r2 <- tri_intersect_seg self (mkSeg (t1 t) (t3 t));
  if snd r2 then Ok true else
  do r3 <- tri_intersect_seg self (mkSeg (t2 t) (t3 t));
  if snd r3 then Ok true else
  do r4 <- tri_intersect_seg t (mkSeg (t1 self) (t2 self));
  if snd r4 then Ok true else
  do r5 <- tri_intersect_seg t (mkSeg (t1 self) (t3 self));
  if snd r5 then Ok true else
  do r6 <- tri_intersect_seg t (mkSeg (t2 self) (t3 self));
  if snd r6 then Ok true else Ok false.

End Geometry.
