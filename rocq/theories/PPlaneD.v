(** Property C122: planes, boxes and triangles apart in doubles.  Only statements. *)
From Coq Require Import ZArith List Bool Reals.
From Flocq Require Import Core.
From Verif Require Import Base Num MGeometry MStl MF64 SGeom SErr SErrN SPlaneD LErrEx LPlaneD2 LPlaneD3 LPlaneD4 LPlaneD5.
Import ListNotations.
Open Scope R_scope.

(** The signed distance. *)
Theorem C122_distance : forall (k : Z), (-350 <= k <= 350)%Z -> forall (pl : Plane3 f64) (p : Point3 f64), plane_fits k pl -> fits_pt k p ->
  close_to (plane_distance pl p) (side (val_plane pl) (val_pt p)) (bpow radix2 (k - 48)).
Proof. exact dist_doubles. Qed.
Print Assumptions C122_distance.

(** The cut test finds every cut with corners farther than 2^(k-48) on both sides, and no triangle that is that far on one side. *)
Theorem C122_cut : forall (k : Z), (-350 <= k <= 350)%Z -> forall (pl : Plane3 f64) (t : Triangle3 f64), plane_fits k pl -> fits_tri k t ->
  let s p := side (val_plane pl) (val_pt p) in let e := bpow radix2 (k - 48) in
  ((exists p, In p [t1 t; t2 t; t3 t] /\ e < s p) -> (exists q, In q [t1 t; t2 t; t3 t] /\ s q < - e) -> cutted_by t pl = true) /\
  (cutted_by t pl = true -> (exists p, In p [t1 t; t2 t; t3 t] /\ - e < s p) /\ exists q, In q [t1 t; t2 t; t3 t] /\ s q < e).
Proof. exact cut_doubles. Qed.
Print Assumptions C122_cut.

(** The projection is near the exact one; it is as near to the plane as the normal is near to a unit vector. *)
Theorem C122_project : forall (k : Z), (-350 <= k <= 350)%Z -> forall (pl : Plane3 f64) (p : Point3 f64), plane_fits k pl -> fits_pt k p -> let s := side (val_plane pl) (val_pt p) in
  close_pt (plane_project pl p) (sub3 (val_pt p) (scal3 s (plane_normal (val_plane pl)))) (bpow radix2 (k - 46)) /\
  Rabs (side (val_plane pl) (val_pt (plane_project pl p))) <= bpow radix2 (k - 44) + Rabs s * Rabs (1 - dot3 (plane_normal (val_plane pl)) (plane_normal (val_plane pl))).
Proof. exact proj_doubles. Qed.
Print Assumptions C122_project.

(** Plane and segment: a point that is returned is near the segment and near the plane, however flat the crossing; a crossing with both ends farther than 2^(k-46) from the plane is found. *)
Theorem C122_segment : forall (k : Z), (-350 <= k <= 350)%Z -> forall (pl : Plane3 f64) (p q : Point3 f64), plane_fits k pl -> fits_pt k p -> fits_pt k q ->
  let a := side (val_plane pl) (val_pt p) in let b := side (val_plane pl) (val_pt q) in let e := bpow radix2 (k - 46) in
  exists o, plane_intersect_seg pl (mkSeg p q) = Ok o /\
  match o with
  | Some x => (exists t, 0 < t < 1 /\ close_pt x (lerp3 (val_pt p) (val_pt q) t) (bpow radix2 (k - 51))) /\ Rabs (side (val_plane pl) (val_pt x)) <= e /\ ~ (e < a /\ e < b) /\ ~ (a < - e /\ b < - e)
  | None => ~ (e < a /\ b < - e) /\ ~ (a < - e /\ e < b)
  end.
Proof. exact seg_doubles. Qed.
Print Assumptions C122_segment.

(** Not every crossing is found: the exact signs differ, the answer is no. *)
Theorem C122_segment_refuted : plane_fits 53 far_plane /\ fits_pt 53 (dp (2 ^ 53) 1 0) /\ fits_pt 53 (dp 0 0 0) /\
  side (val_plane far_plane) (val_pt (dp 0 0 0)) < 0 < side (val_plane far_plane) (val_pt (dp (2 ^ 53) 1 0)) /\ plane_intersect_seg far_plane (mkSeg (dp (2 ^ 53) 1 0) (dp 0 0 0)) = Ok None.
Proof. exact missed_crossing. Qed.
Print Assumptions C122_segment_refuted.

(** Boxes are not rounded: the box of finite points is the smallest one ... *)
Theorem C122_boxes : forall l : list (Point3 f64), l <> [] -> Forall fin_pt l -> let b := val_box (fold_left box_add l box_empty) in
  (forall x, In x l -> in_box (box_lo b) (box_hi b) (val_pt x)) /\ (forall lo hi, (forall x, In x l -> in_box lo hi (val_pt x)) -> in_box lo hi (box_lo b) /\ in_box lo hi (box_hi b)).
Proof. exact boxes_doubles. Qed.
Print Assumptions C122_boxes.

(** ... and two of them meet exactly when they share a point. *)
Theorem C122_boxes_meet : forall l l' : list (Point3 f64), l <> [] -> l' <> [] -> Forall fin_pt l -> Forall fin_pt l' -> let a := fold_left box_add l box_empty in let b := fold_left box_add l' box_empty in
  box_intersect a b = true <-> exists x, in_box (box_lo (val_box a)) (box_hi (val_box a)) x /\ in_box (box_lo (val_box b)) (box_hi (val_box b)) x.
Proof. exact meet_doubles. Qed.
Print Assumptions C122_boxes_meet.

(** Triangles that are apart along one axis are never said to meet, whatever their size. *)
Theorem C122_apart : forall s t : Triangle3 f64, let l := [t1 s; t2 s; t3 s] in let l' := [t1 t; t2 t; t3 t] in Forall fin_pt l -> Forall fin_pt l' ->
  (exists c : pt3 -> R, (c = px \/ c = py \/ c = pz) /\ ((forall x y, In x l -> In y l' -> c (val_pt x) < c (val_pt y)) \/ (forall x y, In x l -> In y l' -> c (val_pt y) < c (val_pt x)))) ->
  tri_intersect_tri s t = Ok false.
Proof. exact apart_doubles. Qed.
Print Assumptions C122_apart.

(** The plane z = 1, a segment and a triangle across it; two triangles side by side. *)
Example C122_case : plane_fits 2 flat_plane /\ fits_pt 2 (dp 3 0 4) /\ fits_pt 2 (dp 1 2 (-3)) /\ fits_tri 2 (mkTri (dp 3 0 4) (dp 1 2 (-3)) (dp 0 0 0)) /\
  bpow radix2 (2 - 46) < side (val_plane flat_plane) (val_pt (dp 3 0 4)) /\ side (val_plane flat_plane) (val_pt (dp 1 2 (-3))) < - bpow radix2 (2 - 46) /\
  cutted_by (mkTri (dp 3 0 4) (dp 1 2 (-3)) (dp 0 0 0)) flat_plane = true.
Proof. exact plane_d_case. Qed.
Example C122_apart_case : Forall fin_pt [dp 0 0 0; dp 1 0 0; dp 0 1 0] /\ Forall fin_pt [dp 2 0 0; dp 3 0 0; dp 2 1 0] /\
  forall x y, In x [dp 0 0 0; dp 1 0 0; dp 0 1 0] -> In y [dp 2 0 0; dp 3 0 0; dp 2 1 0] -> px (val_pt x) < px (val_pt y).
Proof. exact box_case. Qed.
