(** Specification of NURBS curves: knots, the Cox-de Boor basis, the rational formula, validity.
    Textbook definitions, independent of the de Boor loops of the code. *)
From Coq Require Import ZArith List Bool Reals.
From Verif Require Import Base Num MGeometry MNurbs SGeom.
Import ListNotations.
Open Scope R_scope.

(** Entry [i] of a list of numbers (0 outside). *)
Definition kn (ks : list R) (i : Z) : R := nth (Z.to_nat i) ks 0.

(** Sum of [f a], [f (a+1)], ... ([n] terms). *)
Fixpoint sumZ (f : Z -> R) (a : Z) (n : nat) : R :=
  match n with O => 0 | S n' => f a + sumZ f (a + 1) n' end.

(** Quotient of the Cox-de Boor recursion: 0/0 counts as 0. *)
Definition frac (a b : R) : R := if Req_EM_T b 0 then 0 else a / b.

(** Span [i] contains the parameter [t]: half-open, except that the last span contains 1. *)
Definition in_span (ks : list R) (i : Z) (t : R) : Prop :=
  (t < 1 /\ kn ks i <= t < kn ks (i + 1)) \/ (1 <= t /\ kn ks i < t <= kn ks (i + 1)).
Definition in_span_dec ks i t : {in_span ks i t} + {~ in_span ks i t}.
Proof.
  unfold in_span. destruct (Rlt_dec t 1), (Rle_dec (kn ks i) t), (Rlt_dec t (kn ks (i + 1))), (Rlt_dec (kn ks i) t),
    (Rle_dec t (kn ks (i + 1))), (Rle_dec 1 t); try (left; tauto); right; tauto.
Defined.

(** The B-spline basis function of degree [p] and index [i] (Cox-de Boor). *)
Fixpoint basis (ks : list R) (p : nat) (i : Z) (t : R) : R :=
  match p with
  | O => if in_span_dec ks i t then 1 else 0
  | S q =>
      frac (t - kn ks i) (kn ks (i + Z.of_nat p) - kn ks i) * basis ks q i t +
      frac (kn ks (i + Z.of_nat p + 1) - t) (kn ks (i + Z.of_nat p + 1) - kn ks (i + 1)) * basis ks q (i + 1) t
  end.

(** A sorted knot vector for [n] control points and degree [p], running from 0 to 1 with the end
    knots repeated [p + 1] times (or more). *)
Definition clamped (ks : list R) (p n : Z) : Prop :=
  (0 <= p < n)%Z /\ vsize ks = (n + p + 1)%Z /\
  (forall i j, (0 <= i <= j)%Z -> (j < n + p + 1)%Z -> kn ks i <= kn ks j) /\
  (forall i, (0 <= i <= p)%Z -> kn ks i = 0) /\
  (forall i, (n <= i <= n + p)%Z -> kn ks i = 1).
(** The end knots are repeated exactly [p + 1] times. *)
Definition tight (ks : list R) (p n : Z) : Prop := kn ks (p + 1) > 0 /\ kn ks (n - 1) < 1.

(** A curve that is ready to be evaluated: consistent sizes, clamped knots, positive weights, and
    set_degree was called for its degree. *)
Definition valid (c : NurbsCurve R) : Prop :=
  let n := vsize (nc_points c) in
  nc_nb c = n /\ vsize (nc_weights c) = n /\ clamped (nc_knots c) (nc_degree c) n /\
  Forall (fun w => 0 < w) (nc_weights c) /\
  (nc_degree c + 1 <= vsize (nc_tp c))%Z /\ (nc_degree c + 1 <= vsize (nc_tw c))%Z.

(** Control point and weight number [i]. *)
Definition cp (c : NurbsCurve R) (i : Z) : pt3 := nth (Z.to_nat i) (nc_points c) O3.
Definition cw (c : NurbsCurve R) (i : Z) : R := nth (Z.to_nat i) (nc_weights c) 0.

(** The curve point of parameter [t]: sum of N_i w_i P_i over sum of N_i w_i. *)
Definition nurbs_sum (c : NurbsCurve R) (f : Z -> R) (t : R) : R :=
  sumZ (fun i => basis (nc_knots c) (Z.to_nat (nc_degree c)) i t * cw c i * f i) 0 (length (nc_points c)).
Definition nurbs_den (c : NurbsCurve R) (t : R) : R := nurbs_sum c (fun _ => 1) t.
Definition nurbs_at (c : NurbsCurve R) (t : R) : pt3 :=
  let d := nurbs_den c t in
  mkP (nurbs_sum c (fun i => px (cp c i)) t / d) (nurbs_sum c (fun i => py (cp c i)) t / d)
      (nurbs_sum c (fun i => pz (cp c i)) t / d).

(** The client cannot tell the two curves apart by their data. *)
Definition same_data (c c' : NurbsCurve R) : Prop :=
  nc_degree c' = nc_degree c /\ nc_knots c' = nc_knots c /\ nc_weights c' = nc_weights c /\
  nc_points c' = nc_points c /\ nc_nb c' = nc_nb c.

(** The point returned by evaluate. *)
Definition point_of {T} (r : res (Point3 T * NurbsCurve T)) : res (Point3 T) := do x <- r; Ok (fst x).

(** Interior knots repeated at most [p] times, end knots exactly [p + 1] times (the curve is continuous). *)
Definition regular (ks : list R) (p n : Z) : Prop := forall j, (1 <= j <= n - 1)%Z -> kn ks j < kn ks (j + p).

(** A knot vector in increasing order. *)
Definition sorted (ks : list R) : Prop := forall i j, (0 <= i <= j)%Z -> (j < vsize ks)%Z -> kn ks i <= kn ks j.

(** Affine maps of space. *)
Definition affine3 (f : pt3 -> pt3) : Prop := exists a b c d,
  forall p, f p = add3 (add3 (scal3 (px p) a) (scal3 (py p) b)) (add3 (scal3 (pz p) c) d).

(** Number of non-empty spans. *)
Fixpoint spans (ks : list R) : Z :=
  match ks with
  | a :: ((b :: _) as tl) => (if Req_EM_T a b then 0 else 1) + spans tl
  | _ => 0
  end%Z.

(** The two curves have the same homogeneous points at [t] (numerators and denominator). *)
Definition same_hom (c c' : NurbsCurve R) (t : R) : Prop :=
  nurbs_den c' t = nurbs_den c t /\
  nurbs_sum c' (fun j => px (cp c' j)) t = nurbs_sum c (fun j => px (cp c j)) t /\
  nurbs_sum c' (fun j => py (cp c' j)) t = nurbs_sum c (fun j => py (cp c j)) t /\
  nurbs_sum c' (fun j => pz (cp c' j)) t = nurbs_sum c (fun j => pz (cp c j)) t.
