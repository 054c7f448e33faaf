(** Planes in doubles: projections and crossings with segments. *)
From Coq Require Import ZArith List Bool Reals Lra Lia Psatz.
From Flocq Require Import Core IEEE754.Binary IEEE754.Bits IEEE754.BinarySingleNaN.
From Verif Require Import Base Num MGeometry MStl MF64 SGeom SErr SErrN SPlaneD LBase LGeom LF64 LF64Arith LF64Ord LErr1 LErr2 LErr3 LErr10 LPlaneD LPlaneD2.
Import ListNotations.
Open Scope R_scope.

Lemma side_move pl p q e : Rabs (pa pl) <= 2 -> Rabs (pb pl) <= 2 -> Rabs (pc pl) <= 2 -> Rabs (px p - px q) <= e -> Rabs (py p - py q) <= e -> Rabs (pz p - pz q) <= e -> Rabs (side pl p - side pl q) <= 6 * e.
Proof.
  intros A B C X Y Z. pose proof (abs_prod _ _ _ _ A X) as P1. pose proof (abs_prod _ _ _ _ B Y) as P2. pose proof (abs_prod _ _ _ _ C Z) as P3. unfold side.
  replace (_ - _) with (pa pl * (px p - px q) + pb pl * (py p - py q) + pc pl * (pz p - pz q)) by ring.
  eapply Rle_trans; [apply Rabs_triang|]. pose proof (Rabs_triang (pa pl * (px p - px q)) (pb pl * (py p - py q))). lra.
Qed.
Lemma fits_ap k x : fits k x -> ap x (V64 x) 0 (bpow radix2 k). Proof. apply ap_exact. Qed.
Lemma side_lerp pl p q t : side pl (lerp3 p q t) = side pl p + t * (side pl q - side pl p).
Proof. unfold side, lerp3, add3, scal3, sub3. cbn [px py pz]. ring. Qed.
Section Plane.
Variable k : Z.
Hypothesis Hk : (-350 <= k <= 350)%Z.
Let S0 := bpow radix2 k.
Let U1 : 0 < uu * S0 <= S0 / 1000000 := uS k.
Let SP : 0 < S0 := S0_pos k.
Lemma q2 (c : Z) n : bpow radix2 c = n -> bpow radix2 (k + c) = n * S0. Proof. apply p2. Qed.
Lemma q2e (c d : Z) n : (c - 54 = d - 53)%Z -> bpow radix2 d = n -> bpow radix2 (k + c - 54) = n * (uu * S0). Proof. apply p2e. Qed.

(** Projection. *)
Lemma proj_doubles (pl : Plane3 f64) (p : Point3 f64) : plane_fits k pl -> fits_pt k p -> let s := side (val_plane pl) (val_pt p) in
  close_pt (plane_project pl p) (sub3 (val_pt p) (scal3 s (plane_normal (val_plane pl)))) (bpow radix2 (k - 46)) /\
  Rabs (side (val_plane pl) (val_pt (plane_project pl p))) <= bpow radix2 (k - 44) + Rabs s * Rabs (1 - dot3 (plane_normal (val_plane pl)) (plane_normal (val_plane pl))).
Proof.
  intros A B s. pose proof (dist_ap k Hk pl p A B) as D. fold S0 in D. fold s in D. pose proof A as (A1 & A2 & A3 & _). pose proof B as (B1 & B2 & B3).
  assert (forall n x : f64, fits 1 n -> fits k x -> ap (b64_minus mode_NE x (b64_mult mode_NE (plane_distance pl p) n)) (V64 x - s * V64 n) (82 * (uu * S0)) (64 * S0)) as M.
  { intros n x Fn Fx. pose proof (fits_ap 1 n Fn) as An. pose proof (fits_ap k x Fx) as Ax. fold S0 in Ax.
    pose proof (ap_mul _ _ _ _ _ _ _ _ 2 (k + 5) D An ltac:(apply Fn) ltac:(rewrite (q2 5 32 eq_refl); change (bpow radix2 1) with 2; lra) ltac:(lia)) as Q.
    rewrite (q2 5 32 eq_refl), (q2e 5 4 16 ltac:(lia) eq_refl) in Q.
    pose proof (ap_sub _ _ _ _ _ _ _ _ (k + 6) Ax Q ltac:(rewrite (q2 6 64 eq_refl); lra) ltac:(lia)) as Q2. rewrite (q2 6 64 eq_refl), (q2e 6 5 32 ltac:(lia) eq_refl) in Q2.
    eapply ap_weak; [exact Q2| |]; lra. }
  pose proof (M _ _ A1 B1) as (F1' & E1 & _). pose proof (M _ _ A2 B2) as (F2' & E2 & _). pose proof (M _ _ A3 B3) as (F3' & E3 & _).
  set (w := sub3 (val_pt p) (scal3 s (plane_normal (val_plane pl)))).
  assert (bpow radix2 (k - 46) = 128 * (uu * S0)) as W by apply e46.
  split.
  - rewrite W. split; [|split]; (split; [assumption|]).
    + change (Rabs (V64 (px (plane_project pl p)) - (V64 (px p) - s * V64 (pa pl))) <= 128 * (uu * S0)). change (Rabs (V64 (px (plane_project pl p)) - (V64 (px p) - s * V64 (pa pl))) <= 82 * (uu * S0)) in E1. lra.
    + change (Rabs (V64 (py (plane_project pl p)) - (V64 (py p) - s * V64 (pb pl))) <= 128 * (uu * S0)). change (Rabs (V64 (py (plane_project pl p)) - (V64 (py p) - s * V64 (pb pl))) <= 82 * (uu * S0)) in E2. lra.
    + change (Rabs (V64 (pz (plane_project pl p)) - (V64 (pz p) - s * V64 (pc pl))) <= 128 * (uu * S0)). change (Rabs (V64 (pz (plane_project pl p)) - (V64 (pz p) - s * V64 (pc pl))) <= 82 * (uu * S0)) in E3. lra.
  - pose proof (side_move (val_plane pl) (val_pt (plane_project pl p)) w (82 * (uu * S0)) (proj2 A1) (proj2 A2) (proj2 A3) E1 E2 E3) as Mv.
    assert (side (val_plane pl) w = s * (1 - dot3 (plane_normal (val_plane pl)) (plane_normal (val_plane pl)))) as Ew.
    { unfold w, s, side, sub3, scal3, dot3, plane_normal. cbn [px py pz]. ring. }
    rewrite <- Rabs_mult, <- Ew. replace (bpow radix2 (k - 44)) with (512 * (uu * S0)) by (symmetry; apply e44).
    revert Mv. unfold Rabs at 1 2 3. repeat destruct Rcase_abs; lra.
Qed.

(** The denominator of the crossing. *)
Lemma slope_ap (pl : Plane3 f64) (p q : Point3 f64) : plane_fits k pl -> fits_pt k p -> fits_pt k q ->
  ap (pa pl * (px q - px p) + pb pl * (py q - py p) + pc pl * (pz q - pz p))%num (side (val_plane pl) (val_pt q) - side (val_plane pl) (val_pt p)) (24 * (uu * S0)) (16 * S0).
Proof.
  intros (A & B & C & _) (X & Y & Z) (X' & Y' & Z').
  assert (forall n x y : f64, fits 1 n -> fits k x -> fits k y -> ap (b64_mult mode_NE n (b64_minus mode_NE y x)) (V64 n * (V64 y - V64 x)) (4 * (uu * S0)) (4 * S0)) as M.
  { intros n x y Fn Fx Fy. pose proof (fits_ap k x Fx) as Ax. pose proof (fits_ap k y Fy) as Ay. fold S0 in Ax, Ay.
    pose proof (ap_sub _ _ _ _ _ _ _ _ (k + 1) Ay Ax ltac:(rewrite (q2 1 2 eq_refl); lra) ltac:(lia)) as Q. rewrite (q2e 1 0 1 ltac:(lia) eq_refl) in Q.
    assert (ap (b64_minus mode_NE y x) (V64 y - V64 x) (1 * (uu * S0)) (bpow radix2 (k + 1))) as Q' by (eapply ap_weak; [exact Q| |]; lra).
    pose proof (coef_mul k Hk n _ _ 1 1 Fn Q' ltac:(lia)) as Q3. replace (k + (1 + 1))%Z with (k + 2)%Z in Q3 by lia. fold S0 in Q3. rewrite (q2 2 4 eq_refl), (q2e 2 1 2 ltac:(lia) eq_refl) in Q3.
    eapply ap_weak; [exact Q3| |]; lra. }
  pose proof (ap_add _ _ _ _ _ _ _ _ (k + 3) (M _ _ _ A X X') (M _ _ _ B Y Y') ltac:(rewrite (q2 3 8 eq_refl); lra) ltac:(lia)) as Q1. rewrite (q2 3 8 eq_refl), (q2e 3 2 4 ltac:(lia) eq_refl) in Q1.
  pose proof (ap_add _ _ _ _ _ _ _ _ (k + 4) Q1 (M _ _ _ C Z Z') ltac:(rewrite (q2 4 16 eq_refl); lra) ltac:(lia)) as Q2. rewrite (q2 4 16 eq_refl), (q2e 4 3 8 ltac:(lia) eq_refl) in Q2.
  unfold side, val_plane, val_pt. cbn [pa pb pc pd px py pz].
  replace (val (pa pl) * val (px q) + val (pb pl) * val (py q) + val (pc pl) * val (pz q) + val (pd pl) - (val (pa pl) * val (px p) + val (pb pl) * val (py p) + val (pc pl) * val (pz p) + val (pd pl)))
    with (V64 (pa pl) * (V64 (px q) - V64 (px p)) + V64 (pb pl) * (V64 (py q) - V64 (py p)) + V64 (pc pl) * (V64 (pz q) - V64 (pz p))) by (unfold val; ring).
  eapply ap_weak; [exact Q2| |]; lra.
Qed.
(** The point of the segment. *)
Lemma along_ap (x y t : f64) : fits k x -> fits k y -> fin64 t = true -> 0 <= V64 t <= 1 ->
  ap (b64_plus mode_NE x (b64_mult mode_NE t (b64_minus mode_NE y x))) (V64 x + V64 t * (V64 y - V64 x)) (4 * (uu * S0)) (4 * S0).
Proof.
  intros Fx Fy Ft Ht. pose proof (fits_ap k x Fx) as Ax. pose proof (fits_ap k y Fy) as Ay. fold S0 in Ax, Ay.
  pose proof (ap_sub _ _ _ _ _ _ _ _ (k + 1) Ay Ax ltac:(rewrite (q2 1 2 eq_refl); lra) ltac:(lia)) as Q. rewrite (q2 1 2 eq_refl), (q2e 1 0 1 ltac:(lia) eq_refl) in Q.
  assert (ap t (V64 t) 0 1) as At by (split; [exact Ft|]; split; [rewrite Rminus_diag_eq, Rabs_R0 by reflexivity; lra|rewrite Rabs_pos_eq; lra]).
  assert (Rabs (V64 y - V64 x) <= 2 * S0) as Bd by (destruct Ax as (_ & _ & X1); destruct Ay as (_ & _ & Y1); revert X1 Y1; unfold Rabs; repeat destruct Rcase_abs; lra).
  pose proof (ap_mul _ _ _ _ _ _ _ _ (2 * S0) (k + 1) At Q Bd ltac:(rewrite (q2 1 2 eq_refl); lra) ltac:(lia)) as Q1. rewrite (q2 1 2 eq_refl), (q2e 1 0 1 ltac:(lia) eq_refl) in Q1.
  pose proof (ap_add _ _ _ _ _ _ _ _ (k + 2) Ax Q1 ltac:(rewrite (q2 2 4 eq_refl); lra) ltac:(lia)) as Q2. rewrite (q2 2 4 eq_refl), (q2e 2 1 2 ltac:(lia) eq_refl) in Q2.
  eapply ap_weak; [exact Q2| |]; lra.
Qed.
Definition crossing (p q : Point3 f64) (t : f64) : Point3 f64 := mkP (px p + t * (px q - px p))%num (py p + t * (py q - py p))%num (pz p + t * (pz q - pz p))%num.
Lemma seg_cases (pl : Plane3 f64) (p q : Point3 f64) :
  let u := (pa pl * (px q - px p) + pb pl * (py q - py p) + pc pl * (pz q - pz p))%num in let t := b64_div mode_NE (b64_opp (plane_distance pl p)) u in
  plane_intersect_seg pl (mkSeg p q) = Ok (if f64_eqb u n0 then None else if f64_leb t n0 || f64_leb n1 t then None else Some (crossing p q t)).
Proof.
  intros u t. unfold plane_intersect_seg. cbn [s1 s2]. cbv zeta. fold u. change (@neqb f64 F64Num) with f64_eqb. destruct (f64_eqb u n0); [reflexivity|].
  change (@ndiv f64 F64Num) with (fun x y : f64 => Ok (b64_div mode_NE x y)). cbv beta. cbn [bind]. change (@nleb f64 F64Num) with f64_leb. change (b64_div mode_NE (- (pa pl * px p + pb pl * py p + pc pl * pz p + pd pl))%num u) with t.
  destruct (f64_leb t n0 || f64_leb n1 t); reflexivity.
Qed.
End Plane.
