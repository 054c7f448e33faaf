(** Boxes in doubles, and cases. *)
From Coq Require Import ZArith List Bool Reals Lra Lia Psatz.
From Flocq Require Import Core IEEE754.Binary IEEE754.Bits IEEE754.BinarySingleNaN.
From Verif Require Import Base Num MGeometry MStl MF64 SGeom SErr SErrN SPlaneD LBase LGeom LF64 LF64Arith LF64Ord LErr1 LErr2 LErr3 LErr10 LErrEx LPlaneD LPlaneD2 LPlaneD3 LPlaneD4.
Import ListNotations.
Open Scope R_scope.

Lemma ltb_val (x y : f64) : fin x -> fin y -> f64_ltb x y = Rltb (val x) (val y).
Proof.
  intros Fx Fy. destruct (Rltb (val x) (val y)) eqn:E.
  - apply (ltb_fin x y Fx Fy). apply Rltb_lt in E. exact E.
  - apply not_true_is_false. intros H. apply (ltb_fin x y Fx Fy) in H. apply Rltb_ge in E. unfold val in E. lra.
Qed.
Definition fin_box (b : BBox3 f64) : Prop := fin (bx1 b) /\ fin (by1 b) /\ fin (bz1 b) /\ fin (bx2 b) /\ fin (by2 b) /\ fin (bz2 b).
Lemma axis_val (x lo hi : f64) : fin x -> fin lo -> fin hi -> let r := axis_add x lo hi in axis_add (val x) (val lo) (val hi) = (val (fst r), val (snd r)) /\ fin (fst r) /\ fin (snd r).
Proof.
  intros X L H. unfold axis_add. change (@nltb f64 F64Num) with f64_ltb. change (@nltb R RNum) with Rltb. rewrite (ltb_val x lo X L), (ltb_val hi x H X).
  destruct (Rltb (val x) (val lo)); [|destruct (Rltb (val hi) (val x))]; cbn; auto.
Qed.
Lemma add_val b p : fin_box b -> fin_pt p -> val_box (box_add b p) = box_add (val_box b) (val_pt p) /\ fin_box (box_add b p).
Proof.
  intros (B1 & B2 & B3 & B4 & B5 & B6) (P1 & P2 & P3). unfold box_add, val_box, val_pt. cbn [bx1 by1 bz1 bx2 by2 bz2 binit px py pz].
  destruct (negb (binit b)); [split; [reflexivity|]; repeat split; assumption|].
  destruct (axis_val (px p) (bx1 b) (bx2 b) P1 B1 B4) as (E1 & F1' & F1''). destruct (axis_val (py p) (by1 b) (by2 b) P2 B2 B5) as (E2 & F2' & F2''). destruct (axis_val (pz p) (bz1 b) (bz2 b) P3 B3 B6) as (E3 & F3' & F3'').
  rewrite E1, E2, E3. destruct (axis_add (px p) (bx1 b) (bx2 b)), (axis_add (py p) (by1 b) (by2 b)), (axis_add (pz p) (bz1 b) (bz2 b)). cbn [fst snd] in *. split; [reflexivity|]. repeat split; assumption.
Qed.
Lemma empty_val : val_box box_empty = box_empty /\ fin_box box_empty.
Proof. split; [reflexivity|repeat split]. Qed.
Lemma fold_val l : forall b, fin_box b -> Forall fin_pt l -> val_box (fold_left box_add l b) = fold_left box_add (map val_pt l) (val_box b) /\ fin_box (fold_left box_add l b).
Proof.
  induction l as [|p l IH]; intros b B H; [split; [reflexivity|exact B]|]. inversion H as [|? ? H1 H2]; subst. destruct (add_val b p B H1) as [E F]. cbn [fold_left map]. rewrite <- E. apply IH; assumption.
Qed.
Lemma intersect_val a b : fin_box a -> fin_box b -> box_intersect a b = box_intersect (val_box a) (val_box b).
Proof.
  intros (A1 & A2 & A3 & A4 & A5 & A6) (B1 & B2 & B3 & B4 & B5 & B6). unfold box_intersect, val_box. cbn [bx1 by1 bz1 bx2 by2 bz2]. change (@nltb f64 F64Num) with f64_ltb. change (@nltb R RNum) with Rltb.
  rewrite !ltb_val by assumption. reflexivity.
Qed.
(** The box of doubles is exactly the smallest one. *)
Lemma boxes_doubles (l : list (Point3 f64)) : l <> [] -> Forall fin_pt l -> let b := val_box (fold_left box_add l box_empty) in
  (forall x, In x l -> in_box (box_lo b) (box_hi b) (val_pt x)) /\ (forall lo hi, (forall x, In x l -> in_box lo hi (val_pt x)) -> in_box lo hi (box_lo b) /\ in_box lo hi (box_hi b)).
Proof.
  intros N F b. destruct empty_val as [E0 G0]. destruct (fold_val l box_empty G0 F) as [E _]. fold b in E. rewrite E0 in E.
  destruct (box_smallest (map val_pt l)) as [A B]; [destruct l; [congruence|discriminate]|]. change (box_of (map val_pt l)) with (fold_left box_add (map val_pt l) box_empty) in A, B. rewrite <- E in A, B. split.
  - intros x Hx. apply A. apply in_map, Hx.
  - intros lo hi H. apply B. intros y Hy. apply in_map_iff in Hy. destruct Hy as (x & <- & Hx). apply H, Hx.
Qed.
Lemma meet_doubles (l l' : list (Point3 f64)) : l <> [] -> l' <> [] -> Forall fin_pt l -> Forall fin_pt l' -> let a := fold_left box_add l box_empty in let b := fold_left box_add l' box_empty in
  box_intersect a b = true <-> exists x, in_box (box_lo (val_box a)) (box_hi (val_box a)) x /\ in_box (box_lo (val_box b)) (box_hi (val_box b)) x.
Proof.
  intros N N' F F' a b. destruct empty_val as [E0 G0]. destruct (fold_val l box_empty G0 F) as [_ Ga]. destruct (fold_val l' box_empty G0 F') as [_ Gb]. fold a in Ga. fold b in Gb. rewrite (intersect_val a b Ga Gb).
  assert (forall l0, l0 <> [] -> Forall fin_pt l0 -> let c := val_box (fold_left box_add l0 box_empty) in in_box (box_lo c) (box_hi c) (box_lo c)) as P.
  { intros l0 N0 F00 c. destruct (boxes_doubles l0 N0 F00) as [A B]. apply (B _ _ A). }
  apply (box_intersect_exact (val_box a) (val_box b) (P l N F) (P l' N' F')).
Qed.
(** Triangles apart along one axis are never found to meet. *)
Lemma apart_doubles (s t : Triangle3 f64) : let l := [t1 s; t2 s; t3 s] in let l' := [t1 t; t2 t; t3 t] in Forall fin_pt l -> Forall fin_pt l' ->
  (exists c : pt3 -> R, (c = px \/ c = py \/ c = pz) /\ ((forall x y, In x l -> In y l' -> c (val_pt x) < c (val_pt y)) \/ (forall x y, In x l -> In y l' -> c (val_pt y) < c (val_pt x)))) ->
  tri_intersect_tri s t = Ok false.
Proof.
  intros l l' F F' (c & Hc & H). unfold tri_intersect_tri.
  assert (box_intersect (box_of_triangle s) (box_of_triangle t) = false) as ->; [|reflexivity].
  change (box_of_triangle s) with (fold_left box_add l box_empty). change (box_of_triangle t) with (fold_left box_add l' box_empty).
  apply not_true_is_false. intros M. apply (meet_doubles l l' ltac:(discriminate) ltac:(discriminate) F F') in M. destruct M as (z & Z1 & Z2).
  assert (forall l0 m, l0 <> [] -> Forall fin_pt l0 -> (forall x, In x l0 -> c (val_pt x) < m) -> forall z, in_box (box_lo (val_box (fold_left box_add l0 box_empty))) (box_hi (val_box (fold_left box_add l0 box_empty))) z -> c z < m) as Up.
  { intros l0 m N0 F00 Hm z0 Hz. destruct (boxes_doubles l0 N0 F00) as [A B].
    assert (exists x0, In x0 l0 /\ forall x, In x l0 -> c (val_pt x) <= c (val_pt x0)) as (x0 & I0 & M0).
    { clear - N0. induction l0 as [|y l0 IH]; [congruence|]. destruct l0 as [|y' l0]; [exists y; split; [left; reflexivity|intros x [<- | []]; lra]|].
      destruct IH as (x0 & I0 & M0); [discriminate|]. destruct (Rle_dec (c (val_pt x0)) (c (val_pt y))) as [L|L]; [exists y|exists x0].
      - split; [left; reflexivity|]. intros x [<- |Hx]; [lra|]. specialize (M0 x Hx). lra.
      - split; [right; exact I0|]. intros x [<- |Hx]; [lra|]. apply M0, Hx. }
    set (bb := val_box (fold_left box_add l0 box_empty)) in *. set (h := c (val_pt x0)) in *. specialize (Hm x0 I0). fold h in Hm.
    destruct Hc as [-> | [-> | ->]].
    - destruct (B (box_lo bb) (mkP h (py (box_hi bb)) (pz (box_hi bb)))) as [_ T]; [intros x Hx; pose proof (A x Hx) as W; specialize (M0 x Hx); unfold in_box in *; cbn [px py pz]; lra|unfold in_box in *; cbn [px py pz] in *; lra].
    - destruct (B (box_lo bb) (mkP (px (box_hi bb)) h (pz (box_hi bb)))) as [_ T]; [intros x Hx; pose proof (A x Hx) as W; specialize (M0 x Hx); unfold in_box in *; cbn [px py pz]; lra|unfold in_box in *; cbn [px py pz] in *; lra].
    - destruct (B (box_lo bb) (mkP (px (box_hi bb)) (py (box_hi bb)) h)) as [_ T]; [intros x Hx; pose proof (A x Hx) as W; specialize (M0 x Hx); unfold in_box in *; cbn [px py pz]; lra|unfold in_box in *; cbn [px py pz] in *; lra]. }
  assert (forall l0 l1, l0 <> [] -> l1 <> [] -> Forall fin_pt l0 -> Forall fin_pt l1 -> (forall x y, In x l0 -> In y l1 -> c (val_pt x) < c (val_pt y)) ->
    in_box (box_lo (val_box (fold_left box_add l0 box_empty))) (box_hi (val_box (fold_left box_add l0 box_empty))) z ->
    in_box (box_lo (val_box (fold_left box_add l1 box_empty))) (box_hi (val_box (fold_left box_add l1 box_empty))) z -> False) as Sep.
  { intros l0 l1 N0 N1 G0 G1 Hs I0 I1. destruct (boxes_doubles l1 N1 G1) as [A B]. set (bb := val_box (fold_left box_add l1 box_empty)) in *.
    assert (forall y, In y l1 -> c z < c (val_pt y)) as L by (intros y Hy; apply (Up l0 (c (val_pt y)) N0 G0); [intros x Hx; apply Hs; assumption|exact I0]).
    assert (exists y0, In y0 l1 /\ forall y, In y l1 -> c (val_pt y0) <= c (val_pt y)) as (y0 & J0 & M0).
    { clear - N1. induction l1 as [|y l1 IH]; [congruence|]. destruct l1 as [|y' l1]; [exists y; split; [left; reflexivity|intros x [<- | []]; lra]|].
      destruct IH as (x0 & I0 & M0); [discriminate|]. destruct (Rle_dec (c (val_pt y)) (c (val_pt x0))) as [L|L]; [exists y|exists x0].
      - split; [left; reflexivity|]. intros x [<- |Hx]; [lra|]. specialize (M0 x Hx). lra.
      - split; [right; exact I0|]. intros x [<- |Hx]; [lra|]. apply M0, Hx. }
    specialize (L y0 J0). set (h := c (val_pt y0)) in *.
    destruct Hc as [-> | [-> | ->]].
    - destruct (B (mkP h (py (box_lo bb)) (pz (box_lo bb))) (box_hi bb)) as [T _]; [intros x Hx; pose proof (A x Hx) as W; specialize (M0 x Hx); unfold in_box in *; cbn [px py pz]; lra|unfold in_box in *; cbn [px py pz] in *; lra].
    - destruct (B (mkP (px (box_lo bb)) h (pz (box_lo bb))) (box_hi bb)) as [T _]; [intros x Hx; pose proof (A x Hx) as W; specialize (M0 x Hx); unfold in_box in *; cbn [px py pz]; lra|unfold in_box in *; cbn [px py pz] in *; lra].
    - destruct (B (mkP (px (box_lo bb)) (py (box_lo bb)) h) (box_hi bb)) as [T _]; [intros x Hx; pose proof (A x Hx) as W; specialize (M0 x Hx); unfold in_box in *; cbn [px py pz]; lra|unfold in_box in *; cbn [px py pz] in *; lra]. }
  destruct H as [H|H]; [exact (Sep l l' ltac:(discriminate) ltac:(discriminate) F F' H Z1 Z2)|].
  exact (Sep l' l ltac:(discriminate) ltac:(discriminate) F' F (fun x y Hx Hy => H y x Hy Hx) Z2 Z1).
Qed.

(** A crossing that is missed: the plane x + y = 2^53 and the end (2^53, 1, 0), a distance above it. *)
Definition far_plane : Plane3 f64 := mkPlane (f64_ofZ 1) (f64_ofZ 1) (f64_ofZ 0) (f64_ofZ (- 2 ^ 53)).
Definition missed (r : res (option (Point3 f64))) : bool := match r with Ok None => true | _ => false end.
Lemma vz z : (Z.abs z <= 2 ^ 53)%Z -> fin (f64_ofZ z) /\ val (f64_ofZ z) = IZR z.
Proof. intros H. destruct (ofZ_ok z H) as [A B]. split; assumption. Qed.
Lemma vz_fits k z : (Z.abs z <= 2 ^ 53)%Z -> Rabs (IZR z) <= bpow radix2 k -> fits k (f64_ofZ z).
Proof. intros H B. destruct (vz z H) as [F E]. split; [exact F|]. rewrite E. exact B. Qed.
Lemma far_fits : plane_fits 53 far_plane /\ fits_pt 53 (dp (2 ^ 53) 1 0) /\ fits_pt 53 (dp 0 0 0).
Proof.
  assert (forall z, Rabs (IZR z) = IZR (Z.abs z)) as Az by (intros z; rewrite abs_IZR; reflexivity).
  assert (forall k n z, bpow radix2 k = IZR n -> (Z.abs z <= n)%Z -> (Z.abs z <= 2 ^ 53)%Z -> fits k (f64_ofZ z)) as G by (intros k n z E H H'; apply vz_fits; [exact H'|rewrite Az, E; apply IZR_le; exact H]).
  assert (bpow radix2 53 = IZR (2 ^ 53)) as W1 by reflexivity. assert (bpow radix2 (53 + 3) = IZR (2 ^ 56)) as W2 by reflexivity. assert (bpow radix2 1 = IZR 2) as W3 by reflexivity.
  assert (plane_fits 53 far_plane) as A by (refine (conj (G _ _ 1%Z W3 _ _) (conj (G _ _ 1%Z W3 _ _) (conj (G _ _ 0%Z W3 _ _) (G _ _ (- 2 ^ 53)%Z W2 _ _)))); vm_compute; discriminate).
  split; [exact A|]. split.
  - refine (conj (G _ _ (2 ^ 53)%Z W1 _ _) (conj (G _ _ 1%Z W1 _ _) (G _ _ 0%Z W1 _ _))); vm_compute; discriminate.
  - refine (conj (G _ _ 0%Z W1 _ _) (conj (G _ _ 0%Z W1 _ _) (G _ _ 0%Z W1 _ _))); vm_compute; discriminate.
Qed.
Lemma missed_crossing : plane_fits 53 far_plane /\ fits_pt 53 (dp (2 ^ 53) 1 0) /\ fits_pt 53 (dp 0 0 0) /\
  side (val_plane far_plane) (val_pt (dp 0 0 0)) < 0 < side (val_plane far_plane) (val_pt (dp (2 ^ 53) 1 0)) /\ plane_intersect_seg far_plane (mkSeg (dp (2 ^ 53) 1 0) (dp 0 0 0)) = Ok None.
Proof.
  destruct far_fits as (A & B & C). do 3 (split; [assumption|]). split.
  - unfold side, val_plane, far_plane, val_pt, dp. cbn [pa pb pc pd px py pz]. rewrite !(fun z H => proj2 (vz z H)) by (vm_compute; discriminate). change (2 ^ 53)%Z with 9007199254740992%Z. change (- (9007199254740992))%Z with (-9007199254740992)%Z. lra.
  - assert (missed (plane_intersect_seg far_plane (mkSeg (dp (2 ^ 53) 1 0) (dp 0 0 0))) = true) as M by (vm_compute; reflexivity). revert M. destruct (plane_intersect_seg _ _) as [[x|]|f]; cbn; congruence.
Qed.
(** The plane z = 1 and a segment across it. *)
Definition flat_plane : Plane3 f64 := mkPlane (f64_ofZ 0) (f64_ofZ 0) (f64_ofZ 1) (f64_ofZ (-1)).
Lemma plane_d_case : plane_fits 2 flat_plane /\ fits_pt 2 (dp 3 0 4) /\ fits_pt 2 (dp 1 2 (-3)) /\ fits_tri 2 (mkTri (dp 3 0 4) (dp 1 2 (-3)) (dp 0 0 0)) /\
  bpow radix2 (2 - 46) < side (val_plane flat_plane) (val_pt (dp 3 0 4)) /\ side (val_plane flat_plane) (val_pt (dp 1 2 (-3))) < - bpow radix2 (2 - 46) /\
  cutted_by (mkTri (dp 3 0 4) (dp 1 2 (-3)) (dp 0 0 0)) flat_plane = true.
Proof.
  assert (forall z, Rabs (IZR z) = IZR (Z.abs z)) as Az by (intros z; rewrite abs_IZR; reflexivity).
  assert (bpow radix2 2 = 4 /\ bpow radix2 5 = 32 /\ bpow radix2 1 = 2) as (W1 & W2 & W3) by (repeat split; reflexivity).
  assert (forall k n z, bpow radix2 k = IZR n -> (Z.abs z <= n)%Z -> (n <= 2 ^ 53)%Z -> fits k (f64_ofZ z)) as G by (intros k n z E H H'; apply vz_fits; [lia|rewrite Az, E; apply IZR_le; exact H]).
  assert (plane_fits 2 flat_plane) as A by (repeat apply conj; [apply (G 1%Z 2%Z); [reflexivity|lia|lia]..|apply (G (2 + 3)%Z 32%Z); [reflexivity|lia|lia]]).
  assert (forall x y z, (Z.abs x <= 4)%Z -> (Z.abs y <= 4)%Z -> (Z.abs z <= 4)%Z -> fits_pt 2 (dp x y z)) as B by (intros x y z X Y Z; repeat apply conj; cbn [dp px py pz]; (apply (G 2%Z 4%Z); [reflexivity|lia|lia])).
  split; [exact A|]. split; [apply B; lia|]. split; [apply B; lia|]. split; [repeat apply conj; apply B; lia|].
  assert (bpow radix2 (2 - 46) = / 17592186044416) as W by reflexivity. rewrite W.
  unfold side, val_plane, flat_plane, val_pt, dp. cbn [pa pb pc pd px py pz]. rewrite !(fun z H => proj2 (vz z H)) by (vm_compute; discriminate). split; [lra|]. split; [lra|]. vm_compute. reflexivity.
Qed.
Lemma box_case : Forall fin_pt [dp 0 0 0; dp 1 0 0; dp 0 1 0] /\ Forall fin_pt [dp 2 0 0; dp 3 0 0; dp 2 1 0] /\
  forall x y, In x [dp 0 0 0; dp 1 0 0; dp 0 1 0] -> In y [dp 2 0 0; dp 3 0 0; dp 2 1 0] -> px (val_pt x) < px (val_pt y).
Proof.
  assert (forall x y z, (Z.abs x <= 4)%Z -> (Z.abs y <= 4)%Z -> (Z.abs z <= 4)%Z -> fin_pt (dp x y z)) as B by (intros x y z X Y Z; repeat apply conj; cbn [dp px py pz]; apply vz; lia).
  split; [repeat (apply Forall_cons; [apply B; lia|]); constructor|]. split; [repeat (apply Forall_cons; [apply B; lia|]); constructor|].
  intros x y [<- | [<- | [<- | []]]] [<- | [<- | [<- | []]]]; unfold val_pt, dp; cbn [px]; rewrite !(fun z H => proj2 (vz z H)) by (vm_compute; discriminate); lra.
Qed.
