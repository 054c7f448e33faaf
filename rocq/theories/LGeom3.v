(** Triangle / segment intersection and triangles cut by planes. *)
From Coq Require Import Reals List Bool Lra Lia Psatz ZArith.
From Verif Require Import Base Num MGeometry SGeom SGeom2 LBase LGeom LGeom2 LGeomEx.
Import ListNotations.
Open Scope R_scope.

Lemma tri_eta (t : Triangle3 R) : t = mkTri (t1 t) (t2 t) (t3 t). Proof. destruct t; reflexivity. Qed.
Lemma tside_plane t : tri_proper t -> exists pl k, plane_of_triangle t = Ok pl /\ 0 < k /\ forall x, side pl x = k * tside t x.
Proof.
  intros C. destruct (side_scaled _ _ _ C) as [pl [k [E [K S]]]]. exists pl, k. rewrite (tri_eta t) at 1. split; [exact E|]. split; [exact K|].
  intros x. rewrite S. unfold tside, det3. f_equal. apply dot3_sym.
Qed.
Lemma tside_zero t x : tri_proper t -> (tside t x = 0 <-> in_plane_of (t1 t) (t2 t) (t3 t) x).
Proof.
  intros C. split.
  - intros H. apply plane_point_bary; [exact C|]. rewrite dot3_sym. exact H.
  - intros [a [b [c [S ->]]]]. assert (a = 1 - b - c) as -> by lra. unfold tside, det3, dot3, cross3, sub3, add3, scal3. cbn. ring.
Qed.
Lemma tside_lerp t p q k : tside t (lerp3 p q k) = (1 - k) * tside t p + k * tside t q.
Proof. unfold tside, det3, dot3, cross3, lerp3, sub3, add3, scal3. cbn. ring. Qed.
Lemma in_tri_plane t x : in_tri t x -> in_plane_of (t1 t) (t2 t) (t3 t) x.
Proof. intros [a [b [c [_ [_ [_ B]]]]]]. exists a, b, c. exact B. Qed.

Lemma tri_seg_outcome t p q : tri_proper t ->
  exists o b, tri_intersect_seg t (mkSeg p q) = Ok (o, b) /\
  match o with
  | Some x => tside t p * tside t q < 0 /\ between x p q /\ in_plane_of (t1 t) (t2 t) (t3 t) x /\ (b = true <-> in_tri t x \/ on_line x (t2 t) (t3 t))
  | None => 0 <= tside t p * tside t q /\ b = false
  end.
Proof.
  intros C. destruct (tside_plane t C) as [pl [k [E [K S]]]]. unfold tri_intersect_seg. rewrite E. cbn [bind].
  destruct (plane_seg_exact pl p q) as [o [E2 H]]. rewrite E2. cbn [bind]. rewrite !S in H.
  assert (k * tside t p * (k * tside t q) = (k * k) * (tside t p * tside t q)) as EK by ring. rewrite EK in H.
  assert (0 < k * k) as KK by nra. set (d := tside t p * tside t q) in *. destruct o as [x|].
  - destruct H as [H1 [H2 H3]]. eexists _, _. split; [reflexivity|]. split; [nra|]. split; [exact H3|].
    assert (in_plane_of (t1 t) (t2 t) (t3 t) x) as IP.
    { apply tside_zero; [exact C|]. unfold on_plane in H2. rewrite S in H2. nra. }
    split; [exact IP|]. rewrite (tri_eta t) at 1. apply contains_exact; assumption.
  - eexists _, _. split; [reflexivity|]. split; [|reflexivity]. destruct (Rle_or_lt 0 d) as [D|D]; [exact D|]. exfalso. apply H. nra.
Qed.

Lemma between_unique t p q x y : tside t p * tside t q < 0 -> between x p q -> on_segment y p q -> tside t x = 0 -> tside t y = 0 -> x = y.
Proof.
  intros D [k [K ->]] [l [L ->]] X Y. rewrite tside_lerp in X, Y.
  assert ((k - l) * (tside t q - tside t p) = 0) as E by lra. apply Rmult_integral in E as [E|E]; [replace l with k by lra; reflexivity|].
  assert (tside t q = tside t p) as EQ by lra. rewrite EQ in D. nra.
Qed.

Lemma tri_seg_general t p q : tri_proper t ->
  ~ in_plane_of (t1 t) (t2 t) (t3 t) p -> ~ in_plane_of (t1 t) (t2 t) (t3 t) q ->
  (forall x, on_segment x p q -> on_line x (t2 t) (t3 t) -> in_tri t x) ->
  exists o b, tri_intersect_seg t (mkSeg p q) = Ok (o, b) /\
    (b = true <-> exists x, on_segment x p q /\ in_tri t x) /\
    (forall x, on_segment x p q -> in_tri t x -> o = Some x).
Proof.
  intros C NP NQ A. destruct (tri_seg_outcome t p q C) as [o [b [E H]]]. exists o, b. split; [exact E|].
  rewrite <- (tside_zero t p C) in NP. rewrite <- (tside_zero t q C) in NQ.
  assert (forall x, on_segment x p q -> in_tri t x -> tside t p * tside t q < 0 /\ tside t x = 0) as M.
  { intros x [k [K ->]] I. assert (tside t (lerp3 p q k) = 0) as Z by (apply tside_zero; [exact C|apply in_tri_plane; exact I]).
    split; [|exact Z]. rewrite tside_lerp in Z.
    assert (k <> 0) by (intros ->; apply NP; lra). assert (k <> 1) by (intros ->; apply NQ; lra).
    destruct (Rtotal_order (tside t p) 0) as [P|[P|P]]; [|contradiction|]; nra. }
  destruct o as [y|].
  - destruct H as [D [B [IP HB]]]. assert (on_segment y p q) as SY by (destruct B as [k [K ->]]; exists k; split; [lra|reflexivity]). split.
    + rewrite HB. split.
      * intros [I|L]; exists y; split; auto.
      * intros [x [Sx I]]. left. destruct (M x Sx I) as [_ Z]. rewrite (between_unique t p q y x); try assumption. apply tside_zero; assumption.
    + intros x Sx I. destruct (M x Sx I) as [_ Z]. f_equal. apply (between_unique t p q); try assumption. apply tside_zero; assumption.
  - destruct H as [D ->]. split.
    + split; [discriminate|]. intros [x [Sx I]]. destruct (M x Sx I). lra.
    + intros x Sx I. destruct (M x Sx I). lra.
Qed.

Lemma tri_seg_unsound : exists t p q x, tri_proper t /\ tri_intersect_seg t (mkSeg p q) = Ok (Some x, true) /\ forall y, on_segment y p q -> ~ in_tri t y.
Proof.
  exists unit_tri, (mkP 2 (-1) (-1)), (mkP 2 (-1) 1). destruct (tri_seg_outcome unit_tri (mkP 2 (-1) (-1)) (mkP 2 (-1) 1) unit_tri_proper) as [o [b [E H]]].
  destruct o as [x|].
  - destruct H as [D [[k [K ->]] [IP HB]]]. exists (lerp3 (mkP 2 (-1) (-1)) (mkP 2 (-1) 1) k).
    apply tside_zero in IP; [|exact unit_tri_proper].
    assert (k = 1/2) as Ek by (unfold tside, det3, dot3, cross3, lerp3, sub3, add3, scal3 in IP; cbn in IP; lra).
    split; [exact unit_tri_proper|]. split.
    + rewrite E. f_equal. f_equal. apply HB. right. exists (-1). subst k. unfold lerp3, add3, sub3, scal3. cbn. apply P_eq; field.
    + intros y [l [L ->]] [a [b' [c [A [B [Cc [S Ey]]]]]]]. unfold lerp3, add3, sub3, scal3 in Ey. cbn in Ey. injection Ey as E1 E2 E3. lra.
  - exfalso. destruct H as [H _]. unfold tside, det3, dot3, cross3, sub3 in H. cbn in H. lra.
Qed.
Lemma tri_seg_incomplete : exists t p q, tri_proper t /\ tri_intersect_seg t (mkSeg p q) = Ok (None, false) /\ in_tri t q /\ ~ in_plane_of (t1 t) (t2 t) (t3 t) p.
Proof.
  exists unit_tri, (mkP (1/4) (1/4) 1), (mkP (1/4) (1/4) 0). destruct (tri_seg_outcome unit_tri (mkP (1/4) (1/4) 1) (mkP (1/4) (1/4) 0) unit_tri_proper) as [o [b [E H]]].
  split; [exact unit_tri_proper|]. split; [|split].
  - destruct o as [x|]; [|destruct H as [_ ->]; exact E]. exfalso. destruct H as [H _]. unfold tside, det3, dot3, cross3, sub3 in H. cbn in H. lra.
  - exists (1/2), (1/4), (1/4). repeat split; try lra. unfold add3, scal3. cbn. apply P_eq; field.
  - rewrite <- tside_zero by exact unit_tri_proper. unfold tside, det3, dot3, cross3, sub3. cbn. lra.
Qed.
Lemma tri_seg_degenerate t s : ~ tri_proper t -> tri_intersect_seg t s = Err FDivZero.
Proof.
  intros H. unfold tri_intersect_seg, plane_of_triangle. destruct (O3_dec (cross3 (sub3 (t2 t) (t1 t)) (sub3 (t3 t) (t1 t)))) as [C|C]; [|contradiction].
  rewrite (plane_of_points_collinear _ _ _ C). reflexivity.
Qed.

Lemma cut_exact t pl : cutted_by t pl = true <-> (exists x, in_tri t x /\ 0 < side pl x) /\ (exists y, in_tri t y /\ side pl y < 0).
Proof.
  rewrite cutted_by_iff.
  assert (in_tri t (t1 t) /\ in_tri t (t2 t) /\ in_tri t (t3 t)) as (I1 & I2 & I3).
  { split; [|split]; [exists 1, 0, 0|exists 0, 1, 0|exists 0, 0, 1]; repeat split; try lra; unfold add3, scal3; cbn; rewrite (pt_eta (_ t)) at 1; apply P_eq; ring. }
  split.
  - intros [[A|[A|A]] [B|[B|B]]]; split; eauto.
  - intros [[x [[a [b [c (A & B & C & Bx)]]] X]] [y [[a' [b' [c' (A' & B' & C' & By)]]] Y]]].
    rewrite (side_bary pl _ _ _ _ _ _ _ Bx) in X. rewrite (side_bary pl _ _ _ _ _ _ _ By) in Y.
    set (s1 := side pl (t1 t)) in *. set (s2 := side pl (t2 t)) in *. set (s3 := side pl (t3 t)) in *. split.
    + destruct (Rlt_or_le 0 s1); [auto|]. destruct (Rlt_or_le 0 s2); [auto|]. destruct (Rlt_or_le 0 s3); [auto|]. exfalso. nra.
    + destruct (Rlt_or_le s1 0); [auto|]. destruct (Rlt_or_le s2 0); [auto|]. destruct (Rlt_or_le s3 0); [auto|]. exfalso. nra.
Qed.
Lemma tri_seg_case : let t := unit_tri in let p := mkP (1/4) (1/4) 1 in let q := mkP (1/4) (1/4) (-1) in
  tri_proper t /\ ~ in_plane_of (t1 t) (t2 t) (t3 t) p /\ ~ in_plane_of (t1 t) (t2 t) (t3 t) q /\
  (forall x, on_segment x p q -> on_line x (t2 t) (t3 t) -> in_tri t x) /\ exists x, on_segment x p q /\ in_tri t x.
Proof.
  cbv zeta. split; [exact unit_tri_proper|]. rewrite <- !tside_zero by exact unit_tri_proper. split; [|split; [|split]].
  - unfold tside, det3, dot3, cross3, sub3. cbn. lra.
  - unfold tside, det3, dot3, cross3, sub3. cbn. lra.
  - intros x [k [_ ->]] [l E]. unfold lerp3, add3, sub3, scal3 in E. cbn in E. injection E as E1 E2 E3. lra.
  - exists (mkP (1/4) (1/4) 0). split; [exists (1/2); split; [lra|unfold lerp3, add3, sub3, scal3; cbn; apply P_eq; field]|].
    exists (1/2), (1/4), (1/4). repeat split; try lra. unfold add3, scal3. cbn. apply P_eq; field.
Qed.
Lemma cut_case : cutted_by unit_tri (mkPlane 1 0 0 (- (1/2))) = true /\ cutted_by unit_tri (mkPlane 1 0 0 0) = false.
Proof.
  split; [|destruct (cutted_by unit_tri (mkPlane 1 0 0 0)) eqn:E; [exfalso|reflexivity]].
  - apply cutted_by_iff. unfold side. cbn. lra.
  - apply cutted_by_iff in E. unfold side in E. cbn in E. lra.
Qed.
