(** Concrete evaluations of the geometry model used by the counterexamples. *)
From Coq Require Import Reals List Bool Lra Lia Psatz ZArith.
From Verif Require Import Base Num MGeometry SGeom LBase LGeom LGeom2.
Import ListNotations.
Open Scope R_scope.

Ltac rcmp := repeat match goal with
  | |- context [Rltb ?a ?b] => first [rewrite (proj2 (Rltb_lt a b)) by lra | rewrite (proj2 (Rltb_ge a b)) by lra]
  | |- context [Rleb ?a ?b] => first [rewrite (proj2 (Rleb_le a b)) by lra | rewrite (proj2 (Rleb_gt a b)) by lra]
  end.

Lemma side_scaled p q r : ~ collinear p q r -> exists pl k, plane_of_triangle (mkTri p q r) = Ok pl /\ 0 < k /\
  forall x, side pl x = k * dot3 (cross3 (sub3 q p) (sub3 r p)) (sub3 x p).
Proof.
  intros C. destruct (plane_of_points_R p q r C) as [pl [E [U [H1 [_ [_ [k [K N]]]]]]]].
  exists pl, k. split; [exact E|]. split; [exact K|]. intros x.
  transitivity (dot3 (plane_normal pl) (sub3 x p)).
  - unfold on_plane, side in *. unfold plane_normal, dot3, sub3. cbn. lra.
  - rewrite N. unfold dot3, scal3. cbn. ring.
Qed.

(** Triangle3::contains beyond an end of the edge P2 P3. *)
Definition unit_tri : Triangle3 R := mkTri (mkP 0 0 0) (mkP 1 0 0) (mkP 0 1 0).
Lemma unit_tri_proper : tri_proper unit_tri.
Proof. unfold tri_proper, collinear, unit_tri, cross3, sub3, O3. cbn. intros H. injection H as H1 H2 H3. lra. Qed.

Lemma contains_false_positive : tri_contains unit_tri (mkP 2 (-1) 0) = true /\
  in_plane_of (t1 unit_tri) (t2 unit_tri) (t3 unit_tri) (mkP 2 (-1) 0) /\ ~ in_tri unit_tri (mkP 2 (-1) 0).
Proof.
  assert (in_plane_of (t1 unit_tri) (t2 unit_tri) (t3 unit_tri) (mkP 2 (-1) 0)) as IP.
  { exists 0, 2, (-1). split; [ring|]. unfold add3, scal3. cbn. apply P_eq; ring. }
  split; [|split; [exact IP|]].
  - apply (contains_exact _ _ _ _ unit_tri_proper IP). right. exists (-1). unfold lerp3, add3, sub3, scal3. cbn. apply P_eq; ring.
  - intros [a [b [c [A [B [C [S E]]]]]]]. unfold add3, scal3 in E. cbn in E. injection E as E1 E2 E3. lra.
Qed.

Lemma plane_plane_false_line :
  let p := mkPlane 0 0 1 0 in let q := mkPlane 1 0 0 0 in let l := mkLine (mkP 5 5 5) (mkP 6 6 6) in
  plane_intersect_plane p q l = (true, l) /\ ~ on_plane p (l1 l).
Proof.
  cbn zeta. split.
  - unfold plane_intersect_plane, norm_square, cross, plane_normal. cbn. rcmp. reflexivity.
  - unfold on_plane, side. cbn. lra.
Qed.

Lemma plane_plane_bool p q l : fst (plane_intersect_plane p q l) = true <->
  (1 / 100000000) * (1 / 100000000) <= dot3 (cross3 (plane_normal p) (plane_normal q)) (cross3 (plane_normal p) (plane_normal q)).
Proof.
  unfold plane_intersect_plane. cbn [nltb nlit nmul RNum]. change (@norm_square R RNum) with (fun p => dot3 p p). cbv beta.
  change (@cross R RNum) with cross3. set (d := cross3 _ _).
  destruct (Rltb _ _) eqn:E; cbn [fst]; [apply Rltb_lt in E|apply Rltb_ge in E]; split; intros; try discriminate; try reflexivity; lra.
Qed.

Lemma seg_seg_false : 
  let A := mkSeg (mkP 0 0 0) (mkP 1 0 0) in let B := mkSeg (mkP (1/2) (-1) 1) (mkP (1/2) 1 1) in
  exists x, seg_intersect A B = Ok (Some x) /\ ~ on_line x (s1 B) (s2 B) /\
    (forall y, on_segment y (s1 A) (s2 A) -> ~ on_segment y (s1 B) (s2 B)).
Proof.
  cbn zeta. exists (mkP (1/2) 0 0). split; [|split].
  - unfold seg_intersect, norm_square, dot, psub, padd, pmul. rnum. cbn -[Rabs ndiv]. rcmp.
    match goal with |- context [Rabs ?d] => replace d with 4 by field end.
    rewrite (Rabs_right 4) by lra. rcmp.
    match goal with |- context [ndiv ?a ?b] => replace (ndiv a b) with (Ok (1/2)) end.
    2:{ cbn. destruct (Req_EM_T _ _) as [Z|Z]; [exfalso; lra|f_equal; field]. }
    cbn. rcmp. cbn. f_equal. f_equal. apply P_eq; field.
  - intros [t E]. unfold lerp3, add3, sub3, scal3 in E. cbn in E. injection E as E1 E2 E3. lra.
  - intros y [t [_ ->]] [s [_ E]]. unfold lerp3, add3, sub3, scal3 in E. cbn in E. injection E as E1 E2 E3. lra.
Qed.

(** Triangle / triangle: a false positive. *)
Definition fpA : Triangle3 R := mkTri (mkP 0 1 0) (mkP 0 0 0) (mkP 1 0 0).
Definition fpB : Triangle3 R := mkTri (mkP 5 0 1) (mkP 5 0 (-1)) (mkP (-1) (3/5) (-1)).

Lemma tri_tri_false_positive : tri_intersect_tri fpA fpB = Ok true /\ ~ (exists x, in_tri fpA x /\ in_tri fpB x).
Proof.
  split.
  - assert (~ collinear (mkP 0 1 0) (mkP 0 0 0) (mkP 1 0 0)) as CA.
    { unfold collinear, cross3, sub3, O3. cbn. intros H. injection H as H1 H2 H3. lra. }
    assert (~ collinear (mkP 5 0 1) (mkP 5 0 (-1)) (mkP (-1) (3/5) (-1))) as CB.
    { unfold collinear, cross3, sub3, O3. cbn. intros H. injection H as H1 H2 H3. lra. }
    destruct (side_scaled _ _ _ CA) as [plA [ka [EA [KA SA]]]]. destruct (side_scaled _ _ _ CB) as [plB [kb [EB [KB SB]]]].
    destruct (tri_tri_exact fpA fpB plA plB EA EB) as [b [E H]]. rewrite E. f_equal. apply H.
    split; [|split; [|split]].
    + rewrite box_intersect_iff. unfold box_of_triangle, fpA, fpB, box_add, box_empty, axis_add. cbn. do 6 (rcmp; cbn). lra.
    + rewrite cutted_by_iff. unfold fpA. cbn [t1 t2 t3]. rewrite !SB. unfold dot3, cross3, sub3. cbn. split; [left; nra|right; left; nra].
    + rewrite cutted_by_iff. unfold fpB. cbn [t1 t2 t3]. rewrite !SA. unfold dot3, cross3, sub3. cbn. split; [left; nra|right; left; nra].
    + left. exists (mkP 5 0 0). split.
      * split; [|split].
        -- unfold on_plane. rewrite SA. unfold dot3, cross3, sub3. cbn. nra.
        -- unfold fpB. cbn [t1 t2]. rewrite !SA. unfold dot3, cross3, sub3. cbn. nra.
        -- exists (1/2). split; [lra|]. unfold lerp3, add3, sub3, scal3. cbn. apply P_eq; field.
      * right. exists 5. unfold lerp3, add3, sub3, scal3. cbn. apply P_eq; field.
  - intros [x [[a [b [c [A [B [C [S E]]]]]]] [a' [b' [c' [A' [B' [C' [S' E']]]]]]]]].
    rewrite E in E'. unfold add3, scal3 in E'. cbn in E'. injection E' as E1 E2 E3. lra.
Qed.

(** Triangle / triangle: a touching pair that is missed. *)
Definition fnB : Triangle3 R := mkTri (mkP (1/4) (1/4) 0) (mkP 0 0 1) (mkP 1 0 1).
Lemma tri_tri_false_negative : tri_intersect_tri unit_tri fnB = Ok false /\ in_tri unit_tri (t1 fnB) /\ in_tri fnB (t1 fnB).
Proof.
  split.
  - assert (~ collinear (mkP (1/4) (1/4) 0) (mkP 0 0 1) (mkP 1 0 1)) as CB.
    { unfold collinear, cross3, sub3, O3. cbn. intros H. injection H as H1 H2 H3. lra. }
    destruct (side_scaled _ _ _ unit_tri_proper) as [plA [ka [EA [KA SA]]]]. destruct (side_scaled _ _ _ CB) as [plB [kb [EB [KB SB]]]].
    destruct (tri_tri_exact unit_tri fnB plA plB EA EB) as [b [E H]]. rewrite E. f_equal.
    destruct b; [|reflexivity]. destruct (proj1 H eq_refl) as [_ [_ [H1 _]]]. exfalso.
    rewrite cutted_by_iff in H1. unfold fnB in H1. cbn [t1 t2 t3] in H1. rewrite !SA in H1. unfold dot3, cross3, sub3 in H1. cbn in H1.
    destruct H1 as [_ [H1|[H1|H1]]]; nra.
  - split.
    + exists (1/2), (1/4), (1/4). repeat split; try lra. unfold add3, scal3, fnB. cbn. apply P_eq; field.
    + exists 1, 0, 0. repeat split; try lra. unfold add3, scal3, fnB. cbn. apply P_eq; field.
Qed.


(** A pair in general position that shares a point. *)
Definition gpB : Triangle3 R := mkTri (mkP (1/4) (1/4) (-1)) (mkP (1/4) (1/4) 1) (mkP 3 4 1).
Lemma gp_example : tri_proper unit_tri /\ tri_proper gpB /\ vertices_off unit_tri gpB /\ vertices_off gpB unit_tri /\
  avoids_line23 unit_tri gpB /\ avoids_line23 gpB unit_tri /\ exists x, in_tri unit_tri x /\ in_tri gpB x.
Proof.
  split; [exact unit_tri_proper|]. split; [|split; [|split; [|split; [|split]]]].
  - unfold tri_proper, collinear, gpB, cross3, sub3, O3. cbn. intros H. injection H as H1 H2 H3. lra.
  - split; [|split]; intros [a [b [c [S E]]]]; unfold add3, scal3 in E; cbn in E; injection E as E1 E2 E3; lra.
  - split; [|split]; intros [a [b [c [S E]]]]; unfold add3, scal3 in E; cbn in E; injection E as E1 E2 E3; lra.
  - intros a b x [[-> ->]|[[-> ->]|[-> ->]]] [t [_ ->]] [s E]; unfold lerp3, add3, sub3, scal3 in E; cbn in E; injection E as E1 E2 E3; lra.
  - intros a b x [[-> ->]|[[-> ->]|[-> ->]]] [t [_ ->]] [s E]; unfold lerp3, add3, sub3, scal3 in E; cbn in E; injection E as E1 E2 E3; lra.
  - exists (mkP (1/4) (1/4) 0). split.
    + exists (1/2), (1/4), (1/4). repeat split; try lra. unfold add3, scal3. cbn. apply P_eq; field.
    + exists (1/2), (1/2), 0. repeat split; try lra. unfold add3, scal3. cbn. apply P_eq; field.
Qed.

(** Forms used by the property file. *)
Lemma plane_three_points_ok : forall a b c : pt3, ~ collinear a b c ->
  exists pl, plane_of_points a b c = Ok pl /\
    len3 (plane_normal pl) = 1 /\
    plane_distance pl a = 0 /\ plane_distance pl b = 0 /\ plane_distance pl c = 0 /\
    0 < dot3 (plane_normal pl) (cross3 (sub3 b a) (sub3 c a)) /\
    forall x, (forall y, on_plane pl y -> Rabs (plane_distance pl x) <= dist3 x y) /\
              (exists f, on_plane pl f /\ dist3 x f = Rabs (plane_distance pl x) /\
                         x = add3 f (scal3 (plane_distance pl x) (plane_normal pl))).
Proof. intros a b c H. pose proof (plane_three_points a b c) as K. destruct (O3_dec _) as [C|C]; [contradiction|exact K]. Qed.
Lemma plane_plane_wrong : exists (p q : Plane3 R) (l l' : Line3 R),
  plane_intersect_plane p q l = (true, l') /\ ~ on_plane p (l1 l').
Proof. eexists _, _, _, _. exact plane_plane_false_line. Qed.
Lemma contains_wrong : exists (t : Triangle3 R) (x : pt3), tri_proper t /\
  in_plane_of (t1 t) (t2 t) (t3 t) x /\ tri_contains t x = true /\ ~ in_tri t x.
Proof. exists unit_tri, (mkP 2 (-1) 0). destruct contains_false_positive as [A [B C]]. split; [exact unit_tri_proper|auto]. Qed.
Lemma contains_off_line : forall (p q r x : pt3), ~ collinear p q r -> in_plane_of p q r x ->
  ~ on_line x q r -> (tri_contains (mkTri p q r) x = true <-> in_triangle p q r x).
Proof. intros p q r x H1 H2 H3. rewrite (contains_exact p q r x H1 H2). tauto. Qed.
Lemma tri_tri_unsound : exists A B : Triangle3 R,
  tri_intersect_tri A B = Ok true /\ ~ (exists x, in_tri A x /\ in_tri B x).
Proof. exists fpA, fpB. exact tri_tri_false_positive. Qed.
Lemma tri_tri_incomplete : exists A B : Triangle3 R, tri_proper A /\ tri_proper B /\
  tri_intersect_tri A B = Ok false /\ (exists x, in_tri A x /\ in_tri B x).
Proof.
  exists unit_tri, fnB. destruct tri_tri_false_negative as [A [B C]]. split; [exact unit_tri_proper|]. split.
  - unfold tri_proper, collinear, fnB, cross3, sub3, O3. cbn. intros H. injection H as H1 H2 H3. lra.
  - split; [exact A|]. exists (t1 fnB). auto.
Qed.
Lemma seg_seg_wrong : exists (A B : Segment3 R) (x : pt3), seg_intersect A B = Ok (Some x) /\
  ~ on_line x (s1 B) (s2 B) /\ (forall y, on_segment y (s1 A) (s2 A) -> ~ on_segment y (s1 B) (s2 B)).
Proof. destruct seg_seg_false as [x H]. eexists _, _, x. exact H. Qed.
Lemma box_empty_origin : forall b : BBox3 R, in_box (box_lo b) (box_hi b) (box_lo b) ->
  (box_intersect box_empty b = true <-> in_box (box_lo b) (box_hi b) (mkP 0 0 0)).
Proof.
  intros b H. rewrite box_intersect_iff. unfold in_box, box_lo, box_hi in *. cbn in *. unfold n0. cbn. lra.
Qed.
