(** split_triangle and split_meshes. *)
From Coq Require Import ZArith List Bool Lia Reals Lra Psatz Permutation.
From Verif Require Import Base Num MGeometry MKernel MMesh MMeshRun MMeasure MUtil SMesh SReach SGeom SMeasure SUtil LBase LMesh LReach LGeom LGeom2 LGeomEx LMeasure LMeasure2 LGrid LUtil.
Import ListNotations.
Open Scope Z_scope.

(** ** In general position nothing is ever cut *)
Lemma push_inter_R pl a b v : exists w, push_inter pl a b v = Ok (v ++ w) /\
  ((side pl a * side pl b < 0)%R /\ (exists x, w = [x]) \/ ~ (side pl a * side pl b < 0)%R /\ w = []).
Proof.
  unfold push_inter. destruct (plane_seg_exact pl a b) as [o [E H]]. rewrite E. cbn [bind]. destruct o as [x|].
  - exists [x]. split; [reflexivity|]. left. split; [apply H|]. exists x. reflexivity.
  - exists []. rewrite app_nil_r. split; [reflexivity|]. right. auto.
Qed.

Lemma split_triangle_off (m m' : Mesh R) i t ts : get_triangle m i = Ok t -> vertices_off t ts ->
  split_triangle m i ts = Ok m' -> m' = m.
Proof.
  intros G OFF E. unfold split_triangle in E. rewrite G in E. cbn [bind] in E. inv_bind E.
  destruct (negb (cutted_by t x)); [congruence|]. inv_bind E.
  destruct (vertices_off_sides t ts _ E1 OFF) as [N1 [N2 N3]].
  destruct (cutted_by ts x0) eqn:C; cbn [negb] in E; [|congruence]. apply cutted_by_iff in C.
  destruct (push_inter_R x0 (t1 ts) (t2 ts) []) as [w1 [P1 C1]]. rewrite P1 in E. cbn [bind app] in E.
  destruct (push_inter_R x0 (t1 ts) (t3 ts) w1) as [w2 [P2 C2]]. rewrite P2 in E. cbn [bind] in E.
  set (s1 := side x0 (t1 ts)) in *. set (s2 := side x0 (t2 ts)) in *. set (s3 := side x0 (t3 ts)) in *.
  assert (forall (v : list pt3), (exists x y, v = [x; y]) ->
    (do _ <- massert (vsize v <=? 2);
     match v with
     | [] => Ok m
     | [P1] => if tri_contains t P1 then split_triangle_with_point m i P1 else Ok m
     | P1 :: P2 :: _ =>
      if negb (tri_contains t P1) && negb (tri_contains t P2) then
        let seg := mkSeg P1 P2 in
        do b12 <- seg_intersect (mkSeg (t1 t) (t2 t)) seg;
        do b13 <- seg_intersect (mkSeg (t1 t) (t3 t)) seg;
        do b23 <- seg_intersect (mkSeg (t2 t) (t3 t)) seg;
        let some := fun o : option (Point3 R) => match o with Some _ => true | None => false end in
        if negb (some b12 || some b13 || some b23) then Ok m else
        do _ <- massert (negb (some b12 && some b13 && some b23));
        Ok m
      else Ok m
     end) = Ok m' -> m' = m) as FIN.
  { clear. intros v [x [y ->]] E. 
    change (vsize [x; y] <=? 2) with true in E. cbn [massert bind] in E.
    cbv zeta in E. match type of E with (if ?c then _ else _) = _ => destruct c end; [|congruence].
    inv_bind E. inv_bind E. inv_bind E. match type of E with (if ?c then _ else _) = _ => destruct c end; [congruence|]. inv_bind E. congruence. }
  destruct C1 as [[H1 [x1 ->]]|[H1 ->]]; destruct C2 as [[H2 [x2 ->]]|[H2 ->]]; cbn [app] in E.
  - change (vsize [x1; x2] <? 2) with false in E. cbn [bind] in E. apply (FIN [x1; x2]); [eauto|exact E].
  - change (vsize [x1] <? 2) with true in E.
    destruct (push_inter_R x0 (t2 ts) (t3 ts) [x1]) as [w3 [P3 C3]]. rewrite P3 in E. cbn [bind] in E.
    destruct C3 as [[H3 [x3 ->]]|[H3 ->]]; [apply (FIN [x1; x3]); [eauto|exact E]|].
    exfalso. fold s2 s3 in H3. assert (0 < s1 * s3)%R by (destruct (Rtotal_order (s1 * s3) 0) as [L|[L|L]]; [contradiction| |exact L]; apply Rmult_integral in L; tauto).
    assert (0 < s2 * s3)%R by (destruct (Rtotal_order (s2 * s3) 0) as [L|[L|L]]; [contradiction| |exact L]; apply Rmult_integral in L; tauto). nra.
  - change (vsize [x2] <? 2) with true in E.
    destruct (push_inter_R x0 (t2 ts) (t3 ts) [x2]) as [w3 [P3 C3]]. rewrite P3 in E. cbn [bind] in E.
    destruct C3 as [[H3 [x3 ->]]|[H3 ->]]; [apply (FIN [x2; x3]); [eauto|exact E]|].
    exfalso. fold s2 s3 in H3. assert (0 < s1 * s2)%R by (destruct (Rtotal_order (s1 * s2) 0) as [L|[L|L]]; [contradiction| |exact L]; apply Rmult_integral in L; tauto).
    assert (0 < s2 * s3)%R by (destruct (Rtotal_order (s2 * s3) 0) as [L|[L|L]]; [contradiction| |exact L]; apply Rmult_integral in L; tauto). nra.
  - exfalso. assert (0 < s1 * s3)%R by (destruct (Rtotal_order (s1 * s3) 0) as [L|[L|L]]; [contradiction| |exact L]; apply Rmult_integral in L; tauto).
    assert (0 < s1 * s2)%R by (destruct (Rtotal_order (s1 * s2) 0) as [L|[L|L]]; [contradiction| |exact L]; apply Rmult_integral in L; tauto).
    destruct C as [[C|[C|C]] [D|[D|D]]]; nra.
Qed.

Lemma all_live_copy (m : Mesh R) : wf m -> Forall (fun t => snd t = true) (atris (abs m)) -> abs (copied m) = abs m.
Proof.
  intros W H. rewrite abs_copied. unfold abs. cbn [averts atris acolor]. f_equal. unfold live. cbn [atris abs] in *.
  induction H as [|[t b] l H F IH]; [reflexivity|]. cbn in H. subst b. cbn [filter snd map fst]. f_equal. exact IH.
Qed.

Lemma get_triangle_live (m : Mesh R) i t : wf m -> is_triangle_unlinked m i = Ok false -> get_triangle m i = Ok t ->
  exists c, In c (faces (abs m)) /\ t = tri3 c.
Proof.
  intros W U G. assert (exists l, vget (ktris (mkern m)) i = Ok l) as [l E].
  { unfold is_triangle_unlinked in U. inv_bind U. apply massert_Ok, in_range_true in E. apply vget_in_range. exact E. }
  rewrite (is_unlinked_ok m i l E) in U. rewrite (get_triangle_corners m i l W E) in G. injection G as <-.
  exists (corners (abs m) (lv1 l, lv2 l, lv3 l)). split; [|reflexivity]. unfold faces. apply in_map. unfold live. apply in_map_iff.
  exists (abs_tri l). split; [reflexivity|]. apply filter_In. split.
  - cbn [abs atris]. apply in_map. apply vget_In in E. exact E.
  - cbn. injection U as ->. reflexivity.
Qed.

Lemma split_meshes_general (A B Ao Bo : Mesh R) a b : reach A -> reach B -> shows A a -> shows B b ->
  Forall (fun t => snd t = true) (atris a) -> Forall (fun t => snd t = true) (atris b) -> off_each_other a b ->
  split_meshes A B = Ok (Ao, Bo) -> shows Ao a /\ shows Bo b /\ surface Ao = surface A /\ surface Bo = surface B.
Proof.
  intros RA RB SA SB LA LB OFF E. pose proof (reach_wf A RA) as WA. pose proof (reach_wf B RB) as WB.
  rewrite (shows_unique A a (abs A) SA (shows_abs A)) in *. rewrite (shows_unique B b (abs B) SB (shows_abs B)) in *. clear a b SA SB.
  assert (Ao = copied A /\ Bo = copied B) as [-> ->].
  { unfold split_meshes in E. rewrite (proj1 (copy_spec A RA)), (proj1 (copy_spec B RB)) in E. cbn [bind] in E.
    assert ((fun (i : Z) (s : Mesh R * Mesh R) => s = (copied A, copied B)) (nb_triangles A) (Ao, Bo)) as K; [|injection K as -> ->; auto].
    refine (for_inv_part (fun _ s => s = (copied A, copied B)) 0 (nb_triangles A) _ _ _ (vsize_nonneg (ktris (mkern A))) eq_refl _ E).
    intros i s s' Hi -> Es. inv_bind Es. destruct x; [congruence|]. inv_bind Es.
    assert ((fun (i : Z) (s : Mesh R * Mesh R) => s = (copied A, copied B)) (nb_triangles B) s') as K; [|exact K].
    refine (for_inv_part (fun _ s => s = (copied A, copied B)) 0 (nb_triangles B) _ _ _ (vsize_nonneg (ktris (mkern B))) eq_refl _ Es).
    intros j s1 s1' Hj -> Ej. inv_bind Ej. destruct x0; [congruence|]. inv_bind Ej.
    destruct (negb (box_intersect _ _)); [congruence|]. cbn [fst snd] in Ej. inv_bind Ej. inv_bind Ej.
    destruct (get_triangle_live A i x WA E0 E1) as [[[p q] r] [I1 X1]].
    destruct (get_triangle_live B j x0 WB E2 E3) as [[[p' q'] r'] [I2 X2]].
    destruct (OFF _ _ _ _ _ _ I1 I2) as [O1 O2]. cbn [tri3] in X1, X2. rewrite X1, X2 in *. clear X1 X2.
    assert (forall (m : Mesh R) k t, wf m -> Forall (fun t => snd t = true) (atris (abs m)) -> get_triangle m k = Ok t -> get_triangle (copied m) k = Ok t) as GC.
    { clear. intros m k t W L G. assert (exists l, vget (ktris (mkern m)) k = Ok l) as [l El].
      { unfold get_triangle in G. inv_bind G. apply massert_Ok, in_range_true in E. apply vget_in_range. exact E. }
      assert (nth_error (atris (abs (copied m))) (Z.to_nat k) = Some (abs_tri l)) as NE.
      { rewrite (all_live_copy m W L). rewrite (nth_abs m k l El). reflexivity. }
      cbn [abs atris] in NE. rewrite nth_error_map in NE. destruct (nth_error (ktris (mkern (copied m))) (Z.to_nat k)) as [l'|] eqn:F; [|discriminate].
      cbn in NE. injection NE as N1 N2 N3 N4.
      assert (vget (ktris (mkern (copied m))) k = Ok l') as El' by (apply vget_Ok; split; [apply vget_Ok in El; apply El|exact F]).
      rewrite (get_triangle_corners _ _ _ (wf_copied m W) El'), <- G, (get_triangle_corners _ _ _ W El), N1, N2, N3. reflexivity. }
    apply (split_triangle_off _ _ _ _ _ (GC A i _ WA LA E1) O1) in E4.
    apply (split_triangle_off _ _ _ _ _ (GC B j _ WB LB E3) O2) in E5. subst. congruence. }
  pose proof (shows_abs (copied A)) as S1. rewrite (all_live_copy A WA LA) in S1.
  pose proof (shows_abs (copied B)) as S2. rewrite (all_live_copy B WB LB) in S2.
  split; [exact S1|]. split; [exact S2|].
  rewrite !surface_ok by (try apply wf_copied; assumption). rewrite (all_live_copy A WA LA), (all_live_copy B WB LB). auto.
Qed.

(** ** Counterexamples *)
Definition one_tri (t : Triangle3 R) : Mesh R :=
  mkMesh (mkK [t1 t; t2 t; t3 t] [lt_new 0 1 2]) (-1).
Definition one_abs (t : Triangle3 R) : AMesh R := mkA [t1 t; t2 t; t3 t] [((0, 1, 2), true)] (-1).
Lemma one_tri_reach t : reach (one_tri t).
Proof.
  eapply (R_step mesh_new (OpAddTrianglePts (t1 t) (t2 t) (t3 t)) (one_tri t) (OutId 0) R_new); [intros f [H|H]; discriminate|reflexivity].
Qed.
Lemma one_tri_shows t : shows (one_tri t) (one_abs t).
Proof. exact (shows_abs (one_tri t)). Qed.
Lemma one_tri_copy t : copy_mesh (one_tri t) = Ok (one_tri t).
Proof. reflexivity. Qed.
Lemma one_tri_get t : get_triangle (one_tri t) 0 = Ok t.
Proof. destruct t; reflexivity. Qed.

Definition cutA : Triangle3 R := (mkTri (mkP 0 1 0) (mkP 0 0 0) (mkP 1 0 0))%R.
Definition cutB : Triangle3 R := (mkTri (mkP (-1) 1 0) (mkP 3 0 1) (mkP 3 0 (-1)))%R.
Definition cut_result : Mesh R :=
  mkMesh (mkK [t1 cutA; t2 cutA; t3 cutA; (mkP 3 0 0)%R] [unlinked_tri (lt_new 0 1 2); lt_new 0 1 3; lt_new 1 2 3; lt_new 2 0 3]) (-1).

Lemma len3_z (x : R) : (0 <= x)%R -> (len3 (mkP 0 0 x) = x)%R.
Proof. intros H. unfold len3, dot3. cbn [px py pz]. replace (0 * 0 + 0 * 0 + x * x)%R with (x * x)%R by ring. apply sqrt_square. exact H. Qed.
Lemma len3_mz (x : R) : (0 <= x)%R -> (len3 (mkP 0 0 (- x)) = x)%R.
Proof. intros H. unfold len3, dot3. cbn [px py pz]. replace (0 * 0 + 0 * 0 + - x * - x)%R with (x * x)%R by ring. apply sqrt_square. exact H. Qed.

Lemma split_meshes_grows : split_meshes (one_tri cutA) (one_tri cutB) = Ok (cut_result, one_tri cutB) /\
  surface (one_tri cutA) = Ok (1/2)%R /\ surface cut_result = Ok (5/2)%R.
Proof.
  assert (~ collinear (mkP 0 1 0) (mkP 0 0 0) (mkP 1 0 0))%R as CA.
  { unfold collinear, cross3, sub3, O3. cbn. intros H. injection H as H1 H2 H3. lra. }
  assert (~ collinear (mkP (-1) 1 0) (mkP 3 0 1) (mkP 3 0 (-1)))%R as CB.
  { unfold collinear, cross3, sub3, O3. cbn. intros H. injection H as H1 H2 H3. lra. }
  destruct (side_scaled _ _ _ CA) as [plA [ka [EA [KA SA]]]]. destruct (side_scaled _ _ _ CB) as [plB [kb [EB [KB SB]]]].
  assert (cutted_by cutA plB = true) as C1.
  { rewrite cutted_by_iff. unfold cutA. cbn [t1 t2 t3]. rewrite !SB. unfold dot3, cross3, sub3. cbn. split; [left; nra|right; left; nra]. }
  assert (cutted_by cutB plA = true) as C2.
  { rewrite cutted_by_iff. unfold cutB. cbn [t1 t2 t3]. rewrite !SA. unfold dot3, cross3, sub3. cbn. split; [right; left; nra|right; right; nra]. }
  split; [|split].
  - unfold split_meshes. rewrite !one_tri_copy. cbn [bind].
    change (nb_triangles (one_tri cutA)) with 1. change (nb_triangles (one_tri cutB)) with 1.
    rewrite for_step by lia. cbv beta. change (is_triangle_unlinked (one_tri cutA) 0) with (@Ok bool false). cbn [bind]. rewrite one_tri_get. cbn [bind].
    rewrite for_step by lia. cbv beta. change (is_triangle_unlinked (one_tri cutB) 0) with (@Ok bool false). cbn [bind]. rewrite one_tri_get. cbn [bind].
    assert (box_intersect (box_of_triangle cutA) (box_of_triangle cutB) = true) as ->.
    { rewrite box_intersect_iff. unfold box_of_triangle, cutA, cutB, box_add, box_empty, axis_add. cbn. do 6 (rcmp; cbn). lra. }
    cbn [negb fst snd].
    assert (split_triangle (one_tri cutA) 0 cutB = Ok cut_result) as ->.
    { unfold split_triangle. rewrite one_tri_get. cbn [bind].
      change (plane_of_triangle cutB) with (plane_of_triangle (mkTri (mkP (-1) 1 0) (mkP 3 0 1) (mkP 3 0 (-1)))%R). rewrite EB. cbn [bind].
      rewrite C1. cbn [negb].
      change (plane_of_triangle cutA) with (plane_of_triangle (mkTri (mkP 0 1 0) (mkP 0 0 0) (mkP 1 0 0))%R). rewrite EA. cbn [bind].
      rewrite C2. cbn [negb].
      destruct (push_inter_R plA (t1 cutB) (t2 cutB) []) as [w1 [P1 K1]]. rewrite P1. cbn [bind app].
      destruct K1 as [[H _]|[_ ->]]; [exfalso; revert H; unfold cutB; cbn [t1 t2]; rewrite !SA; unfold dot3, cross3, sub3; cbn; nra|].
      destruct (push_inter_R plA (t1 cutB) (t3 cutB) []) as [w1 [P2 K1]]. rewrite P2. cbn [bind app].
      destruct K1 as [[H _]|[_ ->]]; [exfalso; revert H; unfold cutB; cbn [t1 t3]; rewrite !SA; unfold dot3, cross3, sub3; cbn; nra|].
      change (vsize (@nil (Point3 R)) <? 2) with true. cbn iota.
      unfold push_inter. destruct (plane_seg_exact plA (t2 cutB) (t3 cutB)) as [o [Eo H]]. rewrite Eo. cbn [bind].
      destruct o as [x|]; [|exfalso; apply H; unfold cutB; cbn [t2 t3]; rewrite !SA; unfold dot3, cross3, sub3; cbn; nra].
      destruct H as [_ [OP [u [_ ->]]]].
      assert (u = 1/2)%R as ->.
      { unfold on_plane in OP. rewrite SA in OP. unfold dot3, cross3, sub3, lerp3, add3, scal3, cutB in OP. cbn in OP. nra. }
      assert (lerp3 (t2 cutB) (t3 cutB) (1/2) = mkP 3 0 0)%R as -> by (unfold lerp3, add3, sub3, scal3, cutB; cbn; apply P_eq; field).
      cbn [app bind]. change (vsize [mkP 3 0 0]%R <=? 2) with true. cbn [massert bind].
      assert (tri_contains cutA (mkP 3 0 0)%R = true) as ->.
      { unfold tri_contains, cutA, cross, dot, psub. cbn. rcmp. rcmp. reflexivity. }
      reflexivity. }
    cbn [bind].
    assert (split_triangle (one_tri cutB) 0 cutA = Ok (one_tri cutB)) as ->.
    { unfold split_triangle. rewrite one_tri_get. cbn [bind].
      change (plane_of_triangle cutA) with (plane_of_triangle (mkTri (mkP 0 1 0) (mkP 0 0 0) (mkP 1 0 0))%R). rewrite EA. cbn [bind].
      rewrite C2. cbn [negb].
      change (plane_of_triangle cutB) with (plane_of_triangle (mkTri (mkP (-1) 1 0) (mkP 3 0 1) (mkP 3 0 (-1)))%R). rewrite EB. cbn [bind].
      rewrite C1. cbn [negb]. unfold push_inter.
      destruct (plane_seg_exact plB (t1 cutA) (t2 cutA)) as [o [Eo H]]. rewrite Eo. cbn [bind].
      destruct o as [x|]; [|exfalso; apply H; unfold cutA; cbn [t1 t2]; rewrite !SB; unfold dot3, cross3, sub3; cbn; nra].
      destruct H as [_ [OP [u [_ ->]]]].
      assert (u = 1/4)%R as ->.
      { unfold on_plane in OP. rewrite SB in OP. unfold dot3, cross3, sub3, lerp3, add3, scal3, cutA in OP. cbn in OP. nra. }
      destruct (plane_seg_exact plB (t1 cutA) (t3 cutA)) as [o [Eo2 H]]. rewrite Eo2. cbn [bind].
      destruct o as [x|]; [|exfalso; apply H; unfold cutA; cbn [t1 t3]; rewrite !SB; unfold dot3, cross3, sub3; cbn; nra].
      cbn [app bind]. match goal with |- context [vsize ?v <? 2] => change (vsize v <? 2) with false; change (vsize v <=? 2) with true end. cbn [massert bind].
      assert (tri_contains cutB (lerp3 (t1 cutA) (t2 cutA) (1/4)%R) = true) as ->.
      { unfold tri_contains, cutA, cutB, lerp3, add3, scal3, sub3, cross, dot, psub. cbn. rcmp. rcmp. reflexivity. }
      reflexivity. }
    cbn [bind]. rewrite for_empty by lia. cbn [bind]. rewrite for_empty by lia. reflexivity.
  - rewrite (surface_ok _ (reach_wf _ (one_tri_reach cutA))). f_equal.
    assert (faces (abs (one_tri cutA)) = [(mkP 0 1 0, mkP 0 0 0, mkP 1 0 0)]%R) as F by reflexivity.
    unfold total_area. rewrite F. cbn [map area_tri]. rewrite sumR_cons, sumR_nil. unfold area3, cross3, sub3. cbn [px py pz].
    replace (mkP _ _ _) with (mkP 0 0 1)%R by (apply P_eq; ring). rewrite len3_z by lra. field.
  - assert (wf cut_result) as W by (repeat constructor; cbn; lia).
    rewrite (surface_ok _ W). f_equal.
    assert (faces (abs cut_result) = [(mkP 0 1 0, mkP 0 0 0, mkP 3 0 0); (mkP 0 0 0, mkP 1 0 0, mkP 3 0 0); (mkP 1 0 0, mkP 0 1 0, mkP 3 0 0)]%R) as F by reflexivity.
    unfold total_area. rewrite F. cbn [map area_tri]. rewrite !sumR_cons, sumR_nil. unfold area3, cross3, sub3. cbn [px py pz].
    rewrite (P_eq _ _ _ 0 0 3)%R by ring. rewrite len3_z by lra.
    match goal with |- (_ + (len3 ?p / 2 + (len3 ?q / 2 + _)))%R = _ => replace p with (mkP 0 0 0)%R by (apply P_eq; ring); replace q with (mkP 0 0 (Ropp 2))%R by (apply P_eq; ring) end.
    rewrite len3_z by lra. rewrite len3_mz by lra. field.
Qed.

(** A mesh whose first triangle has been flipped: ids of the input and of its copy differ. *)
Lemma flipped_reach t : reach (mkMesh (mkK [t1 t; t2 t; t3 t] [unlinked_tri (lt_new 0 1 2); lt_new 0 2 1]) (-1) : Mesh R).
Proof. eapply (R_step (one_tri t) (OpFlip 0) _ OutUnit (one_tri_reach t)); [intros f [H|H]; discriminate|reflexivity]. Qed.

Lemma split_meshes_bad_id : exists A B : Mesh R, reach A /\ reach B /\ split_meshes A B = Err FAssert.
Proof.
  exists (mkMesh (mkK [t1 cutA; t2 cutA; t3 cutA] [unlinked_tri (lt_new 0 1 2); lt_new 0 2 1]) (-1)), (one_tri cutA).
  split; [apply flipped_reach|]. split; [apply one_tri_reach|]. unfold split_meshes.
  set (A := mkMesh _ _). rewrite one_tri_copy.
  assert (copy_mesh A = Ok (mkMesh (mkK [t1 cutA; t2 cutA; t3 cutA] [lt_new 0 2 1]) (-1))) as -> by reflexivity. cbn [bind].
  change (nb_triangles A) with 2. change (nb_triangles (one_tri cutA)) with 1.
  rewrite for_step by lia. cbv beta. change (is_triangle_unlinked A 0) with (@Ok bool true). cbn [bind].
  rewrite for_step by lia. cbv beta. change (0 + 1) with 1. change (is_triangle_unlinked A 1) with (@Ok bool false).
  change (get_triangle A 1) with (Ok (mkTri (t1 cutA) (t3 cutA) (t2 cutA))). cbn [bind].
  rewrite for_step by lia. cbv beta. change (is_triangle_unlinked (one_tri cutA) 0) with (@Ok bool false). cbn [bind]. rewrite one_tri_get. cbn [bind].
  assert (box_intersect (box_of_triangle (mkTri (t1 cutA) (t3 cutA) (t2 cutA))) (box_of_triangle cutA) = true) as ->.
  { rewrite box_intersect_iff. unfold box_of_triangle, cutA, box_add, box_empty, axis_add. cbn. do 6 (rcmp; cbn). lra. }
  reflexivity.
Qed.

(** A pair in general position for which the call succeeds. *)
Lemma off_example : off_each_other (one_abs unit_tri) (one_abs gpB).
Proof.
  destruct gp_example as [_ [_ [H1 [H2 _]]]].
  intros p q r p' q' r' I1 I2. destruct I1 as [I1|[]], I2 as [I2|[]]. injection I1 as <- <- <-. injection I2 as <- <- <-. split; assumption.
Qed.

Lemma split_meshes_ok_example : split_meshes (one_tri unit_tri) (one_tri gpB) = Ok (one_tri unit_tri, one_tri gpB).
Proof.
  destruct gp_example as [CA [CB _]]. unfold tri_proper, unit_tri, gpB in CA, CB. cbn [t1 t2 t3] in CA, CB.
  destruct (side_scaled _ _ _ CA) as [plA [ka [EA [KA SA]]]]. destruct (side_scaled _ _ _ CB) as [plB [kb [EB [KB SB]]]].
  fold unit_tri in EA. fold gpB in EB.
  assert (cutted_by unit_tri plB = true) as C1.
  { rewrite cutted_by_iff. unfold unit_tri. cbn [t1 t2 t3]. rewrite !SB. unfold dot3, cross3, sub3. cbn. split; [left; nra|right; left; nra]. }
  assert (cutted_by gpB plA = true) as C2.
  { rewrite cutted_by_iff. unfold gpB. cbn [t1 t2 t3]. rewrite !SA. unfold dot3, cross3, sub3. cbn. split; [right; left; nra|left; nra]. }
  unfold split_meshes. rewrite !one_tri_copy. cbn [bind].
  change (nb_triangles (one_tri unit_tri)) with 1. change (nb_triangles (one_tri gpB)) with 1.
  rewrite for_step by lia. cbv beta. change (is_triangle_unlinked (one_tri unit_tri) 0) with (@Ok bool false). cbn [bind]. rewrite one_tri_get. cbn [bind].
  rewrite for_step by lia. cbv beta. change (is_triangle_unlinked (one_tri gpB) 0) with (@Ok bool false). cbn [bind]. rewrite one_tri_get. cbn [bind].
  assert (box_intersect (box_of_triangle unit_tri) (box_of_triangle gpB) = true) as ->.
  { rewrite box_intersect_iff. unfold box_of_triangle, unit_tri, gpB, box_add, box_empty, axis_add. cbn. do 6 (rcmp; cbn). lra. }
  cbn [negb fst snd].
  assert (split_triangle (one_tri unit_tri) 0 gpB = Ok (one_tri unit_tri)) as ->.
  { unfold split_triangle. rewrite one_tri_get. cbn [bind]. rewrite EB. cbn [bind]. rewrite C1. cbn [negb]. rewrite EA. cbn [bind]. rewrite C2. cbn [negb].
    unfold push_inter.
    destruct (plane_seg_exact plA (t1 gpB) (t2 gpB)) as [o [Eo H]]. rewrite Eo. cbn [bind].
    destruct o as [x|]; [|exfalso; apply H; unfold gpB; cbn [t1 t2]; rewrite !SA; unfold dot3, cross3, sub3; cbn; nra].
    destruct H as [_ [OP [u [_ ->]]]].
    assert (u = 1/2)%R as ->.
    { unfold on_plane in OP. rewrite SA in OP. unfold dot3, cross3, sub3, lerp3, add3, scal3, gpB in OP. cbn in OP. nra. }
    destruct (plane_seg_exact plA (t1 gpB) (t3 gpB)) as [o [Eo2 H]]. rewrite Eo2. cbn [bind].
    destruct o as [x|]; [|exfalso; apply H; unfold gpB; cbn [t1 t3]; rewrite !SA; unfold dot3, cross3, sub3; cbn; nra].
    cbn [app bind]. match goal with |- context [vsize ?v <? 2] => change (vsize v <? 2) with false; change (vsize v <=? 2) with true end. cbn [massert bind].
    assert (tri_contains unit_tri (lerp3 (t1 gpB) (t2 gpB) (1/2)%R) = true) as ->.
    { unfold tri_contains, unit_tri, gpB, lerp3, add3, scal3, sub3, cross, dot, psub. cbn. rcmp. rcmp. reflexivity. }
    reflexivity. }
  cbn [bind].
  assert (split_triangle (one_tri gpB) 0 unit_tri = Ok (one_tri gpB)) as ->.
  { unfold split_triangle. rewrite one_tri_get. cbn [bind]. rewrite EA. cbn [bind]. rewrite C2. cbn [negb]. rewrite EB. cbn [bind]. rewrite C1. cbn [negb].
    destruct (push_inter_R plB (t1 unit_tri) (t2 unit_tri) []) as [w [P1 K1]]. rewrite P1. cbn [bind app].
    destruct K1 as [[_ [x1 ->]]|[H _]]; [|exfalso; apply H; unfold unit_tri; cbn [t1 t2]; rewrite !SB; unfold dot3, cross3, sub3; cbn; nra].
    destruct (push_inter_R plB (t1 unit_tri) (t3 unit_tri) [x1]) as [w [P2 K1]]. rewrite P2. cbn [bind app].
    destruct K1 as [[H _]|[_ ->]]; [exfalso; revert H; unfold unit_tri; cbn [t1 t3]; rewrite !SB; unfold dot3, cross3, sub3; cbn; nra|].
    cbn [app]. change (vsize [x1] <? 2) with true. cbn iota. unfold push_inter.
    destruct (plane_seg_exact plB (t2 unit_tri) (t3 unit_tri)) as [o [Eo H]]. rewrite Eo. cbn [bind].
    destruct o as [x|]; [|exfalso; apply H; unfold unit_tri; cbn [t2 t3]; rewrite !SB; unfold dot3, cross3, sub3; cbn; nra].
    destruct H as [_ [OP [u [_ ->]]]].
    assert (u = 7/13)%R as ->.
    { unfold on_plane in OP. rewrite SB in OP. unfold dot3, cross3, sub3, lerp3, add3, scal3, unit_tri in OP. cbn in OP. nra. }
    cbn [app bind]. match goal with |- context [vsize ?v <=? 2] => change (vsize v <=? 2) with true end. cbn [massert bind].
    assert (tri_contains gpB (lerp3 (t2 unit_tri) (t3 unit_tri) (7/13)%R) = true) as ->.
    { unfold tri_contains, unit_tri, gpB, lerp3, add3, scal3, sub3, cross, dot, psub. cbn. rcmp. rcmp. reflexivity. }
    rewrite andb_false_r. reflexivity. }
  cbn [bind]. rewrite for_empty by lia. cbn [bind]. rewrite for_empty by lia. reflexivity.
Qed.
