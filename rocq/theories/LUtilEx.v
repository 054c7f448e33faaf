(** Orientation of height fields, and concrete cases for the mesh utilities. *)
From Coq Require Import ZArith List Bool Lia Reals Lra Psatz Permutation.
From Verif Require Import Base Num MGeometry MKernel MMesh MMeshRun MMeasure MUtil SMesh SReach SGeom SMeasure SUtil
  LBase LMesh LReach LGeom LMeasure LMeasure2 LMeasureEx LGrid LUtil LMerge LTess LSplit.
Import ListNotations.
Open Scope Z_scope.

Lemma get_triangle_from (m : Mesh R) i a b c p q r : wf m -> get_triangle_vertices m i = Ok (a, b, c) ->
  get_vertex m a = Ok p -> get_vertex m b = Ok q -> get_vertex m c = Ok r -> get_triangle m i = Ok (mkTri p q r).
Proof.
  intros W E Ea Eb Ec.
  assert (exists t, vget (ktris (mkern m)) i = Ok t) as [t Et].
  { unfold get_triangle_vertices in E. inv_bind E. apply massert_Ok, in_range_true in E0. apply vget_in_range. exact E0. }
  rewrite (get_triangle_vertices_ok m i t Et) in E. injection E as <- <- <-.
  destruct (get_triangle_ok m i t W Et) as [p' [q' [r' [E1 [E2 [E3 ->]]]]]].
  rewrite (get_vertex_ok _ _ _ E1) in Ea. rewrite (get_vertex_ok _ _ _ E2) in Eb. rewrite (get_vertex_ok _ _ _ E3) in Ec. congruence.
Qed.

Lemma height_field_up vz sx sy (m : Mesh R) : reach m -> 1 <= sx -> 1 <= sy -> sx * sy = vsize vz -> vsize vz <= int_max ->
  exists m', create_from_z vz sx sy m = Ok m' /\ nb_triangles m' = 2 * (sx - 1) * (sy - 1) /\
  forall t, 0 <= t < nb_triangles m' -> exists p q r, get_triangle m' t = Ok (mkTri p q r) /\
    pz (cross3 (sub3 q p) (sub3 r p)) = 1%R.
Proof.
  intros R Hx Hy Hs HM. destruct (create_from_z_facts vz sx sy m Hx Hy Hs HM) as [m' [E [R' [_ [V [NT C]]]]]].
  exists m'. split; [exact E|]. split; [exact NT|]. intros t Ht. rewrite NT in Ht. specialize (R' R). pose proof (reach_wf m' R') as W.
  pose proof (Z.div_mod t 2 ltac:(lia)) as D. pose proof (Z.mod_pos_bound t 2 ltac:(lia)) as MB.
  set (h := t / 2) in *. assert (0 < sx - 1) as SX by nia. assert (0 <= h < (sx - 1) * (sy - 1)) as Hh by nia.
  pose proof (Z.div_mod h (sx - 1) ltac:(lia)) as D2. pose proof (Z.mod_pos_bound h (sx - 1) SX) as MB2.
  set (j := h / (sx - 1)) in *. set (i := h mod (sx - 1)) in *.
  assert (0 <= j < sy - 1) as Hj by nia.
  destruct (C i j MB2 Hj) as [A1 [A2 _]].
  destruct (V i j ltac:(lia) ltac:(lia)) as [z00 [_ V00]]. destruct (V (i + 1) j ltac:(lia) ltac:(lia)) as [z10 [_ V10]].
  destruct (V (i + 1) (j + 1) ltac:(lia) ltac:(lia)) as [z11 [_ V11]]. destruct (V i (j + 1) ltac:(lia) ltac:(lia)) as [z01 [_ V01]].
  replace (2 * (i + (sx - 1) * j)) with (2 * h) in * by lia.
  destruct (Z.eq_dec (t mod 2) 0) as [Z0|Z0].
  - replace t with (2 * h) by lia. eexists. eexists. eexists. split; [exact (get_triangle_from m' _ _ _ _ _ _ _ W A1 V00 V10 V11)|].
    unfold cross3, sub3. cbn [px py pz nofZ RNum]. rewrite !plus_IZR. ring.
  - replace t with (2 * h + 1) by lia. eexists. eexists. eexists. split; [exact (get_triangle_from m' _ _ _ _ _ _ _ W A2 V11 V01 V00)|].
    unfold cross3, sub3. cbn [px py pz nofZ RNum]. rewrite !plus_IZR. ring.
Qed.

(** A closed tetrahedron with a fifth vertex in the middle of the edge 0-1. *)
Definition tetra5_abs : AMesh R :=
  mkA (averts tetra_abs ++ [mkP (1/2) 0 0]%R) (atris tetra_abs) (acolor tetra_abs).
Lemma tetra5_exists : exists m : Mesh R, reach m /\ shows m tetra5_abs /\ index_closed (live tetra5_abs).
Proof.
  destruct tetra_exists as [m [R [S [C _]]]].
  pose proof (shows_run [OpAddVertex (mkP (1/2) 0 0)%R] [OpAddVertex (mkP (1/2) 0 0)%R] m tetra_abs R S ltac:(repeat constructor)) as H.
  assert (srun tetra_abs [OpAddVertex (mkP (1/2) 0 0)%R] = Some (tetra5_abs, [OutId 4])) as E by reflexivity.
  rewrite E in H. destruct H as [m' [_ [R' S']]]. exists m'. split; [exact R'|]. split; [exact S'|exact C].
Qed.

Lemma split_edge_hypotheses : forall t, In t (live tetra5_abs) -> let '(p, q, r) := t in p <> 4 /\ q <> 4 /\ r <> 4.
Proof. intros t H. cbn in H. destruct H as [<-|[<-|[<-|[<-|[]]]]]; lia. Qed.

Lemma split_edge_refuted : exists (m m' : Mesh R) a a', reach m /\ shows m a /\ index_closed (live a) /\
  nth_error (atris a) 1 = Some ((0, 1, 3), true) /\ nth_error (atris a) 0 = Some ((0, 2, 1), true) /\
  split_edge_with_vertex m 1 0 0 1 4 = Ok m' /\ shows m' a' /\ ~ index_closed (live a').
Proof.
  destruct tetra5_exists as [m [R [S C]]]. pose proof (reach_wf m R) as W.
  assert (abs m = tetra5_abs) as EA by (apply (shows_unique m); [apply shows_abs|exact S]).
  assert (forall k t, nth_error (atris tetra5_abs) (Z.to_nat k) = Some (t, true) -> 0 <= k ->
    exists l, vget (ktris (mkern m)) k = Ok l /\ (lv1 l, lv2 l, lv3 l) = t) as GL.
  { intros k t E Hk. rewrite <- EA in E. cbn [abs atris] in E. rewrite nth_error_map in E. destruct (nth_error (ktris (mkern m)) (Z.to_nat k)) as [l|] eqn:F; [|discriminate].
    injection E as E _. exists l. split; [apply vget_Ok; auto|exact E]. }
  destruct (GL 1 (0, 1, 3) eq_refl ltac:(lia)) as [l1 [G1 L1]]. destruct (GL 0 (0, 2, 1) eq_refl ltac:(lia)) as [l2 [G2 L2]].
  assert (0 <= 4 < nb_vertices m) as H4 by (rewrite (proj1 S); cbn; lia).
  pose proof (split_edge_ok m 1 0 0 1 4 l1 l2 W ltac:(lia) G1 G2 H4) as K. rewrite L1, L2 in K. cbn -[rm2 split_edge_with_vertex] in K.
  destruct K as [m' [K1 K2]].
  destruct (split_edge_open m tetra5_abs 1 0 0 1 4 3 2 (0, 1, 3) (0, 2, 1) R S ltac:(lia) ltac:(lia) ltac:(lia) eq_refl eq_refl
    (or_introl eq_refl) (or_intror (or_introl eq_refl))) as [F|[m2 [a2 [E2 [S2 N2]]]]].
  - repeat constructor; cbn; intuition discriminate.
  - rewrite <- EA. exact H4.
  - exact split_edge_hypotheses.
  - congruence.
  - exists m, m2, tetra5_abs, a2. split; [exact R|]. split; [exact S|]. split; [exact C|]. split; [reflexivity|]. split; [reflexivity|]. auto.
Qed.
