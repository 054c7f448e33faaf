(** A two-sided triangle, stored as two separate triangles. *)
From Coq Require Import ZArith List Bool Reals Lra Lia Permutation.
From Verif Require Import Base Num MGeometry MKernel MMesh MMeshRun MMeasure MUtil SMesh SReach SGeom SMeasure SUtil LBase LMesh LReach LGeom LMeasure LMeasure2 LGeo1 LGeo2 LMeasureEx.
Import ListNotations.
Open Scope R_scope.

Definition flat_ops {M} : list (op R M) :=
  [OpAddTrianglePts (mkP 0 0 0) (mkP 1 0 0) (mkP 0 1 0); OpAddTrianglePts (mkP 0 1 0) (mkP 1 0 0) (mkP 0 0 0)].
Definition flat_abs : AMesh R :=
  mkA [mkP 0 0 0; mkP 1 0 0; mkP 0 1 0; mkP 0 1 0; mkP 1 0 0; mkP 0 0 0] [((0, 1, 2), true); ((3, 4, 5), true)]%Z (-1)%Z.
Lemma flat_exists : exists m : Mesh R, reach m /\ shows m flat_abs.
Proof.
  pose proof (shows_run flat_ops flat_ops (@mesh_new R) a_new R_new (shows_abs mesh_new)) as H. specialize (H ltac:(repeat constructor)).
  assert (srun a_new (flat_ops (M := AMesh R)) = Some (flat_abs, [OutId 0; OutId 1])) as E by reflexivity. rewrite E in H. destruct H as [m [_ [R S]]]. exists m. auto.
Qed.
Lemma flat_closed : closed_surface (faces flat_abs).
Proof. apply psum_closed. intros Phi A. assert (faces flat_abs = [(mkP 0 0 0, mkP 1 0 0, mkP 0 1 0); (mkP 0 1 0, mkP 1 0 0, mkP 0 0 0)]) as -> by reflexivity. unfold psum, psum1. cbn [fold_right]. rewrite (A (mkP 1 0 0) (mkP 0 0 0)), (A (mkP 0 1 0) (mkP 1 0 0)), (A (mkP 0 0 0) (mkP 0 1 0)). lia. Qed.
Lemma flat_open_ids : ~ index_closed (live flat_abs).
Proof. intros H. specialize (H 0 1)%Z. discriminate H. Qed.
Lemma flat_apart : forall p q, In p (averts flat_abs) -> In q (averts flat_abs) -> p = q \/ ~ short (1 / 2) p q.
Proof.
  assert (forall p q, 1 <= dot3 (sub3 p q) (sub3 p q) -> ~ short (1 / 2) p q) as K.
  { intros p q H S. unfold short, dist3, len3 in S. rewrite Rabs_pos_eq in S by lra. apply sqrt_le_1_alt in H. rewrite sqrt_1 in H. lra. }
  intros p q Hp Hq. cbn in Hp, Hq.
  destruct Hp as [<-|[<-|[<-|[<-|[<-|[<-|[]]]]]]]; destruct Hq as [<-|[<-|[<-|[<-|[<-|[<-|[]]]]]]]; first [left; reflexivity|right; apply K; unfold dot3, sub3; cbn [px py pz]; lra].
Qed.
