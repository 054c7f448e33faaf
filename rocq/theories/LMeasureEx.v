(** Concrete meshes for the measurement properties. *)
From Coq Require Import ZArith List Bool Reals Lra Lia Permutation.
From Verif Require Import Base Num MGeometry MKernel MMesh MMeshRun MMeasure SMesh SReach SGeom SMeasure
  LBase LMesh LReach LGeom LMeasure LMeasure2.
Import ListNotations.
Open Scope R_scope.

(** The tetrahedron on the unit axes, faces oriented outside. *)
Definition tetra_ops {M} : list (op R M) :=
  [OpAddVertex (mkP 0 0 0); OpAddVertex (mkP 1 0 0); OpAddVertex (mkP 0 1 0); OpAddVertex (mkP 0 0 1);
   OpAddTriangle 0 2 1; OpAddTriangle 0 1 3; OpAddTriangle 1 2 3; OpAddTriangle 2 0 3].
Definition tetra_abs : AMesh R :=
  mkA [mkP 0 0 0; mkP 1 0 0; mkP 0 1 0; mkP 0 0 1]
      [((0, 2, 1), true); ((0, 1, 3), true); ((1, 2, 3), true); ((2, 0, 3), true)]%Z (-1)%Z.

Lemma tetra_exists : exists m : Mesh R, reach m /\ shows m tetra_abs /\ index_closed (live tetra_abs) /\ closed_surface (faces tetra_abs).
Proof.
  pose proof (shows_run tetra_ops tetra_ops (@mesh_new R) a_new R_new (shows_abs mesh_new)) as H.
  specialize (H ltac:(repeat constructor)). 
  assert (srun a_new (tetra_ops (M := AMesh R)) = Some (tetra_abs, [OutId 0; OutId 1; OutId 2; OutId 3; OutId 0; OutId 1; OutId 2; OutId 3])) as E by reflexivity.
  rewrite E in H. clear E. destruct H as [m [_ [R S]]]. exists m. split; [exact R|]. split; [exact S|].
  assert (index_closed (live tetra_abs)) as C.
  { apply closedb_ok. vm_compute. reflexivity. }
  split; [exact C|]. apply index_closed_surface, C.
Qed.

Lemma is_closed_refuted : exists m a, reach m /\ shows m a /\ live a <> [] /\ index_closed (live a) /\ @is_closed R m = Ok false.
Proof.
  destruct tetra_exists as [m [R [S [C _]]]]. exists m, tetra_abs. split; [exact R|]. split; [exact S|]. split; [discriminate|]. split; [exact C|].
  destruct (is_closed_exact m tetra_abs R S) as [b [E H]]. rewrite E. f_equal. destruct b; [|reflexivity]. exfalso.
  assert (live tetra_abs = []) as K by (apply H; reflexivity). discriminate K.
Qed.

Lemma tetra_volume : total_vol tetra_abs = 1 / 6.
Proof.
  assert (faces tetra_abs = [(mkP 0 0 0, mkP 0 1 0, mkP 1 0 0); (mkP 0 0 0, mkP 1 0 0, mkP 0 0 1);
    (mkP 1 0 0, mkP 0 1 0, mkP 0 0 1); (mkP 0 1 0, mkP 0 0 0, mkP 0 0 1)]) as E by reflexivity.
  unfold total_vol. rewrite E. unfold sumR, vol_tri, tetra_vol, det3, dot3, cross3. cbn [map fold_right px py pz]. field.
Qed.
