(** The icosahedron and the dodecahedron are regular. *)
From Coq Require Import ZArith List Bool Lia Reals Lra Psatz.
From Verif Require Import Base Num MGeometry MKernel MMesh MMeshRun MMeasure MUtil MMeshFactory SMesh SReach SGeom SMeasure SUtil SMeshFac LBase LMesh LReach LGeom LMeasure LMeasure2 LMeshFac LMeshFac2 LMeshFac3 LMeshFac4.
Import ListNotations.
Open Scope R_scope.

Lemma tau3 : tau * tau * tau = 2 * tau - 1. Proof. pose proof tau_sq. nra. Qed.
Lemma sqrt5_tau : sqrt 5 = 2 * tau + 1. Proof. unfold tau. lra. Qed.
Lemma dist_of (p q : pt3) k : dot3 (sub3 p q) (sub3 p q) = k * k -> dist3 p q = Rabs k.
Proof. intros E. unfold dist3, len3. rewrite E. apply sqrt_Rsqr_abs. Qed.
Ltac lists H := cbv [tri_list map ico_ts ico_vs dodeca_vs dodeca_faces nth Z.to_nat Pos.to_nat Pos.iter_op Init.Nat.add nneg RNum n0 nofZ nmul In] in H.
(** Equations between polynomials in [d] and [tau] *)
Ltac poly d := pose proof tau_sq as T; try (transitivity (d * d * 0); [|ring]).

Lemma ico_on d p : In p (ico_vs d (tau * d)) -> on_sphere (d * sqrt (1 + tau * tau)) p.
Proof.
  intros H. lists H. assert (d * sqrt (1 + tau * tau) * (d * sqrt (1 + tau * tau)) = d * d * (1 + tau * tau)) as E.
  { transitivity (d * d * (sqrt (1 + tau * tau) * sqrt (1 + tau * tau))); [ring|]. rewrite sqrt_sqrt by nra. reflexivity. }
  unfold on_sphere. rewrite E. repeat (destruct H as [<-|H]; [cbn [px py pz]; ring|]). contradiction H.
Qed.
Lemma ico_edges d p q r : In (p, q, r) (tri_list (ico_vs d (tau * d)) ico_ts) -> dist3 p q = Rabs (2 * tau * d) /\ dist3 q r = Rabs (2 * tau * d) /\ dist3 r p = Rabs (2 * tau * d).
Proof.
  intros H. lists H. pose proof tau_sq as TS.
  assert (forall a : R, a - d * d * (2 * (tau * tau) + 2 - 2 * tau) = 0 -> a = 2 * tau * d * (2 * tau * d)) as K.
  { intros a E. transitivity (d * d * (4 * (tau * tau))); [|ring]. transitivity (d * d * (2 * (tau * tau) + 2 - 2 * tau)); [lra|]. f_equal. lra. }
  repeat (destruct H as [H|H]; [injection H as <- <- <-; repeat split; apply dist_of; unfold dot3, sub3; cbn [px py pz]; first [ring|apply K; ring]|]). contradiction H.
Qed.
Lemma ico_volume d : sumR (map vol_tri (tri_list (ico_vs d (tau * d)) ico_ts)) = 5 * (3 + sqrt 5) / 12 * ((2 * tau * d) * (2 * tau * d) * (2 * tau * d)).
Proof.
  rewrite sqrt5_tau. pose proof tau_sq as T2. pose proof tau3 as T3.
  match goal with |- ?l = _ => transitivity (d * d * d * ((24 * tau + 8 * (1 + tau * tau * tau)) / 6)) end; [expand; field|].
  transitivity (d * d * d * (20 / 3 * tau)); [rewrite T3; field|]. transitivity (5 * (3 + (2 * tau + 1)) / 12 * (8 * (tau * tau * tau) * (d * d * d))); [|ring].
  rewrite T3. transitivity (d * d * d * (20 / 3 * (3 * tau + 2 * (tau * tau) - 2))); [rewrite T2; ring|field].
Qed.

Lemma dodeca_on d p : In p (dodeca_vs d ((1 + tau) * d) (tau * d)) -> on_sphere (d * sqrt 3) p.
Proof.
  intros H. lists H. pose proof tau_sq as T2. assert (d * sqrt 3 * (d * sqrt 3) = d * d * 3) as E.
  { transitivity (d * d * (sqrt 3 * sqrt 3)); [ring|]. rewrite sqrt_sqrt by lra. reflexivity. }
  assert (forall a, a = d * d * (1 + 2 * tau + 2 * (tau * tau)) -> a = d * d * 3) as K by (intros a ->; rewrite T2; ring).
  unfold on_sphere. rewrite E. repeat (destruct H as [<-|H]; [cbn [px py pz]; first [ring|apply K; ring]|]). contradiction H.
Qed.
Lemma dodeca_faces_regular d f : In f dodeca_faces -> regular_pentagon (Rabs (2 * tau * d)) (map (fun i => nth (Z.to_nat i) (dodeca_vs d ((1 + tau) * d) (tau * d)) O3) f).
Proof.
  pose proof tau_sq as T2. pose proof tau_pos as TP.
  assert (Rabs (2 * tau * d) / tau = Rabs (2 * d)) as ES. { replace (2 * tau * d) with (2 * d * tau) by ring. rewrite Rabs_mult, (Rabs_pos_eq tau) by lra. field. lra. }
  assert (forall a : R, a = d * d * (2 * (tau * tau) + 2 - 2 * tau) -> a = 2 * tau * d * (2 * tau * d)) as K.
  { intros a E. transitivity (d * d * (4 * (tau * tau))); [|ring]. rewrite E. f_equal. lra. }
  assert (forall a : R, a = d * d * (2 * (tau * tau) + 2 + 2 * tau) -> a = 2 * d * (2 * d)) as K2.
  { intros a E. transitivity (d * d * 4); [|ring]. rewrite E. f_equal. lra. }
  assert (forall a q, a = d * d * d * q * (tau * tau + tau - 1) -> a = 0) as K3.
  { intros a q E. rewrite E. rewrite T2. ring. }
  intros H. unfold dodeca_faces in H.
  repeat (destruct H as [<-|H]; [
    cbv [map dodeca_vs nth Z.to_nat Pos.to_nat Pos.iter_op Init.Nat.add nneg RNum n0 nofZ nmul]; unfold regular_pentagon; rewrite ES;
    (split; [repeat split; apply dist_of; unfold dot3, sub3; cbn [px py pz]; first [ring|apply K; ring]|]);
    (split; [repeat split; apply dist_of; unfold dot3, sub3; cbn [px py pz]; first [ring|apply K2; ring]|]);
    unfold det3, dot3, cross3, sub3; cbn [px py pz]; split;
    first [ring|apply (K3 _ 2); ring|apply (K3 _ (-2)); ring|apply (K3 _ (2 * tau)); ring|apply (K3 _ (-2 * tau)); ring|apply (K3 _ (4 * tau)); ring|apply (K3 _ (-4 * tau)); ring
     |apply (K3 _ 4); ring|apply (K3 _ (-4)); ring|apply (K3 _ (2 * tau + 2)); ring|apply (K3 _ (-2 * tau - 2)); ring]|]).
  contradiction H.
Qed.
Lemma dodeca_fans : dodeca_ts = flat_map fan5 dodeca_faces. Proof. reflexivity. Qed.
Lemma dodeca_volume d : sumR (map vol_tri (tri_list (dodeca_vs d ((1 + tau) * d) (tau * d)) dodeca_ts)) = (15 + 7 * sqrt 5) / 4 * ((2 * tau * d) * (2 * tau * d) * (2 * tau * d)).
Proof.
  rewrite sqrt5_tau. pose proof tau_sq as T2. pose proof tau3 as T3.
  match goal with |- ?l = _ => transitivity (d * d * d * ((32 + 60 * tau + 44 * (tau * tau) + 4 * (tau * tau * tau)) / 6)) end; [expand; field|].
  transitivity (d * d * d * (12 + 4 * tau)); [rewrite T3, T2; field|].
  transitivity ((15 + 7 * (2 * tau + 1)) / 4 * (8 * (tau * tau * tau) * (d * d * d))); [|ring].
  rewrite T3. transitivity (d * d * d * (60 * tau + 56 * (tau * tau) - 44)); [rewrite T2; ring|field].
Qed.
