(** Final forms of the mesh factory lemmas. *)
From Coq Require Import ZArith List Bool Lia Reals Lra Psatz.
From Verif Require Import Base Num MGeometry MKernel MMesh MMeshRun MMeasure MUtil MMeshFactory MF64 SMesh SReach SGeom SMeasure SUtil SMeshFac LBase LMesh LReach LGeom LMeasure LMeasure2 LMeshFac LMeshFac2 LMeshFac3 LMeshFac4 LMeshFac5 LMeshFac6.
Import ListNotations.
Open Scope Z_scope.

Section Closed.
Context {T : Type} {N : Num T} {TR : Trig T}.
Implicit Types m : Mesh T.
Lemma built_is r vs ts c nv nt : (exists m', r = Ok m' /\ is m' vs ts c) -> len vs = nv -> len ts = nt -> index_closed ts -> built r nv nt.
Proof.
  intros [m' [E [R S]]] LV LT C. exists m', (mkA vs (alive ts) c). rewrite live_alive. split; [exact E|]. split; [exact R|]. split; [exact S|].
  split; [rewrite (proj1 S); exact LV|]. split; [|split; [exact LT|exact C]]. rewrite (proj1 (proj2 S)). cbn [atris]. unfold len, alive. rewrite map_length. exact LT.
Qed.
Lemma fixed_closed (d x y z : T) m : divides T -> golden_ok T -> reach m ->
  built (create_tetrahedron d m) 4 4 /\ built (create_box x y z m) 8 12 /\ built (create_octahedron d m) 6 8 /\
  built (create_dodecahedron d m) 20 36.
Proof.
  intros D [s [t [u [E1 [E2 E3]]]]] R.
  split; [eapply built_is; [apply tetra_is; exact R|reflexivity|reflexivity|apply tetra_closed]|].
  split; [eapply built_is; [apply box_is; assumption|reflexivity|reflexivity|apply box_closed]|].
  split; [eapply built_is; [apply octa_is; exact R|reflexivity|reflexivity|apply octa_closed]|].
  eapply built_is; [eapply dodeca_is; eassumption|reflexivity|reflexivity|apply dodeca_closed].
Qed.
Lemma ico_built (d : T) m : divides T -> golden_ok T -> reach m -> built (create_icosahedron d m) 12 20.
Proof.
  intros D [s [t [u [E1 _]]]] R. destruct (D (s - n1)%num 2 ltac:(lia)) as [q E2]. eapply built_is; [eapply ico_is; eassumption|reflexivity|reflexivity|apply ico_closed].
Qed.
Lemma round_closed (h r rM rm : T) n m : divides T -> reach m -> 0 <= n ->
  built (create_cylinder h r n m) (8 * n + 6) (16 * n + 10) /\
  built (create_sphere_uv r n m) ((4 * n + 2) * (2 * n + 1) + 2) (2 * ((4 * n + 2) * (2 * n + 1))) /\
  built (create_torus rM rm n m) ((4 * n + 2) * (2 * n + 6)) (2 * ((4 * n + 2) * (2 * n + 6))).
Proof.
  intros D R Hn. split; [|split].
  - eapply built_is; [apply cyl_is; assumption|rewrite cyl_vs_len; lia|rewrite cyl_ts_len; lia|apply cyl_closed; lia].
  - eapply built_is; [apply uv_is; assumption|rewrite uv_vs_len; rewrite !Z.max_r by lia; lia|rewrite uv_ts_len by lia; rewrite !Z.max_r by lia; lia|apply uv_closed; lia].
  - eapply built_is; [apply torus_is; assumption|rewrite torus_vs_len; rewrite !Z.max_r by lia; lia|rewrite torus_ts_len; rewrite !Z.max_r by lia; lia|apply torus_closed].
Qed.
Lemma round_negative (h r rM rm : T) n m : divides T -> reach m -> n < 0 ->
  create_cylinder h r n m = Err FAssert /\ built (create_sphere_uv r n m) 2 0 /\ built (create_torus rM rm n m) 0 0.
Proof.
  intros D R Hn. split; [apply cyl_negative; assumption|]. split.
  - eapply built_is; [apply uv_is; assumption|rewrite uv_vs_len; rewrite (Z.max_l 0 (2 + 4 * n)) by lia; lia|unfold uv_ts; rewrite zrange_empty by lia; reflexivity|unfold uv_ts; rewrite zrange_empty by lia; intros i j; reflexivity].
  - eapply built_is; [apply torus_is; assumption|rewrite torus_vs_len; rewrite (Z.max_l 0 (2 + 4 * n)) by lia; lia|rewrite torus_ts_len; rewrite (Z.max_l 0 (2 + 4 * n)) by lia; lia|apply torus_closed].
Qed.
Lemma cylinder_repeats (h r : T) n m : divides T -> reach m -> 0 <= n ->
  exists m' a, create_cylinder h r n m = Ok m' /\ reach m' /\ shows m' a /\ let L := 4 * n + 2 in
    filter repeats (live a) = [(2 * L, 2 * L - 2, 2 * L); (2 * L + 1, 2 * L + 1, 2 * L - 1)].
Proof.
  intros D R Hn. destruct (cyl_is h r n m D R Hn) as [m' [E [R' S]]]. exists m', (mkA (cyl_vs r (dv h 2) (2 + 4 * n)) (alive (cyl_ts (2 + 4 * n))) (get_color m)).
  split; [exact E|]. split; [exact R'|]. split; [exact S|]. rewrite live_alive. cbv zeta. replace (4 * n + 2) with (2 + 4 * n) by lia. apply cyl_repeats. lia.
Qed.
Lemma others_repeat_free (r rM rm : T) n m : divides T -> reach m -> 0 <= n ->
  (exists m' a, create_sphere_uv r n m = Ok m' /\ reach m' /\ shows m' a /\ filter repeats (live a) = []) /\
  (exists m' a, create_torus rM rm n m = Ok m' /\ reach m' /\ shows m' a /\ filter repeats (live a) = []).
Proof.
  intros D R Hn. split.
  - destruct (uv_is r n m D R) as [m' [E [R' S]]]. eexists m', _. split; [exact E|]. split; [exact R'|]. split; [exact S|]. rewrite live_alive. apply uv_repeats; lia.
  - destruct (torus_is rM rm n m D R) as [m' [E [R' S]]]. eexists m', _. split; [exact E|]. split; [exact R'|]. split; [exact S|]. rewrite live_alive. apply torus_repeats; lia.
Qed.
End Closed.

Lemma divides_f64 : divides f64. Proof. intros x k _. eexists. reflexivity. Qed.
Lemma golden_f64 : golden_ok f64. Proof. do 3 eexists. repeat split; reflexivity. Qed.

Open Scope R_scope.
Lemma boxed_of (vs : list pt3) ts c x y z : (forall p, In p vs -> Rabs (px p) <= x /\ Rabs (py p) <= y /\ Rabs (pz p) <= z) ->
  (exists p, In p vs /\ px p = x) -> (exists p, In p vs /\ px p = - x) -> (exists p, In p vs /\ py p = y) -> (exists p, In p vs /\ py p = - y) -> (exists p, In p vs /\ pz p = z) -> (exists p, In p vs /\ pz p = - z) ->
  boxed (mkA vs ts c) x y z.
Proof.
  intros H [p1 [I1 E1]] [p2 [I2 E2]] [p3 [I3 E3]] [p4 [I4 E4]] [p5 [I5 E5]] [p6 [I6 E6]]. split; cbn [averts].
  - intros p I. destruct (H p I) as [A [B C]]. unfold in_box. cbn [px py pz]. assert (forall u v, Rabs u <= v -> - v <= u <= v) as K by (intros u v; unfold Rabs; destruct (Rcase_abs u); lra). apply K in A. apply K in B. apply K in C. lra.
  - intros lo hi K. pose proof (K _ I1). pose proof (K _ I2). pose proof (K _ I3). pose proof (K _ I4). pose proof (K _ I5). pose proof (K _ I6). unfold in_box in *. cbn [px py pz]. lra.
Qed.
Lemma box_R (x y z : R) m : reach m ->
  exists m' a, create_box x y z m = Ok m' /\ reach m' /\ shows m' a /\ volume m' = Ok (x * y * z) /\
    surface m' = Ok (2 * (Rabs (x * y) + Rabs (y * z) + Rabs (z * x))) /\ boxed a (Rabs x / 2) (Rabs y / 2) (Rabs z / 2).
Proof.
  intros Rm. destruct (box_is x y z m divides_R Rm) as [m' [E I]]. rewrite !dv_R in I by lia. exists m', (mkA (box_vs (x / 2) (y / 2) (z / 2)) (alive box_ts) (get_color m)).
  split; [exact E|]. split; [apply I|]. split; [apply I|]. split; [rewrite (is_volume _ _ _ _ I), box_volume; reflexivity|]. split; [rewrite (is_surface _ _ _ _ I), box_surface; reflexivity|].
  assert (forall u, Rabs (u / 2) = Rabs u / 2 /\ Rabs (- (u / 2)) = Rabs u / 2) as K. { intros u. rewrite Rabs_Ropp. unfold Rdiv. rewrite Rabs_mult, (Rabs_pos_eq (/ 2)) by lra. auto. }
  apply boxed_of.
  - intros p H. cbv [box_vs In nneg RNum] in H. repeat (destruct H as [<-|H]; [cbn [px py pz]; rewrite ?(proj1 (K _)), ?(proj2 (K _)); lra|]). contradiction H.
  - destruct (Rle_dec 0 x) as [P|P]; [exists (mkP (x / 2) (y / 2) (z / 2))|exists (mkP (- (x / 2)) (y / 2) (z / 2))]; cbn; (split; [tauto|]); unfold Rabs; destruct (Rcase_abs x); lra.
  - destruct (Rle_dec 0 x) as [P|P]; [exists (mkP (- (x / 2)) (y / 2) (z / 2))|exists (mkP (x / 2) (y / 2) (z / 2))]; cbn; (split; [tauto|]); unfold Rabs; destruct (Rcase_abs x); lra.
  - destruct (Rle_dec 0 y) as [P|P]; [exists (mkP (x / 2) (y / 2) (z / 2))|exists (mkP (x / 2) (- (y / 2)) (z / 2))]; cbn; (split; [tauto|]); unfold Rabs; destruct (Rcase_abs y); lra.
  - destruct (Rle_dec 0 y) as [P|P]; [exists (mkP (x / 2) (- (y / 2)) (z / 2))|exists (mkP (x / 2) (y / 2) (z / 2))]; cbn; (split; [tauto|]); unfold Rabs; destruct (Rcase_abs y); lra.
  - destruct (Rle_dec 0 z) as [P|P]; [exists (mkP (x / 2) (y / 2) (z / 2))|exists (mkP (x / 2) (y / 2) (- (z / 2)))]; cbn; (split; [tauto|]); unfold Rabs; destruct (Rcase_abs z); lra.
  - destruct (Rle_dec 0 z) as [P|P]; [exists (mkP (x / 2) (y / 2) (- (z / 2)))|exists (mkP (x / 2) (y / 2) (z / 2))]; cbn; (split; [tauto|]); unfold Rabs; destruct (Rcase_abs z); lra.
Qed.
Lemma tetra_R (d : R) m : reach m -> 0 <= d ->
  exists m' a, create_tetrahedron d m = Ok m' /\ reach m' /\ shows m' a /\ volume m' = Ok (8 / 3 * (d * d * d)) /\
    surface m' = Ok (8 * sqrt 3 * (d * d)) /\ boxed a d d d /\
    forall p q r, In (p, q, r) (faces a) -> dist3 p q = 2 * sqrt 2 * d /\ dist3 q r = 2 * sqrt 2 * d /\ dist3 r p = 2 * sqrt 2 * d.
Proof.
  intros Rm D. destruct (tetra_is d m Rm) as [m' [E I]]. exists m', (mkA (tetra_vs d) (alive tetra_ts) (get_color m)).
  split; [exact E|]. split; [apply I|]. split; [apply I|]. split; [rewrite (is_volume _ _ _ _ I), tetra_volume; reflexivity|]. split; [rewrite (is_surface _ _ _ _ I), tetra_surface; reflexivity|]. split.
  - apply boxed_of; [intros p H; cbv [tetra_vs In nneg RNum] in H; repeat (destruct H as [<-|H]; [cbn [px py pz]; rewrite ?Rabs_Ropp, !(Rabs_pos_eq d) by lra; lra|]); contradiction H| | | | | |].
    1,3,5: exists (mkP d d d); (split; [cbn; tauto|reflexivity]). 1: exists (mkP (- d) (- d) d); (split; [cbn; tauto|reflexivity]). 1,2: exists (mkP d (- d) (- d)); (split; [cbn; tauto|reflexivity]).
  - intros p q r H. rewrite faces_is in H. cbv [tri_list map tetra_ts tetra_vs nth Z.to_nat Pos.to_nat Pos.iter_op Init.Nat.add nneg RNum In] in H.
    assert (sqrt 2 * sqrt 2 = 2) as S2 by (apply sqrt_sqrt; lra). pose proof (sqrt_pos 2) as P2.
    assert (forall u v : pt3, dot3 (sub3 u v) (sub3 u v) = 8 * (d * d) -> dist3 u v = 2 * sqrt 2 * d) as K.
    { intros u v Eq. rewrite (dist_of u v (2 * sqrt 2 * d)); [apply Rabs_pos_eq; nra|]. rewrite Eq. transitivity (4 * (sqrt 2 * sqrt 2) * (d * d)); [rewrite S2; ring|ring]. }
    repeat (destruct H as [H|H]; [injection H as <- <- <-; repeat split; apply K; unfold dot3, sub3; cbn [px py pz]; ring|]). contradiction H.
Qed.
Lemma octa_R (d : R) m : reach m -> 0 <= d ->
  exists m' a, create_octahedron d m = Ok m' /\ reach m' /\ shows m' a /\ volume m' = Ok (4 / 3 * (d * d * d)) /\
    surface m' = Ok (4 * sqrt 3 * (d * d)) /\ boxed a d d d /\
    forall p q r, In (p, q, r) (faces a) -> dist3 p q = sqrt 2 * d /\ dist3 q r = sqrt 2 * d /\ dist3 r p = sqrt 2 * d.
Proof.
  intros Rm D. destruct (octa_is d m Rm) as [m' [E I]]. exists m', (mkA (octa_vs d) (alive octa_ts) (get_color m)).
  split; [exact E|]. split; [apply I|]. split; [apply I|]. split; [rewrite (is_volume _ _ _ _ I), octa_volume; reflexivity|]. split; [rewrite (is_surface _ _ _ _ I), octa_surface; reflexivity|]. split.
  - apply boxed_of; [intros p H; cbv [octa_vs In nneg RNum n0 nofZ] in H; repeat (destruct H as [<-|H]; [cbn [px py pz]; rewrite ?Rabs_Ropp, ?(Rabs_pos_eq d), ?Rabs_R0 by lra; lra|]); contradiction H| | | | | |].
    + exists (mkP d 0 0); (split; [cbn; tauto|reflexivity]). + exists (mkP (- d) 0 0); (split; [cbn; tauto|reflexivity]). + exists (mkP 0 d 0); (split; [cbn; tauto|reflexivity]). + exists (mkP 0 (- d) 0); (split; [cbn; tauto|reflexivity]). + exists (mkP 0 0 d); (split; [cbn; tauto|reflexivity]). + exists (mkP 0 0 (- d)); (split; [cbn; tauto|reflexivity]).
  - intros p q r H. rewrite faces_is in H. cbv [tri_list map octa_ts octa_vs nth Z.to_nat Pos.to_nat Pos.iter_op Init.Nat.add nneg RNum In n0 nofZ] in H.
    assert (sqrt 2 * sqrt 2 = 2) as S2 by (apply sqrt_sqrt; lra). pose proof (sqrt_pos 2) as P2.
    assert (forall u v : pt3, dot3 (sub3 u v) (sub3 u v) = 2 * (d * d) -> dist3 u v = sqrt 2 * d) as K.
    { intros u v Eq. rewrite (dist_of u v (sqrt 2 * d)); [apply Rabs_pos_eq; nra|]. rewrite Eq. transitivity ((sqrt 2 * sqrt 2) * (d * d)); [rewrite S2; ring|ring]. }
    repeat (destruct H as [H|H]; [injection H as <- <- <-; repeat split; apply K; unfold dot3, sub3; cbn [px py pz]; ring|]). contradiction H.
Qed.
Lemma ico_R (d : R) m : reach m ->
  exists m' a, create_icosahedron d m = Ok m' /\ reach m' /\ shows m' a /\ let s := 2 * tau * d in
    volume m' = Ok (5 * (3 + sqrt 5) / 12 * (s * s * s)) /\
    (forall p, In p (averts a) -> on_sphere (d * sqrt (1 + tau * tau)) p) /\
    forall p q r, In (p, q, r) (faces a) -> dist3 p q = Rabs s /\ dist3 q r = Rabs s /\ dist3 r p = Rabs s.
Proof.
  intros Rm. destruct (ico_is d (sqrt 5) tau m nsqrt_5 golden_down Rm) as [m' [E I]]. exists m', (mkA (ico_vs d (tau * d)) (alive ico_ts) (get_color m)).
  split; [exact E|]. split; [apply I|]. split; [apply I|]. cbv zeta. split; [rewrite (is_volume _ _ _ _ I); f_equal; apply ico_volume|]. split; [intros p; apply ico_on|].
  intros p q r H. rewrite faces_is in H. apply ico_edges. exact H.
Qed.
Lemma dodeca_R (d : R) m : reach m ->
  exists m' a fs, create_dodecahedron d m = Ok m' /\ reach m' /\ shows m' a /\ let s := 2 * tau * d in
    volume m' = Ok ((15 + 7 * sqrt 5) / 4 * (s * s * s)) /\
    (forall p, In p (averts a) -> on_sphere (d * sqrt 3) p) /\
    live a = flat_map fan5 fs /\ len fs = 12%Z /\
    forall f, In f fs -> regular_pentagon (Rabs s) (map (fun i => pt a i O3) f).
Proof.
  intros Rm. destruct (dodeca_is d (sqrt 5) phi_ tau m nsqrt_5 golden_up golden_inv Rm) as [m' [E I]].
  replace (phi_ * d)%num with ((1 + tau) * d)%num in I by (rewrite phi_tau; reflexivity).
  exists m', (mkA (dodeca_vs d ((1 + tau) * d) (tau * d)) (alive dodeca_ts) (get_color m)), dodeca_faces.
  split; [exact E|]. split; [apply I|]. split; [apply I|]. cbv zeta. split; [rewrite (is_volume _ _ _ _ I); f_equal; apply dodeca_volume|]. split; [intros p; apply dodeca_on|].
  split; [rewrite live_alive; reflexivity|]. split; [reflexivity|]. intros f H. apply dodeca_faces_regular. exact H.
Qed.
Lemma round_on (h r rM rm : R) n m : reach m -> (0 <= n)%Z ->
  (exists m' a, create_sphere_uv r n m = Ok m' /\ shows m' a /\ forall p, In p (averts a) -> on_sphere r p) /\
  (exists m' a, create_torus rM rm n m = Ok m' /\ shows m' a /\ forall p, In p (averts a) -> on_torus rM rm p) /\
  (exists m' a, create_cylinder h r n m = Ok m' /\ shows m' a /\
     forall p, In p (averts a) -> on_rim r h p \/ p = mkP 0 0 (h / 2) \/ p = mkP 0 0 (- (h / 2))).
Proof.
  intros Rm Hn. split; [|split].
  - destruct (uv_is r n m divides_R Rm) as [m' [E [R' S]]]. eexists m', _. split; [exact E|]. split; [exact S|]. cbn [averts]. intros p. apply uv_on.
  - destruct (torus_is rM rm n m divides_R Rm) as [m' [E [R' S]]]. eexists m', _. split; [exact E|]. split; [exact S|]. cbn [averts]. intros p. apply torus_on.
  - destruct (cyl_is h r n m divides_R Rm Hn) as [m' [E [R' S]]]. rewrite dv_R in S by lia. eexists m', _. split; [exact E|]. split; [exact S|]. cbn [averts]. intros p. apply cyl_on.
Qed.
