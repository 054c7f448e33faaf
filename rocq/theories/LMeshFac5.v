(** Mesh factories over the reals: vertices on their surface. *)
From Coq Require Import ZArith List Bool Lia Reals Lra Psatz.
From Verif Require Import Base Num MGeometry MKernel MMesh MMeshRun MMeasure MUtil MMeshFactory SMesh SReach SGeom SMeasure SUtil SMeshFac LBase LMesh LReach LGeom LMeasure LMeasure2 LMerge LTess LMeshFac LMeshFac2 LMeshFac3 LMeshFac4.
Import ListNotations.
Open Scope R_scope.

Lemma trig1 x : cos x * cos x + sin x * sin x = 1.
Proof. pose proof (sin2_cos2 x) as H. unfold Rsqr in H. lra. Qed.
Lemma torus_p_on rM rm NL NLa i j : on_torus rM rm (torus_p rM rm NL NLa i j).
Proof.
  unfold on_torus, torus_p. cbn [px py pz]. set (u := angle i NL). set (v := angle j NLa). cbn [ncos nsin RTrig nadd nmul RNum].
  pose proof (trig1 u) as U. pose proof (trig1 v) as V. set (W := rM + rm * cos v).
  replace (W * cos u * (W * cos u) + W * sin u * (W * sin u)) with (W * W * (cos u * cos u + sin u * sin u)) by ring. rewrite U.
  replace (rm * sin v * (rm * sin v)) with (rm * rm * (1 - cos v * cos v)) by (rewrite <- V; ring). unfold W. ring.
Qed.
Lemma torus_on rM rm NL NLa p : In p (torus_vs rM rm NL NLa) -> on_torus rM rm p.
Proof. unfold torus_vs. intros H. apply in_flat_map in H. destruct H as [i [_ H]]. apply in_flat_map in H. destruct H as [j [_ [<-|[]]]]. apply torus_p_on. Qed.
Lemma uv_on r NL NLa p : In p (uv_vs r NL NLa) -> on_sphere r p.
Proof.
  unfold uv_vs. intros H. apply in_app_or in H. destruct H as [H|[<-|[<-|[]]]]; [|unfold on_sphere; cbn; ring..].
  apply in_flat_map in H. destruct H as [i [_ H]]. apply in_flat_map in H. destruct H as [j [_ [<-|[]]]].
  unfold on_sphere, uv_p. cbn [px py pz]. set (u := angle i NL). set (v := (_ * pi_lit)%num). cbn [ncos nsin RTrig nmul RNum].
  pose proof (trig1 u) as U. pose proof (trig1 v) as V.
  replace (r * sin v * cos u * (r * sin v * cos u) + r * sin v * sin u * (r * sin v * sin u)) with (r * r * (sin v * sin v) * (cos u * cos u + sin u * sin u)) by ring.
  rewrite U. replace (r * r * (sin v * sin v) * 1 + r * cos v * (r * cos v)) with (r * r * (cos v * cos v + sin v * sin v)) by ring. rewrite V. ring.
Qed.
Lemma cyl_on h r L p : In p (cyl_vs r (h / 2) L) -> on_rim r h p \/ p = mkP 0 0 (h / 2) \/ p = mkP 0 0 (- (h / 2)).
Proof.
  unfold cyl_vs. intros H. apply in_app_or in H. destruct H as [H|[<-|[<-|[]]]]; [|right; cbn; tauto..].
  left. apply in_flat_map in H. destruct H as [i [_ H]]. unfold cyl_p in H. set (u := angle i L) in H. pose proof (trig1 u) as U.
  assert (cos u * r * (cos u * r) + sin u * r * (sin u * r) = r * r) as K by (replace (cos u * r * (cos u * r) + sin u * r * (sin u * r)) with (r * r * (cos u * cos u + sin u * sin u)) by ring; rewrite U; ring).
  destruct H as [<-|[<-|[]]]; unfold on_rim; cbn; split; auto.
Qed.

(** ** Geodesic sphere *)
Definition push_out (r : R) (p : pt3) : pt3 := scal3 (r / len3 p) p.
Lemma len3_nz p : p <> O3 -> len3 p <> 0.
Proof.
  intros H E. apply H. unfold len3 in E. apply sqrt_eq_0 in E; [|unfold dot3; nra].
  destruct p as [x y z]. unfold dot3 in E. cbn [px py pz] in E. unfold O3. assert (x = 0 /\ y = 0 /\ z = 0) as [-> [-> ->]] by (repeat split; nra). reflexivity.
Qed.
Lemma push_out_on r p : p <> O3 -> on_sphere r (push_out r p).
Proof.
  intros H. pose proof (len3_nz p H) as L. unfold on_sphere, push_out, scal3. cbn [px py pz].
  assert (len3 p * len3 p = px p * px p + py p * py p + pz p * pz p) as E. { unfold len3. rewrite sqrt_sqrt; [reflexivity|]. unfold dot3. nra. }
  replace (r / len3 p * px p * (r / len3 p * px p) + r / len3 p * py p * (r / len3 p * py p) + r / len3 p * pz p * (r / len3 p * pz p))
    with (r / len3 p * (r / len3 p) * (px p * px p + py p * py p + pz p * pz p)) by ring. rewrite <- E. field. exact L.
Qed.
Lemma normalized_R p : p <> O3 -> normalized p = Ok (scal3 (/ len3 p) p).
Proof.
  intros H. pose proof (len3_nz p H) as L. unfold normalized. rewrite norm_R. cbn [bind]. rewrite ndiv_nz by exact L. cbn [bind]. f_equal. unfold pmul, scal3. cbn. f_equal; field; exact L.
Qed.

Lemma to_radius_ok r (m : Mesh R) a : reach m -> shows m a -> (forall p, In p (averts a) -> p <> O3) ->
  exists m', to_radius r m = Ok m' /\ reach m' /\ shows m' (mkA (map (push_out r) (averts a)) (atris a) (acolor a)).
Proof.
  intros R S NZ. unfold to_radius. set (n := nb_vertices m). assert (n = len (averts a)) as En by apply S.
  destruct (for_inv (fun i mm => reach mm /\ shows mm (mkA (map (push_out r) (firstn (Z.to_nat i) (averts a)) ++ skipn (Z.to_nat i) (averts a)) (atris a) (acolor a))) 0 n
    (fun i m => do v <- get_vertex m i; do v <- normalized v; set_vertex m i (pmul v r)) m) as [m' [E I]].
  - rewrite En. unfold len. lia.
  - cbn. split; [exact R|]. destruct a. exact S.
  - intros i mm Hi [Rm Sm]. rewrite En in Hi. unfold len in Hi.
    destruct (nth_error (averts a) (Z.to_nat i)) as [p|] eqn:Ep; [|apply nth_error_None in Ep; lia].
    pose proof (NZ p (nth_error_In _ _ Ep)) as Np.
    assert (forall q, nth_error (map (push_out r) (firstn (Z.to_nat i) (averts a)) ++ q) (Z.to_nat i) = nth_error q 0) as NE.
    { intros q. rewrite nth_error_app2; rewrite map_length, firstn_length_le by lia; [|lia]. f_equal. lia. }
    assert (skipn (Z.to_nat i) (averts a) = p :: skipn (Datatypes.S (Z.to_nat i)) (averts a)) as SK.
    { clear - Ep. revert Ep. generalize (Z.to_nat i) (averts a). induction n as [|n IH]; intros [|x l] E; try discriminate; [injection E as ->; reflexivity|]. exact (IH l E). }
    assert (get_vertex mm i = Ok p) as ->.
    { destruct Sm as [_ [_ [_ [Sv _]]]]. specialize (Sv i). cbn [averts] in Sv. rewrite NE, SK in Sv. cbn in Sv. apply Sv. lia. }
    cbn [bind]. rewrite normalized_R by exact Np. cbn [bind].
    pose proof (shows_run [OpSetVertex i (push_out r p)] [OpSetVertex i (push_out r p)] mm _ Rm Sm ltac:(repeat constructor)) as H. cbn [srun sstep averts atris acolor] in H.
    assert (ok_idx i (len (map (push_out r) (firstn (Z.to_nat i) (averts a)) ++ skipn (Z.to_nat i) (averts a))) = true) as OK.
    { unfold ok_idx, len. rewrite app_length, map_length, <- app_length, firstn_skipn. apply andb_true_intro. split; [apply Z.leb_le|apply Z.ltb_lt]; lia. }
    rewrite OK in H. destruct H as [m2 [E2 [R2 S2]]]. exists m2. 
    assert (pmul (scal3 (/ len3 p) p) r = push_out r p) as EP by (unfold pmul, push_out, scal3; cbn; f_equal; unfold Rdiv; ring).
    rewrite EP. split.
    + cbn [mrun mstep] in E2. destruct (set_vertex mm i (push_out r p)); [|discriminate E2]. cbn in E2. congruence.
    + split; [exact R2|]. unfold upd in S2. rewrite NE in S2. rewrite SK in S2. cbn [nth_error] in S2.
      rewrite firstn_app in S2. rewrite map_length, firstn_length_le in S2 by lia. rewrite Nat.sub_diag in S2. cbn [firstn] in S2. rewrite app_nil_r in S2.
      rewrite firstn_all2 in S2 by (rewrite map_length, firstn_length_le; lia).
      rewrite skipn_app in S2. rewrite skipn_all2 in S2 by (rewrite map_length, firstn_length_le; lia). rewrite map_length, firstn_length_le in S2 by lia.
      replace (Datatypes.S (Z.to_nat i) - Z.to_nat i)%nat with 1%nat in S2 by lia. cbn [skipn app] in S2.
      replace (Z.to_nat (i + 1)) with (Datatypes.S (Z.to_nat i)) by lia.
      assert (firstn (Datatypes.S (Z.to_nat i)) (averts a) = firstn (Z.to_nat i) (averts a) ++ [p]) as FN.
      { clear - Ep. revert Ep. generalize (Z.to_nat i) (averts a). induction n as [|n IH]; intros [|x l] E; try discriminate; [injection E as ->; reflexivity|]. cbn [firstn app]. cbn [firstn] in IH. f_equal. exact (IH l E). }
      rewrite FN, map_app, <- app_assoc. exact S2.
  - exists m'. split; [exact E|]. destruct I as [R' S']. split; [exact R'|]. rewrite En in S'. unfold len in S'. rewrite Nat2Z.id, firstn_all, skipn_all, app_nil_r in S'. exact S'.
Qed.

(** Corners of the icosahedron are within a right angle of each other, so no point of a face is the origin. *)
Lemma ico_face a b c : In (a, b, c) (tri_list (ico_vs 1 tau_) ico_ts) ->
  dot3 a a = 1 + tau_ * tau_ /\ dot3 b b = 1 + tau_ * tau_ /\ dot3 c c = 1 + tau_ * tau_ /\ dot3 a b = tau_ /\ dot3 b c = tau_ /\ dot3 c a = tau_.
Proof.
  pose proof tau_sq as T. intros H. cbv [tri_list map ico_ts ico_vs nth Z.to_nat Pos.to_nat Pos.iter_op Init.Nat.add nneg RNum n0 nofZ In] in H.
  repeat (destruct H as [H|H]; [injection H as <- <- <-; unfold dot3; cbn [px py pz]; repeat split; lra|]). contradiction H.
Qed.
Lemma ico_inside a b c p : In (a, b, c) (tri_list (ico_vs 1 tau_) ico_ts) -> in_triangle a b c p -> p <> O3.
Proof.
  intros I [x [y [z [X [Y [Z [S ->]]]]]]] E. destruct (ico_face a b c I) as [H1 [H2 [H3 [H4 [H5 H6]]]]]. pose proof tau_pos as TP.
  assert (dot3 (add3 (add3 (scal3 x a) (scal3 y b)) (scal3 z c)) (add3 (add3 a b) c) = (x + y + z) * (1 + tau_ * tau_ + 2 * tau_)) as K.
  { transitivity (x * (dot3 a a + dot3 a b + dot3 c a) + y * (dot3 a b + dot3 b b + dot3 b c) + z * (dot3 c a + dot3 b c + dot3 c c)); [unfold dot3, add3, scal3; cbn [px py pz]; ring|]. rewrite H1, H2, H3, H4, H5, H6. ring. }
  rewrite E, S in K. unfold dot3 at 1, O3 in K. cbn [px py pz] in K. nra.
Qed.

Lemma geodesic_ok r n (m : Mesh R) : reach m -> (1 <= n)%Z ->
  exists m' a', create_sphere_geodesic r n m = Ok m' /\ reach m' /\ shows m' a' /\ len (live a') = (20 * n * n)%Z /\
    forall p, In p (averts a') -> on_sphere r p.
Proof.
  intros Rm Hn. unfold create_sphere_geodesic.
  destruct (ico_is n1 (sqrt 5) tau_ mesh_new nsqrt_5 golden_down R_new) as [mi [Ei [Ri Si]]]. rewrite Ei. cbn [bind].
  destruct (is_clear m Rm) as [Rc _].
  destruct (tessellate_exact mi (clear m) _ n Ri Si Rc Hn) as [mt [at_ [cut [Et [Rt [St [Cu [Fa [Av [NT [NV _]]]]]]]]]]]. rewrite Et. cbn [bind].
  rewrite faces_is in Fa. replace (tau_ * n1)%num with tau_ in Fa by (cbn; ring). change (@n1 R _) with 1 in Fa.
  assert (forall f, In f (faces at_) -> exists g, In g (tri_list (ico_vs 1 tau_) ico_ts) /\ In f (cut g)) as FC.
  { intros f H. rewrite Fa in H. apply in_flat_map in H. exact H. }
  assert (forall p, In p (averts at_) -> p <> O3) as NZ.
  { intros p H. rewrite Av in H. apply in_flat_map in H. destruct H as [[[x y] z] [H1 H2]]. destruct (FC _ H1) as [[[a b] c] [G1 G2]].
    destruct (Cu (a, b, c)) as [_ C]. destruct (C x y z G2) as [C1 [C2 [C3 _]]]. destruct H2 as [<-|[<-|[<-|[]]]]; eapply ico_inside; eassumption. }
  destruct (to_radius_ok r mt at_ Rt St NZ) as [mr [Er [Rr Sr]]]. rewrite Er. cbn [bind].
  rewrite ndiv_nz by (cbn; lra). cbn [bind]. rewrite ndiv_nz by (cbn; intros E; apply eq_IZR in E; lia). cbn [bind]. rewrite ndiv_nz by (cbn; lra). cbn [bind].
  destruct (merge_exact mr _ (r / (951 / 1000) / IZR n / 20) Rr Sr) as [m' [ks [f [E [R' [S' [_ [K _]]]]]]]]. exists m'.
  eexists. split; [exact E|]. split; [exact R'|]. split; [exact S'|]. split.
  - assert (forall (vs : list pt3) c l, len (live (mkA vs (map (fun t : triple => (map_triple f t, true)) l) c)) = len l) as LL.
    { intros vs c l. replace (map (fun t : triple => (map_triple f t, true)) l) with (alive (map (map_triple f) l)) by (unfold alive; rewrite map_map; reflexivity). rewrite live_alive. unfold len. rewrite map_length. reflexivity. }
    rewrite LL. change (live {| averts := map (push_out r) (averts at_); atris := atris at_; acolor := acolor at_ |}) with (live at_).
    assert (len (live at_) = Z.of_nat (length (faces at_))) as -> by (unfold faces, len; rewrite map_length; reflexivity).
    rewrite Fa. assert (forall l, Z.of_nat (length (flat_map cut l)) = (n * n * Z.of_nat (length l))%Z) as LF.
    { induction l as [|[[x y] z] l IH]; [cbn; lia|]. cbn [flat_map length]. rewrite app_length, Nat2Z.inj_add, IH. destruct (Cu (x, y, z)) as [C _]. unfold len in C. rewrite C. lia. }
    rewrite LF. change (length (tri_list _ _)) with 20%nat. lia.
  - cbn [averts]. intros p H. apply in_map_iff in H. destruct H as [k [<- Hk]]. specialize (K k Hk). cbn [averts] in K. unfold len in K.
    unfold pt. cbn [averts]. assert (In (nth (Z.to_nat k) (map (push_out r) (averts at_)) O3) (map (push_out r) (averts at_))) as H by (apply nth_In; lia).
    apply in_map_iff in H. destruct H as [q [Eq Hq]]. rewrite <- Eq. apply push_out_on. apply NZ. exact Hq.
Qed.
