(** The geodesic sphere: a closed surface of 10 n^2 + 2 vertices. *)
From Coq Require Import ZArith List Bool Lia Reals Lra Psatz Permutation.
From Verif Require Import Base Num MGeometry MKernel MMesh MMeshRun MMeasure MUtil MMeshFactory SMesh SReach SGeom SMeasure SUtil SMeshFac LBase LMesh LReach LGeom LMeasure LMeasure2 LMerge LTess LMeshFac LMeshFac2 LMeshFac3 LMeshFac4 LMeshFac5 LGeo1 LGeo2 LGeo3 LGeo4.
Import ListNotations.
Open Scope Z_scope.

(** ** The points of the subdivision *)
Definition gw (x y z n u v : Z) : Z -> Z := wt (combine [x; y; z] [n - u - v; u; v]).
Lemma gw_on x y z n u v : In (x, y, z) ico_ts -> 0 <= u -> 0 <= v -> u + v <= n -> on n (x, y, z) (gw x y z n u v).
Proof.
  intros H U W S. destruct (face_ids x y z H) as [X [Y [Z0 [D1 [D2 D3]]]]]. unfold gw. split; [|split].
  - intros k. cbn [combine]. rewrite !wt_cons. change (wt [] k) with 0. destruct (x =? k), (y =? k), (z =? k); lia.
  - intros k. cbn [combine]. rewrite !wt_cons. change (wt [] k) with 0. destruct (Z.eqb_spec x k), (Z.eqb_spec y k), (Z.eqb_spec z k); try tauto; try lia; auto.
  - rewrite wt_sum by (try reflexivity; repeat constructor; lia). cbn. lia.
Qed.
Lemma gw_pt x y z n u v : In (x, y, z) ico_ts -> 1 <= n -> 0 <= u -> 0 <= v -> u + v <= n -> ip (V x) (V y) (V z) n (u, v) = scal3 (/ IZR n) (cw (gw x y z n u v)).
Proof.
  intros H Hn U W S. rewrite (on_cw n x y z _ H (gw_on x y z n u v H U W S)). destruct (face_ids x y z H) as [X [Y [Z0 [D1 [D2 D3]]]]].
  assert (gw x y z n u v x = n - u - v) as EX by (unfold gw; cbn [combine]; rewrite !wt_cons; change (wt [] x) with 0; rewrite Z.eqb_refl; replace (y =? x) with false by lia; replace (z =? x) with false by lia; lia).
  assert (gw x y z n u v y = u) as EY by (unfold gw; cbn [combine]; rewrite !wt_cons; change (wt [] y) with 0; rewrite Z.eqb_refl; replace (x =? y) with false by lia; replace (z =? y) with false by lia; lia).
  assert (gw x y z n u v z = v) as EZ by (unfold gw; cbn [combine]; rewrite !wt_cons; change (wt [] z) with 0; rewrite Z.eqb_refl; replace (x =? z) with false by lia; replace (y =? z) with false by lia; lia).
  unfold tri3. rewrite EX, EY, EZ. generalize (V x) (V y) (V z). intros a b c. unfold ip, add3, scal3, sub3. cbn [fst snd px py pz]. rewrite !minus_IZR. assert (IZR n <> 0)%R as NZ by (apply not_0_IZR; lia). f_equal; field; exact NZ.
Qed.
Definition corners_of (t : uvtri) : list (Z * Z) := let '(p, q, r) := t in [p; q; r].
Lemma grid_in n t uv : 1 <= n -> In t (grid n) -> In uv (corners_of t) -> 0 <= fst uv /\ 0 <= snd uv /\ fst uv + snd uv <= n.
Proof.
  intros Hn H I. assert (good_uv n t) as G by (eapply grid_good; exact H). destruct t as [[[u1 v1] [u2 v2]] [u3 v3]]. cbn in G, I. destruct G as [G1 [G2 [G3 _]]]. destruct I as [<-|[<-|[<-|[]]]]; cbn; lia.
Qed.
Lemma grid_covers n u v : 1 <= n -> 0 <= u -> 0 <= v -> u + v <= n -> exists t, In t (grid n) /\ In (u, v) (corners_of t).
Proof.
  intros Hn U W S. unfold grid.
  destruct (Z.eq_dec v 0) as [->|NV].
  - destruct (Z.eq_dec u n) as [->|NU].
    + exists ((n - 1, 0), (n - 1 + 1, 0), (n - 1, 1)). split; [apply in_flat_map; exists (n - 1); split; [apply in_zrange; lia|left; reflexivity]|]. right. left. f_equal. lia.
    + exists ((u, 0), (u + 1, 0), (u, 1)). split; [apply in_flat_map; exists u; split; [apply in_zrange; lia|left; reflexivity]|]. left. reflexivity.
  - destruct (Z.eq_dec u 0) as [->|NU].
    + destruct (Z.eq_dec v 1) as [->|N1].
      * exists ((0, 0), (0 + 1, 0), (0, 1)). split; [apply in_flat_map; exists 0; split; [apply in_zrange; lia|left; reflexivity]|]. right. right. left. reflexivity.
      * exists ((v - 1 - (v - 2) - 1, v - 2 + 1), (v - 1 - (v - 2), v - 2 + 1), (v - 1 - (v - 2) - 1, v - 2 + 2)). split.
        -- apply in_flat_map. exists (v - 1). split; [apply in_zrange; lia|]. right. apply in_flat_map. exists (v - 2). split; [apply in_zrange; lia|]. right. left. reflexivity.
        -- right. right. left. f_equal; lia.
    + set (s := u + v - 1). set (j := v - 1). exists ((s - j, j), (s - j, j + 1), (s - j - 1, j + 1)). split.
      * apply in_flat_map. exists s. split; [apply in_zrange; unfold s; lia|]. right. apply in_flat_map. exists j. split; [apply in_zrange; unfold s, j; lia|]. left. reflexivity.
      * right. left. unfold s, j. f_equal; lia.
Qed.
Definition fpts (f : pt3 * pt3 * pt3) : list pt3 := let '(p, q, r) := f in [p; q; r].
Definition cutup (n : Z) : list (pt3 * pt3 * pt3) := flat_map (small n) (tri_list (ico_vs 1%R tau_) ico_ts).
Lemma in_ico f : In f (tri_list (ico_vs 1%R tau_) ico_ts) <-> exists x y z, In (x, y, z) ico_ts /\ f = (V x, V y, V z).
Proof.
  unfold tri_list. rewrite in_map_iff. split.
  - intros [[[x y] z] [E H]]. exists x, y, z. split; [exact H|]. symmetry. exact E.
  - intros [x [y [z [H ->]]]]. exists (x, y, z). split; [reflexivity|exact H].
Qed.
Lemma cutup_points n p : 1 <= n -> In p (flat_map fpts (cutup n)) <-> exists A w, In A ico_ts /\ on n A w /\ p = scal3 (/ IZR n) (cw w).
Proof.
  intros Hn. unfold cutup. split.
  - intros H. apply in_flat_map in H. destruct H as [g [H1 H2]]. apply in_flat_map in H1. destruct H1 as [f [Hf Hg]]. apply in_ico in Hf. destruct Hf as [x [y [z [HA ->]]]]. unfold small in Hg. apply in_map_iff in Hg. destruct Hg as [t [<- Ht]].
    assert (exists uv, In uv (corners_of t) /\ p = ip (V x) (V y) (V z) n uv) as [[u v] [I ->]]. { destruct t as [[a b] c]. cbn in H2. destruct H2 as [<-|[<-|[<-|[]]]]; eexists; (split; [|reflexivity]); cbn; auto. }
    destruct (grid_in n t (u, v) Hn Ht I) as [U [W S]]. cbn [fst snd] in *. exists (x, y, z), (gw x y z n u v). split; [exact HA|]. split; [apply gw_on; assumption|]. apply gw_pt; assumption.
  - intros [[[x y] z] [w [HA [O ->]]]]. pose proof (on_sum n x y z w HA O) as S. pose proof (proj1 O) as P. pose proof (P x). pose proof (P y). pose proof (P z).
    destruct (grid_covers n (w y) (w z) Hn ltac:(lia) ltac:(lia) ltac:(lia)) as [t [Ht I]].
    assert (cw w = cw (gw x y z n (w y) (w z))) as E.
    { apply cw_ext. intros k. destruct (face_ids x y z HA) as [_ [_ [_ [D1 [D2 D3]]]]]. unfold gw. cbn [combine]. rewrite !wt_cons. change (wt [] k) with 0. pose proof (on_zero n x y z w k O) as K.
      destruct (Z.eqb_spec x k) as [E1|N1], (Z.eqb_spec y k) as [E2|N2], (Z.eqb_spec z k) as [E3|N3]; subst; try lia. }
    rewrite E. rewrite <- gw_pt by (try assumption; lia). apply in_flat_map. exists (ip3 (V x) (V y) (V z) n t). split.
    + apply in_flat_map. exists (V x, V y, V z). split; [apply in_ico; exists x, y, z; auto|]. unfold small. apply in_map. exact Ht.
    + destruct t as [[a b] c]. cbn in I. cbn. destruct I as [<-|[<-|[<-|[]]]]; auto.
Qed.

Open Scope R_scope.
Lemma push_scal r s p : 0 < s -> p <> O3 -> push_out r (scal3 s p) = push_out r p.
Proof.
  intros S N. pose proof (len3_nz p N) as L. unfold push_out. assert (len3 (scal3 s p) = s * len3 p) as ->.
  { assert (0 <= dot3 p p) as D by (rewrite <- len_sq; apply Rle_0_sqr). unfold len3. replace (dot3 (scal3 s p) (scal3 s p)) with (s * s * dot3 p p) by (unfold dot3, scal3; cbn [px py pz]; ring). rewrite sqrt_mult by nra. rewrite sqrt_square by lra. reflexivity. }
  unfold scal3. cbn [px py pz]. f_equal; field; split; lra.
Qed.
Lemma push_dist r p q : dist3 (push_out r p) (push_out r q) = Rabs r * dist3 (push_out 1 p) (push_out 1 q).
Proof.
  unfold dist3, len3. set (d := sub3 (push_out 1 p) (push_out 1 q)).
  replace (dot3 (sub3 (push_out r p) (push_out r q)) (sub3 (push_out r p) (push_out r q))) with (r * r * dot3 d d) by (unfold d, dot3, sub3, push_out, scal3; cbn [px py pz]; unfold Rdiv; ring).
  assert (0 <= dot3 d d) by (rewrite <- len_sq; apply Rle_0_sqr). rewrite sqrt_mult by (try assumption; apply Rle_0_sqr). f_equal. change (r * r) with (Rsqr r). apply sqrt_Rsqr_abs.
Qed.
Lemma apart_dist n p q : (1 <= n)%Z -> apart n p q -> 1 / (19 * IZR n) <= dist3 (push_out 1 p) (push_out 1 q).
Proof.
  intros Hn A. unfold apart in A. unfold dist3, len3. assert (1 <= IZR n) as N by (apply IZR_le; exact Hn). rewrite <- (sqrt_square (1 / (19 * IZR n))) by (apply Rlt_le, Rdiv_lt_0_compat; lra).
  apply sqrt_le_1_alt. replace (1 / (19 * IZR n) * (1 / (19 * IZR n))) with (1 / (361 * (IZR n * IZR n))) by (field; lra). exact A.
Qed.
Definition geo_tol (r : R) (n : Z) : R := r / (951 / 1000) / IZR n / 20.
Lemma apart_not_short r n p q : (1 <= n)%Z -> apart n p q -> ~ short (geo_tol r n) (push_out r p) (push_out r q).
Proof.
  intros Hn A S. unfold short in S. rewrite push_dist in S. pose proof (apart_dist n p q Hn A) as D. assert (1 <= IZR n) as N by (apply IZR_le; exact Hn).
  assert (geo_tol r n = r * (1 / (1902 / 100 * IZR n))) as E by (unfold geo_tol; field; lra). rewrite E, Rabs_mult in S. assert (0 < 1 / (1902 / 100 * IZR n)) as P by (apply Rdiv_lt_0_compat; lra). rewrite (Rabs_pos_eq (1 / _)) in S by lra.
  assert (1 / (1902 / 100 * IZR n) <= 1 / (19 * IZR n)) as Q by (unfold Rdiv; rewrite !Rmult_1_l; apply Rinv_le_contravar; lra). pose proof (Rabs_pos r). nra.
Qed.
Lemma apart_neq r n p q : (1 <= n)%Z -> r <> 0 -> apart n p q -> push_out r p <> push_out r q.
Proof.
  intros Hn R0 A E. pose proof (push_dist r p q) as D. pose proof (apart_dist n p q Hn A) as L. rewrite E in D. assert (1 <= IZR n) as N by (apply IZR_le; exact Hn). assert (0 < 1 / (19 * IZR n)) by (apply Rdiv_lt_0_compat; lra). pose proof (Rabs_pos_lt r R0).
  assert (dist3 (push_out r q) (push_out r q) = 0) as Z0. { unfold dist3, len3, sub3, dot3. cbn [px py pz]. rewrite !Rminus_diag_eq by reflexivity. rewrite !Rmult_0_l, !Rplus_0_l. apply sqrt_0. }
  nra.
Qed.
Lemma cw_nz n A w : (1 <= n)%Z -> In A ico_ts -> on n A w -> cw w <> O3.
Proof. intros Hn HA O E. destruct A as [[x y] z]. pose proof (on_len n x y z w Hn HA O) as [L _]. rewrite E in L. assert (1 <= IZR n) by (apply IZR_le; exact Hn). unfold dot3, O3 in L. cbn [px py pz] in L. nra. Qed.
Definition pos (r : R) (k : key) : pt3 := push_out r (cw (wt k)).
Lemma pos_cover r n p : (1 <= n)%Z -> In p (map (push_out r) (flat_map fpts (cutup n))) <-> In p (map (pos r) (keys n)).
Proof.
  intros Hn. assert (0 < / IZR n) as I0 by (apply Rinv_0_lt_compat, IZR_lt; lia). rewrite !in_map_iff. split.
  - intros [q [<- H]]. apply (cutup_points n q Hn) in H. destruct H as [A [w [HA [O ->]]]]. destruct (on_key n A w Hn HA O) as [k [Hk E]]. exists k. split; [|exact Hk]. unfold pos. rewrite (cw_ext (wt k) w E). rewrite push_scal; [reflexivity|exact I0|apply (cw_nz n A); assumption].
  - intros [k [<- Hk]]. destruct (key_on n k Hn Hk) as [A [HA O]]. exists (scal3 (/ IZR n) (cw (wt k))). split; [apply push_scal; [exact I0|apply (cw_nz n A); assumption]|]. apply (cutup_points n _ Hn). exists A, (wt k). auto.
Qed.
Lemma pos_apart n k k' : (1 <= n)%Z -> In k (keys n) -> In k' (keys n) -> k = k' \/ apart n (cw (wt k)) (cw (wt k')).
Proof.
  intros Hn Hk Hk'. destruct (key_on n k Hn Hk) as [A [HA O]]. destruct (key_on n k' Hn Hk') as [B [HB O']]. destruct (separated n A B _ _ Hn HA HB O O') as [E|S]; [left; apply (keys_inj n); assumption|right; exact S].
Qed.
Lemma pos_nodup r n : (1 <= n)%Z -> r <> 0 -> NoDup (map (pos r) (keys n)).
Proof. intros Hn R0. apply nodup_map; [|apply keys_nodup; exact Hn]. intros k k' Hk Hk' E. destruct (pos_apart n k k' Hn Hk Hk') as [Q|Q]; [exact Q|]. exfalso. exact (apart_neq r n _ _ Hn R0 Q E). Qed.

(** ** Winding *)
Lemma ico_det x y z : In (x, y, z) ico_ts -> 0 < det3 (V x) (V y) (V z).
Proof.
  intros H. pose proof tau_sq as TS. pose proof tau_pos as TP.
  each H; cbv [V ico_vs nth Z.to_nat Pos.to_nat Pos.iter_op Init.Nat.add nneg RNum n0 nofZ]; unfold det3, dot3, cross3; cbn [px py pz]; nra.
Qed.
Lemma det_push r p q s : p <> O3 -> q <> O3 -> s <> O3 -> det3 (push_out r p) (push_out r q) (push_out r s) = r * r * r / (len3 p * len3 q * len3 s) * det3 p q s.
Proof.
  intros P Q S. pose proof (len3_nz p P). pose proof (len3_nz q Q). pose proof (len3_nz s S). unfold det3, dot3, cross3, push_out, scal3. cbn [px py pz]. field. repeat split; assumption.
Qed.
Lemma cut_det n a b c p q s : (1 <= n)%Z -> In (p, q, s) (small n (a, b, c)) -> IZR (n * n) * det3 p q s = det3 a b c.
Proof.
  intros Hn H. destruct (grid_cuts a b c n Hn) as [_ C]. destruct (C p q s H) as [[x [y [z [_ [_ [_ [E ->]]]]]]] [_ [_ X]]]. set (u := add3 (add3 (scal3 x a) (scal3 y b)) (scal3 z c)) in *.
  assert (det3 u q s = dot3 u (cross3 (sub3 q u) (sub3 s u))) as -> by (unfold det3, dot3, cross3, sub3; cbn [px py pz]; ring).
  assert (forall k v, k * dot3 u v = dot3 u (scal3 k v)) as K by (intros k v; unfold dot3, scal3; cbn [px py pz]; ring). rewrite K, X. unfold u.
  transitivity ((x + y + z) * det3 a b c); [|rewrite E; ring]. unfold det3, dot3, cross3, sub3, add3, scal3. cbn [px py pz]. ring.
Qed.
Definition push3 (r : R) (f : pt3 * pt3 * pt3) : pt3 * pt3 * pt3 := let '(p, q, s) := f in (push_out r p, push_out r q, push_out r s).
Lemma cutup_out r n f : (1 <= n)%Z -> 0 < r -> In f (cutup n) -> 0 < vol_tri (push3 r f).
Proof.
  intros Hn R0 H. destruct f as [[p q] s]. assert (forall t, In t [p; q; s] -> t <> O3) as NZ.
  { intros t Ht. assert (In t (flat_map fpts (cutup n))) as I by (apply in_flat_map; exists (p, q, s); auto). apply (cutup_points n t Hn) in I. destruct I as [A [w [HA [O ->]]]]. pose proof (cw_nz n A w Hn HA O) as W. intros E. apply W.
    assert (0 < IZR n) as N0 by (apply IZR_lt; lia). destruct (cw w) as [a b c]. unfold scal3, O3 in *. cbn [px py pz] in E. injection E as E1 E2 E3. assert (/ IZR n <> 0) as I0 by (apply Rinv_neq_0_compat; lra).
    f_equal; [apply Rmult_integral in E1; tauto|apply Rmult_integral in E2; tauto|apply Rmult_integral in E3; tauto]. }
  pose proof (NZ p ltac:(cbn; auto)) as NP. pose proof (NZ q ltac:(cbn; auto)) as NQ. pose proof (NZ s ltac:(cbn; auto)) as NS.
  unfold cutup in H. apply in_flat_map in H. destruct H as [g [Hg H]]. apply in_ico in Hg. destruct Hg as [x [y [z [HA ->]]]]. pose proof (cut_det n _ _ _ _ _ _ Hn H) as D. pose proof (ico_det x y z HA) as P. rewrite <- D in P.
  assert (0 < IZR (n * n)) as N2 by (apply IZR_lt; nia). assert (0 < det3 p q s) as DP by nra. cbn [vol_tri push3]. unfold tetra_vol. rewrite det_push by assumption.
  assert (forall t, t <> O3 -> 0 < len3 t) as LP by (intros t Ht; pose proof (len3_nz t Ht); assert (0 <= len3 t) by apply sqrt_pos; lra).
  apply Rdiv_lt_0_compat; [|lra]. apply Rmult_lt_0_compat; [|exact DP]. apply Rdiv_lt_0_compat; [apply Rmult_lt_0_compat; [apply Rmult_lt_0_compat|]; assumption|]. apply Rmult_lt_0_compat; [apply Rmult_lt_0_compat|]; apply LP; assumption.
Qed.
Lemma closed_push r fs : closed_surface fs -> closed_surface (map (push3 r) fs).
Proof.
  unfold closed_surface. intros H. set (g := fun e : pt3 * pt3 => (push_out r (fst e), push_out r (snd e))).
  assert (flat_map edges3 (map (push3 r) fs) = map g (flat_map edges3 fs)) as E. { clear H. induction fs as [|[[p q] s] fs IH]; [reflexivity|]. cbn [map flat_map push3 edges3]. rewrite map_app, IH. reflexivity. }
  rewrite E. apply (Permutation_map g) in H. rewrite map_map in *. exact H.
Qed.

Lemma geodesic_closed r n (m : Mesh R) : reach m -> (1 <= n)%Z -> r <> 0 ->
  exists m' a', create_sphere_geodesic r n m = Ok m' /\ reach m' /\ shows m' a' /\
    NoDup (averts a') /\ len (averts a') = (10 * n * n + 2)%Z /\ len (live a') = (20 * n * n)%Z /\ index_closed (live a') /\
    (forall p, In p (averts a') -> on_sphere r p) /\ (0 < r -> forall f, In f (faces a') -> 0 < vol_tri f).
Proof.
  intros Rm Hn R0. unfold create_sphere_geodesic.
  destruct (ico_is n1 (sqrt 5) tau_ mesh_new nsqrt_5 golden_down R_new) as [mi [Ei [Ri Si]]]. rewrite Ei. cbn [bind].
  destruct (is_clear m Rm) as [Rc _].
  destruct (tessellate_ok mi n (clear m) (reach_wf mi Ri) Rc Hn) as [mt [Et [Rt [Fa [NV [NT AV]]]]]]. rewrite Et. cbn [bind].
  rewrite <- (shows_unique mi _ (abs mi) Si (shows_abs mi)) in *. rewrite faces_is in *. replace (tau_ * n1)%num with tau_ in * by (cbn; ring). change (@n1 R _) with 1 in *. fold (cutup n) in *. set (at_ := abs mt) in *.
  change (flat_map (fun f : pt3 * pt3 * pt3 => let '(p, q, r) := f in [p; q; r]) (cutup n)) with (flat_map fpts (cutup n)) in AV.
  assert (forall p, In p (averts at_) -> p <> O3) as NZ.
  { intros p H E. rewrite AV in H. apply (cutup_points n p Hn) in H. destruct H as [A [w [HA [O Ep]]]]. pose proof (cw_nz n A w Hn HA O) as W. apply W. rewrite E in Ep. assert (0 < / IZR n) as I0 by (apply Rinv_0_lt_compat, IZR_lt; lia). destruct (cw w) as [a b c]. unfold scal3, O3 in *. cbn [px py pz] in Ep. injection Ep as E1 E2 E3. f_equal; nra. }
  destruct (to_radius_ok r mt at_ Rt (shows_abs mt) NZ) as [mr [Er [Rr Sr]]]. rewrite Er. cbn [bind].
  set (ar := mkA (map (push_out r) (averts at_)) (atris at_) (acolor at_)) in *.
  rewrite ndiv_nz by (cbn; lra). cbn [bind]. rewrite ndiv_nz by (cbn; intros E; apply eq_IZR in E; lia). cbn [bind]. rewrite ndiv_nz by (cbn; lra). cbn [bind].
  assert (faces ar = map (push3 r) (cutup n)) as FR.
  { rewrite <- Fa. unfold faces. change (live ar) with (live at_). rewrite map_map. apply map_ext_in. intros [[x y] z] H. pose proof (shows_in_range mt at_ Rt (shows_abs mt) x y z H) as [X [Y Z0]]. cbn [corners push3]. unfold pt. cbn [averts ar]. unfold len in X, Y, Z0.
    assert (forall i, (0 <= i < Z.of_nat (length (averts at_)))%Z -> nth (Z.to_nat i) (map (push_out r) (averts at_)) O3 = push_out r (nth (Z.to_nat i) (averts at_) O3)) as K. { intros i Hi. rewrite (nth_indep _ O3 (push_out r O3)) by (rewrite map_length; lia). apply map_nth. }
    rewrite !K by assumption. reflexivity. }
  assert (closed_surface (faces ar)) as CR.
  { rewrite FR. apply closed_push. unfold cutup. apply tessellated_closed; [exact Hn|]. rewrite <- (faces_is (ico_vs 1 tau_) ico_ts 0%Z). apply index_closed_surface. rewrite live_alive. exact ico_closed. }
  assert (forall p, In p (averts ar) <-> In p (map (pos r) (keys n))) as CV by (intros p; cbn [averts ar]; rewrite AV; apply pos_cover; exact Hn).
  assert (geo_tol r n <> 0) as T0. { unfold geo_tol. assert (0 < IZR n) by (apply IZR_lt; lia). assert (r / (951 / 1000) / IZR n / 20 = r * (1 / (1902 / 100 * IZR n))) as -> by (field; lra). apply Rmult_integral_contrapositive_currified; [exact R0|]. assert (0 < 1 / (1902 / 100 * IZR n)) by (apply Rdiv_lt_0_compat; lra). lra. }
  destruct (merge_welds mr ar (geo_tol r n) Rr Sr T0) as [m' [a' [E [R' [S' [ND [IN [FA IC]]]]]]]].
  { intros p q Hp Hq. apply CV in Hp, Hq. apply in_map_iff in Hp, Hq. destruct Hp as [k [<- Hk]], Hq as [k' [<- Hk']]. destruct (pos_apart n k k' Hn Hk Hk') as [->|A]; [left; reflexivity|right; apply apart_not_short; assumption]. }
  exists m', a'. split; [exact E|]. split; [exact R'|]. split; [exact S'|]. split; [exact ND|].
  split; [|split; [|split; [exact (IC CR)|split]]].
  - assert (Permutation (averts a') (map (pos r) (keys n))) as P. { apply NoDup_Permutation; [exact ND|apply pos_nodup; assumption|]. intros p. rewrite IN. apply CV. }
    unfold len. rewrite (Permutation_length P), map_length. apply keys_len. exact Hn.
  - assert (length (live a') = length (cutup n)) as L. { assert (length (faces a') = length (live a')) as <- by (unfold faces; apply map_length). rewrite FA, FR, map_length. reflexivity. }
    unfold len. rewrite L, <- Fa. unfold faces. rewrite map_length. 
    assert (Z.of_nat (length (live at_)) = vsize (cutup n)) as -> by (unfold vsize; rewrite <- Fa; unfold faces; rewrite map_length; reflexivity).
    unfold cutup. rewrite (len_flat_map_cuts n); [change (vsize (tri_list (ico_vs 1 tau_) ico_ts)) with 20%Z; lia|..]; try lia. intros [[p q] s] _. apply (grid_cuts p q s n Hn).
  - intros p H. apply IN in H. apply CV in H. apply in_map_iff in H. destruct H as [k [<- Hk]]. destruct (key_on n k Hn Hk) as [A [HA O]]. apply push_out_on. apply (cw_nz n A); assumption.
  - intros RP f H. rewrite FA, FR in H. apply in_map_iff in H. destruct H as [g [<- Hg]]. apply (cutup_out r n g Hn RP Hg).
Qed.
