(** Mesh factories over the reals: measures. *)
From Coq Require Import ZArith List Bool Lia Reals Lra Psatz.
From Verif Require Import Base Num MGeometry MKernel MMesh MMeshRun MMeasure MUtil MMeshFactory SMesh SReach SGeom SMeasure SMeshFac LBase LMesh LReach LGeom LMeasure LMeasure2 LMeshFac LMeshFac2 LMeshFac3.
Import ListNotations.
Open Scope R_scope.

Lemma divides_R : divides R.
Proof. intros x k K. exists (x / IZR k). cbn. destruct (Req_EM_T (IZR k) 0) as [E|_]; [|reflexivity]. apply eq_IZR in E. lia. Qed.
Lemma dv_R x k : (0 < k)%Z -> dv x k = x / IZR k.
Proof. intros K. unfold dv. cbn. destruct (Req_EM_T (IZR k) 0) as [E|_]; [|reflexivity]. apply eq_IZR in E. lia. Qed.
Lemma sqrt5_sq : sqrt 5 * sqrt 5 = 5. Proof. apply sqrt_sqrt. lra. Qed.
Lemma sqrt5_pos : 2 < sqrt 5 < 3.
Proof. pose proof sqrt5_sq. pose proof (sqrt_pos 5). split; nra. Qed.
Lemma nsqrt_5 : nsqrt (nofZ 5) = Ok (sqrt 5).
Proof. cbn. destruct (Rlt_dec 5 0); [lra|reflexivity]. Qed.
Definition phi_ : R := (sqrt 5 + 1) / 2.
Notation tau_ := tau.
Lemma ndiv_nz (x y : R) : y <> 0 -> ndiv x y = Ok (x / y).
Proof. intros H. cbn. destruct (Req_EM_T y 0); [contradiction|reflexivity]. Qed.
Lemma golden_up : ndiv (sqrt 5 + n1)%num n2 = Ok phi_. Proof. apply ndiv_nz. cbn. lra. Qed.
Lemma golden_down : ndiv (sqrt 5 - n1)%num n2 = Ok tau_. Proof. apply ndiv_nz. cbn. lra. Qed.
Lemma tau_sq : tau_ * tau_ = 1 - tau_. Proof. unfold tau. pose proof sqrt5_sq. nra. Qed.
Lemma tau_pos : 1 / 2 < tau_ < 1. Proof. unfold tau. pose proof sqrt5_pos. lra. Qed.
Lemma phi_tau : phi_ = 1 + tau_. Proof. unfold phi_, tau. lra. Qed.
Lemma golden_inv : ndiv n1 phi_ = Ok tau_.
Proof.
  rewrite ndiv_nz by (rewrite phi_tau; pose proof tau_pos; lra). f_equal. cbn. rewrite phi_tau. pose proof tau_pos. pose proof tau_sq.
  apply (Rmult_eq_reg_r (1 + tau_)); [|lra]. unfold Rdiv. rewrite Rmult_assoc, Rinv_l by lra. lra.
Qed.
Lemma golden_R : golden_ok R.
Proof. exists (sqrt 5), phi_, tau_. split; [apply nsqrt_5|]. split; [apply golden_up|apply golden_inv]. Qed.

Definition tri_list (vs : list pt3) (ts : list triple) : list (pt3 * pt3 * pt3) := map (fun t => let '(x, y, z) := t in (nth (Z.to_nat x) vs O3, nth (Z.to_nat y) vs O3, nth (Z.to_nat z) vs O3)) ts.
Lemma faces_is vs ts c : faces (mkA vs (alive ts) c) = tri_list vs ts.
Proof. unfold faces. rewrite live_alive. apply map_ext. intros [[x y] z]. reflexivity. Qed.
Lemma is_volume m vs ts c : is m vs ts c -> volume m = Ok (sumR (map vol_tri (tri_list vs ts))).
Proof. intros [R S]. rewrite (reach_volume _ _ R S). unfold total_vol. rewrite faces_is. reflexivity. Qed.
Lemma is_surface m vs ts c : is m vs ts c -> surface m = Ok (sumR (map area_tri (tri_list vs ts))).
Proof. intros [R S]. rewrite (reach_surface _ _ R S). unfold total_area. rewrite faces_is. reflexivity. Qed.

Ltac expand := cbv [sumR map fold_right tri_list vol_tri area_tri tetra_ts box_ts octa_ts ico_ts dodeca_ts dodeca_faces flat_map pentagon_ts quad_ts app tetra_vs box_vs octa_vs ico_vs dodeca_vs
  nth Z.to_nat Pos.to_nat Pos.iter_op Init.Nat.add tetra_vol det3 dot3 cross3 sub3 px py pz nneg RNum n0 nofZ].

Lemma box_volume x y z : sumR (map vol_tri (tri_list (box_vs (x / 2) (y / 2) (z / 2)) box_ts)) = x * y * z.
Proof. expand. field. Qed.
Lemma len3_axis a b c : (a = 0 /\ b = 0 \/ b = 0 /\ c = 0 \/ a = 0 /\ c = 0) -> len3 (mkP a b c) = Rabs (a + b + c).
Proof.
  intros H. unfold len3, dot3. cbn [px py pz]. rewrite <- sqrt_Rsqr_abs. f_equal. unfold Rsqr. destruct H as [[-> ->]|[[-> ->]|[-> ->]]]; ring.
Qed.
Lemma box_surface x y z : sumR (map area_tri (tri_list (box_vs (x / 2) (y / 2) (z / 2)) box_ts)) = 2 * (Rabs (x * y) + Rabs (y * z) + Rabs (z * x)).
Proof.
  assert (forall p q r : pt3, forall a b c, cross3 (sub3 q p) (sub3 r p) = mkP a b c -> (a = 0 /\ b = 0 \/ b = 0 /\ c = 0 \/ a = 0 /\ c = 0) -> area3 p q r = Rabs (a + b + c) / 2) as K.
  { intros p q r a b c E H. unfold area3. rewrite E, len3_axis by exact H. reflexivity. }
  expand.
  repeat match goal with |- context [area3 ?p ?q ?r] =>
    first [rewrite (K p q r 0 0 (x * y)); [|unfold cross3, sub3; cbn [px py pz]; f_equal; field|tauto]
          |rewrite (K p q r 0 0 (- (x * y))); [|unfold cross3, sub3; cbn [px py pz]; f_equal; field|tauto]
          |rewrite (K p q r 0 (z * x) 0); [|unfold cross3, sub3; cbn [px py pz]; f_equal; field|tauto]
          |rewrite (K p q r 0 (- (z * x)) 0); [|unfold cross3, sub3; cbn [px py pz]; f_equal; field|tauto]
          |rewrite (K p q r (y * z) 0 0); [|unfold cross3, sub3; cbn [px py pz]; f_equal; field|tauto]
          |rewrite (K p q r (- (y * z)) 0 0); [|unfold cross3, sub3; cbn [px py pz]; f_equal; field|tauto]] end.
  rewrite !Rplus_0_l, !Rplus_0_r, !Rabs_Ropp. field.
Qed.
Lemma tetra_volume d : sumR (map vol_tri (tri_list (tetra_vs d) tetra_ts)) = 8 / 3 * (d * d * d).
Proof. expand. field. Qed.
Lemma octa_volume d : sumR (map vol_tri (tri_list (octa_vs d) octa_ts)) = 4 / 3 * (d * d * d).
Proof. expand. field. Qed.
Lemma len3_k (k : R) (v : pt3) : forall c, dot3 v v = 3 * (k * k) -> 0 <= k -> c = k * sqrt 3 -> len3 v = c.
Proof. intros c E K ->. unfold len3. rewrite E. rewrite sqrt_mult by nra. rewrite (sqrt_square k K). ring. Qed.
Lemma tetra_surface d : sumR (map area_tri (tri_list (tetra_vs d) tetra_ts)) = 8 * sqrt 3 * (d * d).
Proof.
  expand. unfold area3. rewrite !(fun v H => len3_k (4 * (d * d)) v (4 * (d * d) * sqrt 3) H ltac:(nra) eq_refl) by (unfold cross3, sub3, dot3; cbn [px py pz]; ring). field.
Qed.
Lemma octa_surface d : sumR (map area_tri (tri_list (octa_vs d) octa_ts)) = 4 * sqrt 3 * (d * d).
Proof.
  expand. unfold area3. rewrite !(fun v H => len3_k (d * d) v (d * d * sqrt 3) H ltac:(nra) eq_refl) by (unfold cross3, sub3, dot3; cbn [px py pz]; ring). field.
Qed.
