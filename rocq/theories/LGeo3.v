(** Points of the faces of the icosahedron with whole barycentric weights keep apart when pushed onto the sphere. *)
From Coq Require Import ZArith List Bool Lia Reals Lra Psatz.
From Verif Require Import Base Num MGeometry MKernel MMesh MMeshRun MMeasure MUtil MMeshFactory SMesh SReach SGeom SMeasure SUtil SMeshFac LBase LMesh LReach LGeom LMeasure LMeasure2 LMerge LTess LMeshFac LMeshFac2 LMeshFac3 LMeshFac4 LMeshFac5.
Import ListNotations.
Open Scope R_scope.

(** ** Whole combinations of 1 and tau *)
Definition zt := (Z * Z)%type.
Definition ev (a : zt) : R := IZR (fst a) + IZR (snd a) * tau_.
Definition zadd (a b : zt) : zt := (fst a + fst b, snd a + snd b)%Z.
Definition zsub (a b : zt) : zt := (fst a - fst b, snd a - snd b)%Z.
Definition zmul (a b : zt) : zt := (fst a * fst b + snd a * snd b, fst a * snd b + snd a * fst b - snd a * snd b)%Z.
Lemma ev_add a b : ev (zadd a b) = ev a + ev b. Proof. unfold ev, zadd. cbn [fst snd]. rewrite !plus_IZR. ring. Qed.
Lemma ev_sub a b : ev (zsub a b) = ev a - ev b. Proof. unfold ev, zsub. cbn [fst snd]. rewrite !minus_IZR. ring. Qed.
Lemma ev_mul a b : ev (zmul a b) = ev a * ev b.
Proof. unfold ev, zmul. cbn [fst snd]. rewrite minus_IZR, !plus_IZR, !mult_IZR. pose proof tau_sq as T. replace ((IZR (fst a) + IZR (snd a) * tau_) * (IZR (fst b) + IZR (snd b) * tau_)) with (IZR (fst a) * IZR (fst b) + (IZR (fst a) * IZR (snd b) + IZR (snd a) * IZR (fst b)) * tau_ + IZR (snd a) * IZR (snd b) * (tau_ * tau_)) by ring. rewrite T. ring. Qed.
Lemma tau_lo : 6180 / 10000 < tau_. Proof. pose proof tau_sq. pose proof tau_pos. nra. Qed.
Lemma tau_hi : tau_ < 6181 / 10000. Proof. pose proof tau_sq. pose proof tau_pos. nra. Qed.
Definition big (a : zt) : bool := (7600 <=? 10000 * fst a + (if 0 <=? snd a then 6180 else 6181) * snd a)%Z.
Lemma big_ok a : big a = true -> 76 / 100 <= ev a.
Proof.
  unfold big, ev. destruct a as [x y]. cbn [fst snd]. intros H. apply Z.leb_le in H. apply IZR_le in H. pose proof tau_lo. pose proof tau_hi.
  destruct (Z.leb_spec 0 y) as [L|L]; rewrite plus_IZR, !mult_IZR in H; [apply IZR_le in L|apply IZR_lt in L]; nra.
Qed.
Definition zpt := (zt * zt * zt)%type.
Definition zv (x : Z) : zpt :=
  nth (Z.to_nat x) [((1, 0), (0, 0), (0, 1)); ((1, 0), (0, 0), (0, -1)); ((-1, 0), (0, 0), (0, 1)); ((-1, 0), (0, 0), (0, -1));
    ((0, 0), (0, 1), (1, 0)); ((0, 0), (0, -1), (1, 0)); ((0, 0), (0, 1), (-1, 0)); ((0, 0), (0, -1), (-1, 0));
    ((0, 1), (1, 0), (0, 0)); ((0, -1), (1, 0), (0, 0)); ((0, 1), (-1, 0), (0, 0)); ((0, -1), (-1, 0), (0, 0))]%Z ((0, 0), (0, 0), (0, 0))%Z.
Definition zdot (a b : zpt) : zt := let '(x, y, z) := a in let '(u, v, w) := b in zadd (zadd (zmul x u) (zmul y v)) (zmul z w).
Definition V (x : Z) : pt3 := nth (Z.to_nat x) (ico_vs 1 tau_) O3.
Lemma V_ok x : (0 <= x < 12)%Z -> V x = let '(a, b, c) := zv x in mkP (ev a) (ev b) (ev c).
Proof.
  intros H. assert (In x (zrange 0 12)) as I by (apply in_zrange; exact H). cbv [zrange Z.to_nat Z.sub Z.add Pos.to_nat Pos.iter_op Init.Nat.add seq map Z.of_nat Pos.of_succ_nat Pos.succ Pos.add Z.opp In] in I.
  repeat (destruct I as [<-|I]; [cbv [V ico_vs nth Z.to_nat Pos.to_nat Pos.iter_op Init.Nat.add zv nneg RNum n0 nofZ ev fst snd]; f_equal; lra|]). contradiction I.
Qed.
Lemma dot_V x y : (0 <= x < 12)%Z -> (0 <= y < 12)%Z -> dot3 (V x) (V y) = ev (zdot (zv x) (zv y)).
Proof. intros X Y. rewrite (V_ok x X), (V_ok y Y). destruct (zv x) as [[a b] c], (zv y) as [[d e] f]. unfold dot3. cbn [px py pz zdot]. rewrite !ev_add, !ev_mul. reflexivity. Qed.

(** ** Weights carried by a face *)
Definition wsum (w : Z -> Z) : Z := zsum w (zrange 0 12).
Definition cw (w : Z -> Z) : pt3 := fold_right (fun v s => add3 (scal3 (IZR (w v)) (V v)) s) O3 (zrange 0 12).
Definition on (n : Z) (A : triple) (w : Z -> Z) : Prop :=
  let '(x, y, z) := A in (forall v, 0 <= w v)%Z /\ (forall v, w v <> 0 -> v = x \/ v = y \/ v = z)%Z /\ wsum w = n.
Definition tri3 (A : triple) (w : Z -> Z) : pt3 := let '(x, y, z) := A in add3 (add3 (scal3 (IZR (w x)) (V x)) (scal3 (IZR (w y)) (V y))) (scal3 (IZR (w z)) (V z)).
Ltac each H := cbv [ico_ts In] in H; repeat (destruct H as [H|H]; [injection H as <- <- <-|]); [..|contradiction H].
Lemma zr12 : zrange 0 12 = [0; 1; 2; 3; 4; 5; 6; 7; 8; 9; 10; 11]%Z. Proof. reflexivity. Qed.
Lemma on_zero n x y z w v : on n (x, y, z) w -> v <> x -> v <> y -> v <> z -> w v = 0%Z.
Proof. intros [_ [S _]] X Y Z0. destruct (Z.eq_dec (w v) 0) as [E|E]; [exact E|]. destruct (S v E) as [H|[H|H]]; contradiction. Qed.
Lemma face_ids x y z : In (x, y, z) ico_ts -> (0 <= x < 12 /\ 0 <= y < 12 /\ 0 <= z < 12 /\ x <> y /\ y <> z /\ z <> x)%Z.
Proof. intros H. each H; lia. Qed.
Lemma on_sum n x y z w : In (x, y, z) ico_ts -> on n (x, y, z) w -> (w x + w y + w z = n)%Z.
Proof.
  intros H O. transitivity (wsum w); [|apply O]. unfold wsum. rewrite zr12. cbn [zsum fold_right]. pose proof (on_zero n x y z w) as K.
  each H; repeat match goal with |- context [w ?v] => rewrite (K v O) by lia end; lia.
Qed.
Lemma scal_0 p : scal3 (IZR 0) p = O3. Proof. unfold scal3, O3. f_equal; ring. Qed.
Lemma add_O_l p : add3 O3 p = p. Proof. destruct p. unfold add3, O3. cbn. f_equal; ring. Qed.
Lemma add_O_r p : add3 p O3 = p. Proof. destruct p. unfold add3, O3. cbn. f_equal; ring. Qed.
Lemma on_cw n x y z w : In (x, y, z) ico_ts -> on n (x, y, z) w -> cw w = tri3 (x, y, z) w.
Proof.
  intros H O. unfold cw, tri3. rewrite zr12. generalize V. intros U. cbn [fold_right]. pose proof (on_zero n x y z w) as K.
  each H; repeat match goal with |- context [IZR (w ?v)] => rewrite (K v O) by lia end; rewrite !scal_0, !add_O_l, !add_O_r; unfold add3, scal3; cbn [px py pz]; f_equal; ring.
Qed.
Lemma cw_ext w w' : (forall v, w v = w' v) -> cw w = cw w'.
Proof. intros E. unfold cw. induction (zrange 0 12) as [|v l IH]; [reflexivity|]. cbn [fold_right]. rewrite IH, E. reflexivity. Qed.

(** ** Two points of the same face *)
Lemma face_gram x y z : In (x, y, z) ico_ts ->
  dot3 (V x) (V x) = 2 - tau_ /\ dot3 (V y) (V y) = 2 - tau_ /\ dot3 (V z) (V z) = 2 - tau_ /\ dot3 (V x) (V y) = tau_ /\ dot3 (V y) (V z) = tau_ /\ dot3 (V z) (V x) = tau_.
Proof.
  intros H. assert (In (V x, V y, V z) (tri_list (ico_vs 1 tau_) ico_ts)) as I by (unfold tri_list; apply (in_map (fun t : triple => let '(i, j, k) := t in (V i, V j, V k)) ico_ts (x, y, z) H)).
  pose proof tau_sq. destruct (ico_face _ _ _ I) as [? [? [? [? [? ?]]]]]. repeat split; lra.
Qed.
Lemma gram n x y z w w' : In (x, y, z) ico_ts -> on n (x, y, z) w -> on n (x, y, z) w' ->
  dot3 (cw w) (cw w') = tau_ * (IZR n * IZR n) + (2 - 2 * tau_) * (IZR (w x) * IZR (w' x) + IZR (w y) * IZR (w' y) + IZR (w z) * IZR (w' z)).
Proof.
  intros H O O'. rewrite (on_cw n x y z w H O), (on_cw n x y z w' H O'). destruct (face_gram x y z H) as [G1 [G2 [G3 [G4 [G5 G6]]]]].
  rewrite <- (on_sum n x y z w H O) at 1. rewrite <- (on_sum n x y z w' H O'). rewrite !plus_IZR. unfold tri3. revert G1 G2 G3 G4 G5 G6. generalize (V x) (V y) (V z). intros A B C G1 G2 G3 G4 G5 G6.
  generalize (IZR (w x)) (IZR (w y)) (IZR (w z)) (IZR (w' x)) (IZR (w' y)) (IZR (w' z)). intros a b c d e f.
  transitivity (a * d * dot3 A A + b * e * dot3 B B + c * f * dot3 C C + (a * e + b * d) * dot3 A B + (b * f + c * e) * dot3 B C + (c * d + a * f) * dot3 C A).
  - unfold dot3, add3, scal3. cbn [px py pz]. ring.
  - rewrite G1, G2, G3, G4, G5, G6. ring.
Qed.
Definition apart (n : Z) (p q : pt3) : Prop := 1 / (361 * (IZR n * IZR n)) <= dot3 (sub3 (push_out 1 p) (push_out 1 q)) (sub3 (push_out 1 p) (push_out 1 q)).
Lemma on_len n x y z w : (1 <= n)%Z -> In (x, y, z) ico_ts -> on n (x, y, z) w -> 6 / 10 * (IZR n * IZR n) <= dot3 (cw w) (cw w) <= 14 / 10 * (IZR n * IZR n).
Proof.
  intros Hn H O. rewrite (gram n x y z w w H O O). pose proof (on_sum n x y z w H O) as S. destruct O as [P _]. pose proof tau_lo. pose proof tau_hi.
  apply (f_equal IZR) in S. rewrite !plus_IZR in S. pose proof (IZR_le _ _ (P x)) as X. pose proof (IZR_le _ _ (P y)) as Y. pose proof (IZR_le _ _ (P z)) as Z0. rewrite <- S. apply IZR_le in Hn. rewrite <- S in Hn. revert X Y Z0 Hn.
  generalize (IZR (w x)) (IZR (w y)) (IZR (w z)). intros a b c X Y Z0 Hn. set (q := a * a + b * b + c * c). set (s := (a + b + c) * (a + b + c)).
  assert (0 <= q <= s) as Q by (unfold q, s; nra). assert (0 <= s) by lra. split; nra.
Qed.
Lemma len_sq p : len3 p * len3 p = dot3 p p.
Proof. unfold len3. rewrite sqrt_sqrt; [reflexivity|]. unfold dot3. nra. Qed.
Lemma len_pos p : 0 < dot3 p p -> 0 < len3 p.
Proof. intros H. unfold len3. apply sqrt_lt_R0. exact H. Qed.
Lemma chord p q : 0 < dot3 p p -> 0 < dot3 q q -> dot3 (sub3 (push_out 1 p) (push_out 1 q)) (sub3 (push_out 1 p) (push_out 1 q)) = 2 - 2 * (dot3 p q / (len3 p * len3 q)).
Proof.
  intros P Q. pose proof (len_pos p P) as LP. pose proof (len_pos q Q) as LQ. pose proof (len_sq p) as SP. pose proof (len_sq q) as SQ.
  transitivity (dot3 p p / (len3 p * len3 p) + dot3 q q / (len3 q * len3 q) - 2 * (dot3 p q / (len3 p * len3 q))).
  - unfold dot3, sub3, push_out, scal3. cbn [px py pz]. field. split; lra.
  - rewrite SP, SQ. field. repeat split; lra.
Qed.
Lemma sine_far P2 Q2 PQ LP LQ N : 0 < LP -> 0 < LQ -> LP * LP = P2 -> LQ * LQ = Q2 -> 0 < N -> P2 <= 14 / 10 * N -> Q2 <= 14 / 10 * N ->
  9 / 10 * N <= P2 * Q2 - PQ * PQ -> 1 / (361 * N) <= 2 - 2 * (PQ / (LP * LQ)).
Proof.
  intros LP0 LQ0 EP EQ N0 HP HQ D. set (c := PQ / (LP * LQ)). assert (0 < LP * LQ) as L0 by nra. assert (0 < P2 * Q2) as PQ0 by (rewrite <- EP, <- EQ; apply Rmult_lt_0_compat; apply Rmult_lt_0_compat; assumption).
  assert (1 - c * c = (P2 * Q2 - PQ * PQ) / (P2 * Q2)) as C by (unfold c; rewrite <- EP, <- EQ; field; split; lra).
  assert (P2 * Q2 <= 196 / 100 * (N * N)) as B. { replace (196 / 100 * (N * N)) with (14 / 10 * N * (14 / 10 * N)) by lra. apply Rmult_le_compat; subst P2 Q2; try assumption; apply Rlt_le, Rmult_lt_0_compat; assumption. }
  assert (1 / (361 * N) <= 1 - c * c) as K.
  { rewrite C. apply Rmult_le_reg_r with (P2 * Q2); [exact PQ0|]. replace ((P2 * Q2 - PQ * PQ) / (P2 * Q2) * (P2 * Q2)) with (P2 * Q2 - PQ * PQ) by (field; split; intros E; rewrite E in PQ0; lra).
    apply Rle_trans with (1 / (361 * N) * (196 / 100 * (N * N))); [apply Rmult_le_compat_l; [|exact B]; apply Rlt_le, Rdiv_lt_0_compat; lra|]. replace (1 / (361 * N) * (196 / 100 * (N * N))) with (196 / 36100 * N) by (field; lra). lra. }
  nra.
Qed.
Lemma cauchy3 a b c d e f : (a * d + b * e + c * f) * (a * d + b * e + c * f) <= (a * a + b * b + c * c) * (d * d + e * e + f * f).
Proof. pose proof (Rle_0_sqr (a * e - b * d)) as H1. pose proof (Rle_0_sqr (b * f - c * e)) as H2. pose proof (Rle_0_sqr (c * d - a * f)) as H3. unfold Rsqr in *. lra. Qed.
Lemma same_face n x y z w w' : (1 <= n)%Z -> In (x, y, z) ico_ts -> on n (x, y, z) w -> on n (x, y, z) w' ->
  (forall v, w v = w' v) \/ apart n (cw w) (cw w').
Proof.
  intros Hn H O O'. pose proof (on_sum n x y z w H O) as S. pose proof (on_sum n x y z w' H O') as S'.
  set (D := ((w x - w' x) * (w x - w' x) + (w y - w' y) * (w y - w' y) + (w z - w' z) * (w z - w' z))%Z).
  destruct (Z_le_gt_dec 2 D) as [L|L].
  - right. assert (0 < IZR n) as N0 by (apply IZR_lt; lia). assert (0 < IZR n * IZR n) as NN by nra. pose proof (on_len n x y z w Hn H O) as LW. pose proof (on_len n x y z w' Hn H O') as LW'.
    unfold apart. rewrite chord by lra. apply (sine_far (dot3 (cw w) (cw w)) (dot3 (cw w') (cw w'))); try apply len_sq; try apply len_pos; try lra.
    rewrite !(gram n x y z) by assumption. apply IZR_le in L. unfold D in L. rewrite !plus_IZR, !mult_IZR, !minus_IZR in L. revert L. set (N := IZR n * IZR n) in *.
    generalize (IZR (w x)) (IZR (w y)) (IZR (w z)) (IZR (w' x)) (IZR (w' y)) (IZR (w' z)). intros a b c d e f L. pose proof (cauchy3 a b c d e f) as CS.
    set (q := a * a + b * b + c * c) in *. set (q' := d * d + e * e + f * f) in *. set (s := a * d + b * e + c * f) in *. set (g := 2 - 2 * tau_).
    assert (2 <= q + q' - 2 * s) as L2 by (unfold q, q', s; lra). pose proof tau_lo as TL. pose proof tau_hi as TH.
    replace ((tau_ * N + g * q) * (tau_ * N + g * q') - (tau_ * N + g * s) * (tau_ * N + g * s)) with (tau_ * g * N * (q + q' - 2 * s) + g * g * (q * q' - s * s)) by ring.
    assert (0 <= g * g * (q * q' - s * s)) as A1 by (apply Rmult_le_pos; nra). assert (46 / 100 <= tau_ * g) as A2 by (unfold g; pose proof tau_sq; nra).
    assert (46 / 100 * N <= tau_ * g * N) as A3 by (apply Rmult_le_compat_r; lra).
    assert (46 / 100 * N * 2 <= tau_ * g * N * (q + q' - 2 * s)) as A4 by (apply Rmult_le_compat; lra). lra.
  - left. assert (w x = w' x /\ w y = w' y /\ w z = w' z)%Z as [EX [EY EZ]].
    { unfold D in L. assert (forall k, k * k < 2 -> k = 0 \/ k = 1 \/ k = -1)%Z as SQ by (intros k Hk; nia). pose proof (Z.square_nonneg (w x - w' x)) as Q1. pose proof (Z.square_nonneg (w y - w' y)) as Q2. pose proof (Z.square_nonneg (w z - w' z)) as Q3.
      assert (w x - w' x + (w y - w' y) + (w z - w' z) = 0)%Z as S0 by lia. clearbody D. clear S S' O O'. revert L Q1 Q2 Q3 S0. 
      assert (forall a b c, 2 > a * a + b * b + c * c -> 0 <= a * a -> 0 <= b * b -> 0 <= c * c -> a + b + c = 0 -> a = 0 /\ b = 0 /\ c = 0)%Z as K.
      { intros a b c L Q1 Q2 Q3 S0. destruct (SQ a ltac:(lia)) as [-> |[-> | ->]], (SQ b ltac:(lia)) as [-> |[-> | ->]], (SQ c ltac:(lia)) as [-> |[-> | ->]]; lia. }
      intros L Q1 Q2 Q3 S0. destruct (K _ _ _ L Q1 Q2 Q3 S0) as [? [? ?]]. lia. }
    intros v. destruct (Z.eq_dec v x) as [->|X]; [exact EX|]. destruct (Z.eq_dec v y) as [->|Y]; [exact EY|]. destruct (Z.eq_dec v z) as [->|Z0]; [exact EZ|].
    rewrite (on_zero n x y z w v O X Y Z0), (on_zero n x y z w' v O' X Y Z0). reflexivity.
Qed.

(** ** Two points of different faces: a plane of symmetry lies between them *)
Definition fv (x0 y0 v : Z) : zt := zsub (zdot (zv x0) (zv v)) (zdot (zv y0) (zv v)).
Definition memt (v : Z) (A : triple) : bool := let '(x, y, z) := A in ((v =? x) || (v =? y) || (v =? z))%Z.
Definition neg (a : zt) : zt := zsub (0, 0)%Z a.
Definition sideb (B : triple) (c : zt) (v : Z) : bool := if memt v B then ((fst c =? 0) && (snd c =? 0))%Z else big c.
Definition cut_at (A B : triple) (x0 y0 : Z) : bool :=
  let '(x, y, z) := A in let '(u, v, t) := B in
  sideb B (fv x0 y0 x) x && sideb B (fv x0 y0 y) y && sideb B (fv x0 y0 z) z &&
  sideb A (neg (fv x0 y0 u)) u && sideb A (neg (fv x0 y0 v)) v && sideb A (neg (fv x0 y0 t)) t.
Definition teq (A B : triple) : bool := let '(x, y, z) := A in let '(u, v, t) := B in ((x =? u) && (y =? v) && (z =? t))%Z.
Lemma all_cut : forallb (fun A => forallb (fun B => teq A B || existsb (fun x0 => existsb (fun y0 => cut_at A B x0 y0) (zrange 0 12)) (zrange 0 12)) ico_ts) ico_ts = true.
Proof. vm_compute. reflexivity. Qed.
Lemma cut_exists A B : In A ico_ts -> In B ico_ts -> A = B \/ exists x0 y0, (0 <= x0 < 12)%Z /\ (0 <= y0 < 12)%Z /\ cut_at A B x0 y0 = true.
Proof.
  intros HA HB. pose proof all_cut as E. rewrite forallb_forall in E. specialize (E A HA). rewrite forallb_forall in E. specialize (E B HB). apply orb_prop in E. destruct E as [E|E].
  - left. destruct A as [[x y] z], B as [[u v] t]. cbn [teq] in E. apply andb_prop in E. destruct E as [E E3]. apply andb_prop in E. destruct E as [E1 E2]. apply Z.eqb_eq in E1, E2, E3. congruence.
  - right. apply existsb_exists in E. destruct E as [x0 [X E]]. apply existsb_exists in E. destruct E as [y0 [Y E]]. exists x0, y0. apply in_zrange in X, Y. auto.
Qed.
Lemma fv_ok x0 y0 v : (0 <= x0 < 12)%Z -> (0 <= y0 < 12)%Z -> (0 <= v < 12)%Z -> ev (fv x0 y0 v) = dot3 (sub3 (V x0) (V y0)) (V v).
Proof. intros X Y W. unfold fv. rewrite ev_sub, <- !dot_V by assumption. generalize (V x0) (V y0) (V v). intros a b c. unfold dot3, sub3. cbn [px py pz]. ring. Qed.
Definition off (B : triple) (w : Z -> Z) (v : Z) : Z := if memt v B then 0%Z else w v.
Lemma side_ok B c v w : sideb B c v = true -> (0 <= w v)%Z -> 76 / 100 * IZR (off B w v) <= IZR (w v) * ev c.
Proof.
  unfold sideb, off. intros H P. apply IZR_le in P. destruct (memt v B).
  - apply andb_prop in H. destruct H as [H1 H2]. apply Z.eqb_eq in H1, H2. unfold ev. rewrite H1, H2. lra.
  - apply big_ok in H. nra.
Qed.
Lemma dot_tri F x y z w : dot3 F (tri3 (x, y, z) w) = IZR (w x) * dot3 F (V x) + IZR (w y) * dot3 F (V y) + IZR (w z) * dot3 F (V z).
Proof. unfold tri3. generalize (V x) (V y) (V z) (IZR (w x)) (IZR (w y)) (IZR (w z)). intros A B C a b c. unfold dot3, add3, scal3. cbn [px py pz]. ring. Qed.
Lemma cauchy p q : dot3 p q * dot3 p q <= dot3 p p * dot3 q q.
Proof. unfold dot3. apply cauchy3. Qed.
Lemma far_apart n F p q : (1 <= n)%Z -> dot3 F F <= 56 / 10 -> 0 < dot3 p p <= 14 / 10 * (IZR n * IZR n) -> 0 < dot3 q q <= 14 / 10 * (IZR n * IZR n) ->
  0 <= dot3 F p -> dot3 F q <= 0 -> 76 / 100 <= dot3 F p - dot3 F q -> apart n p q.
Proof.
  intros Hn HF [P0 P1] [Q0 Q1] FP FQ FD. unfold apart. assert (1 <= IZR n) as N1 by (apply IZR_le; exact Hn). set (m := IZR n) in *.
  pose proof (len_pos p P0) as LP. pose proof (len_pos q Q0) as LQ. pose proof (len_sq p) as SP. pose proof (len_sq q) as SQ.
  assert (forall v, 0 < len3 v -> len3 v * len3 v <= 14 / 10 * (m * m) -> / (12 / 10 * m) <= / len3 v) as B.
  { intros v L S. apply Rinv_le_contravar; [exact L|]. assert (0 < m) by lra. nra. }
  pose proof (B p LP ltac:(lra)) as BP. pose proof (B q LQ ltac:(lra)) as BQ.
  set (d := sub3 (push_out 1 p) (push_out 1 q)).
  assert (dot3 F d = dot3 F p * / len3 p - dot3 F q * / len3 q) as ED by (unfold d, dot3, sub3, push_out, scal3; cbn [px py pz]; unfold Rdiv; ring).
  set (k := / (12 / 10 * m)) in *. assert (0 < k) as K0 by (apply Rinv_0_lt_compat; lra).
  assert (76 / 100 * k <= dot3 F d) as LD. { rewrite ED. assert (dot3 F p * k <= dot3 F p * / len3 p) by (apply Rmult_le_compat_l; assumption). assert (- dot3 F q * k <= - dot3 F q * / len3 q) by (apply Rmult_le_compat_l; lra). assert (76 / 100 * k <= (dot3 F p - dot3 F q) * k) by (apply Rmult_le_compat_r; lra). lra. }
  pose proof (cauchy F d) as CS. assert (0 <= dot3 d d) as D0 by (rewrite <- len_sq; apply Rle_0_sqr).
  assert (76 / 100 * k * (76 / 100 * k) <= dot3 F d * dot3 F d) as L2 by (apply Rmult_le_compat; lra).
  assert (dot3 F F * dot3 d d <= 56 / 10 * dot3 d d) as L3 by (apply Rmult_le_compat_r; assumption).
  assert (1 / (361 * (m * m)) = 144 / 36100 * (k * k)) as -> by (unfold k; field; lra). assert (0 <= k * k) by (apply Rle_0_sqr). lra.
Qed.
Lemma sqlen_V x : (0 <= x < 12)%Z -> dot3 (V x) (V x) = 2 - tau_.
Proof.
  intros H. rewrite dot_V by assumption. assert (zdot (zv x) (zv x) = (2, -1)%Z) as ->.
  { assert (In x (zrange 0 12)) as I by (apply in_zrange; exact H). revert x I H. assert (forallb (fun x => (fst (zdot (zv x) (zv x)) =? 2)%Z && (snd (zdot (zv x) (zv x)) =? -1)%Z) (zrange 0 12) = true) as A by (vm_compute; reflexivity). rewrite forallb_forall in A.
    intros x I _. specialize (A x I). apply andb_prop in A. destruct A as [A1 A2]. apply Z.eqb_eq in A1, A2. destruct (zdot (zv x) (zv x)). cbn in *. congruence. }
  unfold ev. cbn [fst snd]. lra.
Qed.
Lemma functional_len x0 y0 : (0 <= x0 < 12)%Z -> (0 <= y0 < 12)%Z -> dot3 (sub3 (V x0) (V y0)) (sub3 (V x0) (V y0)) <= 56 / 10.
Proof.
  intros X Y. pose proof (sqlen_V x0 X) as SX. pose proof (sqlen_V y0 Y) as SY. revert SX SY. generalize (V x0) (V y0). intros a b SX SY. pose proof tau_lo.
  assert (0 <= dot3 (add3 a b) (add3 a b)) as P by (rewrite <- len_sq; apply Rle_0_sqr).
  assert (dot3 (sub3 a b) (sub3 a b) + dot3 (add3 a b) (add3 a b) = 2 * dot3 a a + 2 * dot3 b b) as E by (unfold dot3, sub3, add3; cbn [px py pz]; ring). lra.
Qed.
Lemma off_pos B w v : (0 <= w v)%Z -> (0 <= off B w v)%Z. Proof. unfold off. destruct (memt v B); lia. Qed.
Lemma on_move n x y z B w' : In (x, y, z) ico_ts -> In B ico_ts -> on n B w' ->
  (let '(u, v, t) := B in off (x, y, z) w' u = 0 /\ off (x, y, z) w' v = 0 /\ off (x, y, z) w' t = 0)%Z -> on n (x, y, z) w'.
Proof.
  intros HA HB O Z0. destruct B as [[u v] t]. destruct Z0 as [Z1 [Z2 Z3]]. pose proof O as [P [S T]]. split; [exact P|]. split; [|exact T].
  assert (forall k, (w' k <> 0)%Z -> off (x, y, z) w' k = 0%Z -> k = x \/ k = y \/ k = z) as K.
  { intros k N E. unfold off, memt in E. destruct (Z.eqb_spec k x); [auto|]. destruct (Z.eqb_spec k y); [auto|]. destruct (Z.eqb_spec k z); [auto|]. cbn in E. contradiction. }
  intros k N. destruct (S k N) as [-> | [-> | ->]]; apply K; assumption.
Qed.
Lemma separated n A B w w' : (1 <= n)%Z -> In A ico_ts -> In B ico_ts -> on n A w -> on n B w' -> (forall v, w v = w' v) \/ apart n (cw w) (cw w').
Proof.
  intros Hn HA HB O O'. destruct A as [[x y] z], B as [[u v] t]. destruct (cut_exists _ _ HA HB) as [E|[x0 [y0 [X0 [Y0 C]]]]].
  { injection E as -> -> ->. apply (same_face n u v t); assumption. }
  destruct (face_ids x y z HA) as [Ix [Iy [Iz _]]]. destruct (face_ids u v t HB) as [Iu [Iv [It _]]].
  pose proof (proj1 O) as P. pose proof (proj1 O') as P'.
  cbn [cut_at] in C. apply andb_prop in C. destruct C as [C C6]. apply andb_prop in C. destruct C as [C C5]. apply andb_prop in C. destruct C as [C C4]. apply andb_prop in C. destruct C as [C C3]. apply andb_prop in C. destruct C as [C1 C2].
  set (A := (x, y, z)) in *. set (B := (u, v, t)) in *.
  apply (fun h => side_ok _ _ _ w h (P _)) in C1. apply (fun h => side_ok _ _ _ w h (P _)) in C2. apply (fun h => side_ok _ _ _ w h (P _)) in C3.
  apply (fun h => side_ok _ _ _ w' h (P' _)) in C4. apply (fun h => side_ok _ _ _ w' h (P' _)) in C5. apply (fun h => side_ok _ _ _ w' h (P' _)) in C6.
  assert (forall a, ev (neg a) = - ev a) as EN by (intros a; unfold neg; rewrite ev_sub; unfold ev; cbn [fst snd]; lra). rewrite EN in C4, C5, C6. rewrite fv_ok in C1, C2, C3, C4, C5, C6 by assumption.
  pose proof (off_pos B w x (P x)) as N1. pose proof (off_pos B w y (P y)) as N2. pose proof (off_pos B w z (P z)) as N3.
  pose proof (off_pos A w' u (P' u)) as N4. pose proof (off_pos A w' v (P' v)) as N5. pose proof (off_pos A w' t (P' t)) as N6.
  destruct (Z.eq_dec (off B w x + off B w y + off B w z + off A w' u + off A w' v + off A w' t) 0) as [Z0|NZ].
  - apply (same_face n x y z); try assumption. apply (on_move n x y z B w'); try assumption. unfold B. fold A. repeat split; lia.
  - right. set (F := sub3 (V x0) (V y0)) in *. assert (0 < IZR n) as N0 by (apply IZR_lt; lia). assert (0 < IZR n * IZR n) as NN by nra.
    pose proof (on_len n x y z w Hn HA O) as LW. pose proof (on_len n u v t w' Hn HB O') as LW'.
    assert (dot3 F (cw w) = IZR (w x) * dot3 F (V x) + IZR (w y) * dot3 F (V y) + IZR (w z) * dot3 F (V z)) as E1 by (rewrite (on_cw n x y z w HA O); apply dot_tri).
    assert (dot3 F (cw w') = IZR (w' u) * dot3 F (V u) + IZR (w' v) * dot3 F (V v) + IZR (w' t) * dot3 F (V t)) as E2 by (rewrite (on_cw n u v t w' HB O'); apply dot_tri).
    assert (1 <= off B w x + off B w y + off B w z + off A w' u + off A w' v + off A w' t)%Z as G by lia. apply IZR_le in G. rewrite !plus_IZR in G.
    apply IZR_le in N1, N2, N3, N4, N5, N6.
    apply (far_apart n F); [exact Hn|apply functional_len; assumption|lra|lra| | |]; lra.
Qed.
