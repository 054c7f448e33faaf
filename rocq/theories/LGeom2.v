(** Lemmas: triangle containment, triangle/triangle and segment/segment tests over the reals. *)
From Coq Require Import Reals List Bool Lra Lia Psatz ZArith.
From Verif Require Import Base Num MGeometry SGeom LBase LGeom.
Import ListNotations.
Open Scope R_scope.

(** ** Triangle3::contains *)

Lemma contains_bary p q r x a b c : ~ collinear p q r -> bary p q r x a b c ->
  (tri_contains (mkTri p q r) x = true <-> (0 <= a /\ 0 <= b /\ 0 <= c) \/ a = 0).
Proof.
  intros NC [S E]. unfold tri_contains. cbn [t1 t2 t3].
  change (psub p x) with (sub3 p x). change (psub q x) with (sub3 q x). change (psub r x) with (sub3 r x).
  change (@cross R RNum) with cross3. change (@dot R RNum) with dot3.
  set (n := cross3 (sub3 q p) (sub3 r p)).
  assert (a = 1 - b - c) as Ea by lra.
  assert (cross3 (sub3 q x) (sub3 r x) = scal3 a n) as Hu by (subst x a; unfold n; pring).
  assert (cross3 (sub3 r x) (sub3 p x) = scal3 b n) as Hv by (subst x a; unfold n; pring).
  assert (cross3 (sub3 p x) (sub3 q x) = scal3 c n) as Hw by (subst x a; unfold n; pring).
  rewrite Hu, Hv, Hw.
  assert (forall k l, dot3 (scal3 k n) (scal3 l n) = k * l * dot3 n n) as D by (intros; unfold dot3, scal3; cbn; ring).
  rewrite !D. assert (0 < dot3 n n) as Pn.
  { rewrite <- len3_sq. pose proof (len3_pos n NC). nra. }
  clearbody n. set (nn := dot3 n n) in *. clearbody nn. cbn [nltb RNum]. unfold n0. cbn [nofZ RNum].
  destruct (Rltb (a * b * nn) 0) eqn:B1; [apply Rltb_lt in B1|apply Rltb_ge in B1].
  - split; [discriminate|]. intros H. exfalso. assert (a * b < 0) by nra. destruct H as [H| ->]; nra.
  - assert (0 <= a * b) by nra.
    destruct (Rltb (a * c * nn) 0) eqn:B2; [apply Rltb_lt in B2|apply Rltb_ge in B2].
    + split; [discriminate|]. intros H'. exfalso. assert (a * c < 0) by nra. destruct H' as [H'| ->]; nra.
    + assert (0 <= a * c) by nra. split; [intros _|reflexivity].
      destruct (Rtotal_order a 0) as [A|[A|A]]; [exfalso|right; exact A|left].
      * assert (b <= 0) by nra. assert (c <= 0) by nra. lra.
      * repeat split; nra.
Qed.

Lemma on_line_bary p q r x : on_line x q r -> exists b c, bary p q r x 0 b c.
Proof.
  intros [t ->]. exists (1 - t), t. split; [ring|]. unfold lerp3, add3, sub3, scal3. cbn. apply P_eq; ring.
Qed.

Lemma contains_exact p q r x : ~ collinear p q r -> in_plane_of p q r x ->
  (tri_contains (mkTri p q r) x = true <-> in_triangle p q r x \/ on_line x q r).
Proof.
  intros NC [a [b [c B]]]. rewrite (contains_bary p q r x a b c NC B). split.
  - intros [[A1 [A2 A3]]| ->].
    + left. exists a, b, c. auto.
    + right. destruct B as [S ->]. exists c. assert (b = 1 - c) as -> by lra. unfold lerp3, add3, sub3, scal3. cbn. apply P_eq; ring.
  - intros [[a' [b' [c' [A1 [A2 [A3 B']]]]]]|L].
    + apply (contains_bary p q r x a b c NC B). apply (contains_bary p q r x a' b' c' NC B'). left. auto.
    + destruct (on_line_bary p q r x L) as [b' [c' B']].
      apply (contains_bary p q r x a b c NC B). apply (contains_bary p q r x 0 b' c' NC B'). right. reflexivity.
Qed.

(** A point of the plane of a proper triangle has barycentric coordinates. *)
Lemma plane_point_bary p q r x : ~ collinear p q r ->
  dot3 (cross3 (sub3 q p) (sub3 r p)) (sub3 x p) = 0 -> in_plane_of p q r x.
Proof.
  intros NC H. set (u := sub3 q p) in *. set (v := sub3 r p) in *. set (e := sub3 x p) in *.
  set (n := cross3 u v) in *. assert (0 < dot3 n n) as Pn.
  { rewrite <- len3_sq. pose proof (len3_pos n NC). nra. }
  set (b := dot3 (cross3 e v) n / dot3 n n). set (c := dot3 (cross3 u e) n / dot3 n n).
  assert (scal3 (dot3 n n) e = add3 (add3 (scal3 (dot3 (cross3 e v) n) u) (scal3 (dot3 (cross3 u e) n) v)) (scal3 (dot3 n e) n)) as ID.
  { unfold n. clearbody u v e. unfold dot3, add3, scal3, cross3. cbn [px py pz]. apply P_eq; ring. }
  rewrite H in ID.
  exists (1 - b - c), b, c. split; [ring|].
  assert (e = add3 (scal3 b u) (scal3 c v)) as Ee.
  { unfold b, c. clearbody n e u v. set (k := dot3 n n) in *. clearbody k.
    unfold add3, scal3 in *. cbn [px py pz] in *. injection ID as I1 I2 I3.
    rewrite (pt_eta e) at 1. cbn [px py pz].
    apply P_eq; [apply (Rmult_eq_reg_l k)|apply (Rmult_eq_reg_l k)|apply (Rmult_eq_reg_l k)]; try lra.
    - rewrite I1. field. lra.
    - rewrite I2. field. lra.
    - rewrite I3. field. lra. }
  clearbody b c. assert (x = add3 p e) as Ex by (rewrite (pt_eta x); unfold e, add3, sub3; cbn; apply P_eq; ring).
  rewrite Ex, Ee. unfold u, v, add3, sub3, scal3. cbn. apply P_eq; ring.
Qed.

Lemma side_bary pl p q r x a b c : bary p q r x a b c ->
  side pl x = a * side pl p + b * side pl q + c * side pl r.
Proof.
  intros [S ->]. assert (a = 1 - b - c) as -> by lra. unfold side, add3, scal3. cbn. ring.
Qed.

(** ** Triangle / segment *)

Definition crossing (pl : Plane3 R) (p q x : pt3) : Prop :=
  on_plane pl x /\ side pl p * side pl q < 0 /\ exists t, 0 < t < 1 /\ x = lerp3 p q t.

Lemma crossing_sym pl p q x : crossing pl p q x -> crossing pl q p x.
Proof.
  intros [H1 [H2 [t [H3 ->]]]]. split; [exact H1|]. split; [lra|]. exists (1 - t). split; [lra|].
  unfold lerp3, add3, sub3, scal3. cbn. apply P_eq; ring.
Qed.

Lemma crossing_unique pl p q x y : crossing pl p q x -> crossing pl p q y -> x = y.
Proof.
  intros [H1 [H2 [t [_ ->]]]] [K1 [_ [s [_ ->]]]]. unfold on_plane in *. rewrite side_lerp in H1, K1.
  assert (t = s) as -> ; [|reflexivity].
  assert ((t - s) * (side pl q - side pl p) = 0) as E by lra.
  apply Rmult_integral in E as [E|E]; [lra|]. assert (side pl q = side pl p) as EE by lra. rewrite EE in H2. nra.
Qed.

Lemma plane_triangle_side p q r pl x : plane_of_triangle (mkTri p q r) = Ok pl -> on_plane pl x ->
  ~ collinear p q r /\ in_plane_of p q r x.
Proof.
  intros E H. destruct (O3_dec (cross3 (sub3 q p) (sub3 r p))) as [C|C].
  - exfalso. unfold plane_of_triangle in E. cbn in E. rewrite (plane_of_points_collinear p q r C) in E. discriminate.
  - split; [exact C|]. destruct (plane_of_points_R p q r C) as [pl' [E' [U [P1 [P2 [P3 [k [K N]]]]]]]].
    unfold plane_of_triangle in E. cbn [t1 t2 t3] in E. rewrite E' in E. injection E as ->.
    apply plane_point_bary; [exact C|].
    assert (dot3 (plane_normal pl) (sub3 x p) = 0) as D.
    { unfold on_plane, side in *. unfold plane_normal, dot3, sub3. cbn. lra. }
    rewrite N in D. set (n := cross3 _ _) in *. clearbody n.
    assert (k * dot3 n (sub3 x p) = 0) as D' by (rewrite <- D; unfold dot3, scal3; cbn; ring).
    apply Rmult_integral in D' as [D'|D']; lra.
Qed.

Lemma tri_seg_exact p q r a b pl : plane_of_triangle (mkTri p q r) = Ok pl ->
  exists o bb, tri_intersect_seg (mkTri p q r) (mkSeg a b) = Ok (o, bb) /\
    (bb = true <-> exists x, crossing pl a b x /\ (in_triangle p q r x \/ on_line x q r)).
Proof.
  intros E. unfold tri_intersect_seg. rewrite E. cbn [bind].
  destruct (plane_seg_exact pl a b) as [o [E2 H]]. rewrite E2. cbn [bind].
  destruct o as [y|].
  - destruct H as [H1 [H2 H3]]. eexists _, _. split; [reflexivity|].
    destruct (plane_triangle_side p q r pl y E H2) as [NC IP].
    rewrite (contains_exact p q r y NC IP). assert (crossing pl a b y) as Cy by (split; [exact H2|split; [exact H1|exact H3]]).
    split.
    + intros K. exists y. auto.
    + intros [x [Cx K]]. rewrite (crossing_unique _ _ _ _ _ Cy Cx). exact K.
  - exists None, false. split; [reflexivity|]. split; [discriminate|].
    intros [x [[_ [K _]] _]]. contradiction.
Qed.

(** ** Triangle / triangle *)

Definition edge_hits (pl : Plane3 R) (p q r a b : pt3) : Prop :=
  exists x, crossing pl a b x /\ (in_triangle p q r x \/ on_line x q r).

Lemma count_pos3 (b1 b2 b3 : bool) :
  ((0 <? (if b1 then 1 else 0) + (if b2 then 1 else 0) + (if b3 then 1 else 0)) = true)%Z <-> b1 = true \/ b2 = true \/ b3 = true.
Proof. destruct b1, b2, b3; cbn; intuition discriminate. Qed.

Lemma cutted_by_iff t pl : cutted_by t pl = true <->
  (0 < side pl (t1 t) \/ 0 < side pl (t2 t) \/ 0 < side pl (t3 t)) /\
  (side pl (t1 t) < 0 \/ side pl (t2 t) < 0 \/ side pl (t3 t) < 0).
Proof.
  unfold cutted_by. rewrite andb_true_iff. change (@plane_distance R RNum) with side.
  rewrite !count_pos3. cbn [nltb RNum]. unfold n0. cbn [nofZ RNum]. rewrite !Rltb_lt. tauto.
Qed.

Definition any_edge (plA plB : Plane3 R) (A B : Triangle3 R) : Prop :=
  edge_hits plA (t1 A) (t2 A) (t3 A) (t1 B) (t2 B) \/ edge_hits plA (t1 A) (t2 A) (t3 A) (t1 B) (t3 B) \/
  edge_hits plA (t1 A) (t2 A) (t3 A) (t2 B) (t3 B) \/
  edge_hits plB (t1 B) (t2 B) (t3 B) (t1 A) (t2 A) \/ edge_hits plB (t1 B) (t2 B) (t3 B) (t1 A) (t3 A) \/
  edge_hits plB (t1 B) (t2 B) (t3 B) (t2 A) (t3 A).

Lemma tri_tri_exact A B plA plB :
  plane_of_triangle A = Ok plA -> plane_of_triangle B = Ok plB ->
  exists b, tri_intersect_tri A B = Ok b /\
   (b = true <-> box_intersect (box_of_triangle A) (box_of_triangle B) = true /\
      cutted_by A plB = true /\ cutted_by B plA = true /\ any_edge plA plB A B).
Proof.
  intros EA EB. unfold tri_intersect_tri.
  destruct (box_intersect _ _) eqn:BX; cbn [negb]; [|exists false; split; [reflexivity|split; [discriminate|intros [H _]; discriminate]]].
  rewrite EB. cbn [bind]. destruct (cutted_by A plB) eqn:CA; cbn [negb]; [|exists false; split; [reflexivity|split; [discriminate|intros [_ [H _]]; discriminate]]].
  rewrite EA. cbn [bind]. destruct (cutted_by B plA) eqn:CB; cbn [negb]; [|exists false; split; [reflexivity|split; [discriminate|intros [_ [_ [H _]]]; discriminate]]].
  destruct A as [a1 a2 a3], B as [b1 b2 b3]. cbn [t1 t2 t3]. unfold any_edge. cbn [t1 t2 t3].
  destruct (tri_seg_exact a1 a2 a3 b1 b2 plA EA) as [o1 [r1 [E1 H1]]].
  destruct (tri_seg_exact a1 a2 a3 b1 b3 plA EA) as [o2 [r2 [E2 H2]]].
  destruct (tri_seg_exact a1 a2 a3 b2 b3 plA EA) as [o3 [r3 [E3 H3]]].
  destruct (tri_seg_exact b1 b2 b3 a1 a2 plB EB) as [o4 [r4 [E4 H4]]].
  destruct (tri_seg_exact b1 b2 b3 a1 a3 plB EB) as [o5 [r5 [E5 H5]]].
  destruct (tri_seg_exact b1 b2 b3 a2 a3 plB EB) as [o6 [r6 [E6 H6]]].
  fold (edge_hits plA a1 a2 a3 b1 b2) in H1. fold (edge_hits plA a1 a2 a3 b1 b3) in H2. fold (edge_hits plA a1 a2 a3 b2 b3) in H3.
  fold (edge_hits plB b1 b2 b3 a1 a2) in H4. fold (edge_hits plB b1 b2 b3 a1 a3) in H5. fold (edge_hits plB b1 b2 b3 a2 a3) in H6.
  assert (true = true) as TT by reflexivity. assert (false <> true) as FT by discriminate.
  rewrite E1. cbn [bind snd]. destruct r1; [exists true; split; [reflexivity|tauto]|].
  rewrite E2. cbn [bind snd]. destruct r2; [exists true; split; [reflexivity|tauto]|].
  rewrite E3. cbn [bind snd]. destruct r3; [exists true; split; [reflexivity|tauto]|].
  rewrite E4. cbn [bind snd]. destruct r4; [exists true; split; [reflexivity|tauto]|].
  rewrite E5. cbn [bind snd]. destruct r5; [exists true; split; [reflexivity|tauto]|].
  rewrite E6. cbn [bind snd]. destruct r6; [exists true; split; [reflexivity|tauto]|].
  exists false. split; [reflexivity|]. split; [discriminate|]. tauto.
Qed.

(** In a triangle strictly cut by a plane, the section is the segment between two edge crossings. *)
Lemma section_alone pl p q r : side pl p * side pl q < 0 -> side pl p * side pl r < 0 ->
  exists P Q, crossing pl p q P /\ crossing pl p r Q /\
    forall x a b c, bary p q r x a b c -> on_plane pl x ->
      exists s, x = lerp3 P Q s /\ (0 <= b -> 0 <= c -> 0 <= s <= 1).
Proof.
  intros H1 H2. set (f1 := side pl p) in *. set (f2 := side pl q) in *. set (f3 := side pl r) in *.
  assert (f1 <> 0) as N1 by nra. assert (f1 - f2 <> 0) as N2 by nra. assert (f1 - f3 <> 0) as N3 by nra.
  assert (forall f, f1 * f < 0 -> 0 < f1 / (f1 - f) < 1) as FR.
  { intros f Hf. assert (f1 - f <> 0) as NN by nra.
    assert (0 < / ((f1 - f) * (f1 - f))) as I by (apply Rinv_0_lt_compat; nra).
    split.
    - replace (f1 / (f1 - f)) with ((f1 * f1 - f1 * f) * / ((f1 - f) * (f1 - f))) by (field; exact NN). apply Rmult_lt_0_compat; nra.
    - assert (0 < 1 - f1 / (f1 - f)); [|lra].
      replace (1 - f1 / (f1 - f)) with ((f * f - f1 * f) * / ((f1 - f) * (f1 - f))) by (field; exact NN). apply Rmult_lt_0_compat; nra. }
  exists (lerp3 p q (f1 / (f1 - f2))), (lerp3 p r (f1 / (f1 - f3))). split; [|split].
  - split; [|split; [exact H1|]].
    + unfold on_plane. rewrite side_lerp. fold f1 f2. field. exact N2.
    + exists (f1 / (f1 - f2)). split; [apply FR, H1|reflexivity].
  - split; [|split; [exact H2|]].
    + unfold on_plane. rewrite side_lerp. fold f1 f3. field. exact N3.
    + exists (f1 / (f1 - f3)). split; [apply FR, H2|reflexivity].
  - intros x a b c B OP. unfold on_plane in OP. rewrite (side_bary pl p q r x a b c B) in OP. fold f1 f2 f3 in OP.
    destruct B as [S E]. assert (a = 1 - b - c) as Ea by lra.
    set (s := c * (f1 - f3) / f1). assert (1 - s = b * (f1 - f2) / f1) as Es.
    { unfold s. replace 1 with (f1 / f1) by (field; exact N1).
      replace f1 with (b * (f1 - f2) + c * (f1 - f3)) at 1 by (rewrite Ea in OP; lra). field. exact N1. }
    exists s. split.
    + rewrite E, Ea.
      assert (b = (1 - s) * (f1 / (f1 - f2))) as Eb by (rewrite Es; field; split; assumption).
      assert (c = s * (f1 / (f1 - f3))) as Ec by (unfold s; field; split; assumption).
      set (k2 := f1 / (f1 - f2)) in *. set (k3 := f1 / (f1 - f3)) in *. clearbody s k2 k3. rewrite Eb, Ec.
      unfold lerp3, add3, sub3, scal3. cbn. apply P_eq; ring.
    + intros B0 C0.
      assert (forall f, f1 * f < 0 -> 0 <= (f1 - f) / f1) as FP.
      { intros f Hf. replace ((f1 - f) / f1) with ((f1 * f1 - f1 * f) * / (f1 * f1)) by (field; exact N1).
        apply Rmult_le_pos; [nra|]. apply Rlt_le, Rinv_0_lt_compat. nra. }
      assert (0 <= s).
      { unfold s. unfold Rdiv. rewrite Rmult_assoc. apply Rmult_le_pos; [exact C0|]. apply (FP f3 H2). }
      assert (0 <= 1 - s).
      { rewrite Es. unfold Rdiv. rewrite Rmult_assoc. apply Rmult_le_pos; [exact B0|]. apply (FP f2 H1). }
      lra.
Qed.


Lemma bary_perm2 p q r x a b c : bary p q r x a b c -> bary q p r x b a c.
Proof. intros [S ->]. split; [lra|]. unfold add3, scal3; cbn; apply P_eq; ring. Qed.
Lemma bary_perm3 p q r x a b c : bary p q r x a b c -> bary r p q x c a b.
Proof. intros [S ->]. split; [lra|]. unfold add3, scal3; cbn; apply P_eq; ring. Qed.

Lemma section pl p q r x : side pl p <> 0 -> side pl q <> 0 -> side pl r <> 0 ->
  in_triangle p q r x -> on_plane pl x ->
  exists a b c d P Q, edge_of p q r a b /\ edge_of p q r c d /\ crossing pl a b P /\ crossing pl c d Q /\
    (exists s, x = lerp3 P Q s /\ 0 <= s <= 1) /\
    forall y, in_plane_of p q r y -> on_plane pl y -> exists s, y = lerp3 P Q s.
Proof.
  intros N1 N2 N3 [ka [kb [kc [A0 [B0 [C0 B]]]]]] OP.
  assert (ka * side pl p + kb * side pl q + kc * side pl r = 0) as E by (rewrite <- (side_bary _ _ _ _ _ _ _ _ B); exact OP).
  assert ((side pl p * side pl q < 0 /\ side pl p * side pl r < 0) \/
          (side pl q * side pl p < 0 /\ side pl q * side pl r < 0) \/
          (side pl r * side pl p < 0 /\ side pl r * side pl q < 0)) as [[H1 H2]|[[H1 H2]|[H1 H2]]].
  { destruct B as [S _]. set (f1 := side pl p) in *. set (f2 := side pl q) in *. set (f3 := side pl r) in *.
    destruct (Rlt_dec 0 f1), (Rlt_dec 0 f2), (Rlt_dec 0 f3).
    - exfalso. destruct (Req_dec ka 0); [destruct (Req_dec kb 0)|]; nra.
    - right; right; split; nra.
    - right; left; split; nra.
    - left; split; nra.
    - left; split; nra.
    - right; left; split; nra.
    - right; right; split; nra.
    - exfalso. destruct (Req_dec ka 0); [destruct (Req_dec kb 0)|]; nra. }
  - destruct (section_alone pl p q r H1 H2) as [P [Q [CP [CQ H]]]].
    exists p, q, p, r, P, Q. split; [left; auto|]. split; [right; left; auto|]. split; [exact CP|]. split; [exact CQ|].
    split; [destruct (H x ka kb kc B OP) as [s [Es Hs]]; exists s; auto|].
    intros y [a [b [c By]]] Oy. destruct (H y a b c By Oy) as [s [Es _]]. exists s. exact Es.
  - destruct (section_alone pl q p r H1 H2) as [P [Q [CP [CQ H]]]].
    exists p, q, q, r, P, Q. split; [left; auto|]. split; [right; right; auto|]. split; [apply crossing_sym, CP|]. split; [exact CQ|].
    split; [destruct (H x kb ka kc (bary_perm2 _ _ _ _ _ _ _ B) OP) as [s [Es Hs]]; exists s; auto|].
    intros y [a [b [c By]]] Oy. destruct (H y b a c (bary_perm2 _ _ _ _ _ _ _ By) Oy) as [s [Es _]]. exists s. exact Es.
  - destruct (section_alone pl r p q H1 H2) as [P [Q [CP [CQ H]]]].
    exists p, r, q, r, P, Q. split; [right; left; auto|]. split; [right; right; auto|]. split; [apply crossing_sym, CP|]. split; [apply crossing_sym, CQ|].
    split; [destruct (H x kc ka kb (bary_perm3 _ _ _ _ _ _ _ B) OP) as [s [Es Hs]]; exists s; auto|].
    intros y [a [b [c By]]] Oy. destruct (H y c a b (bary_perm3 _ _ _ _ _ _ _ By) Oy) as [s [Es _]]. exists s. exact Es.
Qed.

Lemma in_triangle_convex p q r x y s : in_triangle p q r x -> in_triangle p q r y -> 0 <= s <= 1 ->
  in_triangle p q r (lerp3 x y s).
Proof.
  intros [a [b [c [A [B [C [S ->]]]]]]] [a' [b' [c' [A' [B' [C' [S' ->]]]]]]] Hs.
  exists (a + s * (a' - a)), (b + s * (b' - b)), (c + s * (c' - c)). split; [nra|]. split; [nra|]. split; [nra|].
  split; [nra|]. unfold lerp3, add3, sub3, scal3. cbn. apply P_eq; ring.
Qed.

Lemma edge_in_triangle p q r a b t : edge_of p q r a b -> 0 <= t <= 1 -> in_triangle p q r (lerp3 a b t).
Proof.
  intros [[-> ->]|[[-> ->]|[-> ->]]] H.
  - exists (1 - t), t, 0. repeat split; try lra. unfold lerp3, add3, sub3, scal3. cbn. apply P_eq; ring.
  - exists (1 - t), 0, t. repeat split; try lra. unfold lerp3, add3, sub3, scal3. cbn. apply P_eq; ring.
  - exists 0, (1 - t), t. repeat split; try lra. unfold lerp3, add3, sub3, scal3. cbn. apply P_eq; ring.
Qed.

Lemma crossing_in_triangle pl p q r a b x : edge_of p q r a b -> crossing pl a b x -> in_triangle p q r x.
Proof. intros E [_ [_ [t [Ht ->]]]]. apply edge_in_triangle; [exact E|lra]. Qed.

Lemma in_triangle_plane p q r pl x : plane_of_triangle (mkTri p q r) = Ok pl -> in_plane_of p q r x -> on_plane pl x.
Proof.
  intros E [a [b [c B]]].
  destruct (O3_dec (cross3 (sub3 q p) (sub3 r p))) as [C|C].
  - exfalso. unfold plane_of_triangle in E. cbn in E. rewrite (plane_of_points_collinear p q r C) in E. discriminate.
  - destruct (plane_of_points_R p q r C) as [pl' [E' [U [P1 [P2 [P3 _]]]]]].
    unfold plane_of_triangle in E. cbn [t1 t2 t3] in E. rewrite E' in E. injection E as ->.
    unfold on_plane in *. rewrite (side_bary _ _ _ _ _ _ _ _ B), P1, P2, P3. ring.
Qed.

Lemma in_triangle_in_plane p q r x : in_triangle p q r x -> in_plane_of p q r x.
Proof. intros [a [b [c [_ [_ [_ H]]]]]]. exists a, b, c. exact H. Qed.

Lemma lerp_lerp P Q a b s : lerp3 (lerp3 P Q a) (lerp3 P Q b) s = lerp3 P Q (a + s * (b - a)).
Proof. unfold lerp3, add3, sub3, scal3. cbn. apply P_eq; ring. Qed.

Lemma crossing_on pl a b x : crossing pl a b x -> on_plane pl x.
Proof. intros [H _]. exact H. Qed.

Lemma lerp_inj P Q a b : P <> Q -> lerp3 P Q a = lerp3 P Q b -> a = b.
Proof.
  intros N H. unfold lerp3, add3, sub3, scal3 in H. cbn in H. injection H as H1 H2 H3.
  destruct (Req_dec (px Q) (px P)) as [E1|E1]; [|apply (Rmult_eq_reg_r (px Q - px P)); lra].
  destruct (Req_dec (py Q) (py P)) as [E2|E2]; [|apply (Rmult_eq_reg_r (py Q - py P)); lra].
  destruct (Req_dec (pz Q) (pz P)) as [E3|E3]; [|apply (Rmult_eq_reg_r (pz Q - pz P)); lra].
  exfalso. apply N. rewrite (pt_eta P), (pt_eta Q). apply P_eq; congruence.
Qed.

(** Two triangles in general position sharing a point: an edge of one pierces the other. *)
Lemma general_position_edge A B plA plB x :
  plane_of_triangle A = Ok plA -> plane_of_triangle B = Ok plB ->
  side plB (t1 A) <> 0 -> side plB (t2 A) <> 0 -> side plB (t3 A) <> 0 ->
  side plA (t1 B) <> 0 -> side plA (t2 B) <> 0 -> side plA (t3 B) <> 0 ->
  in_triangle (t1 A) (t2 A) (t3 A) x -> in_triangle (t1 B) (t2 B) (t3 B) x ->
  any_edge plA plB A B.
Proof.
  destruct A as [a1 a2 a3], B as [b1 b2 b3]. cbn [t1 t2 t3]. intros EA EB N1 N2 N3 M1 M2 M3 IA IB.
  assert (on_plane plA x) as OA by (eapply in_triangle_plane; [exact EA|apply in_triangle_in_plane, IA]).
  assert (on_plane plB x) as OB by (eapply in_triangle_plane; [exact EB|apply in_triangle_in_plane, IB]).
  destruct (section plB a1 a2 a3 x N1 N2 N3 IA OB) as [u [v [w [z [P [Q [E1 [E2 [C1 [C2 [[s [Es Hs]] L]]]]]]]]]]].
  destruct (section plA b1 b2 b3 x M1 M2 M3 IB OA) as [u' [v' [w' [z' [P' [Q' [F1 [F2 [D1 [D2 [[s' [Es' Hs']] L']]]]]]]]]]].
  pose proof (crossing_in_triangle _ _ _ _ _ _ _ E1 C1) as TP. pose proof (crossing_in_triangle _ _ _ _ _ _ _ E2 C2) as TQ.
  pose proof (crossing_in_triangle _ _ _ _ _ _ _ F1 D1) as TP'. pose proof (crossing_in_triangle _ _ _ _ _ _ _ F2 D2) as TQ'.
  assert (forall y, in_triangle b1 b2 b3 y -> on_plane plA y -> exists s0, y = lerp3 P Q s0) as LB.
  { intros y Ty Oy. apply L; [|eapply in_triangle_plane; [exact EB|apply in_triangle_in_plane, Ty]].
    apply (plane_triangle_side a1 a2 a3 plA y EA Oy). }
  destruct (LB P' TP' (crossing_on _ _ _ _ D1)) as [p' Ep']. destruct (LB Q' TQ' (crossing_on _ _ _ _ D2)) as [q' Eq'].
  assert (forall a b y, edge_of a1 a2 a3 a b -> crossing plB a b y -> in_triangle b1 b2 b3 y -> any_edge plA plB (mkTri a1 a2 a3) (mkTri b1 b2 b3)) as RA.
  { intros a b y Ed Cr T. assert (edge_hits plB b1 b2 b3 a b) as EH by (exists y; auto).
    unfold any_edge. cbn [t1 t2 t3]. destruct Ed as [[-> ->]|[[-> ->]|[-> ->]]]; tauto. }
  assert (forall a b y, edge_of b1 b2 b3 a b -> crossing plA a b y -> in_triangle a1 a2 a3 y -> any_edge plA plB (mkTri a1 a2 a3) (mkTri b1 b2 b3)) as RB.
  { intros a b y Ed Cr T. assert (edge_hits plA a1 a2 a3 a b) as EH by (exists y; auto).
    unfold any_edge. cbn [t1 t2 t3]. destruct Ed as [[-> ->]|[[-> ->]|[-> ->]]]; tauto. }
  assert (P = Q \/ P <> Q) as [EPQ|NPQ].
  { destruct (O3_dec (sub3 P Q)) as [Z|Z]; [left|right].
    - unfold sub3, O3 in Z. injection Z as Z1 Z2 Z3. rewrite (pt_eta P), (pt_eta Q). apply P_eq; lra.
    - intros ->. apply Z. unfold sub3, O3. apply P_eq; ring. }
  { apply (RB u' v' P' F1 D1). rewrite Ep', <- EPQ. replace (lerp3 P P p') with P; [exact TP|].
    rewrite (pt_eta P) at 1. unfold lerp3, add3, sub3, scal3. cbn. apply P_eq; ring. }
  rewrite Es in Es'. rewrite Ep', Eq', lerp_lerp in Es'. apply lerp_inj in Es'; [|exact NPQ].
  assert (forall k, k = p' + (k - p') / (q' - p') * (q' - p') -> lerp3 P' Q' ((k - p') / (q' - p')) = lerp3 P Q k) as LL.
  { intros k Hk. rewrite Ep', Eq', lerp_lerp. rewrite <- Hk. reflexivity. }
  assert (lerp3 P Q 0 = P /\ lerp3 P Q 1 = Q) as [L0 L1].
  { split; [rewrite (pt_eta P) at 2|rewrite (pt_eta Q) at 2]; unfold lerp3, add3, sub3, scal3; cbn; apply P_eq; ring. }
  destruct (Rle_dec 0 p') as [Hp0|Hp0]; [destruct (Rle_dec p' 1) as [Hp1|Hp1]|].
  - apply (RB u' v' P' F1 D1). rewrite Ep'. apply in_triangle_convex; [exact TP|exact TQ|lra].
  - assert (q' <= 1) as Hq.
    { apply Rnot_lt_le. intros Hq. assert (0 <= (1 - s') * (p' - 1)) by (apply Rmult_le_pos; lra).
      destruct (Req_dec s' 0) as [Z|Z]; [rewrite Z in Es'; lra|]. assert (0 < s' * (q' - 1)) by (apply Rmult_lt_0_compat; lra). lra. }
    apply (RA w z Q E2 C2). rewrite <- L1, <- LL by (field; lra).
    apply in_triangle_convex; [exact TP'|exact TQ'|].
    replace ((1 - p') / (q' - p')) with ((p' - 1) / (p' - q')) by (field; lra).
    split; [apply Rmult_le_pos; [lra|apply Rlt_le, Rinv_0_lt_compat; lra]|].
    apply (Rmult_le_reg_r (p' - q')); [lra|]. unfold Rdiv. rewrite Rmult_assoc, Rinv_l by lra. lra.
  - assert (0 <= q') as Hq.
    { apply Rnot_lt_le. intros Hq. assert (0 <= (1 - s') * - p') by (apply Rmult_le_pos; lra).
      destruct (Req_dec s' 0) as [Z|Z]; [rewrite Z in Es'; lra|]. assert (0 < s' * - q') by (apply Rmult_lt_0_compat; lra). lra. }
    apply (RA u v P E1 C1). rewrite <- L0, <- LL by (field; lra).
    apply in_triangle_convex; [exact TP'|exact TQ'|].
    split; [apply Rmult_le_pos; [lra|apply Rlt_le, Rinv_0_lt_compat; lra]|].
    apply (Rmult_le_reg_r (q' - p')); [lra|]. unfold Rdiv. rewrite Rmult_assoc, Rinv_l by lra. lra.
Qed.

Lemma box_of_triangle_R t : box_of_triangle t = box_of [t1 t; t2 t; t3 t].
Proof. reflexivity. Qed.

Lemma in_triangle_box t x : in_triangle (t1 t) (t2 t) (t3 t) x ->
  in_box (box_lo (box_of_triangle t)) (box_hi (box_of_triangle t)) x.
Proof.
  intros [a [b [c [A [B [C [S ->]]]]]]]. rewrite box_of_triangle_R.
  destruct (box_smallest [t1 t; t2 t; t3 t]) as [H _]; [discriminate|].
  set (lo := box_lo _) in *. set (hi := box_hi _) in *. clearbody lo hi.
  assert (in_box lo hi (t1 t)) as H1 by (apply H; cbn; auto).
  assert (in_box lo hi (t2 t)) as H2 by (apply H; cbn; auto).
  assert (in_box lo hi (t3 t)) as H3 by (apply H; cbn; auto). clear H.
  unfold in_box in *. unfold add3, scal3. cbn [px py pz].
  assert (a = 1 - b - c) as -> by lra.
  assert (forall l h x y z, l <= x <= h -> l <= y <= h -> l <= z <= h ->
     l <= (1 - b - c) * x + b * y + c * z <= h) as K.
  { intros l h x y z Hx Hy Hz.
    assert (0 <= (1 - b - c) * (x - l)) by (apply Rmult_le_pos; lra). assert (0 <= b * (y - l)) by (apply Rmult_le_pos; lra).
    assert (0 <= c * (z - l)) by (apply Rmult_le_pos; lra). assert (0 <= (1 - b - c) * (h - x)) by (apply Rmult_le_pos; lra).
    assert (0 <= b * (h - y)) by (apply Rmult_le_pos; lra). assert (0 <= c * (h - z)) by (apply Rmult_le_pos; lra). lra. }
  split; [apply K; tauto|]. split; apply K; tauto.
Qed.

Lemma box_of_triangle_proper t : in_box (box_lo (box_of_triangle t)) (box_hi (box_of_triangle t)) (box_lo (box_of_triangle t)).
Proof.
  assert (in_box (box_lo (box_of_triangle t)) (box_hi (box_of_triangle t)) (t1 t)) as H.
  { apply in_triangle_box. exists 1, 0, 0. repeat split; try lra. unfold add3, scal3. rewrite (pt_eta (t1 t)) at 1. cbn. apply P_eq; ring. }
  unfold in_box in *. lra.
Qed.

Lemma in_triangle_mixed pl p q r x : side pl p <> 0 -> side pl q <> 0 -> side pl r <> 0 ->
  in_triangle p q r x -> on_plane pl x -> cutted_by (mkTri p q r) pl = true.
Proof.
  intros N1 N2 N3 IT OP. rewrite cutted_by_iff. cbn [t1 t2 t3].
  destruct (section pl p q r x N1 N2 N3 IT OP) as [a [b [_ [_ [P [_ [E1 [_ [[_ [C _]] _]]]]]]]]].
  destruct E1 as [[-> ->]|[[-> ->]|[-> ->]]].
  - set (f := side pl p) in *. set (g := side pl q) in *. destruct (Rlt_dec 0 f); [split; [tauto|right; left; nra]|split; [right; left; nra|left; lra]].
  - set (f := side pl p) in *. set (g := side pl r) in *. destruct (Rlt_dec 0 f); [split; [tauto|right; right; nra]|split; [right; right; nra|left; lra]].
  - set (f := side pl q) in *. set (g := side pl r) in *. destruct (Rlt_dec 0 f); [split; [tauto|right; right; nra]|split; [right; right; nra|right; left; lra]].
Qed.

Lemma vertices_off_sides A B pl : plane_of_triangle A = Ok pl -> vertices_off A B ->
  side pl (t1 B) <> 0 /\ side pl (t2 B) <> 0 /\ side pl (t3 B) <> 0.
Proof.
  destruct A as [a1 a2 a3]. intros E [H1 [H2 H3]]. cbn [t1 t2 t3] in *.
  repeat split; intros Z; [apply H1|apply H2|apply H3]; apply (plane_triangle_side a1 a2 a3 pl _ E Z).
Qed.


Lemma proper_plane A : tri_proper A -> exists pl, plane_of_triangle A = Ok pl.
Proof. intros H. destruct (plane_of_points_R _ _ _ H) as [pl [E _]]. exists pl. exact E. Qed.

Lemma tri_tri_complete A B : tri_proper A -> tri_proper B -> vertices_off A B -> vertices_off B A ->
  (exists x, in_tri A x /\ in_tri B x) -> tri_intersect_tri A B = Ok true.
Proof.
  intros PA PB VA VB [x [IA IB]].
  destruct (proper_plane A PA) as [plA EA]. destruct (proper_plane B PB) as [plB EB].
  destruct (vertices_off_sides A B plA EA VA) as [M1 [M2 M3]]. destruct (vertices_off_sides B A plB EB VB) as [N1 [N2 N3]].
  destruct (tri_tri_exact A B plA plB EA EB) as [b [E H]].
  rewrite E. f_equal. apply H. 
  assert (on_plane plA x) as OA. { destruct A. eapply in_triangle_plane; [exact EA|apply in_triangle_in_plane, IA]. }
  assert (on_plane plB x) as OB. { destruct B. eapply in_triangle_plane; [exact EB|apply in_triangle_in_plane, IB]. }
  split; [|split; [|split]].
  - apply (box_intersect_exact _ _ (box_of_triangle_proper A) (box_of_triangle_proper B)).
    exists x. split; apply in_triangle_box; assumption.
  - destruct A as [a1 a2 a3]. exact (in_triangle_mixed plB a1 a2 a3 x N1 N2 N3 IA OB).
  - destruct B as [b1 b2 b3]. exact (in_triangle_mixed plA b1 b2 b3 x M1 M2 M3 IB OA).
  - exact (general_position_edge A B plA plB x EA EB N1 N2 N3 M1 M2 M3 IA IB).
Qed.


Lemma tri_tri_sound (A B : Triangle3 R) : tri_intersect_tri A B = Ok true ->
  exists X Y, ((X = A /\ Y = B) \/ (X = B /\ Y = A)) /\ exists a b x, tri_edge X a b /\ on_segment x a b /\ in_tri X x /\ (in_tri Y x \/ on_line x (t2 Y) (t3 Y)).
Proof.
  intros E.
  destruct (plane_of_triangle A) as [plA|] eqn:EA.
  2:{ exfalso. unfold tri_intersect_tri in E. rewrite EA in E. destruct (negb _); [discriminate|].
      destruct (plane_of_triangle B); [|discriminate]. cbn [bind] in E. destruct (negb _) in E; discriminate. }
  destruct (plane_of_triangle B) as [plB|] eqn:EB.
  2:{ exfalso. unfold tri_intersect_tri in E. rewrite EB in E. destruct (negb _); discriminate. }
  destruct (tri_tri_exact A B plA plB EA EB) as [b [E' H]]. rewrite E in E'. injection E' as <-.
  destruct (proj1 H eq_refl) as [_ [_ [_ AE]]].
  assert (forall pl X Y a b, edge_hits pl (t1 Y) (t2 Y) (t3 Y) a b -> tri_edge X a b ->
    exists a b x, tri_edge X a b /\ on_segment x a b /\ in_tri X x /\ (in_tri Y x \/ on_line x (t2 Y) (t3 Y))) as K.
  { intros pl X Y a b [x [Cx Hx]] Ed. exists a, b, x. split; [exact Ed|].
    split; [destruct Cx as [_ [_ [t [Ht ->]]]]; exists t; split; [lra|reflexivity]|].
    split; [eapply crossing_in_triangle; [exact Ed|exact Cx]|exact Hx]. }
  destruct AE as [AE|[AE|[AE|[AE|[AE|AE]]]]].
  - exists B, A. split; [auto|]. eapply K; [exact AE|left; auto].
  - exists B, A. split; [auto|]. eapply K; [exact AE|right; left; auto].
  - exists B, A. split; [auto|]. eapply K; [exact AE|right; right; auto].
  - exists A, B. split; [auto|]. eapply K; [exact AE|left; auto].
  - exists A, B. split; [auto|]. eapply K; [exact AE|right; left; auto].
  - exists A, B. split; [auto|]. eapply K; [exact AE|right; right; auto].
Qed.

Lemma tri_tri_general A B : tri_proper A -> tri_proper B -> vertices_off A B -> vertices_off B A ->
  avoids_line23 A B -> avoids_line23 B A ->
  exists b, tri_intersect_tri A B = Ok b /\ (b = true <-> exists x, in_tri A x /\ in_tri B x).
Proof.
  intros PA PB VA VB LA LB.
  destruct (proper_plane A PA) as [plA EA]. destruct (proper_plane B PB) as [plB EB].
  destruct (tri_tri_exact A B plA plB EA EB) as [b [E _]]. exists b. split; [exact E|]. split.
  - intros ->. destruct (tri_tri_sound A B E) as [X [Y [[[-> ->]|[-> ->]] [u [v [x [Ed [OS [IX [IY|OL]]]]]]]]]].
    + exists x. auto.
    + exfalso. exact (LA u v x Ed OS OL).
    + exists x. auto.
    + exfalso. exact (LB u v x Ed OS OL).
  - intros X. rewrite (tri_tri_complete A B PA PB VA VB X) in E. injection E as <-. reflexivity.
Qed.

(** ** Segment / segment *)

Lemma seg_intersect_closest P1 P2 P3 P4 x :
  seg_intersect (mkSeg P1 P2) (mkSeg P3 P4) = Ok (Some x) ->
  on_segment x P1 P2 /\ exists y, on_line y P3 P4 /\ dot3 (sub3 x y) (sub3 P2 P1) = 0 /\ dot3 (sub3 x y) (sub3 P4 P3) = 0.
Proof.
  unfold seg_intersect. cbn [s1 s2].
  change (@psub R RNum) with sub3. change (@dot R RNum) with dot3. change (@norm_square R RNum) with (fun p => dot3 p p). cbv beta zeta.
  set (p13 := sub3 P1 P3). set (p43 := sub3 P4 P3). set (p21 := sub3 P2 P1).
  rnum. set (eps := 1 / 10000000000).
  destruct (Rltb (dot3 p43 p43) (eps * eps)) eqn:B1; [discriminate|].
  destruct (Rltb (dot3 p21 p21) (eps * eps)) eqn:B2; [discriminate|].
  set (den := dot3 p21 p21 * dot3 p43 p43 - dot3 p43 p21 * dot3 p43 p21).
  destruct (Rltb (Rabs den) eps) eqn:B3; [discriminate|]. apply Rltb_ge in B1, B2, B3.
  assert (0 < eps) as Pe by (unfold eps; lra).
  assert (den <> 0) as ND by (intros Z; rewrite Z, Rabs_R0 in B3; lra).
  set (num := dot3 p13 p43 * dot3 p43 p21 - dot3 p13 p21 * dot3 p43 p43).
  rewrite (ndiv_R num den ND). cbn [bind]. set (mua := num / den).
  destruct (Rltb mua 0) eqn:C1; cbn [orb]; [discriminate|]. destruct (Rltb 1 mua) eqn:C2; [discriminate|].
  apply Rltb_ge in C1, C2. intros E. injection E as <-.
  split.
  - exists mua. split; [lra|]. reflexivity.
  - assert (0 < dot3 p43 p43) as Pd by nra.
    set (mub := (dot3 p13 p43 + mua * dot3 p43 p21) / dot3 p43 p43).
    exists (lerp3 P3 P4 mub). split; [exists mub; reflexivity|].
    assert (sub3 (padd P1 (pmul p21 mua)) (lerp3 P3 P4 mub) = sub3 (add3 p13 (scal3 mua p21)) (scal3 mub p43)) as ->.
    { unfold padd, pmul, lerp3, add3, sub3, scal3, p13, p43, p21. cbn. apply P_eq; ring. }
    assert (mub * dot3 p43 p43 = dot3 p13 p43 + mua * dot3 p43 p21) as Em by (unfold mub; field; lra).
    assert (mua * den = num) as En by (unfold mua; field; exact ND).
    assert (forall w, dot3 (sub3 (add3 p13 (scal3 mua p21)) (scal3 mub p43)) w = dot3 p13 w + mua * dot3 p21 w - mub * dot3 p43 w) as D
      by (intros; unfold dot3, sub3, add3, scal3; cbn; ring).
    rewrite !D. rewrite (dot3_sym p21 p43). split; [|lra].
    apply (Rmult_eq_reg_r (dot3 p43 p43)); [|lra].
    transitivity (dot3 p13 p21 * dot3 p43 p43 + mua * dot3 p21 p21 * dot3 p43 p43 - (mub * dot3 p43 p43) * dot3 p43 p21); [ring|].
    rewrite Em. unfold num, den in En. lra.
Qed.

Definition seg_eps : R := 1 / 10000000000.

Lemma seg_intersect_finds P1 P2 P3 P4 x :
  seg_eps * seg_eps <= dot3 (sub3 P2 P1) (sub3 P2 P1) -> seg_eps * seg_eps <= dot3 (sub3 P4 P3) (sub3 P4 P3) ->
  seg_eps <= dot3 (cross3 (sub3 P2 P1) (sub3 P4 P3)) (cross3 (sub3 P2 P1) (sub3 P4 P3)) ->
  on_segment x P1 P2 -> on_line x P3 P4 ->
  seg_intersect (mkSeg P1 P2) (mkSeg P3 P4) = Ok (Some x).
Proof.
  intros H1 H2 H3 [t [Ht Ex]] [s Es].
  unfold seg_intersect. cbn [s1 s2].
  change (@psub R RNum) with sub3. change (@dot R RNum) with dot3. change (@norm_square R RNum) with (fun p => dot3 p p). cbv beta zeta.
  rewrite lagrange in H3.
  set (p13 := sub3 P1 P3). set (p43 := sub3 P4 P3) in *. set (p21 := sub3 P2 P1) in *.
  rnum. fold seg_eps. rewrite (proj2 (Rltb_ge _ _) H2), (proj2 (Rltb_ge _ _) H1).
  set (den := dot3 p21 p21 * dot3 p43 p43 - dot3 p43 p21 * dot3 p43 p21).
  assert (den = dot3 p21 p21 * dot3 p43 p43 - dot3 p21 p43 * dot3 p21 p43) as Ed by (unfold den; rewrite (dot3_sym p43 p21); reflexivity).
  rewrite <- Ed in H3. assert (0 < seg_eps) as Pe by (unfold seg_eps; lra).
  rewrite (Rabs_right den) by lra. rewrite (proj2 (Rltb_ge _ _) H3).
  assert (den <> 0) as ND by lra. rewrite (ndiv_R _ den ND). cbn [bind].
  assert (p13 = sub3 (scal3 s p43) (scal3 t p21)) as E13.
  { rewrite Ex in Es. unfold lerp3, add3, sub3, scal3 in Es. cbn in Es. injection Es as I1 I2 I3.
    unfold p13, p43, p21, sub3, scal3. cbn. apply P_eq; lra. }
  replace ((dot3 p13 p43 * dot3 p43 p21 - dot3 p13 p21 * dot3 p43 p43) / den) with t.
  2:{ apply (Rmult_eq_reg_r den); [|exact ND]. unfold Rdiv. rewrite Rmult_assoc, Rinv_l, Rmult_1_r by exact ND.
      rewrite E13. unfold den. clearbody p43 p21. clear. unfold dot3, sub3, scal3. cbn. ring. }
  rewrite (proj2 (Rltb_ge t 0)) by lra. rewrite (proj2 (Rltb_ge 1 t)) by lra. cbn [orb].
  rewrite Ex. reflexivity.
Qed.

(** ** Witnesses *)

Definition cT := mkTri (mkP 0 0 0) (mkP 1 0 0) (mkP 0 1 0).

Lemma plane_plane_keeps_line (p q : Plane3 R) (l : Line3 R) : snd (plane_intersect_plane p q l) = l.
Proof. unfold plane_intersect_plane. destruct (nltb _ _); reflexivity. Qed.
