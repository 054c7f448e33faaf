(** Subdividing a closed surface gives a closed surface. *)
From Coq Require Import ZArith List Bool Lia Reals Lra Psatz Permutation.
From Verif Require Import Base Num MGeometry MKernel MMesh MMeshRun MMeasure MUtil SMesh SReach SGeom SMeasure SUtil LBase LMesh LReach LGeom LMeasure LMeasure2 LUtil LMeshFac LTess.
Import ListNotations.
Open Scope Z_scope.

Definition pp_dec (x y : pt3 * pt3) : {x = y} + {x <> y}.
Proof. assert (forall p q : pt3, {p = q} + {p <> q}) as D by (decide equality; apply Req_EM_T). decide equality. Defined.
Definition panti (Phi : pt3 -> pt3 -> Z) : Prop := forall p q, Phi p q = - Phi q p.
Definition esum (Phi : pt3 -> pt3 -> Z) (es : list (pt3 * pt3)) : Z := fold_right (fun e s => Phi (fst e) (snd e) + s) 0 es.
Definition psum1 (Phi : pt3 -> pt3 -> Z) (f : pt3 * pt3 * pt3) : Z := let '(p, q, r) := f in Phi p q + Phi q r + Phi r p.
Definition psum (Phi : pt3 -> pt3 -> Z) (fs : list (pt3 * pt3 * pt3)) : Z := fold_right (fun f s => psum1 Phi f + s) 0 fs.
Lemma esum_app Phi u v : esum Phi (u ++ v) = esum Phi u + esum Phi v.
Proof. induction u as [|x u IH]; [reflexivity|]. cbn [app esum fold_right] in *. fold (esum Phi u) (esum Phi (u ++ v)) in *. lia. Qed.
Lemma psum_esum Phi fs : psum Phi fs = esum Phi (flat_map edges3 fs).
Proof. induction fs as [|[[p q] r] fs IH]; [reflexivity|]. cbn [psum fold_right flat_map] in *. fold (psum Phi fs) in *. rewrite esum_app, <- IH. cbn. lia. Qed.
Lemma psum_app Phi u v : psum Phi (u ++ v) = psum Phi u + psum Phi v.
Proof. induction u as [|x u IH]; [reflexivity|]. cbn [app psum fold_right] in *. fold (psum Phi u). fold (psum Phi (u ++ v)). rewrite IH. lia. Qed.
Lemma esum_perm Phi u v : Permutation u v -> esum Phi u = esum Phi v.
Proof. induction 1; cbn [esum fold_right] in *; [reflexivity|fold (esum Phi l) (esum Phi l'); lia| |congruence]. lia. Qed.
Lemma esum_swap Phi es : panti Phi -> esum Phi (map swap es) = - esum Phi es.
Proof. intros A. induction es as [|[p q] es IH]; [reflexivity|]. cbn [map esum fold_right swap fst snd] in *. fold (esum Phi es) in *. fold (esum Phi (map swap es)) in *. rewrite IH, (A q p). lia. Qed.
Lemma closed_psum fs : closed_surface fs -> forall Phi, panti Phi -> psum Phi fs = 0.
Proof. intros C Phi A. rewrite psum_esum. pose proof (esum_perm Phi _ _ C) as E. rewrite esum_swap in E by exact A. lia. Qed.
Lemma psum_closed fs : (forall Phi, panti Phi -> psum Phi fs = 0) -> closed_surface fs.
Proof.
  intros H. unfold closed_surface. apply (Permutation_count_occ pp_dec). intros [p q].
  set (Phi := fun a b => (if pp_dec (a, b) (p, q) then 1 else 0) - (if pp_dec (a, b) (q, p) then 1 else 0)).
  assert (panti Phi) as A.
  { intros a b. unfold Phi. assert (forall x y z w : pt3, (if pp_dec (x, y) (z, w) then 1 else 0) = (if pp_dec (y, x) (w, z) then 1 else 0)) as E.
    { intros x y z w. destruct (pp_dec (x, y) (z, w)), (pp_dec (y, x) (w, z)); congruence. }
    rewrite (E a b p q), (E a b q p). lia. }
  specialize (H Phi A). rewrite psum_esum in H. revert H. generalize (flat_map edges3 fs). intros es H.
  assert (forall es, esum Phi es = Z.of_nat (count_occ pp_dec es (p, q)) - Z.of_nat (count_occ pp_dec (map swap es) (p, q))) as C.
  { clear. induction es as [|[a b] es IH]; [reflexivity|]. cbn [esum fold_right map swap fst snd count_occ] in *. fold (esum Phi es) in *. rewrite IH. unfold Phi.
    change (swap (a, b)) with (b, a).
    assert ((if pp_dec (a, b) (q, p) then 1 else 0) = (if pp_dec (b, a) (p, q) then 1 else 0)) as -> by (destruct (pp_dec (a, b) (q, p)), (pp_dec (b, a) (p, q)); congruence).
    destruct (pp_dec (a, b) (p, q)), (pp_dec (b, a) (p, q)); lia. }
  rewrite C in H. lia.
Qed.

(** ** One subdivided triangle: only its sides count *)
Section Cut.
Variables (a b c : pt3) (n : Z).
Hypothesis Hn : 1 <= n.
Variable Phi : pt3 -> pt3 -> Z.
Hypothesis A : panti Phi.
Let I := ip a b c n.
Let H (u : Z) := Phi (I (u, 0)) (I (u + 1, 0)).
Let V (u v : Z) := Phi (I (u, v)) (I (u, v + 1)).
Let D (k j : Z) := Phi (I (k - j, j)) (I (k - j - 1, j + 1)).
Definition usum (g : uvtri -> Z) (l : list uvtri) : Z := fold_right (fun t s => g t + s) 0 l.
Let g (t : uvtri) : Z := psum1 Phi (ip3 a b c n t).
Lemma usum_app h u v : usum h (u ++ v) = usum h u + usum h v.
Proof. induction u as [|x u IH]; [reflexivity|]. cbn [app usum fold_right] in *. fold (usum h u) (usum h (u ++ v)). rewrite IH. lia. Qed.
Lemma usum_flat h k l : usum h (flat_map k l) = zsum (fun i => usum h (k i)) l.
Proof. induction l as [|i l IH]; [reflexivity|]. cbn [flat_map]. rewrite usum_app, IH. reflexivity. Qed.
Lemma inner_sum s j : usum g (inner s j) = (V (s - j) j - V (s - (j + 1)) (j + 1)) + (D (s + 1) (j + 1) - D s j).
Proof.
  unfold usum, inner, g, psum1, ip3. cbn [fold_right]. fold I. unfold V, D.
  replace (s - (j + 1)) with (s - j - 1) by lia. replace (j + 1 + 1) with (j + 2) by lia. replace (s + 1 - (j + 1)) with (s - j) by lia.
  rewrite (A (I (s - j - 1, j + 1)) (I (s - j, j))), (A (I (s - j - 1, j + 1)) (I (s - j, j + 1))), (A (I (s - j - 1, j + 2)) (I (s - j - 1, j + 1))). lia.
Qed.
Lemma stripe_sum s : 0 <= s -> usum g (stripe s) = H s + zsum (D (s + 1)) (zrange 0 (s + 1)) - zsum (D s) (zrange 0 s) - V 0 s.
Proof.
  intros Hs. unfold stripe. change (usum g (?x :: ?l)) with (g x + usum g l). rewrite usum_flat.
  set (W := fun j => V (s - j) j).
  rewrite (zsum_ext _ (fun j => (- (W (j + 1) - W j)) + (D (s + 1) (j + 1) - D s j))) by (intros j _; rewrite inner_sum; unfold W; lia).
  rewrite (zsum_plus (fun j => - (W (j + 1) - W j)) (fun j => D (s + 1) (j + 1) - D s j)), (zsum_opp (fun j => W (j + 1) - W j)), (zsum_tele W) by exact Hs.
  rewrite (zsum_minus (fun j => D (s + 1) (j + 1)) (D s)), (zsum_shift (D (s + 1))). rewrite (zrange_cons 0 (s + 1)) by lia. rewrite (zsum_cons (D (s + 1))). change (0 + 1) with 1.
  assert (W s = V 0 s) as -> by (unfold W; f_equal; lia). assert (W 0 = V s 0) as -> by (unfold W; f_equal; lia).
  unfold g, psum1, ip3, H. fold I. assert (Phi (I (s + 1, 0)) (I (s, 1)) = D (s + 1) 0) as -> by (unfold D; replace (s + 1 - 0) with (s + 1) by lia; replace (s + 1 - 1) with s by lia; reflexivity).
  rewrite (A (I (s, 1)) (I (s, 0))). change (Phi (I (s, 0)) (I (s, 1))) with (V s 0). lia.
Qed.
Lemma grid_sum k : 0 <= k -> usum g (grid k) = zsum H (zrange 0 k) + zsum (D k) (zrange 0 k) - zsum (V 0) (zrange 0 k).
Proof.
  intros Hk. replace k with (Z.of_nat (Z.to_nat k)) by lia. induction (Z.to_nat k) as [|m IH]; [reflexivity|].
  replace (Z.of_nat (S m)) with (Z.of_nat m + 1) by lia. set (s := Z.of_nat m) in *. assert (0 <= s) by lia. unfold grid in *. rewrite (zrange_last 0 s) by lia. rewrite flat_map_app, usum_app, IH. cbn [flat_map]. rewrite app_nil_r, stripe_sum by lia.
  rewrite (zrange_last 0 s) by lia. rewrite !zsum_app. cbn [zsum fold_right]. lia.
Qed.

(** A side of the triangle, walked in n steps. *)
Definition step (p q : pt3) (k : Z) : pt3 := add3 p (scal3 (IZR k / IZR n) (sub3 q p)).
Definition side (p q : pt3) : Z := zsum (fun k => Phi (step p q k) (step p q (k + 1))) (zrange 0 n).
Lemma cut_sum : psum Phi (small n (a, b, c)) = side a b + side b c - side a c.
Proof.
  assert (0 <= n) as N0 by lia. pose proof (grid_sum n N0) as E. unfold small. assert (forall l, psum Phi (map (ip3 a b c n) l) = usum g l) as ->. { clear. induction l as [|x l IH]; [reflexivity|]. cbn [map psum usum fold_right] in *. fold (psum Phi (map (ip3 a b c n) l)) (usum g l). rewrite IH. reflexivity. }
  rewrite E. assert (IZR n <> 0)%R as NZ by (apply not_0_IZR; lia). f_equal; [f_equal|]; apply zsum_ext; intros k Hk; apply in_zrange in Hk; unfold H, D, V.
  - assert (forall u, I (u, 0) = step a b u) as K by (intros u; unfold I, ip, step, add3, scal3, sub3; cbn [fst snd px py pz]; f_equal; field; exact NZ). rewrite !K. reflexivity.
  - assert (forall j, I (n - j, j) = step b c j) as K.
    { intros j. unfold I, ip, step, add3, scal3, sub3. cbn [fst snd px py pz]. rewrite minus_IZR. f_equal; field; exact NZ. }
    replace (n - k - 1) with (n - (k + 1)) by lia. rewrite !K. reflexivity.
  - assert (forall v, I (0, v) = step a c v) as K by (intros u; unfold I, ip, step, add3, scal3, sub3; cbn [fst snd px py pz]; f_equal; field; exact NZ). rewrite !K. reflexivity.
Qed.
Lemma side_rev p q : side p q = - side q p.
Proof.
  assert (IZR n <> 0)%R as NZ by (apply not_0_IZR; lia).
  assert (forall k, step p q k = step q p (n - k)) as K. { intros k. unfold step, add3, scal3, sub3. cbn [px py pz]. rewrite minus_IZR. f_equal; field; exact NZ. }
  unfold side. rewrite <- zsum_opp. set (F := fun k => Phi (step q p k) (step q p (k + 1))).
  rewrite (zsum_ext _ (fun k => - F (n - 1 - k))).
  2:{ intros k _. unfold F. rewrite !K. rewrite (A (step q p (n - k))). f_equal. f_equal; f_equal; lia. }
  rewrite (zsum_ext (fun i => - Phi _ _) (fun k => - F k)) by reflexivity. rewrite !zsum_opp. f_equal. generalize F. clear. intros F.
  destruct (Z.le_gt_cases n 0) as [L|L]; [rewrite zrange_empty by lia; reflexivity|].
  assert (forall m, 0 <= m -> forall G, zsum (fun k => G (m - 1 - k)) (zrange 0 m) = zsum G (zrange 0 m)) as RV.
  { intros m Hm. replace m with (Z.of_nat (Z.to_nat m)) by lia. induction (Z.to_nat m) as [|j IH]; intros G; [reflexivity|]. replace (Z.of_nat (S j)) with (Z.of_nat j + 1) by lia. set (s := Z.of_nat j) in *. assert (0 <= s) by lia.
    rewrite (zrange_cons 0 (s + 1)) at 1 by lia. rewrite zsum_cons. rewrite (zrange_last 0 s) by lia. rewrite zsum_app. cbn [zsum fold_right].
    fold (zsum (fun k => G (s + 1 - 1 - k)) (zrange (0 + 1) (s + 1))). rewrite <- (zsum_shift (fun k => G (s + 1 - 1 - k)) 0 s). rewrite (zsum_ext _ (fun k => G (s - 1 - k))) by (intros k _; f_equal; lia). rewrite IH. replace (s + 1 - 1 - 0) with s by lia. lia. }
  apply RV. lia.
Qed.
End Cut.

Lemma tessellated_closed n fs : 1 <= n -> closed_surface fs -> closed_surface (flat_map (small n) fs).
Proof.
  intros Hn C. apply psum_closed. intros Phi A.
  set (Psi := side n Phi). assert (panti Psi) as P by (intros p q; apply side_rev; assumption).
  rewrite <- (closed_psum fs C Psi P). clear C. induction fs as [|[[p q] r] fs IH]; [reflexivity|]. cbn [flat_map]. rewrite psum_app, IH.
  rewrite cut_sum by assumption. fold Psi. cbn [psum fold_right psum1]. fold (psum Psi fs). rewrite (P p r). lia.
Qed.
Lemma tessellate_keeps_closed (m mo : Mesh R) a n : reach m -> shows m a -> reach mo -> 1 <= n -> closed_surface (faces a) ->
  exists m' a', tessellate m n mo = Ok m' /\ reach m' /\ shows m' a' /\ closed_surface (faces a').
Proof.
  intros R S Ro Hn C. rewrite (shows_unique m a (abs m) S (shows_abs m)) in *. destruct (tessellate_ok m n mo (reach_wf m R) Ro Hn) as [m' [E [R' [F _]]]].
  exists m', (abs m'). split; [exact E|]. split; [exact R'|]. split; [apply shows_abs|]. rewrite F. apply tessellated_closed; assumption.
Qed.
