(** split_edge_with_vertex. *)
From Coq Require Import ZArith List Bool Lia Reals Permutation.
From Verif Require Import Base Num MGeometry MKernel MMesh MMeshRun MMeasure MUtil SMesh SReach SGeom SMeasure SUtil LBase LMesh LReach LGeom LMeasure LMeasure2 LMeasureEx LGrid LUtil.
Import ListNotations.
Open Scope Z_scope.

Definition first_is (iv : Z) (v : triple) : triple :=
  let v := if negb ((let '(a, _, _) := v in a) =? iv) then rotate_macro v else v in
  if negb ((let '(a, _, _) := v in a) =? iv) then rotate_macro v else v.
Definition second_is (iv : Z) (v : triple) : triple :=
  let v := if negb ((let '(_, b, _) := v in b) =? iv) then rotate_macro v else v in
  if negb ((let '(_, b, _) := v in b) =? iv) then rotate_macro v else v.

Definition rm2 (a : AMesh R) (i j : Z) (us vs : list triple) : AMesh R :=
  kill_in (with_tris (kill_in (with_tris a us) i) vs) j.

Lemma kill_app (l r : list (triple * bool)) i : 0 <= i < len l -> kill (l ++ r) i = kill l i ++ r.
Proof.
  intros H. unfold kill, upd, len in *. rewrite nth_error_app1 by lia.
  destruct (nth_error l (Z.to_nat i)) eqn:E; [|apply nth_error_None in E; lia].
  rewrite firstn_app, skipn_app. replace (Z.to_nat i - length l)%nat with O by lia.
  replace (S (Z.to_nat i) - length l)%nat with O by lia. cbn [firstn skipn]. rewrite app_nil_r, <- app_assoc. reflexivity.
Qed.

Lemma split_edge_ok (m : Mesh R) it1 it2 iv1 iv2 ivs l1 l2 : wf m -> it1 <> it2 ->
  vget (ktris (mkern m)) it1 = Ok l1 -> vget (ktris (mkern m)) it2 = Ok l2 -> 0 <= ivs < nb_vertices m ->
  let '(a1, a2, a3) := first_is iv1 (lv1 l1, lv2 l1, lv3 l1) in
  let '(b1, b2, b3) := second_is iv2 (lv1 l2, lv2 l2, lv3 l2) in
  if (a1 =? iv1) && (b2 =? iv2) then
    exists m', split_edge_with_vertex m it1 it2 iv1 iv2 ivs = Ok m' /\
      abs m' = rm2 (abs m) it1 it2 [(a1, ivs, a3); (ivs, a2, a3)] [(b2, ivs, b3); (ivs, b1, b3)]
  else split_edge_with_vertex m it1 it2 iv1 iv2 ivs = Err FAssert.
Proof.
  intros W NE E1 E2 Hs. pose proof (vget_range _ _ _ E1) as H1. pose proof (vget_range _ _ _ E2) as H2.
  pose proof (wf_get _ _ _ W E1) as [[A1 [A2 A3]] _]. pose proof (wf_get _ _ _ W E2) as [[B1 [B2 B3]] _].
  change (k_nbv (mkern m)) with (nb_vertices m) in *.
  assert (forall iv x y z, 0 <= x < nb_vertices m -> 0 <= y < nb_vertices m -> 0 <= z < nb_vertices m ->
    let '(a, b, c) := first_is iv (x, y, z) in 0 <= a < nb_vertices m /\ 0 <= b < nb_vertices m /\ 0 <= c < nb_vertices m) as F1.
  { intros iv x y z Hx Hy Hz. unfold first_is, rotate_macro.
    repeat (match goal with |- context [if negb (?u =? ?v) then _ else _] => destruct (negb (u =? v)); cbn iota beta end); auto. }
  assert (forall iv x y z, 0 <= x < nb_vertices m -> 0 <= y < nb_vertices m -> 0 <= z < nb_vertices m ->
    let '(a, b, c) := second_is iv (x, y, z) in 0 <= a < nb_vertices m /\ 0 <= b < nb_vertices m /\ 0 <= c < nb_vertices m) as F2.
  { intros iv x y z Hx Hy Hz. unfold second_is, rotate_macro.
    repeat (match goal with |- context [if negb (?u =? ?v) then _ else _] => destruct (negb (u =? v)); cbn iota beta end); auto. }
  specialize (F1 iv1 _ _ _ A1 A2 A3). specialize (F2 iv2 _ _ _ B1 B2 B3).
  unfold split_edge_with_vertex. rewrite !bind_massert_true by lia.
  rewrite (get_tv_ok _ _ _ E1). cbn [bind]. cbv zeta.
  change (if negb ((let '(a, _, _) := if negb (lv1 l1 =? iv1) then rotate_macro (lv1 l1, lv2 l1, lv3 l1) else (lv1 l1, lv2 l1, lv3 l1) in a) =? iv1)
     then rotate_macro (if negb (lv1 l1 =? iv1) then rotate_macro (lv1 l1, lv2 l1, lv3 l1) else (lv1 l1, lv2 l1, lv3 l1))
     else if negb (lv1 l1 =? iv1) then rotate_macro (lv1 l1, lv2 l1, lv3 l1) else (lv1 l1, lv2 l1, lv3 l1))
    with (first_is iv1 (lv1 l1, lv2 l1, lv3 l1)).
  destruct (first_is iv1 (lv1 l1, lv2 l1, lv3 l1)) as [[a1 a2] a3].
  destruct (a1 =? iv1) eqn:EA; [|destruct (second_is iv2 _) as [[? ?] ?]; reflexivity]. cbn [massert bind].
  destruct F1 as [Ha1 [Ha2 Ha3]].
  rewrite kadd by assumption. cbn [bind fst]. rewrite kadd by assumption. cbn [bind fst].
  rewrite !push_tri_tris, push_tris_app. cbn [app].
  set (m1 := push_tris m _).
  assert (wf m1) as W1.
  { apply wf_push_tris; [exact W|]. intros x y z [H|[H|[]]]; injection H as <- <- <-; auto. }
  assert (forall i l, vget (ktris (mkern m)) i = Ok l -> vget (ktris (mkern m1)) i = Ok l) as G.
  { intros i l E. unfold m1. cbn [push_tris mkern ktris]. rewrite vget_app_l by (apply vget_range in E; lia). exact E. }
  rewrite (k_unlink_ok m1 it1 l1 W1 ltac:(apply (vget_range _ _ _ (G _ _ E1))) (G _ _ E1)). cbn [bind].
  change (mkMesh (mkern (unlinked_mesh m1 it1 l1)) (mcolor m)) with (unlinked_mesh m1 it1 l1).
  set (m2 := unlinked_mesh m1 it1 l1).
  assert (wf m2) as W2 by (apply wf_unlinked_mesh; [exact W1|exact (wf_get _ _ _ W1 (G _ _ E1))]).
  assert (vget (ktris (mkern m2)) it2 = Ok l2) as G2.
  { unfold m2, unlinked_mesh. cbn [mkern ktris].
    pose proof (vset_in_range (ktris (mkern m1)) it1 (unlinked_tri l1) (vget_range _ _ _ (G _ _ E1))) as V.
    rewrite (vget_vset _ _ _ _ it2 V). replace (it2 =? it1) with false by lia. apply G, E2. }
  rewrite (get_tv_ok _ _ _ G2). cbn [bind].
  change (if negb ((let '(_, b, _) := if negb (lv2 l2 =? iv2) then rotate_macro (lv1 l2, lv2 l2, lv3 l2) else (lv1 l2, lv2 l2, lv3 l2) in b) =? iv2)
     then rotate_macro (if negb (lv2 l2 =? iv2) then rotate_macro (lv1 l2, lv2 l2, lv3 l2) else (lv1 l2, lv2 l2, lv3 l2))
     else if negb (lv2 l2 =? iv2) then rotate_macro (lv1 l2, lv2 l2, lv3 l2) else (lv1 l2, lv2 l2, lv3 l2))
    with (second_is iv2 (lv1 l2, lv2 l2, lv3 l2)).
  destruct (second_is iv2 (lv1 l2, lv2 l2, lv3 l2)) as [[b1 b2] b3].
  cbn [andb]. destruct (b2 =? iv2) eqn:EB; [|reflexivity]. cbn [massert bind]. destruct F2 as [Hb1 [Hb2 Hb3]].
  assert (nb_vertices m2 = nb_vertices m) as N2 by reflexivity.
  rewrite kadd by (rewrite N2; assumption). cbn [bind fst]. rewrite kadd by (rewrite nbv_push_tri, N2; assumption). cbn [bind fst].
  rewrite !push_tri_tris, push_tris_app. cbn [app]. set (m3 := push_tris m2 _).
  assert (wf m3) as W3.
  { apply wf_push_tris; [exact W2|]. intros x y z [H|[H|[]]]; injection H as <- <- <-; rewrite N2; auto. }
  assert (vget (ktris (mkern m3)) it2 = Ok l2) as G3.
  { unfold m3. cbn [push_tris mkern ktris]. rewrite vget_app_l by (apply vget_range in G2; lia). exact G2. }
  rewrite (k_unlink_ok m3 it2 l2 W3 (vget_range _ _ _ G3) G3). cbn [bind]. eexists. split; [reflexivity|].
  change (mkMesh (mkern (unlinked_mesh m3 it2 l2)) (mcolor m2)) with (unlinked_mesh m3 it2 l2).
  rewrite (abs_unlinked m3 it2 l2 G3). unfold m3, rm2. rewrite abs_push_tris. unfold m2.
  rewrite (abs_unlinked m1 it1 l1 (G _ _ E1)). unfold m1. rewrite abs_push_tris. reflexivity.
Qed.

Definition cnt (ts : list triple) (e : Z * Z) : nat := count_occ zz_dec (flat_map edges3 ts) e.
Lemma cnt_app u v e : cnt (u ++ v) e = (cnt u e + cnt v e)%nat.
Proof. unfold cnt. rewrite flat_map_app. apply count_occ_app. Qed.
Lemma cnt_cons t v e : cnt (t :: v) e = (cnt [t] e + cnt v e)%nat.
Proof. apply (cnt_app [t] v). Qed.
Lemma cnt_perm u v e : Permutation u v -> cnt u e = cnt v e.
Proof. intros P. unfold cnt. apply (Permutation_count_occ zz_dec). apply Permutation_flat_map, P. Qed.

Lemma live_rm2 (a : AMesh R) i j t1 t2 us vs : i <> j -> 0 <= i -> 0 <= j ->
  nth_error (atris a) (Z.to_nat i) = Some (t1, true) -> nth_error (atris a) (Z.to_nat j) = Some (t2, true) ->
  Permutation (live a ++ us ++ vs) (t1 :: t2 :: live (rm2 a i j us vs)).
Proof.
  intros NE Hi Hj E1 E2. unfold rm2.
  assert (nth_error (atris (with_tris a us)) (Z.to_nat i) = Some (t1, true)) as E1'.
  { cbn [with_tris atris]. rewrite nth_error_app1; [exact E1|]. apply nth_error_Some. congruence. }
  assert (nth_error (atris (with_tris (kill_in (with_tris a us) i) vs)) (Z.to_nat j) = Some (t2, true)) as E2'.
  { assert (Z.to_nat j < length (atris a))%nat as L by (apply nth_error_Some; congruence).
    cbn [with_tris kill_in atris]. unfold kill. rewrite (upd_map _ _ _ (t1, true)).
    - rewrite nth_error_app1 by (rewrite list_set_length, app_length; lia).
      rewrite nth_error_list_set by (apply nth_error_Some; cbn [with_tris atris] in E1'; congruence).
      destruct (Nat.eqb_spec (Z.to_nat j) (Z.to_nat i)); [lia|]. rewrite nth_error_app1 by exact L. exact E2.
    - exact E1'. }
  pose proof (live_kill _ _ _ _ E1') as P1. pose proof (live_kill _ _ _ _ E2') as P2. cbn [app] in P1, P2.
  rewrite live_with in P1, P2. rewrite app_assoc, P1. cbn [app]. apply perm_skip. exact P2.
Qed.

Ltac cnt_zz := repeat (match goal with |- context [zz_dec ?x ?y] =>
    let E := fresh in destruct (zz_dec x y) as [E|E];
    [first [exfalso; injection E; intros; congruence | clear E] | first [exfalso; apply E; congruence | clear E]] end).

Lemma cnt_unused ts s x : (forall t, In t ts -> let '(p, q, r) := t in p <> s /\ q <> s /\ r <> s) ->
  cnt ts (x, s) = O /\ cnt ts (s, x) = O.
Proof.
  induction ts as [|[[p q] r] ts IH]; intros H; [split; reflexivity|].
  destruct (IH (fun t Ht => H t (or_intror Ht))) as [I1 I2]. destruct (H _ (or_introl eq_refl)) as [Hp [Hq Hr]].
  split.
  - etransitivity; [apply (cnt_cons (p, q, r) ts (x, s))|]. rewrite I1. unfold cnt. cbn [flat_map edges3 app count_occ]. cnt_zz. reflexivity.
  - etransitivity; [apply (cnt_cons (p, q, r) ts (s, x))|]. rewrite I2. unfold cnt. cbn [flat_map edges3 app count_occ]. cnt_zz. reflexivity.
Qed.

Lemma first_1 v x y z : x = v -> first_is v (x, y, z) = (x, y, z).
Proof. intros ->. unfold first_is. rewrite Z.eqb_refl. cbn [negb]. rewrite Z.eqb_refl. reflexivity. Qed.
Lemma first_2 v x y z : x <> v -> y = v -> first_is v (x, y, z) = (y, z, y).
Proof. intros H ->. unfold first_is. rewrite (proj2 (Z.eqb_neq x v) H). cbn [negb rotate_macro]. rewrite Z.eqb_refl. reflexivity. Qed.
Lemma first_3 v x y z : x <> v -> y <> v -> first_is v (x, y, z) = (z, y, z).
Proof. intros H H'. unfold first_is. rewrite (proj2 (Z.eqb_neq x v) H). cbn [negb rotate_macro]. rewrite (proj2 (Z.eqb_neq y v) H'). reflexivity. Qed.
Lemma second_1 v x y z : y = v -> second_is v (x, y, z) = (x, y, z).
Proof. intros ->. unfold second_is. rewrite Z.eqb_refl. cbn [negb]. rewrite Z.eqb_refl. reflexivity. Qed.
Lemma second_2 v x y z : y <> v -> z = v -> second_is v (x, y, z) = (y, z, y).
Proof. intros H ->. unfold second_is. rewrite (proj2 (Z.eqb_neq y v) H). cbn [negb rotate_macro]. rewrite Z.eqb_refl. reflexivity. Qed.
Lemma second_3 v x y z : y <> v -> z <> v -> second_is v (x, y, z) = (z, y, z).
Proof. intros H H'. unfold second_is. rewrite (proj2 (Z.eqb_neq y v) H). cbn [negb rotate_macro]. rewrite (proj2 (Z.eqb_neq z v) H'). reflexivity. Qed.

Lemma split_edge_open (m : Mesh R) a it1 it2 v1 v2 s x y t1 t2 : reach m -> shows m a ->
  0 <= it1 -> 0 <= it2 -> it1 <> it2 ->
  nth_error (atris a) (Z.to_nat it1) = Some (t1, true) -> nth_error (atris a) (Z.to_nat it2) = Some (t2, true) ->
  is_rot t1 v1 v2 x -> is_rot t2 v2 v1 y -> NoDup [v1; v2; x; y; s] ->
  0 <= s < len (averts a) -> (forall t, In t (live a) -> let '(p, q, r) := t in p <> s /\ q <> s /\ r <> s) ->
  split_edge_with_vertex m it1 it2 v1 v2 s = Err FAssert \/
  exists m' a', split_edge_with_vertex m it1 it2 v1 v2 s = Ok m' /\ shows m' a' /\ ~ index_closed (live a').
Proof.
  intros R S H1 H2 NE E1 E2 T1 T2 ND Hs HU. pose proof (reach_wf m R) as W.
  rewrite (shows_unique m a (abs m) S (shows_abs m)) in *. clear a S.
  assert (forall i t, 0 <= i -> nth_error (atris (abs m)) (Z.to_nat i) = Some (t, true) ->
    exists l, vget (ktris (mkern m)) i = Ok l /\ (lv1 l, lv2 l, lv3 l) = t) as GL.
  { intros i t Hi E. cbn [abs atris] in E. rewrite nth_error_map in E. destruct (nth_error (ktris (mkern m)) (Z.to_nat i)) as [l|] eqn:F; [|discriminate].
    injection E as E _. exists l. split; [apply vget_Ok; auto|exact E]. }
  destruct (GL it1 t1 H1 E1) as [l1 [G1 L1]]. destruct (GL it2 t2 H2 E2) as [l2 [G2 L2]].
  pose proof (split_edge_ok m it1 it2 v1 v2 s l1 l2 W NE G1 G2 Hs) as K. rewrite L1, L2 in K.
  apply NoDup_cons_iff in ND. destruct ND as [N1 ND]. apply NoDup_cons_iff in ND. destruct ND as [N2 ND].
  apply NoDup_cons_iff in ND. destruct ND as [N3 ND]. apply NoDup_cons_iff in ND. destruct ND as [N4 _].
  cbn [In] in N1, N2, N3, N4.
  assert (forall us vs, (cnt us (v1, s) + cnt vs (v1, s) <> cnt us (s, v1) + cnt vs (s, v1))%nat ->
     ~ index_closed (live (rm2 (abs m) it1 it2 us vs))) as OP.
  { intros us vs NEQ IC. apply NEQ. pose proof (live_rm2 (abs m) it1 it2 t1 t2 us vs NE H1 H2 E1 E2) as P.
    pose proof (cnt_perm _ _ (v1, s) P) as C1. pose proof (cnt_perm _ _ (s, v1) P) as C2.
    rewrite (cnt_cons t1), (cnt_cons t2) in C1, C2. rewrite !cnt_app in C1, C2.
    destruct (cnt_unused (live (abs m)) s v1 HU) as [Z1 Z2].
    assert (forall t i, nth_error (atris (abs m)) i = Some (t, true) -> In t (live (abs m))) as IL.
    { intros t i E. unfold live. apply in_map_iff. exists (t, true). split; [reflexivity|]. apply filter_In. split; [eapply nth_error_In, E|reflexivity]. }
    destruct (cnt_unused [t1] s v1) as [Z3 Z4]; [intros t [<-|[]]; exact (HU _ (IL _ _ E1))|].
    destruct (cnt_unused [t2] s v1) as [Z5 Z6]; [intros t [<-|[]]; exact (HU _ (IL _ _ E2))|].
    specialize (IC v1 s). change (count_occ zz_dec (flat_map edges3 (live (rm2 (abs m) it1 it2 us vs)))) with (cnt (live (rm2 (abs m) it1 it2 us vs))) in IC.
    lia. }
  assert (v1 <> v2 /\ v1 <> x /\ v1 <> y /\ v1 <> s /\ v2 <> x /\ v2 <> y /\ v2 <> s /\ x <> y /\ x <> s /\ y <> s) as
    [D1 [D2 [D3 [D4 [D5 [D6 [D7 [D8 [D9 D10]]]]]]]]] by (repeat split; intros ->; tauto).
  clear N1 N2 N3 N4 GL.
  assert (exists p q, first_is v1 t1 = (v1, p, q) /\ ((p = v2 /\ q = x) \/ (p = v2 /\ q = v1) \/ (p = x /\ q = v1))) as [p [q [F1 C1]]].
  { destruct T1 as [-> | [-> | ->]].
    - exists v2, x. split; [apply first_1; reflexivity|auto].
    - exists x, v1. split; [apply first_3; congruence|auto].
    - exists v2, v1. split; [apply first_2; congruence|auto]. }
  assert (exists b1 b2 b3, second_is v2 t2 = (b1, b2, b3) /\ (b2 <> v2 \/ b2 = v2 /\ (b1 = y /\ b3 = y \/ b1 = y /\ b3 = v1))) as [b1 [b2 [b3 [F2 C2]]]].
  { destruct T2 as [-> | [-> | ->]].
    - exists y, v1, y. split; [apply second_3; congruence|auto].
    - exists y, v2, y. split; [apply second_2; congruence|right; auto].
    - exists y, v2, v1. split; [apply second_1; reflexivity|right; auto]. }
  rewrite F1, F2 in K. rewrite Z.eqb_refl in K. cbn [andb] in K.
  destruct C2 as [C2|[-> C2]]; [left; rewrite (proj2 (Z.eqb_neq b2 v2) C2) in K; exact K|]. rewrite Z.eqb_refl in K.
  right. destruct K as [m' [K1 K2]]. exists m', (abs m'). split; [exact K1|]. split; [apply shows_abs|]. rewrite K2. apply OP. clear OP K1 K2.
  unfold cnt. destruct C1 as [[-> ->]|[[-> ->]|[-> ->]]], C2 as [[-> ->]|[-> ->]]; cbn [flat_map edges3 app count_occ]; cnt_zz; discriminate.
Qed.
