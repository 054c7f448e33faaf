(** Two surface objects with the same data, and temporaries of the same sizes, behave alike. *)
From Coq Require Import ZArith List Bool Lia.
From Verif Require Import Base Num MGeometry MNurbs MNurbsSurface SNurbs SSurface LBase.
Import ListNotations.
Open Scope Z_scope.

Definition rel_res {A B} (R : A -> B -> Prop) (x : res A) (y : res B) : Prop :=
  match x, y with Ok a, Ok b => R a b | Err e, Err e' => e = e' | _, _ => False end.
Lemma rel_bind {A B C D} (R : A -> B -> Prop) (Q : C -> D -> Prop) x y f g :
  rel_res R x y -> (forall a b, R a b -> rel_res Q (f a) (g b)) -> rel_res Q (bind x f) (bind y g).
Proof. destruct x, y; cbn; intros H K; try contradiction; [apply K, H|exact H]. Qed.
Lemma rel_same {A} (Q : A -> A -> Prop) x : (forall a, Q a a) -> rel_res Q x x.
Proof. intros H. destruct x; cbn; auto. Qed.
Lemma rel_bind_same {A C D} (Q : C -> D -> Prop) (x : res A) f g :
  (forall a, x = Ok a -> rel_res Q (f a) (g a)) -> rel_res Q (bind x f) (bind x g).
Proof. intros H. destruct x as [a|]; cbn; [apply (H a eq_refl)|reflexivity]. Qed.
Lemma rel_loop {A B} (R : Z -> A -> B -> Prop) n : forall a f g x y, R a x y ->
  (forall i x y, a <= i < a + Z.of_nat n -> R i x y -> rel_res (R (i + 1)) (f i x) (g i y)) ->
  rel_res (R (a + Z.of_nat n)) (loop n a f x) (loop n a g y).
Proof.
  induction n; intros a f g x y H0 H.
  - cbn. rewrite Z.add_0_r. exact H0.
  - cbn [loop]. replace (a + Z.of_nat (S n)) with (a + 1 + Z.of_nat n) by lia. apply (rel_bind (R (a + 1))).
    + apply H; [lia|exact H0].
    + intros x' y' H1. apply IHn; [exact H1|]. intros i x2 y2 Hi. apply H. lia.
Qed.
Lemma rel_for {A B} (R : Z -> A -> B -> Prop) a b f g x y : a <= b -> R a x y ->
  (forall i x y, a <= i < b -> R i x y -> rel_res (R (i + 1)) (f i x) (g i y)) ->
  rel_res (R b) (for_ a b f x) (for_ a b g y).
Proof.
  intros L H0 H. unfold for_. replace b with (a + Z.of_nat (Z.to_nat (b - a))) at 1 by lia. apply rel_loop; [exact H0|]. intros i x' y' Hi. apply H. lia.
Qed.

(** Agreement on the first [i] entries of two vectors of [n] entries. *)
Definition agree {A} (n i : Z) (u v : list A) : Prop := vsize u = n /\ vsize v = n /\ forall j, 0 <= j < i -> vget u j = vget v j.
Lemma agree_full {A} n (u v : list A) : agree n n u v -> u = v.
Proof. intros [H1 [H2 H]]. apply vget_ext; [congruence|]. intros j Hj. apply H. lia. Qed.
Lemma agree_set {A} n i (u v : list A) x : 0 <= i < n -> agree n i u v -> exists u' v', vset u i x = Ok u' /\ vset v i x = Ok v' /\ agree n (i + 1) u' v'.
Proof.
  intros Hi [H1 [H2 H]]. rewrite (vset_in_range u i x), (vset_in_range v i x) by lia. eexists _, _. split; [reflexivity|]. split; [reflexivity|].
  assert (vsize (list_set u (Z.to_nat i) x) = n) as S1 by (unfold vsize in *; rewrite list_set_length; exact H1).
  assert (vsize (list_set v (Z.to_nat i) x) = n) as S2 by (unfold vsize in *; rewrite list_set_length; exact H2).
  split; [exact S1|]. split; [exact S2|]. intros j Hj.
  pose proof (vset_in_range u i x ltac:(lia)) as E1. pose proof (vset_in_range v i x ltac:(lia)) as E2.
  rewrite (vget_vset _ _ _ _ j E1), (vget_vset _ _ _ _ j E2). destruct (Z.eqb_spec j i); [reflexivity|]. apply H. lia.
Qed.

Section Alike.
Context {T : Type} {N : Num T}.
Implicit Types s : NurbsSurface T.

Lemma deboor_sizes ks deg ki (u : T) t t' : deboor ks deg ki u t = Ok t' -> vsize (fst t') = vsize (fst t) /\ vsize (snd t') = vsize (snd t).
Proof.
  unfold deboor. intros E. destruct (Z.leb_spec 1 (deg + 1)).
  - apply (for_inv_part (fun _ x => vsize (fst x) = vsize (fst t) /\ vsize (snd x) = vsize (snd t))) in E; [exact E|lia|auto|].
    intros r x x' Hr I E'. apply (for_inv_part (fun _ x => vsize (fst x) = vsize (fst t) /\ vsize (snd x) = vsize (snd t))) in E'; [exact E'|lia|exact I|].
    intros m y y' Hm J E2. unfold deboor_step in E2. destruct y as [tp tw]. cbn [fst snd] in J.
    repeat (apply bind_Ok in E2; let x := fresh "x" in let G := fresh "G" in destruct E2 as [x [G E2]]). injection E2 as <-. cbn [fst snd].
    apply vset_size in G4. apply vset_size in G7. lia.
  - rewrite for_empty in E by lia. injection E as <-. auto.
Qed.

(** Same data, and temporaries that set_degree has sized. *)
Definition sized s : Prop := vsize (ns_tpU s) = ns_degU s + 1 /\ vsize (ns_tpV s) = ns_degV s + 1 /\ vsize (ns_twU s) = ns_degU s + 1 /\ vsize (ns_twV s) = ns_degV s + 1.
Definition srel s s' : Prop := same_sdata s s' /\ sized s /\ sized s'.

Ltac srel_cases H := let s := fresh "s" in let s' := fresh "s'" in
  destruct H as [[? [? [? [? [? [? [? [? [? ?]]]]]]]]] [[? [? [? ?]]] [? [? [? ?]]]]].

Lemma load_row_any s s' ki iv t t' : same_sdata s s' -> vsize (fst t) = ns_degU s + 1 -> vsize (snd t) = ns_degU s + 1 -> vsize (fst t') = ns_degU s + 1 -> vsize (snd t') = ns_degU s + 1 ->
  ns_load_row s ki iv t = ns_load_row s' ki iv t' /\ forall x, ns_load_row s ki iv t = Ok x -> vsize (fst x) = ns_degU s + 1 /\ vsize (snd x) = ns_degU s + 1.
Proof.
  intros [E1 [E2 [E3 [E4 [E5 [E6 [E7 [E8 [E9 E10]]]]]]]]] S1 S2 S3 S4. pose proof (vsize_nonneg (fst t)) as P.
  assert (rel_res (fun x y => agree (ns_degU s + 1) (ns_degU s + 1) (fst x) (fst y) /\ agree (ns_degU s + 1) (ns_degU s + 1) (snd x) (snd y)) (ns_load_row s ki iv t) (ns_load_row s' ki iv t')) as L.
  { unfold ns_load_row. rewrite E1, E3, E9, E10.
    apply (rel_for (fun i x y => agree (ns_degU s + 1) i (fst x) (fst y) /\ agree (ns_degU s + 1) i (snd x) (snd y))).
    - lia.
    - split; (split; [assumption|split; [assumption|intros j Hj; lia]]).
    - intros i x y Hi [A1 A2]. apply rel_bind_same. intros _ _. apply rel_bind_same. intros _ _. apply rel_bind_same. intros w _.
      destruct (agree_set _ i _ _ w Hi A2) as [a [b [-> [-> A3]]]]. cbn [bind]. apply rel_bind_same. intros p _.
      destruct (agree_set _ i _ _ (pmul p w) Hi A1) as [a' [b' [-> [-> A4]]]]. cbn. split; assumption. }
  destruct (ns_load_row s ki iv t) as [[a b]|e], (ns_load_row s' ki iv t') as [[a' b']|e']; cbn in L; try contradiction.
  - destruct L as [L1 L2]. split; [rewrite (agree_full _ _ _ L1), (agree_full _ _ _ L2); reflexivity|]. intros x E. injection E as <-. cbn. split; [apply L1|apply L2].
  - subst e'. split; [reflexivity|]. discriminate.
Qed.

Lemma evaluate_alike s s' u v : srel s s' -> rel_res (fun x y => fst x = fst y /\ srel (snd x) (snd y)) (ns_evaluate s u v) (ns_evaluate s' u v).
Proof.
  intros [D [Z1 Z2]]. pose proof D as [E1 [E2 [E3 [E4 [E5 [E6 [E7 [E8 [E9 E10]]]]]]]]]. pose proof Z1 as [S1 [S2 [S3 S4]]]. pose proof Z2 as [S1' [S2' [S3' S4']]]. rewrite E1, E2 in *.
  unfold ns_evaluate. rewrite E1, E2, E3, E4, E5, E6, E7, E8, E9, E10.
  apply rel_bind_same. intros _ _. apply rel_bind_same. intros kU _. apply rel_bind_same. intros kV _. do 3 (apply rel_bind_same; intros _ _).
  pose proof (vsize_nonneg (ns_tpV s)) as P.
  set (I := fun (i : Z) (x y : (list (Point3 T) * list T) * (list (Point3 T) * list T)) =>
    (vsize (fst (fst x)) = ns_degU s + 1 /\ vsize (snd (fst x)) = ns_degU s + 1 /\ vsize (fst (fst y)) = ns_degU s + 1 /\ vsize (snd (fst y)) = ns_degU s + 1) /\
    agree (ns_degV s + 1) i (fst (snd x)) (fst (snd y)) /\ agree (ns_degV s + 1) i (snd (snd x)) (snd (snd y))).
  apply (rel_bind (I (ns_degV s + 1))).
  - apply (rel_for I).
    + lia.
    + unfold I. cbn [fst snd]. split; [repeat split; assumption|]. split; (split; [assumption|split; [assumption|intros j Hj; lia]]).
    + intros i [tU tV] [tU' tV'] Hi [[L1 [L2 [L3 L4]]] [A1 A2]]. cbn [fst snd] in *. cbn zeta. apply rel_bind_same. intros _ _. apply rel_bind_same. intros _ _.
      destruct (load_row_any s s' kU (i + kV - ns_degV s) tU tU' D L1 L2 L3 L4) as [EL SL]. rewrite <- EL.
      apply rel_bind_same. intros x Ex. destruct (SL x Ex) as [Q1 Q2]. apply rel_bind_same. intros y Ey. destruct (deboor_sizes _ _ _ _ _ _ Ey) as [Q3 Q4].
      apply rel_bind_same. intros pw _. destruct (agree_set _ i _ _ pw Hi A1) as [a [b [-> [-> A3]]]]. cbn [bind].
      apply rel_bind_same. intros w _. destruct (agree_set _ i _ _ w Hi A2) as [a' [b' [-> [-> A4]]]]. cbn. unfold I. cbn [fst snd]. split; [lia|]. split; assumption.
  - intros [[tpU twU] [tpV twV]] [[tpU' twU'] [tpV' twV']] [[L1 [L2 [L3 L4]]] [A1 A2]]. cbn [fst snd] in *.
    pose proof (agree_full _ _ _ A1) as ->. pose proof (agree_full _ _ _ A2) as ->. destruct A1 as [A1 _], A2 as [A2 _].
    apply rel_bind_same. intros y Ey. destruct (deboor_sizes _ _ _ _ _ _ Ey) as [Q3 Q4]. cbn [fst snd] in *.
    apply rel_bind_same. intros pw _. apply rel_bind_same. intros w _. apply rel_bind_same. intros p _. cbn [rel_res fst snd]. split; [reflexivity|].
    unfold srel, same_sdata, sized. cbn. repeat split; congruence.
Qed.

Lemma vresize_size {A} (v v' : list A) n d : vresize v n d = Ok v' -> vsize v' = n.
Proof. unfold vresize. destruct (Z.ltb_spec n 0); [discriminate|]. intros E. injection E as <-. unfold vsize. rewrite app_length, firstn_length, repeat_length. lia. Qed.
Lemma vresize_alike {A} (v v' : list A) n d : rel_res (fun a b => vsize a = n /\ vsize b = n) (vresize v n d) (vresize v' n d).
Proof.
  destruct (vresize v n d) as [a|] eqn:E; unfold vresize in *; destruct (Z.ltb_spec n 0); try discriminate; cbn.
  - injection E as <-. unfold vsize. rewrite !app_length, !firstn_length, !repeat_length. lia.
  - congruence.
Qed.
Lemma degree_alike s s' du dv : same_sdata s s' -> rel_res srel (ns_set_degree s du dv) (ns_set_degree s' du dv).
Proof.
  intros D. unfold ns_set_degree.
  apply (rel_bind (fun a b => vsize a = du + 1 /\ vsize b = du + 1)); [apply vresize_alike|]. intros a a' [? ?].
  apply (rel_bind (fun a b => vsize a = dv + 1 /\ vsize b = dv + 1)); [apply vresize_alike|]. intros b b' [? ?].
  apply (rel_bind (fun a b => vsize a = du + 1 /\ vsize b = du + 1)); [apply vresize_alike|]. intros c c' [? ?].
  apply (rel_bind (fun a b => vsize a = dv + 1 /\ vsize b = dv + 1)); [apply vresize_alike|]. intros d d' [? ?].
  destruct D as [E1 [E2 [E3 [E4 [E5 [E6 [E7 [E8 [E9 E10]]]]]]]]]. cbn. unfold srel, same_sdata, sized. cbn. repeat split; assumption.
Qed.
Lemma from_u_alike s s' vu : srel s s' -> rel_res srel (from_u_curves s vu) (from_u_curves s' vu).
Proof.
  intros H. destruct vu as [|c vu]; [exact H|]. destruct H as [[E1 [E2 [E3 [E4 [E5 [E6 [E7 [E8 [E9 E10]]]]]]]]] _].
  unfold from_u_curves, ns_set_knots_u. destruct (scale_knots (nc_knots c)) as [k|]; [|reflexivity]. cbn [bind].
  apply rel_bind_same. intros [P W] _. cbn [fst snd]. unfold ns_set_points, ns_set_weights. cbn [ns_degU ns_degV ns_nbU ns_nbV ns_closedU ns_closedV ns_knotsU ns_knotsV ns_weights ns_points ns_tpU ns_tpV ns_twU ns_twV].
  rewrite E2. apply degree_alike. unfold same_sdata. cbn [ns_degU ns_degV ns_nbU ns_nbV ns_closedU ns_closedV ns_knotsU ns_knotsV ns_weights ns_points ns_tpU ns_tpV ns_twU ns_twV]. repeat split; assumption.
Qed.
Lemma from_v_alike s s' vu : srel s s' -> rel_res srel (from_v_curves s vu) (from_v_curves s' vu).
Proof.
  intros H. destruct vu as [|c vu]; [exact H|]. destruct H as [[E1 [E2 [E3 [E4 [E5 [E6 [E7 [E8 [E9 E10]]]]]]]]] _].
  unfold from_v_curves, ns_set_knots_v. destruct (scale_knots (nc_knots c)) as [k|]; [|reflexivity]. cbn [bind ns_nbU]. rewrite E3.
  apply rel_bind_same. intros vp _. apply rel_bind_same. intros vw _. apply rel_bind_same. intros [P W] _. cbn [fst snd]. unfold ns_set_points, ns_set_weights. cbn [ns_degU ns_degV ns_nbU ns_nbV ns_closedU ns_closedV ns_knotsU ns_knotsV ns_weights ns_points ns_tpU ns_tpV ns_twU ns_twV].
  rewrite E1. apply degree_alike. unfold same_sdata. cbn [ns_degU ns_degV ns_nbU ns_nbV ns_closedU ns_closedV ns_knotsU ns_knotsV ns_weights ns_points ns_tpU ns_tpV ns_twU ns_twV]. repeat split; assumption.
Qed.
Lemma u_curves_alike s s' : same_sdata s s' -> create_u_curves s' = create_u_curves s.
Proof. intros [E1 [E2 [E3 [E4 [E5 [E6 [E7 [E8 [E9 E10]]]]]]]]]. unfold create_u_curves, u_curve. rewrite E1, E3, E4, E7, E9, E10. reflexivity. Qed.
Lemma v_curves_alike s s' : same_sdata s s' -> create_v_curves s' = create_v_curves s.
Proof. intros [E1 [E2 [E3 [E4 [E5 [E6 [E7 [E8 [E9 E10]]]]]]]]]. unfold create_v_curves, v_curve. rewrite E2, E3, E4, E8, E9, E10. reflexivity. Qed.

Definition rel_out (x y : NurbsSurface T * sout T) : Prop := snd x = snd y /\ srel (fst x) (fst y).
Lemma plain_alike x y : rel_res srel x y -> rel_res rel_out (plain x) (plain y).
Proof. intros H. apply (rel_bind srel _ x y _ _ H). intros a b K. cbn. split; [reflexivity|exact K]. Qed.
Lemma sdo_alike s s' o : srel s s' -> rel_res rel_out (sdo s o) (sdo s' o).
Proof.
  intros H. pose proof H as [D [Z1 Z2]]. pose proof D as [E1 [E2 [E3 [E4 [E5 [E6 [E7 [E8 [E9 E10]]]]]]]]].
  destruct o; cbn [sdo]; try apply plain_alike.
  - apply degree_alike, D.
  - unfold ns_set_knots_u. apply rel_bind_same. intros k _. cbn. unfold srel, same_sdata, sized in *. cbn. repeat split; try assumption; lia.
  - unfold ns_set_knots_v. apply rel_bind_same. intros k _. cbn. unfold srel, same_sdata, sized in *. cbn. repeat split; try assumption; lia.
  - unfold ns_set_uniform_u, ns_set_knots_u. rewrite E1, E3. apply rel_bind_same. intros k _. apply rel_bind_same. intros k' _. cbn. unfold srel, same_sdata, sized in *. cbn. repeat split; try assumption; lia.
  - unfold ns_set_uniform_v, ns_set_knots_v. rewrite E2, E4. apply rel_bind_same. intros k _. apply rel_bind_same. intros k' _. cbn. unfold srel, same_sdata, sized in *. cbn. repeat split; try assumption; lia.
  - cbn. unfold srel, same_sdata, sized in *. cbn. repeat split; try assumption; lia.
  - unfold ns_set_equals_weights. rewrite E9, E10. apply rel_bind_same. intros k _. cbn. unfold srel, same_sdata, sized in *. cbn. repeat split; try assumption; lia.
  - cbn. unfold srel, same_sdata, sized in *. cbn. repeat split; try assumption; lia.
  - cbn. unfold ns_apply_transform, ns_points_ref, srel, same_sdata, sized in *. cbn. rewrite E10. repeat split; try assumption; lia.
  - cbn. unfold srel, same_sdata, sized in *. cbn. repeat split; try assumption; lia.
  - cbn. unfold srel, same_sdata, sized in *. cbn. repeat split; try assumption; lia.
  - unfold ns_insert_knot_u. rewrite (u_curves_alike s s' D). apply rel_bind_same. intros vu _. apply rel_bind_same. intros vu' _. apply from_u_alike, H.
  - unfold ns_insert_knot_v. rewrite (v_curves_alike s s' D). apply rel_bind_same. intros vu _. apply rel_bind_same. intros vu' _. apply from_v_alike, H.
  - unfold ns_degree_elevation_u. rewrite E1. destruct (3 <=? ns_degU s); [cbn; split; [reflexivity|exact H]|].
    rewrite (u_curves_alike s s' D). apply (rel_bind (fun x y => fst x = fst y /\ srel (snd x) (snd y))).
    + apply rel_bind_same. intros vu _. apply rel_bind_same. intros vu' _. apply (rel_bind srel); [apply from_u_alike, H|]. intros a b K. cbn. split; [reflexivity|exact K].
    + intros a b [Ka Kb]. cbn. rewrite Ka. split; [reflexivity|exact Kb].
  - unfold ns_degree_elevation_v. rewrite E2. destruct (3 <=? ns_degV s); [cbn; split; [reflexivity|exact H]|].
    rewrite (v_curves_alike s s' D). apply (rel_bind (fun x y => fst x = fst y /\ srel (snd x) (snd y))).
    + apply rel_bind_same. intros vu _. apply rel_bind_same. intros vu' _. apply (rel_bind srel); [apply from_v_alike, H|]. intros a b K. cbn. split; [reflexivity|exact K].
    + intros a b [Ka Kb]. cbn. rewrite Ka. split; [reflexivity|exact Kb].
  - apply (rel_bind (fun x y => fst x = fst y /\ srel (snd x) (snd y))); [apply evaluate_alike, H|]. intros a b [Ka Kb]. cbn. rewrite Ka. split; [reflexivity|exact Kb].
Qed.
Lemma sdo_all_alike l : forall s s', srel s s' -> alike (sdo_all s l) (sdo_all s' l).
Proof.
  assert (forall s s', srel s s' -> rel_res (fun x y => snd x = snd y /\ same_sdata (fst x) (fst y)) (sdo_all s l) (sdo_all s' l)) as G.
  { induction l as [|o l IH]; intros s s' H; cbn [sdo_all].
    - cbn. split; [reflexivity|apply H].
    - apply (rel_bind rel_out); [apply sdo_alike, H|]. intros a b [Ka Kb]. apply (rel_bind (fun x y => snd x = snd y /\ same_sdata (fst x) (fst y))); [apply IH, Kb|].
      intros x y [X1 X2]. cbn. rewrite Ka, X1. split; [reflexivity|exact X2]. }
  intros s s' H. specialize (G s s' H). unfold alike. destruct (sdo_all s l) as [[a oa]|e], (sdo_all s' l) as [[b ob]|e']; exact G.
Qed.
(** A cleared surface whose closed flags are off is as good as new, once set_degree has been called. *)
Lemma clear_as_new s du dv l : ns_closedU s = false -> ns_closedV s = false ->
  alike (sdo_all ns_new (SDegree du dv :: l)) (sdo_all (ns_clear s) (SDegree du dv :: l)).
Proof.
  intros C1 C2.
  assert (rel_res (fun x y => snd x = snd y /\ same_sdata (fst x) (fst y)) (sdo_all ns_new (SDegree du dv :: l)) (sdo_all (ns_clear s) (SDegree du dv :: l))) as G.
  { cbn [sdo_all sdo]. apply (rel_bind rel_out).
    - apply plain_alike, degree_alike. unfold same_sdata, ns_clear, ns_new. cbn. repeat split; assumption.
    - intros a b [Ka Kb]. pose proof (sdo_all_alike l _ _ Kb) as K. unfold alike in K. destruct (sdo_all (fst a) l) as [[p op]|], (sdo_all (fst b) l) as [[q oq]|]; cbn; try contradiction; [|exact K].
      destruct K as [-> K]. rewrite Ka. split; [reflexivity|exact K]. }
  unfold alike. destruct (sdo_all ns_new _) as [[a oa]|e], (sdo_all (ns_clear s) _) as [[b ob]|e']; exact G.
Qed.

(** set_equals_weights *)
Lemma equal_weights_exact s : exists s', ns_set_equals_weights s = Ok s' /\ ns_points s' = ns_points s /\ vsize (ns_weights s') = vsize (ns_points s) /\
  forall i, 0 <= i < vsize (ns_points s) -> vget (ns_weights s') i = if i <? vsize (ns_weights s) then vget (ns_weights s) i else Ok n1.
Proof.
  unfold ns_set_equals_weights. pose proof (vsize_nonneg (ns_points s)) as P. destruct (vresize (ns_weights s) (vsize (ns_points s)) n1) as [w|] eqn:E.
  - cbn [bind]. eexists. split; [reflexivity|]. cbn. split; [reflexivity|]. split; [exact (vresize_size _ _ _ _ E)|]. intros i Hi.
    unfold vresize in E. destruct (Z.ltb_spec (vsize (ns_points s)) 0); [lia|]. injection E as <-.
    assert (vsize (firstn (Z.to_nat (vsize (ns_points s))) (ns_weights s)) = Z.min (vsize (ns_points s)) (vsize (ns_weights s))) as SF by (unfold vsize; rewrite firstn_length; lia).
    destruct (Z.ltb_spec i (vsize (ns_weights s))).
    + rewrite vget_app_l by lia. rewrite <- (firstn_skipn (Z.to_nat (vsize (ns_points s))) (ns_weights s)) at 2. rewrite vget_app_l by lia. reflexivity.
    + rewrite vget_app_r by lia. rewrite SF. destruct (vget_in_range (repeat n1 (Z.to_nat (vsize (ns_points s)) - length (ns_weights s))) (i - Z.min (vsize (ns_points s)) (vsize (ns_weights s)))) as [x G].
      { unfold vsize. rewrite repeat_length. unfold vsize in *. lia. }
      rewrite G. apply vget_In in G. apply repeat_spec in G. rewrite G. reflexivity.
  - exfalso. unfold vresize in E. destruct (Z.ltb_spec (vsize (ns_points s)) 0); [lia|discriminate].
Qed.
End Alike.
