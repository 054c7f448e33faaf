(** Degree elevation outside its domain, polylines over the reals, concurrent evaluation. *)
From Coq Require Import ZArith List Bool Reals Lra Lia Permutation Psatz.
From Verif Require Import Base Num MGeometry MNurbs MNurbsRace SGeom SNurbs LBase LBlossom LNurbs LNurbs2 LNurbs3 LNurbs4 LNurbs5.
Import ListNotations.
Open Scope Z_scope.

(** ** Degree elevation *)
Lemma elevation_refuses {T} {N : Num T} (c : NurbsCurve T) : 3 <= nc_degree c -> nc_degree_elevation c = Ok (false, c).
Proof. intros H. unfold nc_degree_elevation. destruct (Z.leb_spec 3 (nc_degree c)); [reflexivity|lia]. Qed.

Lemma elevation_true {T} {N : Num T} (c c' : NurbsCurve T) b : nc_degree_elevation c = Ok (b, c') -> b = true -> nc_degree c < 3 /\ nc_degree c' = nc_degree c + 1.
Proof.
  unfold nc_degree_elevation. destruct (Z.leb_spec 3 (nc_degree c)); [intros E; injection E as <- <-; discriminate|]. intros E _. split; [lia|].
  destruct (elevate_knots (nc_knots c)) as [[ek km]|]; [|discriminate]. cbn [bind] in E.
  destruct (if nc_degree c =? 1 then _ else _) as [s|]; [|discriminate]. cbn [bind] in E.
  destruct (unhomogenize (fst s) (snd s)) as [q|]; [|discriminate]. cbn [bind] in E. unfold nc_set_knots in E.
  destruct (scale_knots ek) as [k|]; [|discriminate]. cbn [bind] in E. unfold nc_set_degree in E. cbn [bind] in E.
  destruct (vresize _ _ P0); [|discriminate]. cbn [bind] in E. destruct (vresize _ _ n0); [|discriminate]. cbn [bind] in E. injection E as _ <-. reflexivity.
Qed.

Lemma elevation_false {T} {N : Num T} (c c' : NurbsCurve T) : nc_degree_elevation c = Ok (false, c') -> c' = c.
Proof.
  unfold nc_degree_elevation. destruct (Z.leb_spec 3 (nc_degree c)); [intros E; injection E as <-; reflexivity|]. intros E.
  destruct (elevate_knots (nc_knots c)) as [[ek km]|]; [|discriminate]. cbn [bind] in E.
  destruct (if nc_degree c =? 1 then _ else _) as [s|]; [|discriminate]. cbn [bind] in E.
  destruct (unhomogenize (fst s) (snd s)) as [q|]; [|discriminate]. cbn [bind] in E. unfold nc_set_knots in E.
  destruct (scale_knots ek) as [k|]; [|discriminate]. cbn [bind] in E. unfold nc_set_degree in E. cbn [bind] in E.
  destruct (vresize _ _ P0); [|discriminate]. cbn [bind] in E. destruct (vresize _ _ n0); [|discriminate]. discriminate.
Qed.

(** Degree 0: the result is not a curve any more. *)
Lemma elevate_0 c : valid c -> nc_degree c = 0 -> exists c', nc_degree_elevation c = Ok (true, c') /\ nc_points c' = [] /\ nc_degree c' = 1 /\
  forall t, nc_evaluate c' t = Err FAssert.
Proof.
  intros V D. destruct (V_facts c V) as [H1 [H2 [S _]]].
  destruct (elevate_knots_ok (nc_knots c) S ltac:(lia)) as [ek [km [EK _]]].
  pose proof (ek_clamped c V ek km EK) as C. pose proof (E_pos c V) as EP.
  destruct (ek_facts c V ek km EK) as [SE _].
  unfold nc_degree_elevation. rewrite D. cbn [Z.leb Z.compare]. rewrite EK. cbn [bind Z.eqb fst snd].
  change (unhomogenize [] []) with (@Ok (list pt3) []). cbn [bind]. unfold nc_set_knots. rewrite (clamped_scale _ _ _ C). cbn [bind].
  unfold nc_set_degree, nc_set_weights, nc_set_points, vresize. cbn [nc_degree nc_knots nc_weights nc_points nc_nb nc_tp nc_tw]. cbn [Z.add Z.ltb Z.compare bind Pos.add].
  eexists. split; [reflexivity|]. cbn [nc_points nc_degree]. split; [reflexivity|]. split; [reflexivity|].
  intros t. unfold nc_evaluate. cbn [nc_degree nc_knots nc_weights nc_points nc_nb]. change (vsize (@nil R)) with 0. change (vsize (@nil pt3)) with 0. rewrite Z.eqb_refl. cbn [massert bind].
  destruct (Z.eqb_spec 0 (vsize ek - 1 - 1)); [lia|]. reflexivity.
Qed.

(** Degree 1 with a repeated interior knot: wrong number of points. *)
Lemma e_lt ks j0 : chg ks j0 = false -> 1 <= j0 -> chg ks 0 = false -> forall j, j0 < j -> e ks j < j - 1.
Proof.
  intros H0 H1 H2. assert (forall m, e ks (Z.of_nat m + 1) <= Z.of_nat m) as B.
  { induction m; [change (Z.of_nat 0 + 1) with (0 + 1); rewrite e_S, H2 by lia; rewrite e_0; lia|].
    rewrite (e_S ks (Z.of_nat (S m))) by lia. replace (Z.of_nat (S m)) with (Z.of_nat m + 1) by lia. destruct (chg ks (Z.of_nat m + 1)); lia. }
  assert (forall m, e ks (j0 + 1 + Z.of_nat m) <= j0 - 1 + Z.of_nat m) as C.
  { induction m as [|m IH].
    - replace (j0 + 1 + Z.of_nat 0) with (j0 + 1) by lia. rewrite e_S, H0 by lia. specialize (B (Z.to_nat (j0 - 1))). replace (Z.of_nat (Z.to_nat (j0 - 1)) + 1) with j0 in B by lia. lia.
    - replace (j0 + 1 + Z.of_nat (S m)) with (j0 + 1 + Z.of_nat m + 1) by lia. rewrite (e_S ks (j0 + 1 + Z.of_nat m)) by lia. destruct (chg ks (j0 + 1 + Z.of_nat m)); lia. }
  intros j Hj. specialize (C (Z.to_nat (j - j0 - 1))). replace (j0 + 1 + Z.of_nat (Z.to_nat (j - j0 - 1))) with j in C by lia. lia.
Qed.

Lemma irregular_1 c : valid c -> nc_degree c = 1 -> ~ regular (nc_knots c) 1 (vsize (nc_points c)) ->
  e (nc_knots c) (vsize (nc_knots c) - 1) < vsize (nc_points c) - 1.
Proof.
  intros V D NR. destruct (V_facts c V) as [H1 [H2 [S [H4 H5]]]]. pose proof V as [V1 [V2 _]].
  set (n := vsize (nc_points c)) in *. rewrite D in *. set (ks := nc_knots c) in *.
  assert (e ks n < n - 1) as EN.
  { assert (exists j, 1 <= j <= n - 1 /\ chg ks j = false) as [j [Hj Cj]].
    { assert (forall m, (exists j, 1 <= j <= Z.of_nat m /\ chg ks j = false) \/ (forall j, 1 <= j <= Z.of_nat m -> chg ks j = true)) as K.
      { induction m as [|m [[j [A B]]|A]]; [right; intros; lia|left; exists j; split; [lia|exact B]|].
        destruct (chg ks (Z.of_nat (Datatypes.S m))) eqn:Q; [right|left; exists (Z.of_nat (Datatypes.S m)); split; [lia|exact Q]].
        intros j Hj. destruct (Z.eq_dec j (Z.of_nat (Datatypes.S m))) as [->|]; [exact Q|apply A; lia]. }
      destruct (K (Z.to_nat (n - 1))) as [[j [A B]]|A]; [exists j; split; [lia|exact B]|].
      exfalso. apply NR. intros j Hj. apply (chg_true ks S); [lia|]. apply A. lia. }
    apply (e_lt ks j Cj); try lia. unfold chg. rewrite !H4 by lia. destruct (Req_EM_T 0 0); [reflexivity|congruence]. }
  assert (e ks (vsize ks - 1) = e ks n) as EE. { symmetry. apply (e_const c); [lia|]. intros j Hj. fold ks. rewrite !H5 by lia. reflexivity. }
  lia.
Qed.
Lemma elevate1_sizes c : valid c -> nc_degree c = 1 -> let n := vsize (nc_points c) in
  exists P W, elevate1 c = Ok (P, W) /\ vsize P = 2 * n - 1 /\ vsize W = 2 * n - 1 /\ Forall (fun w => 0 < w)%R W.
Proof.
  intros V D n. destruct (V_facts c V) as [H1 _]. pose proof V as [V1 [V2 _]]. rewrite D in H1. fold n in H1, V1, V2.
  unfold elevate1. rewrite V1.
  match goal with |- context [for_ 0 (n - 1) ?b ?s0] => destruct (for_inv (fun i s => vsize (fst s) = 2 * i /\ vsize (snd s) = 2 * i /\ Forall (fun w => 0 < w)%R (snd s)) 0 (n - 1) b s0) as [[P W] [EL [I1 [I2 I3]]]] end.
  - lia.
  - split; [reflexivity|]. split; [reflexivity|]. constructor.
  - intros i [P W] Hi [I1 [I2 I3]]. cbn [fst snd] in I1, I2, I3. rewrite !(hp_ok c V) by (fold n; lia). cbn [bind fst snd]. rewrite pdiv_R by (cbn; lra). cbn [bind].
    unfold ndiv, RNum at 1. change n2 with 2%R. destruct (Req_EM_T 2 0) as [Q|_]; [lra|]. cbn [bind].
    eexists. split; [reflexivity|]. cbn [fst snd]. rewrite !vsize_push. split; [lia|]. split; [lia|].
    pose proof (cw_pos c i V ltac:(fold n; lia)). pose proof (cw_pos c (i + 1) V ltac:(fold n; lia)).
    repeat apply Forall_push; try assumption. cbn [nadd RNum]. lra.
  - rewrite EL. cbn [bind]. rewrite (hp_ok c V) by (fold n; lia). cbn [bind fst snd] in *. do 2 eexists. split; [reflexivity|]. rewrite !vsize_push. split; [lia|]. split; [lia|].
    apply Forall_push; [exact I3|]. apply (cw_pos c (n - 1) V). fold n. lia.
Qed.
Lemma elevate_1_irregular c : valid c -> nc_degree c = 1 -> ~ regular (nc_knots c) 1 (vsize (nc_points c)) ->
  exists c', nc_degree_elevation c = Ok (true, c') /\ forall t, nc_evaluate c' t = Err FAssert.
Proof.
  intros V D NR. pose proof (irregular_1 c V D NR) as EN. destruct (elevate1_sizes c V D) as [P [W [EL [SP [SW FW]]]]].
  destruct (V_facts c V) as [H1 [H2 [S [H4 H5]]]]. pose proof V as [V1 [V2 _]].
  set (n := vsize (nc_points c)) in *. rewrite D in *. set (ks := nc_knots c) in *.
  destruct (elevate_knots_ok ks S ltac:(lia)) as [ek [km [EK _]]].
  pose proof (ek_clamped c V ek km EK) as C. destruct (ek_facts c V ek km EK) as [SE _]. rewrite D in C. fold ks n in C, SE.
  destruct (unhomogenize_ok P W ltac:(lia) FW) as [q [EQ [SQ _]]].
  unfold nc_degree_elevation. rewrite D. fold ks. cbn [Z.leb Z.compare Pos.compare Pos.compare_cont]. rewrite EK. cbn [bind Z.eqb Pos.eqb fst snd]. rewrite EL. cbn [bind fst snd]. rewrite EQ. cbn [bind].
  unfold nc_set_knots. rewrite (clamped_scale _ _ _ C). cbn [bind].
  unfold nc_set_degree, nc_set_weights, nc_set_points, vresize. cbn [nc_degree nc_knots nc_weights nc_points nc_nb nc_tp nc_tw]. cbn [Z.add Z.ltb Z.compare bind Pos.add Pos.succ].
  eexists. split; [reflexivity|].
  intros t. unfold nc_evaluate. cbn [nc_degree nc_knots nc_weights nc_points nc_nb]. rewrite SQ, SP, SW. rewrite Z.eqb_refl. cbn [massert bind].
  destruct (Z.eqb_spec (2 * n - 1) (vsize ek - 2 - 1)); [lia|]. reflexivity.
Qed.

(** ** Polylines over the reals *)
Lemma while_inv {S} (I : Z -> S -> Prop) (m : Z) (cond : S -> res bool) (body : S -> res S) fuel s :
  0 <= m -> I 0 s -> (Z.of_nat fuel > m) ->
  (forall i s, 0 <= i < m -> I i s -> cond s = Ok true /\ exists s', body s = Ok s' /\ I (i + 1) s') ->
  (forall s, I m s -> cond s = Ok false) ->
  exists s', while_ fuel cond body s = Ok s' /\ I m s'.
Proof.
  intros Hm H0 HF HS HE.
  assert (forall f i s, 0 <= i <= m -> I i s -> Z.of_nat f > m - i -> exists s', while_ f cond body s = Ok s' /\ I m s') as K.
  { induction f as [|f IH]; intros i x Hi Hx Hf; [lia|]. cbn [while_]. destruct (Z.eq_dec i m) as [->|].
    - rewrite (HE x Hx). cbn [bind]. exists x. split; [reflexivity|exact Hx].
    - destruct (HS i x ltac:(lia) Hx) as [E1 [x' [E2 Hx']]]. rewrite E1. cbn [bind]. rewrite E2. cbn [bind]. apply (IH (i + 1)); try assumption; lia. }
  apply (K fuel 0 s); try assumption; lia.
Qed.

Lemma nurbs_at_same c c' t : same_data c c' -> nurbs_at c' t = nurbs_at c t.
Proof.
  intros [E1 [E2 [E3 [E4 _]]]]. unfold nurbs_at, nurbs_den, nurbs_sum, cw, cp. rewrite E1, E2, E3, E4. reflexivity.
Qed.

Lemma polyline_ok c : valid c -> let n := vsize (nc_points c) in exists l c', nc_to_polyline c = Ok (l, c') /\ same_data c c' /\ vsize l = 10 * n + 1 /\
  forall i, 0 <= i <= 10 * n -> vget l i = Ok (nurbs_at c (IZR i / IZR (10 * n))).
Proof.
  intros V. cbv zeta. destruct (V_facts c V) as [H1 _]. unfold nc_to_polyline.
  remember (vsize (nc_points c)) as n eqn:En.
  destruct (nc_points c) as [|p0 tl] eqn:EP; [rewrite En in H1; change (vsize (@nil pt3)) with 0 in H1; lia|].
  assert (0 < IZR n)%R as Pn by (apply IZR_lt; lia). assert (IZR (10 * n) = 10 * IZR n)%R as E10 by (rewrite mult_IZR; reflexivity).
  assert (ndiv n1 (nofZ n * nofZ 10)%num = Ok (1 / IZR (10 * n))%R) as ->.
  { rewrite E10. cbn. destruct (Req_EM_T (IZR n * 10) 0); [lra|]. f_equal. field. lra. }
  cbn [bind].
  match goal with |- context [while_ ?f ?cd ?b ?s] => destruct (while_inv (fun i st => let '(t, l, c') := st in t = (IZR i / IZR (10 * n))%R /\ same_data c c' /\ valid c' /\
     vsize l = i /\ forall j, 0 <= j < i -> vget l j = Ok (nurbs_at c (IZR j / IZR (10 * n)))) (10 * n + 1) cd b f s) as [[[t l] c'] [E [I1 [I2 [I3 [I4 I5]]]]]] end.
  - lia.
  - split; [change (@n0 R RNum) with 0%R; rewrite E10; field; lra|]. split; [unfold same_data; auto|]. split; [exact V|]. split; [reflexivity|]. intros; lia.
  - lia.
  - intros i [[t l] c'] Hi [-> [I2 [I3 [I4 I5]]]].
    assert (0 <= IZR i / IZR (10 * n) <= 1)%R as T.
    { rewrite E10. split; [apply Rmult_le_pos; [apply IZR_le; lia|left; apply Rinv_0_lt_compat; lra]|]. apply (Rmult_le_reg_r (10 * IZR n)); [lra|]. unfold Rdiv. rewrite Rmult_assoc, Rinv_l by lra. rewrite Rmult_1_l, Rmult_1_r. rewrite <- E10. apply IZR_le. lia. }
    split. { cbn. f_equal. apply Rleb_true. apply T. }
    destruct (evaluate_nurbs c' _ I3 T) as [_ [c'' [E [SD V'']]]]. rewrite E. cbn [bind fst snd]. eexists. split; [reflexivity|].
    split. { cbn [nadd RNum]. rewrite plus_IZR. field. lra. }
    split. { destruct I2 as [A1 [A2 [A3 [A4 A5]]]]. destruct SD as [B1 [B2 [B3 [B4 B5]]]]. unfold same_data. repeat split; congruence. }
    split; [exact V''|]. split; [rewrite vsize_push; lia|]. intros j Hj. destruct (Z.eq_dec j i) as [->|].
    + pose proof (vget_push_last l (nurbs_at c' (IZR i / IZR (10 * n)))) as G. rewrite I4 in G. rewrite G. f_equal. apply nurbs_at_same. exact I2.
    + unfold vpush. rewrite vget_app_l by lia. apply I5. lia.
  - intros [[t l] c'] [-> _]. change (Ok (Rleb (IZR (10 * n + 1) / IZR (10 * n)) 1) = Ok false). f_equal. unfold Rleb. destruct (Rle_dec _ 1) as [L|]; [|reflexivity]. exfalso.
    assert (0 < IZR (10 * n))%R as P10 by lra.
    apply (Rmult_le_compat_r (IZR (10 * n))) in L; [|lra]. unfold Rdiv in L. rewrite Rmult_assoc, Rinv_l in L by lra. rewrite Rmult_1_l, Rmult_1_r in L. apply le_IZR in L. lia.
  - rewrite E. cbn [bind]. exists l, c'. split; [reflexivity|]. split; [exact I2|]. split; [exact I4|]. intros i Hi. apply I5. lia.
Qed.

(** C54 over the reals *)
Lemma polyline_ends c : valid c -> tight (nc_knots c) (nc_degree c) (vsize (nc_points c)) -> let n := vsize (nc_points c) in
  exists l c', nc_to_polyline c = Ok (l, c') /\ same_data c c' /\ vsize l = 10 * n + 1 /\
  (forall i, 0 <= i <= 10 * n -> vget l i = Ok (nurbs_at c (IZR i / IZR (10 * n)))) /\
  vget l 0 = Ok (cp c 0) /\ vget l (10 * n) = Ok (cp c (n - 1)).
Proof.
  intros V T n. destruct (polyline_ok c V) as [l [c' [E [SD [L H]]]]]. fold n in L, H. exists l, c'. repeat (split; [assumption|]).
  destruct (V_facts c V) as [H1 _]. fold n in H1. destruct (curve_ends c V T) as [A B]. fold n in B.
  destruct (evaluate_nurbs c 0%R V ltac:(lra)) as [_ [c0 [E0 _]]]. destruct (evaluate_nurbs c 1%R V ltac:(lra)) as [_ [c1 [E1 _]]].
  rewrite E0 in A. rewrite E1 in B. cbn [point_of bind fst] in A, B.
  assert (0 < IZR (10 * n))%R by (apply IZR_lt; lia).
  rewrite !H by lia. replace (IZR 0 / IZR (10 * n))%R with 0%R by (field; lra). replace (IZR (10 * n) / IZR (10 * n))%R with 1%R by (field; lra). auto.
Qed.

(** ** Concurrent evaluation *)
Section Race.
Context {T : Type} {N : Num T}.
Lemma run_app (a b : list (Temps -> res (@Temps T))) s : run_turns (a ++ b) s = (do s <- run_turns a s; run_turns b s).
Proof. revert s. induction a as [|f a IH]; intros s; cbn [app run_turns]; [reflexivity|]. destruct (f s); cbn [bind]; [apply IH|reflexivity]. Qed.
Lemma loop_turns (body : Z -> Temps -> res (@Temps T)) n a s : loop n a body s = run_turns (map body (map (fun k => a + Z.of_nat k) (seq 0 n))) s.
Proof.
  revert a s. induction n; intros a s; [reflexivity|]. cbn [loop seq map run_turns]. replace (a + Z.of_nat 0) with a by lia. destruct (body a s) as [s'|]; [|reflexivity]. cbn [bind].
  rewrite IHn. f_equal. f_equal. rewrite <- seq_shift, map_map. apply map_ext. intros. lia.
Qed.
Lemma for_turns (body : Z -> Temps -> res (@Temps T)) a b s : for_ a b body s = run_turns (map body (turns a b)) s.
Proof. apply loop_turns. Qed.
Lemma run_concat (F : Z -> list (Temps -> res (@Temps T))) l s : run_turns (map (fun r s => run_turns (F r) s) l) s = run_turns (concat (map F l)) s.
Proof. revert s. induction l as [|r l IH]; intros s; [reflexivity|]. cbn [map run_turns concat]. rewrite run_app. destruct (run_turns (F r) s); cbn [bind]; [apply IH|reflexivity]. Qed.

Lemma for_ext' {S} (f g : Z -> S -> res S) a b s : (forall i s, f i s = g i s) -> for_ a b f s = for_ a b g s.
Proof. intros H. unfold for_. generalize (Z.to_nat (b - a)). intros m. revert a s. induction m as [|m IH]; intros a s; cbn [loop]; [reflexivity|]. rewrite H. destruct (g a s); cbn [bind]; auto. Qed.

(** The turns are the whole of [evaluate]. *)
Lemma evaluate_turns (c : NurbsCurve T) u : nc_evaluate c u =
  (do _ <- massert (nc_nb c =? vsize (nc_weights c));
   do _ <- massert (nc_nb c =? vsize (nc_knots c) - nc_degree c - 1);
   do ki <- find_knot_span (nc_knots c) u;
   do s <- run_turns (eval_turns c u ki) (nc_tp c, nc_tw c);
   do p <- eval_read c s;
   Ok (p, mkNC (nc_degree c) (nc_knots c) (nc_weights c) (nc_points c) (nc_nb c) (fst s) (snd s))).
Proof.
  unfold nc_evaluate. do 2 (destruct (massert _); cbn [bind]; [|reflexivity]). destruct (find_knot_span (nc_knots c) u) as [ki|]; cbn [bind]; [|reflexivity].
  unfold eval_turns. rewrite run_app. unfold nc_load. rewrite for_turns. change (map (fun (j : Z) (s : list (Point3 T) * list T) => _) _) with (map (load_turn c ki) (turns 0 (nc_degree c + 1))).
  destruct (run_turns (map (load_turn c ki) _) _) as [s|]; cbn [bind]; [|reflexivity].
  unfold deboor. rewrite (for_ext' _ (fun r s => run_turns (map (fun m => deboor_step (nc_knots c) (nc_degree c) ki u r (nc_degree c - m)) (turns 0 (nc_degree c - r + 1))) s)) by (intros; apply for_turns).
  rewrite for_turns. rewrite (run_concat (fun r => map (fun m => deboor_step (nc_knots c) (nc_degree c) ki u r (nc_degree c - m)) (turns 0 (nc_degree c - r + 1)))).
  match goal with |- bind ?x _ = bind ?y _ => change x with y; destruct y as [s'|] end; cbn [bind]; [|reflexivity]. unfold eval_read.
  destruct (vget (fst s') (nc_degree c)); cbn [bind]; [|reflexivity]. destruct (vget (snd s') (nc_degree c)); cbn [bind]; [|reflexivity]. reflexivity.
Qed.
End Race.

Section Race2.
Context {T : Type} {N : Num T}.
Lemma th_run_app (c : NurbsCurve T) a b x : th_run c (a ++ b) x = (do x <- th_run c a x; th_run c b x).
Proof. revert x. induction a as [|f a IH]; intros x; cbn [app th_run]; [reflexivity|]. destruct (th_step c x f); cbn [bind]; [apply IH|reflexivity]. Qed.
Lemma th_run_a (c : NurbsCurve T) l s s' lb rb : run_turns l s = Ok s' ->
  th_run c (repeat true (length l + 1)) (mkTh s l None lb rb) = Ok (mkTh s' [] (Some (eval_read c s')) lb rb).
Proof.
  revert s. induction l as [|f l IH]; intros s E; cbn [run_turns] in E.
  - injection E as <-. reflexivity.
  - destruct (f s) as [s1|] eqn:Ef; [|discriminate]. cbn [bind] in E. cbn [length Nat.add repeat th_run]. unfold th_step at 1. cbn [th_a th_temps]. rewrite Ef. cbn [bind th_ra th_b th_rb]. apply IH. exact E.
Qed.
Lemma th_run_b (c : NurbsCurve T) l s s' la ra : run_turns l s = Ok s' ->
  th_run c (repeat false (length l + 1)) (mkTh s la ra l None) = Ok (mkTh s' la ra [] (Some (eval_read c s'))).
Proof.
  revert s. induction l as [|f l IH]; intros s E; cbn [run_turns] in E.
  - injection E as <-. reflexivity.
  - destruct (f s) as [s1|] eqn:Ef; [|discriminate]. cbn [bind] in E. cbn [length Nat.add repeat th_run]. unfold th_step at 1. cbn [th_b th_temps]. rewrite Ef. cbn [bind th_ra th_a th_rb]. apply IH. exact E.
Qed.

(** One call after the other: both threads get the points of two successive calls. *)
Lemma race_sequential (c c1 c2 : NurbsCurve T) ua ub pa pb : nc_evaluate c ua = Ok (pa, c1) -> nc_evaluate c1 ub = Ok (pb, c2) ->
  exists x0 na nb x, th_start c ua ub = Ok x0 /\ th_run c (repeat true na ++ repeat false nb) x0 = Ok x /\ th_ra x = Some (Ok pa) /\ th_rb x = Some (Ok pb).
Proof.
  intros E1 E2. rewrite evaluate_turns in E1.
  destruct (massert (nc_nb c =? vsize (nc_weights c))); cbn [bind] in E1; [|discriminate].
  destruct (massert (nc_nb c =? vsize (nc_knots c) - nc_degree c - 1)); cbn [bind] in E1; [|discriminate].
  destruct (find_knot_span (nc_knots c) ua) as [ka|] eqn:Ka; cbn [bind] in E1; [|discriminate].
  destruct (run_turns (eval_turns c ua ka) (nc_tp c, nc_tw c)) as [sa|] eqn:Ra; cbn [bind] in E1; [|discriminate].
  destruct (eval_read c sa) as [pa'|] eqn:Pa; cbn [bind] in E1; [|discriminate]. injection E1 as <- <-.
  rewrite evaluate_turns in E2. cbn [nc_nb nc_weights nc_knots nc_degree nc_points nc_tp nc_tw] in E2.
  destruct (massert (nc_nb c =? vsize (nc_weights c))); cbn [bind] in E2; [|discriminate].
  destruct (massert (nc_nb c =? vsize (nc_knots c) - nc_degree c - 1)); cbn [bind] in E2; [|discriminate].
  destruct (find_knot_span (nc_knots c) ub) as [kb|] eqn:Kb; cbn [bind] in E2; [|discriminate].
  change (eval_turns (mkNC _ _ _ _ _ _ _) ub kb) with (eval_turns c ub kb) in E2. rewrite <- surjective_pairing in E2.
  destruct (run_turns (eval_turns c ub kb) sa) as [sb|] eqn:Rb; cbn [bind] in E2; [|discriminate].
  change (eval_read (mkNC _ _ _ _ _ _ _) sb) with (eval_read c sb) in E2.
  destruct (eval_read c sb) as [pb'|] eqn:Pb; cbn [bind] in E2; [|discriminate]. injection E2 as <- _.
  unfold th_start. rewrite Ka, Kb. cbn [bind]. eexists. exists (length (eval_turns c ua ka) + 1)%nat, (length (eval_turns c ub kb) + 1)%nat. eexists.
  split; [reflexivity|]. rewrite th_run_app. rewrite (th_run_a c _ _ _ _ _ Ra). cbn [bind]. rewrite (th_run_b c _ _ _ _ _ Rb). split; [reflexivity|]. cbn. rewrite Pa, Pb. auto.
Qed.
End Race2.

(** The segment from the origin to (1,0,0), degree 1. *)
Definition line01 : NurbsCurve R :=
  mkNC 1 [0; 0; 1; 1]%R [1; 1]%R [mkP 0 0 0; mkP 1 0 0]%R 2 [O3; O3] [0; 0]%R.
Lemma line01_valid : valid line01.
Proof.
  unfold valid, line01. cbn [nc_degree nc_knots nc_weights nc_points nc_nb nc_tp nc_tw].
  split; [reflexivity|]. split; [reflexivity|]. split.
  - split; [cbn; lia|]. split; [reflexivity|]. change (vsize [mkP 0 0 0; mkP 1 0 0]%R) with 2. 
    assert (forall i, 0 <= i < 4 -> i = 0 \/ i = 1 \/ i = 2 \/ i = 3) as K by (intros; lia).
    split; [|split].
    + intros i j Hi Hj. destruct (K i ltac:(lia)) as [->|[->|[->| ->]]], (K j ltac:(lia)) as [->|[->|[->| ->]]]; try lia; unfold kn, Z.to_nat, Pos.to_nat; cbn; lra.
    + intros i Hi. destruct (K i ltac:(lia)) as [->|[->|[->| ->]]]; try lia; reflexivity.
    + intros i Hi. destruct (K i ltac:(lia)) as [->|[->|[->| ->]]]; try lia; reflexivity.
  - split; [repeat constructor; lra|]. split; cbn; lia.
Qed.
Lemma line01_tight : tight (nc_knots line01) (nc_degree line01) 2.
Proof. split; unfold kn, Z.to_nat, Pos.to_nat; cbn; lra. Qed.

Lemma span_half : find_knot_span (nc_knots line01) (1 / 2)%R = Ok 1.
Proof.
  destruct (valid_span line01 (1 / 2) line01_valid ltac:(lra)) as [i [E [B I]]]. change (nc_degree line01) with 1 in B. change (vsize (nc_points line01)) with 2 in B. rewrite E. f_equal. lia.
Qed.

Ltac rdiv := match goal with |- context [Req_EM_T ?a ?b] => destruct (Req_EM_T a b); [exfalso; lra|] end.

Lemma pmul_1 (p : pt3) : pmul p 1%R = p.
Proof. destruct p. unfold pmul. cbn. f_equal; ring. Qed.
Lemma turn_load0 (a b : pt3) (wa wb : R) : load_turn line01 1 0 ([a; b], [wa; wb]) = Ok ([mkP 0 0 0; b], [1; wb])%R.
Proof. rewrite <- (pmul_1 (mkP 0 0 0)%R). reflexivity. Qed.
Lemma turn_load1 (a b : pt3) (wa wb : R) : load_turn line01 1 1 ([a; b], [wa; wb]) = Ok ([a; mkP 1 0 0], [wa; 1])%R.
Proof. rewrite <- (pmul_1 (mkP 1 0 0)%R). reflexivity. Qed.

Lemma turn_step (a b : pt3) (wa wb : R) : deboor_step [0; 0; 1; 1]%R 1 1 (1 / 2)%R 1 1 ([a; b], [wa; wb]) =
  Ok ([a; mkP ((px a + px b) / 2) ((py a + py b) / 2) ((pz a + pz b) / 2)], [wa; (wa + wb) / 2])%R.
Proof.
  unfold deboor_step. change (vget [0; 0; 1; 1]%R (1 + 1 - 1)) with (@Ok R 0%R). change (vget [0; 0; 1; 1]%R (1 + 1 + 1 - 1)) with (@Ok R 1%R). cbn [bind].
  assert (ndiv (nsub (1 / 2)%R 0%R) (nsub 1%R 0%R) = Ok (1 / 2)%R) as ->. { cbn. rdiv. f_equal. field. }
  cbn [bind]. change (1 - 1) with 0. change (vget [a; b] 0) with (Ok a). change (vget [a; b] 1) with (Ok b). cbn [bind].
  match goal with |- context [vset [a; b] 1 ?x] => change (vset [a; b] 1 x) with (Ok [a; x]) end. cbn [bind]. change (vget [wa; wb] 0) with (Ok wa). change (vget [wa; wb] 1) with (Ok wb). cbn [bind]. 
  match goal with |- context [vset [wa; wb] 1 ?x] => change (vset [wa; wb] 1 x) with (Ok [wa; x]) end. cbn [bind].
  unfold padd, pmul. cbn [px py pz nadd nmul nsub n1 nofZ RNum]. do 2 f_equal; [f_equal; f_equal; f_equal; field|f_equal; f_equal; field].
Qed.

Lemma turns_half : eval_turns line01 (1 / 2)%R 1 = [load_turn line01 1 0; load_turn line01 1 1; deboor_step [0; 0; 1; 1]%R 1 1 (1 / 2)%R 1 1].
Proof. reflexivity. Qed.
Lemma read_half (a b : pt3) (wa wb : R) : wb <> 0%R -> eval_read line01 ([a; b], [wa; wb]) = Ok (mkP (px b / wb) (py b / wb) (pz b / wb))%R.
Proof. intros H. unfold eval_read. change (vget (fst ([a; b], [wa; wb])) (nc_degree line01)) with (Ok b). change (vget (snd ([a; b], [wa; wb])) (nc_degree line01)) with (Ok wb). cbn [bind]. apply pdiv_R. exact H. Qed.

Lemma eval_half : exists c', nc_evaluate line01 (1 / 2)%R = Ok (mkP (1 / 2) 0 0, c')%R.
Proof.
  rewrite evaluate_turns. rewrite span_half.
  change (massert (nc_nb line01 =? vsize (nc_weights line01))) with (Ok tt). change (massert (nc_nb line01 =? vsize (nc_knots line01) - nc_degree line01 - 1)) with (Ok tt). cbn [bind].
  rewrite turns_half. unfold O3. cbn [run_turns nc_tp nc_tw line01]. rewrite turn_load0. cbn [bind]. rewrite turn_load1. cbn [bind]. rewrite turn_step. cbn [bind]. rewrite read_half by lra. cbn [bind].
  eexists. f_equal. f_equal. cbn [px py pz]. f_equal; field.
Qed.

(** Two threads evaluating the middle of the segment: both load the control points, A makes its
    averaging step, B averages again what A left: both return the point at one quarter. *)
Lemma race_half : exists x0 x, th_start line01 (1 / 2)%R (1 / 2)%R = Ok x0 /\
  th_run line01 [true; true; false; false; true; false; false; true] x0 = Ok x /\
  th_ra x = Some (Ok (mkP (1 / 4) 0 0))%R /\ th_rb x = Some (Ok (mkP (1 / 4) 0 0))%R.
Proof.
  unfold th_start. rewrite span_half. cbn [bind]. do 2 eexists. split; [reflexivity|].
  rewrite turns_half. unfold O3. cbn [th_run th_step th_a th_b th_ra th_rb th_temps nc_tp nc_tw line01].
  rewrite turn_load0. cbn [bind th_run th_step th_a th_b th_ra th_rb th_temps]. rewrite turn_load1. cbn [bind th_run th_step th_a th_b th_ra th_rb th_temps].
  rewrite turn_load0. cbn [bind th_run th_step th_a th_b th_ra th_rb th_temps]. rewrite turn_load1. cbn [bind th_run th_step th_a th_b th_ra th_rb th_temps].
  rewrite turn_step. cbn [bind th_run th_step th_a th_b th_ra th_rb th_temps].
  rewrite turn_step. cbn [bind th_run th_step th_a th_b th_ra th_rb th_temps].
  rewrite read_half by lra. split; [reflexivity|]. cbn [th_ra th_rb px py pz]. 
  split; do 3 f_equal; field.
Qed.
