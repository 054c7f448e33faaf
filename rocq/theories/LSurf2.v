(** Knot insertion and degree elevation of surfaces. *)
From Coq Require Import ZArith List Bool Reals Lra Lia Permutation Psatz.
From Verif Require Import Base Num MGeometry MNurbs MNurbsSurface SGeom SNurbs SSurface LBase LBlossom LNurbs LNurbs2 LNurbs3 LNurbs5 LSurf.
Import ListNotations.
Open Scope Z_scope.

(** Curve [c] is row [j] (column [i]) of the surface. *)
Definition is_row (s : NurbsSurface R) (j : Z) (c : NurbsCurve R) : Prop :=
  valid c /\ nc_degree c = ns_degU s /\ nc_knots c = ns_knotsU s /\ vsize (nc_points c) = ns_nbU s /\
  forall i, 0 <= i < ns_nbU s -> cp c i = scp s i j /\ cw c i = scw s i j.
Definition is_col (s : NurbsSurface R) (i : Z) (c : NurbsCurve R) : Prop :=
  valid c /\ nc_degree c = ns_degV s /\ nc_knots c = ns_knotsV s /\ vsize (nc_points c) = ns_nbV s /\
  forall j, 0 <= j < ns_nbV s -> cp c j = scp s i j /\ cw c j = scw s i j.
Definition same_shom (s s' : NurbsSurface R) (u v : R) : Prop :=
  surf_den s' u v = surf_den s u v /\
  surf_sum s' (sX s') u v = surf_sum s (sX s) u v /\ surf_sum s' (sY s') u v = surf_sum s (sY s) u v /\ surf_sum s' (sZ s') u v = surf_sum s (sZ s) u v.

Lemma same_shom_points s s' u v : svalid s -> svalid s' -> (0 <= u <= 1)%R -> (0 <= v <= 1)%R -> same_shom s s' u v ->
  spoint_of (ns_evaluate s' u v) = spoint_of (ns_evaluate s u v).
Proof.
  intros V V' HU HV [H1 [H2 [H3 H4]]]. rewrite !ns_evaluate_formula by assumption. unfold surf_at. fold (sX s) (sY s) (sZ s) (sX s') (sY s') (sZ s'). rewrite H1, H2, H3, H4. reflexivity.
Qed.

Lemma vresize_ok {A} (v : list A) n d : 0 <= n -> exists v', vresize v n d = Ok v' /\ vsize v' = n.
Proof.
  intros H. unfold vresize. destruct (Z.ltb_spec n 0); [lia|]. eexists. split; [reflexivity|]. unfold vsize in *. rewrite app_length, firstn_length, repeat_length. lia.
Qed.
Lemma nc_degree_set (c : NurbsCurve R) d : 0 <= d -> exists tp tw, nc_set_degree c d = Ok (mkNC d (nc_knots c) (nc_weights c) (nc_points c) (nc_nb c) tp tw) /\ vsize tp = d + 1 /\ vsize tw = d + 1.
Proof.
  intros H. destruct (vresize_ok (nc_tp c) (d + 1) P0 ltac:(lia)) as [tp [E1 S1]]. destruct (vresize_ok (nc_tw c) (d + 1) n0 ltac:(lia)) as [tw [E2 S2]].
  exists tp, tw. unfold nc_set_degree. rewrite E1. cbn [bind]. rewrite E2. cbn [bind]. auto.
Qed.

Lemma line_curve (s : NurbsSurface R) d ks n (a : Z -> pt3) (b : Z -> R) : clamped ks d n -> (forall i, 0 <= i < n -> (0 < b i)%R) ->
  forall body, (forall i pw, 0 <= i < n -> body i pw = Ok (vpush (fst pw) (a i), vpush (snd pw) (b i))) ->
  exists c, (do n0 <- nc_set_degree nc_new d; do n0 <- nc_set_knots n0 ks; do pw <- for_ 0 n body ([], []);
     Ok (nc_set_weights (nc_set_points n0 (fst pw)) (snd pw))) = Ok c /\ valid c /\ nc_degree c = d /\ nc_knots c = ks /\ vsize (nc_points c) = n /\
     forall i, 0 <= i < n -> cp c i = a i /\ cw c i = b i.
Proof.
  intros C F body HB. pose proof C as [C1 _]. destruct (nc_degree_set nc_new d ltac:(lia)) as [tp [tw [E [S1 S2]]]].
  rewrite E. cbn [bind]. unfold nc_set_knots. cbn [nc_degree nc_knots nc_weights nc_points nc_nb nc_tp nc_tw]. rewrite (clamped_scale _ _ _ C). cbn [bind].
  rewrite (for_push_pair a b n body ltac:(lia) HB). cbn [bind fst snd]. eexists. split; [reflexivity|].
  unfold valid, nc_set_weights, nc_set_points, cp, cw. cbn [nc_degree nc_knots nc_weights nc_points nc_nb nc_tp nc_tw].
  rewrite !vsize_tab by lia. split; [|split; [reflexivity|split; [reflexivity|split; [reflexivity|]]]].
  - split; [reflexivity|]. split; [reflexivity|]. split; [exact C|]. split; [|lia].
    rewrite Forall_forall. intros w Hw. apply in_map_iff in Hw. destruct Hw as [j [<- Hj]]. apply in_zrange in Hj. apply F. lia.
  - intros i Hi. pose proof (vget_tab a n i Hi) as GA. pose proof (vget_tab b n i Hi) as GB.
    rewrite (vget_nth _ O3) in GA by (rewrite vsize_tab; lia). rewrite (vget_nth _ 0%R) in GB by (rewrite vsize_tab; lia). split; congruence.
Qed.

Lemma u_curve_ok s j : svalid s -> 0 <= j < ns_nbV s -> exists c, u_curve s j = Ok c /\ is_row s j c.
Proof.
  intros V Hj. pose proof V as [V1 [V2 [CU _]]]. unfold u_curve.
  destruct (line_curve s (ns_degU s) (ns_knotsU s) (ns_nbU s) (fun i => scp s i j) (fun i => scw s i j) CU) with
    (body := fun (u : Z) (pw : list pt3 * list R) => do p <- vget (ns_points s) (u + ns_nbU s * j); do w <- vget (ns_weights s) (u + ns_nbU s * j); Ok (vpush (fst pw) p, vpush (snd pw) w)) as [c [E H]].
  - intros i Hi. apply scw_pos; assumption.
  - intros i pw Hi. pose proof (svalid_idx s i j Hi Hj). rewrite (vget_nth (ns_points s) O3), (vget_nth (ns_weights s) 0%R) by lia. reflexivity.
  - exists c. split; [exact E|]. exact H.
Qed.
Lemma v_curve_ok s i : svalid s -> 0 <= i < ns_nbU s -> exists c, v_curve s i = Ok c /\ is_col s i c.
Proof.
  intros V Hi. pose proof V as [V1 [V2 [_ [CV _]]]]. unfold v_curve.
  destruct (line_curve s (ns_degV s) (ns_knotsV s) (ns_nbV s) (fun j => scp s i j) (fun j => scw s i j) CV) with
    (body := fun (v : Z) (pw : list pt3 * list R) => do p <- vget (ns_points s) (i + ns_nbU s * v); do w <- vget (ns_weights s) (i + ns_nbU s * v); Ok (vpush (fst pw) p, vpush (snd pw) w)) as [c [E H]].
  - intros j Hj. apply scw_pos; assumption.
  - intros j pw Hj. pose proof (svalid_idx s i j Hi Hj). rewrite (vget_nth (ns_points s) O3), (vget_nth (ns_weights s) 0%R) by lia. reflexivity.
  - exists c. split; [exact E|]. exact H.
Qed.

Lemma push_all {A} (g : Z -> res A) (P : Z -> A -> Prop) n : 0 <= n -> (forall j, 0 <= j < n -> exists c, g j = Ok c /\ P j c) ->
  exists l, for_ 0 n (fun v vu => do c <- g v; Ok (vpush vu c)) [] = Ok l /\ vsize l = n /\ forall j c, vget l j = Ok c -> P j c.
Proof.
  intros N0 H. match goal with |- context [for_ 0 n ?b _] =>
  destruct (for_inv (fun m l => vsize l = m /\ forall j c, vget l j = Ok c -> P j c) 0 n b []) as [l [E [I1 I2]]] end.
  - lia.
  - split; [reflexivity|]. intros j c E. apply vget_range in E. cbn in E. lia.
  - intros m l Hm [I1 I2]. destruct (H m ltac:(lia)) as [c [E Q]]. rewrite E. cbn [bind]. eexists. split; [reflexivity|]. split; [rewrite vsize_push; lia|].
    intros j c' G. pose proof (vget_range _ _ _ G) as B. rewrite vsize_push in B. destruct (Z.eq_dec j m) as [->|].
    + rewrite <- I1, vget_last in G. injection G as <-. exact Q.
    + unfold vpush in G. rewrite vget_app_l in G by lia. exact (I2 j c' G).
  - exists l. auto.
Qed.
Lemma create_u_curves_ok s : svalid s -> exists vu, create_u_curves s = Ok vu /\ vsize vu = ns_nbV s /\ forall j c, vget vu j = Ok c -> is_row s j c.
Proof. intros V. apply push_all; [destruct V as [_ [_ [_ [[C _] _]]]]; lia|]. intros j Hj. exact (u_curve_ok s j V Hj). Qed.
Lemma create_v_curves_ok s : svalid s -> exists vv, create_v_curves s = Ok vv /\ vsize vv = ns_nbU s /\ forall j c, vget vv j = Ok c -> is_col s j c.
Proof. intros V. apply push_all; [destruct V as [_ [_ [[C _] _]]]; lia|]. intros j Hj. exact (v_curve_ok s j V Hj). Qed.

Lemma each_curve_ok (f : NurbsCurve R -> res (NurbsCurve R)) (Q : Z -> NurbsCurve R -> Prop) vc :
  (forall j c, vget vc j = Ok c -> exists c', f c = Ok c' /\ Q j c') ->
  exists vc', each_curve f vc = Ok vc' /\ vsize vc' = vsize vc /\ forall j c, vget vc' j = Ok c -> Q j c.
Proof.
  intros H. unfold each_curve. match goal with |- context [for_ 0 _ ?b _] =>
  destruct (for_inv (fun m l => vsize l = vsize vc /\ (forall j, m <= j -> vget l j = vget vc j) /\ forall j c, j < m -> vget l j = Ok c -> Q j c) 0 (vsize vc) b vc) as [l [E [I1 [I2 I3]]]] end.
  - apply vsize_nonneg.
  - split; [reflexivity|]. split; [reflexivity|]. intros j c B E. apply vget_range in E. lia.
  - intros m l Hm [I1 [I2 I3]]. rewrite I2 by lia. destruct (vget_in_range vc m Hm) as [c E]. rewrite E. cbn [bind]. destruct (H m c E) as [c' [E' q]]. rewrite E'. cbn [bind].
    pose proof (vset_in_range l m c' ltac:(lia)) as ES. rewrite ES. eexists. split; [reflexivity|].
    split; [rewrite (vset_size _ _ _ _ ES); exact I1|]. split.
    + intros j Hj. rewrite (vget_vset _ _ _ _ j ES). destruct (Z.eqb_spec j m); [lia|]. apply I2. lia.
    + intros j d Hj G. rewrite (vget_vset _ _ _ _ j ES) in G. destruct (Z.eqb_spec j m) as [->|]; [inversion G; subst; exact q|]. apply (I3 j d); [lia|exact G].
  - exists l. split; [exact E|]. split; [exact I1|]. intros j c G. apply (I3 j c); [apply vget_range in G; lia|exact G].
Qed.

(** A curve of the refined family: degree [d], knots [ks], [n] points. *)
Definition shaped (d : Z) (ks : list R) (n : Z) (c : NurbsCurve R) : Prop :=
  valid c /\ nc_degree c = d /\ nc_knots c = ks /\ vsize (nc_points c) = n.

Lemma cp_get c i : valid c -> 0 <= i < vsize (nc_points c) -> vget (nc_points c) i = Ok (cp c i) /\ vget (nc_weights c) i = Ok (cw c i).
Proof. intros V H. pose proof V as [_ [W _]]. unfold cp, cw. split; apply vget_nth; lia. Qed.

Lemma set_degree_s (s : NurbsSurface R) du dv : 0 <= du -> 0 <= dv -> exists a b c d, ns_set_degree s du dv =
  Ok (mkNS du dv (ns_nbU s) (ns_nbV s) (ns_closedU s) (ns_closedV s) (ns_knotsU s) (ns_knotsV s) (ns_weights s) (ns_points s) a b c d) /\
  vsize a = du + 1 /\ vsize b = dv + 1 /\ vsize c = du + 1 /\ vsize d = dv + 1.
Proof.
  intros H1 H2. destruct (vresize_ok (ns_tpU s) (du + 1) P0 ltac:(lia)) as [a [E1 S1]]. destruct (vresize_ok (ns_tpV s) (dv + 1) P0 ltac:(lia)) as [b [E2 S2]].
  destruct (vresize_ok (ns_twU s) (du + 1) n0 ltac:(lia)) as [c [E3 S3]]. destruct (vresize_ok (ns_twV s) (dv + 1) n0 ltac:(lia)) as [d [E4 S4]].
  exists a, b, c, d. unfold ns_set_degree. rewrite E1. cbn [bind]. rewrite E2. cbn [bind]. rewrite E3. cbn [bind]. rewrite E4. cbn [bind]. auto.
Qed.

Lemma Forall_vget {A} (P : A -> Prop) l : (forall i x, vget l i = Ok x -> P x) -> Forall P l.
Proof. intros H. rewrite Forall_forall. intros x Hx. destruct (In_vget l x Hx) as [i [_ E]]. exact (H i x E). Qed.
Lemma vget_Forall {A} (P : A -> Prop) l i x : Forall P l -> vget l i = Ok x -> P x.
Proof. rewrite Forall_forall. intros H E. apply H. exact (vget_In _ _ _ E). Qed.

Lemma split_index n k : 0 < n -> 0 <= k -> exists i j, k = i + n * j /\ 0 <= i < n /\ 0 <= j.
Proof. intros H K. exists (k mod n), (k / n). pose proof (Z.div_mod k n ltac:(lia)). pose proof (Z.mod_pos_bound k n H). pose proof (Z.div_pos k n K H). lia. Qed.

Lemma from_u_curves_ok s vu d ks n : svalid s -> vsize vu = ns_nbV s -> (forall j c, vget vu j = Ok c -> shaped d ks n c) ->
  exists s', from_u_curves s vu = Ok s' /\ svalid s' /\ ns_degU s' = d /\ ns_knotsU s' = ks /\ ns_nbU s' = n /\ same_v s s' /\
    forall j c, vget vu j = Ok c -> is_row s' j c.
Proof.
  intros V SV H. pose proof V as [V1 [V2 [CU [CV [F [T1 [T2 [T3 T4]]]]]]]]. pose proof CV as [C1 _].
  destruct vu as [|c0 tl]; [cbn in SV; lia|]. unfold from_u_curves. set (vu := c0 :: tl) in *. assert (vget vu 0 = Ok c0) as G0 by reflexivity.
  destruct (H 0 c0 G0) as [VC0 [D0 [K0 N0]]].
  pose proof VC0 as [X1 [X2 [X3 _]]]. rewrite D0, K0, N0 in X3. pose proof X3 as [X4 _].
  unfold ns_set_knots_u. rewrite K0, (clamped_scale _ _ _ X3). cbn [bind].
  match goal with |- context [for_ 0 _ ?b ([], [])] =>
  destruct (for_inv (fun m pw => vsize (fst pw) = n * m /\ vsize (snd pw) = n * m /\ Forall (fun w => 0 < w)%R (snd pw) /\
     forall j c, j < m -> vget vu j = Ok c -> forall i, 0 <= i < n -> vget (fst pw) (i + n * j) = vget (nc_points c) i /\ vget (snd pw) (i + n * j) = vget (nc_weights c) i)
     0 (vsize vu) b ([], [])) as [[P W] [E [I1 [I2 [I3 I4]]]]] end.
  - apply vsize_nonneg.
  - cbn [fst snd]. split; [cbn; lia|]. split; [cbn; lia|]. split; [constructor|]. intros j c B G. apply vget_range in G. lia.
  - intros m [P W] Hm [J1 [J2 [J3 J4]]]. cbn [fst snd] in *. destruct (vget_in_range vu m Hm) as [c E]. rewrite E. cbn [bind].
    destruct (H m c E) as [[Y1 [Y2 [_ [Y3 _]]]] [_ [_ N1]]].
    eexists. split; [reflexivity|]. cbn [fst snd]. rewrite !vsize_app. split; [lia|]. split; [lia|]. split; [apply Forall_app; auto|].
    intros j c' B G i Hi. destruct (Z.eq_dec j m) as [->|].
    + rewrite E in G. inversion G; subst c'. rewrite !vget_app_r by lia. split; f_equal; lia.
    + pose proof (vget_range _ _ _ G). rewrite !vget_app_l by nia. apply J4; [lia|assumption|assumption].
  - rewrite E. cbn [bind fst snd] in *. rewrite SV in *.
    unfold ns_set_weights, ns_set_points, nc_nb_points. cbn [ns_degU ns_degV ns_nbU ns_nbV ns_closedU ns_closedV ns_knotsU ns_knotsV ns_weights ns_points ns_tpU ns_tpV ns_twU ns_twV].
    destruct (set_degree_s (mkNS (ns_degU s) (ns_degV s) n (ns_nbV s) (ns_closedU s) (ns_closedV s) ks (ns_knotsV s) W P (ns_tpU s) (ns_tpV s) (ns_twU s) (ns_twV s)) d (ns_degV s) ltac:(lia) ltac:(lia)) as [a [b [c [e [ED SS]]]]].
    rewrite D0, ?X1, N0. rewrite ED. eexists. split; [reflexivity|]. cbn [ns_degU ns_degV ns_nbU ns_nbV ns_closedU ns_closedV ns_knotsU ns_knotsV ns_weights ns_points ns_tpU ns_tpV ns_twU ns_twV].
    split.
    { unfold svalid. cbn [ns_degU ns_degV ns_nbU ns_nbV ns_closedU ns_closedV ns_knotsU ns_knotsV ns_weights ns_points ns_tpU ns_tpV ns_twU ns_twV]. repeat (split; [assumption|]). lia. }
    split; [reflexivity|]. split; [reflexivity|]. split; [reflexivity|]. split; [repeat split|].
    intros j c1 G. destruct (H j c1 G) as [VC [D1 [K1 N1]]]. split; [exact VC|]. cbn [ns_degU ns_degV ns_nbU ns_nbV ns_closedU ns_closedV ns_knotsU ns_knotsV ns_weights ns_points ns_tpU ns_tpV ns_twU ns_twV].
    split; [exact D1|]. split; [exact K1|]. split; [exact N1|]. intros i Hi. pose proof (vget_range _ _ _ G). destruct (I4 j c1 ltac:(lia) G i Hi) as [A1 A2].
    destruct (cp_get c1 i VC ltac:(lia)) as [B1 B2]. rewrite B1 in A1. rewrite B2 in A2.
    rewrite (vget_nth P O3) in A1 by nia. rewrite (vget_nth W 0%R) in A2 by nia. unfold scp, scw. cbn [ns_nbU ns_points ns_weights]. split; congruence.
Qed.

Lemma from_v_curves_ok s vv d ks n : svalid s -> vsize vv = ns_nbU s -> (forall j c, vget vv j = Ok c -> shaped d ks n c) ->
  exists s', from_v_curves s vv = Ok s' /\ svalid s' /\ ns_degV s' = d /\ ns_knotsV s' = ks /\ ns_nbV s' = n /\ same_u s s' /\
    forall j c, vget vv j = Ok c -> is_col s' j c.
Proof.
  intros V SV H. pose proof V as [V1 [V2 [CU [CV [F [T1 [T2 [T3 T4]]]]]]]]. pose proof CU as [C1 _].
  destruct vv as [|c0 tl]; [cbn in SV; lia|]. unfold from_v_curves. set (vv := c0 :: tl) in *. assert (vget vv 0 = Ok c0) as G0 by reflexivity.
  destruct (H 0 c0 G0) as [VC0 [D0 [K0 N0]]].
  pose proof VC0 as [X1 [X2 [X3 _]]]. rewrite D0, K0, N0 in X3. pose proof X3 as [X4 _].
  unfold ns_set_knots_v. rewrite K0, (clamped_scale _ _ _ X3). cbn [bind]. unfold nc_nb_points. rewrite ?X1, N0.
  cbn [ns_degU ns_degV ns_nbU ns_nbV ns_closedU ns_closedV ns_knotsU ns_knotsV ns_weights ns_points ns_tpU ns_tpV ns_twU ns_twV].
  set (m := ns_nbU s) in *.
  destruct (vresize_ok (@nil pt3) (m * n) P0 ltac:(nia)) as [vp [E1 S1]]. destruct (vresize_ok (@nil R) (m * n) n0 ltac:(nia)) as [vw [E2 S2]].
  rewrite E1. cbn [bind]. rewrite E2. cbn [bind].
  assert (forall u c, vget vv u = Ok c -> forall pw, vsize (fst pw) = m * n -> vsize (snd pw) = m * n ->
    exists pw', for_ 0 n (fun v pw => do p <- vget (nc_points c) v; do vp <- vset (fst pw) (u + v * m) p; do w <- vget (nc_weights c) v; do vw <- vset (snd pw) (u + v * m) w; Ok (vp, vw)) pw = Ok pw' /\
      vsize (fst pw') = m * n /\ vsize (snd pw') = m * n /\
      (forall j, 0 <= j < n -> vget (fst pw') (u + m * j) = Ok (cp c j) /\ vget (snd pw') (u + m * j) = Ok (cw c j)) /\
      (forall i j, 0 <= i < m -> 0 <= j < n -> i <> u -> vget (fst pw') (i + m * j) = vget (fst pw) (i + m * j) /\ vget (snd pw') (i + m * j) = vget (snd pw) (i + m * j))) as INNER.
  { intros u c G pw L1 L2. destruct (H u c G) as [VC [DC [KC NC]]]. pose proof (vget_range _ _ _ G) as BU. rewrite SV in BU.
    match goal with |- context [for_ 0 n ?b pw] =>
    destruct (for_inv (fun k q => vsize (fst q) = m * n /\ vsize (snd q) = m * n /\
      (forall j, 0 <= j < k -> vget (fst q) (u + m * j) = Ok (cp c j) /\ vget (snd q) (u + m * j) = Ok (cw c j)) /\
      (forall i j, 0 <= i < m -> 0 <= j < n -> i <> u -> vget (fst q) (i + m * j) = vget (fst pw) (i + m * j) /\ vget (snd q) (i + m * j) = vget (snd pw) (i + m * j))) 0 n b pw) as [q [EQ I]] end.
    - lia.
    - split; [exact L1|]. split; [exact L2|]. split; [intros; lia|]. auto.
    - intros k [P W] Hk [J1 [J2 [J3 J4]]]. cbn [fst snd] in *. destruct (cp_get c k VC ltac:(lia)) as [B1 B2]. rewrite B1. cbn [bind].
      pose proof (vset_in_range P (u + k * m) (cp c k) ltac:(nia)) as EP. rewrite EP. cbn [bind]. rewrite B2. cbn [bind].
      pose proof (vset_in_range W (u + k * m) (cw c k) ltac:(nia)) as EW. rewrite EW. cbn [bind].
      eexists. split; [reflexivity|]. cbn [fst snd]. split; [rewrite (vset_size _ _ _ _ EP); exact J1|]. split; [rewrite (vset_size _ _ _ _ EW); exact J2|].
      split.
      + intros j Hj. rewrite (vget_vset _ _ _ _ _ EP), (vget_vset _ _ _ _ _ EW). destruct (Z.eqb_spec (u + m * j) (u + k * m)).
        * assert (j = k) as -> by nia. auto.
        * apply J3. assert (j <> k) by (intros ->; nia). lia.
      + intros i j Hi Hj D. rewrite (vget_vset _ _ _ _ _ EP), (vget_vset _ _ _ _ _ EW). destruct (Z.eqb_spec (i + m * j) (u + k * m)).
        * exfalso. assert (i - u = m * (k - j)) as Q by lia. assert (k - j = 0) by nia. nia.
        * apply J4; assumption.
    - exists q. split; [exact EQ|]. exact I. }
  match goal with |- context [for_ 0 m ?b (vp, vw)] =>
  destruct (for_inv (fun k q => vsize (fst q) = m * n /\ vsize (snd q) = m * n /\
      (forall i c, i < k -> vget vv i = Ok c -> forall j, 0 <= j < n -> vget (fst q) (i + m * j) = Ok (cp c j) /\ vget (snd q) (i + m * j) = Ok (cw c j))) 0 m b (vp, vw)) as [[P W] [E [I1 [I2 I3]]]] end.
  - lia.
  - split; [exact S1|]. split; [exact S2|]. intros i c B G. apply vget_range in G. lia.
  - intros k q Hk [J1 [J2 J3]]. destruct (vget_in_range vv k ltac:(lia)) as [c G]. rewrite G. cbn [bind].
    destruct (INNER k c G q J1 J2) as [q' [EQ [L1 [L2 [L3 L4]]]]]. rewrite EQ. eexists. split; [reflexivity|]. split; [exact L1|]. split; [exact L2|].
    intros i c' B G' j Hj. destruct (Z.eq_dec i k) as [->|].
    + rewrite G in G'. inversion G'; subst c'. apply L3. exact Hj.
    + pose proof (vget_range _ _ _ G'). destruct (L4 i j ltac:(lia) Hj ltac:(lia)) as [-> ->]. apply (J3 i c'); [lia|assumption|assumption].
  - rewrite E. cbn [bind fst snd] in *.
    unfold ns_set_weights, ns_set_points. cbn [ns_degU ns_degV ns_nbU ns_nbV ns_closedU ns_closedV ns_knotsU ns_knotsV ns_weights ns_points ns_tpU ns_tpV ns_twU ns_twV].
    destruct (set_degree_s (mkNS (ns_degU s) (ns_degV s) m n (ns_closedU s) (ns_closedV s) (ns_knotsU s) ks W P (ns_tpU s) (ns_tpV s) (ns_twU s) (ns_twV s)) (ns_degU s) d ltac:(lia) ltac:(lia)) as [a [b [c [e [ED SS]]]]].
    rewrite D0, ED. eexists. split; [reflexivity|]. cbn [ns_degU ns_degV ns_nbU ns_nbV ns_closedU ns_closedV ns_knotsU ns_knotsV ns_weights ns_points ns_tpU ns_tpV ns_twU ns_twV].
    assert (Forall (fun w => 0 < w)%R W) as FW.
    { apply Forall_vget. intros k x G. pose proof (vget_range _ _ _ G) as B. destruct (split_index m k ltac:(lia) ltac:(lia)) as [i [j [-> [Bi Bj]]]].
      destruct (vget_in_range vv i ltac:(lia)) as [ci Gi]. destruct (H i ci Gi) as [VC [_ [_ NC]]].
      assert (j < n) by nia. destruct (I3 i ci ltac:(lia) Gi j ltac:(lia)) as [_ A]. rewrite A in G. inversion G; subst x. apply cw_pos; [exact VC|lia]. }
    split.
    { unfold svalid. cbn [ns_degU ns_degV ns_nbU ns_nbV ns_closedU ns_closedV ns_knotsU ns_knotsV ns_weights ns_points ns_tpU ns_tpV ns_twU ns_twV]. repeat (split; [assumption|]). lia. }
    split; [reflexivity|]. split; [reflexivity|]. split; [reflexivity|]. split; [repeat split|].
    intros i c1 G. destruct (H i c1 G) as [VC [D1 [K1 N1]]]. split; [exact VC|]. cbn [ns_degU ns_degV ns_nbU ns_nbV ns_closedU ns_closedV ns_knotsU ns_knotsV ns_weights ns_points ns_tpU ns_tpV ns_twU ns_twV].
    split; [exact D1|]. split; [exact K1|]. split; [exact N1|]. intros j Hj. pose proof (vget_range _ _ _ G). destruct (I3 i c1 ltac:(lia) G j Hj) as [A1 A2].
    rewrite (vget_nth P O3) in A1 by nia. rewrite (vget_nth W 0%R) in A2 by nia. unfold scp, scw. cbn [ns_nbU ns_points ns_weights]. fold m. split; congruence.
Qed.

(** ** Sums by rows and by columns *)
Lemma sumZ_zero_fun n : forall a, sumZ (fun _ => 0%R) a n = 0%R.
Proof. intros a. apply sumZ_zero. reflexivity. Qed.
Lemma sumZ_swap (f : Z -> Z -> R) m n : forall a b, sumZ (fun i => sumZ (fun j => f i j) b n) a m = sumZ (fun j => sumZ (fun i => f i j) a m) b n.
Proof.
  induction m; intros a b; cbn [sumZ].
  - symmetry. apply sumZ_zero. reflexivity.
  - rewrite IHm, <- sumZ_plus. reflexivity.
Qed.
Lemma surf_sum_swap s f u v : surf_sum s f u v =
  sumZ (fun i => basis (ns_knotsU s) (Z.to_nat (ns_degU s)) i u *
    sumZ (fun j => basis (ns_knotsV s) (Z.to_nat (ns_degV s)) j v * scw s i j * f i j) 0 (Z.to_nat (ns_nbV s)))%R 0 (Z.to_nat (ns_nbU s)).
Proof.
  unfold surf_sum.
  transitivity (sumZ (fun j => sumZ (fun i => basis (ns_knotsV s) (Z.to_nat (ns_degV s)) j v * (basis (ns_knotsU s) (Z.to_nat (ns_degU s)) i u * scw s i j * f i j)) 0 (Z.to_nat (ns_nbU s))) 0 (Z.to_nat (ns_nbV s)))%R.
  { apply sumZ_ext. intros j _. rewrite sumZ_scal. reflexivity. }
  rewrite <- sumZ_swap. apply sumZ_ext. intros i _. rewrite <- sumZ_scal. apply sumZ_ext. intros j _. ring.
Qed.

Lemma row_sum s j c f (F : Z -> Z -> R) u : is_row s j c -> (forall i, 0 <= i < ns_nbU s -> f i = F i j) ->
  nurbs_sum c f u = sumZ (fun i => basis (ns_knotsU s) (Z.to_nat (ns_degU s)) i u * scw s i j * F i j)%R 0 (Z.to_nat (ns_nbU s)).
Proof.
  intros [V [D [K [N H]]]] E. unfold nurbs_sum. rewrite D, K. unfold vsize in N. replace (length (nc_points c)) with (Z.to_nat (ns_nbU s)) by lia.
  apply sumZ_ext. intros i Hi. destruct (H i ltac:(lia)) as [_ ->]. rewrite (E i) by lia. reflexivity.
Qed.
Lemma col_sum s i c f (F : Z -> Z -> R) v : is_col s i c -> (forall j, 0 <= j < ns_nbV s -> f j = F i j) ->
  nurbs_sum c f v = sumZ (fun j => basis (ns_knotsV s) (Z.to_nat (ns_degV s)) j v * scw s i j * F i j)%R 0 (Z.to_nat (ns_nbV s)).
Proof.
  intros [V [D [K [N H]]]] E. unfold nurbs_sum. rewrite D, K. unfold vsize in N. replace (length (nc_points c)) with (Z.to_nat (ns_nbV s)) by lia.
  apply sumZ_ext. intros j Hj. destruct (H j ltac:(lia)) as [_ ->]. rewrite (E j) by lia. reflexivity.
Qed.

Lemma rows_same s s' u v : svalid s -> same_v s s' ->
  (forall j, 0 <= j < ns_nbV s -> exists c c', is_row s j c /\ is_row s' j c' /\ same_hom c c' u) -> same_shom s s' u v.
Proof.
  intros V [D [N [K _]]] H.
  assert (forall F F', (forall j c c', 0 <= j < ns_nbV s -> is_row s j c -> is_row s' j c' -> same_hom c c' u ->
     sumZ (fun i => basis (ns_knotsU s') (Z.to_nat (ns_degU s')) i u * scw s' i j * F' i j)%R 0 (Z.to_nat (ns_nbU s')) =
     sumZ (fun i => basis (ns_knotsU s) (Z.to_nat (ns_degU s)) i u * scw s i j * F i j)%R 0 (Z.to_nat (ns_nbU s))) -> surf_sum s' F' u v = surf_sum s F u v) as G.
  { intros F F' E. unfold surf_sum. rewrite D, N, K. apply sumZ_ext. intros j Hj. destruct (H j ltac:(lia)) as [c [c' [R1 [R2 R3]]]]. f_equal. apply (E j c c'); auto. lia. }
  unfold same_shom, surf_den.
  split; [|split; [|split]]; apply G; intros j c c' Hj R R' [S1 [S2 [S3 S4]]].
  - rewrite <- (row_sum s j c (fun _ => 1%R) (fun _ _ => 1%R) u R ltac:(reflexivity)), <- (row_sum s' j c' (fun _ => 1%R) (fun _ _ => 1%R) u R' ltac:(reflexivity)). exact S1.
  - rewrite <- (row_sum s j c (fun j => px (cp c j)) (sX s) u R), <- (row_sum s' j c' (fun j => px (cp c' j)) (sX s') u R'); [exact S2| |]; intros i Hi; unfold sX; f_equal; [apply R'|apply R]; exact Hi.
  - rewrite <- (row_sum s j c (fun j => py (cp c j)) (sY s) u R), <- (row_sum s' j c' (fun j => py (cp c' j)) (sY s') u R'); [exact S3| |]; intros i Hi; unfold sY; f_equal; [apply R'|apply R]; exact Hi.
  - rewrite <- (row_sum s j c (fun j => pz (cp c j)) (sZ s) u R), <- (row_sum s' j c' (fun j => pz (cp c' j)) (sZ s') u R'); [exact S4| |]; intros i Hi; unfold sZ; f_equal; [apply R'|apply R]; exact Hi.
Qed.
Lemma cols_same s s' u v : svalid s -> same_u s s' ->
  (forall i, 0 <= i < ns_nbU s -> exists c c', is_col s i c /\ is_col s' i c' /\ same_hom c c' v) -> same_shom s s' u v.
Proof.
  intros V [D [N [K _]]] H.
  assert (forall F F', (forall i c c', 0 <= i < ns_nbU s -> is_col s i c -> is_col s' i c' -> same_hom c c' v ->
     sumZ (fun j => basis (ns_knotsV s') (Z.to_nat (ns_degV s')) j v * scw s' i j * F' i j)%R 0 (Z.to_nat (ns_nbV s')) =
     sumZ (fun j => basis (ns_knotsV s) (Z.to_nat (ns_degV s)) j v * scw s i j * F i j)%R 0 (Z.to_nat (ns_nbV s))) -> surf_sum s' F' u v = surf_sum s F u v) as G.
  { intros F F' E. rewrite !surf_sum_swap. rewrite D, N, K. apply sumZ_ext. intros j Hj. destruct (H j ltac:(lia)) as [c [c' [R1 [R2 R3]]]]. f_equal. apply (E j c c'); auto. lia. }
  unfold same_shom, surf_den.
  split; [|split; [|split]]; apply G; intros i c c' Hi R R' [S1 [S2 [S3 S4]]].
  - rewrite <- (col_sum s i c (fun _ => 1%R) (fun _ _ => 1%R) v R ltac:(reflexivity)), <- (col_sum s' i c' (fun _ => 1%R) (fun _ _ => 1%R) v R' ltac:(reflexivity)). exact S1.
  - rewrite <- (col_sum s i c (fun j => px (cp c j)) (sX s) v R), <- (col_sum s' i c' (fun j => px (cp c' j)) (sX s') v R'); [exact S2| |]; intros j Hj; unfold sX; f_equal; [apply R'|apply R]; exact Hj.
  - rewrite <- (col_sum s i c (fun j => py (cp c j)) (sY s) v R), <- (col_sum s' i c' (fun j => py (cp c' j)) (sY s') v R'); [exact S3| |]; intros j Hj; unfold sY; f_equal; [apply R'|apply R]; exact Hj.
  - rewrite <- (col_sum s i c (fun j => pz (cp c j)) (sZ s) v R), <- (col_sum s' i c' (fun j => pz (cp c' j)) (sZ s') v R'); [exact S4| |]; intros j Hj; unfold sZ; f_equal; [apply R'|apply R]; exact Hj.
Qed.

(** ** Refinement through the rows or the columns *)
Section Refine.
Variables (f : NurbsCurve R -> res (NurbsCurve R)) (d n : Z) (ks : list R) (d' n' : Z).
Hypothesis HF : forall c, valid c -> nc_degree c = d -> nc_knots c = ks -> vsize (nc_points c) = n ->
  exists c', f c = Ok c' /\ valid c' /\ nc_degree c' = d' /\ vsize (nc_points c') = n' /\ forall t, (0 <= t <= 1)%R -> same_hom c c' t.
Hypothesis HK : forall c1 c2 c1' c2', nc_degree c1 = d -> nc_degree c2 = d -> nc_knots c1 = nc_knots c2 -> f c1 = Ok c1' -> f c2 = Ok c2' -> nc_knots c1' = nc_knots c2'.

Lemma refine_u s : svalid s -> ns_degU s = d -> ns_nbU s = n -> ns_knotsU s = ks ->
  exists c0 s', u_curve s 0 = Ok c0 /\ (do vu <- create_u_curves s; do vu <- each_curve f vu; from_u_curves s vu) = Ok s' /\ svalid s' /\ ns_degU s' = d' /\ ns_nbU s' = n' /\ same_v s s' /\
    (exists c0', f c0 = Ok c0' /\ ns_knotsU s' = nc_knots c0') /\
    forall u v, (0 <= u <= 1)%R -> (0 <= v <= 1)%R -> same_shom s s' u v.
Proof.
  intros V D N K. pose proof V as [_ [_ [_ [[C1 _] _]]]].
  destruct (create_u_curves_ok s V) as [vu [E1 [S1 H1]]]. rewrite E1. cbn [bind].
  destruct (u_curve_ok s 0 V ltac:(lia)) as [c0 [EC0 R0]].
  pose proof R0 as [V0 [D0 [K0 [N0 _]]]]. destruct (HF c0 V0 ltac:(congruence) ltac:(congruence) ltac:(congruence)) as [c0' [F0 _]].
  destruct (each_curve_ok f (fun j c' => shaped d' (nc_knots c0') n' c' /\ exists c, is_row s j c /\ forall t, (0 <= t <= 1)%R -> same_hom c c' t) vu) as [vu' [E2 [S2 H2]]].
  { intros j c G. pose proof (H1 j c G) as RJ. pose proof RJ as [VJ [DJ [KJ [NJ _]]]]. destruct (HF c VJ ltac:(congruence) ltac:(congruence) ltac:(congruence)) as [c' [FJ [VJ' [DJ' [NJ' HJ]]]]].
    exists c'. split; [exact FJ|]. split; [split; [exact VJ'|split; [exact DJ'|split; [|exact NJ']]]|].
    - apply (HK c c0 c' c0'); [congruence|congruence|congruence|exact FJ|exact F0].
    - exists c. auto. }
  rewrite E2. cbn [bind].
  destruct (from_u_curves_ok s vu' d' (nc_knots c0') n' V ltac:(lia)) as [s' [E3 [V' [D' [K' [N' [SV HR]]]]]]].
  { intros j c G. apply (H2 j c G). }
  exists c0, s'. split; [exact EC0|]. split; [exact E3|]. split; [exact V'|]. split; [exact D'|]. split; [exact N'|]. split; [exact SV|]. split; [exists c0'; auto|].
  intros u v HU HV. apply rows_same; [exact V|exact SV|]. intros j Hj. destruct (vget_in_range vu' j ltac:(lia)) as [c' G].
  destruct (H2 j c' G) as [_ [c [R HH]]]. exists c, c'. auto.
Qed.
Lemma refine_v s : svalid s -> ns_degV s = d -> ns_nbV s = n -> ns_knotsV s = ks ->
  exists c0 s', v_curve s 0 = Ok c0 /\ (do vv <- create_v_curves s; do vv <- each_curve f vv; from_v_curves s vv) = Ok s' /\ svalid s' /\ ns_degV s' = d' /\ ns_nbV s' = n' /\ same_u s s' /\
    (exists c0', f c0 = Ok c0' /\ ns_knotsV s' = nc_knots c0') /\
    forall u v, (0 <= u <= 1)%R -> (0 <= v <= 1)%R -> same_shom s s' u v.
Proof.
  intros V D N K. pose proof V as [_ [_ [[C1 _] _]]].
  destruct (create_v_curves_ok s V) as [vu [E1 [S1 H1]]]. rewrite E1. cbn [bind].
  destruct (v_curve_ok s 0 V ltac:(lia)) as [c0 [EC0 R0]].
  pose proof R0 as [V0 [D0 [K0 [N0 _]]]]. destruct (HF c0 V0 ltac:(congruence) ltac:(congruence) ltac:(congruence)) as [c0' [F0 _]].
  destruct (each_curve_ok f (fun j c' => shaped d' (nc_knots c0') n' c' /\ exists c, is_col s j c /\ forall t, (0 <= t <= 1)%R -> same_hom c c' t) vu) as [vu' [E2 [S2 H2]]].
  { intros j c G. pose proof (H1 j c G) as RJ. pose proof RJ as [VJ [DJ [KJ [NJ _]]]]. destruct (HF c VJ ltac:(congruence) ltac:(congruence) ltac:(congruence)) as [c' [FJ [VJ' [DJ' [NJ' HJ]]]]].
    exists c'. split; [exact FJ|]. split; [split; [exact VJ'|split; [exact DJ'|split; [|exact NJ']]]|].
    - apply (HK c c0 c' c0'); [congruence|congruence|congruence|exact FJ|exact F0].
    - exists c. auto. }
  rewrite E2. cbn [bind].
  destruct (from_v_curves_ok s vu' d' (nc_knots c0') n' V ltac:(lia)) as [s' [E3 [V' [D' [K' [N' [SV HR]]]]]]].
  { intros j c G. apply (H2 j c G). }
  exists c0, s'. split; [exact EC0|]. split; [exact E3|]. split; [exact V'|]. split; [exact D'|]. split; [exact N'|]. split; [exact SV|]. split; [exists c0'; auto|].
  intros u v HU HV. apply cols_same; [exact V|exact SV|]. intros j Hj. destruct (vget_in_range vu' j ltac:(lia)) as [c' G].
  destruct (H2 j c' G) as [_ [c [R HH]]]. exists c, c'. auto.
Qed.
End Refine.

Lemma insert_knots_only (c1 c2 c1' c2' : NurbsCurve R) u : nc_knots c1 = nc_knots c2 -> nc_insert_knot c1 u = Ok c1' -> nc_insert_knot c2 u = Ok c2' -> nc_knots c1' = nc_knots c2'.
Proof.
  assert (forall c c' : NurbsCurve R, nc_insert_knot c u = Ok c' -> (do ki <- find_knot_span (nc_knots c) u; do k <- vinsert (nc_knots c) (ki + 1) u; scale_knots k) = Ok (nc_knots c')) as A.
  { intros c c' H. unfold nc_insert_knot in H. apply bind_Ok in H. destruct H as [ki [-> H]]. cbn [bind]. apply bind_Ok in H. destruct H as [s [_ H]]. apply bind_Ok in H. destruct H as [p [_ H]].
    apply bind_Ok in H. destruct H as [k [-> H]]. cbn [bind]. apply bind_Ok in H. destruct H as [c3 [H1 H]]. inversion H; subst. unfold nc_set_knots in H1. apply bind_Ok in H1. destruct H1 as [k' [-> H1]]. inversion H1; subst. reflexivity. }
  intros E H1 H2. apply A in H1. apply A in H2. rewrite E in H1. congruence.
Qed.
Lemma elevation_knots_only (c1 c2 c1' c2' : NurbsCurve R) : (do r <- nc_degree_elevation c1; Ok (snd r)) = Ok c1' -> (do r <- nc_degree_elevation c2; Ok (snd r)) = Ok c2' ->
  nc_degree c1 < 3 -> nc_degree c2 < 3 -> nc_knots c1 = nc_knots c2 -> nc_knots c1' = nc_knots c2'.
Proof.
  assert (forall c c' : NurbsCurve R, nc_degree c < 3 -> (do r <- nc_degree_elevation c; Ok (snd r)) = Ok c' -> (do e <- elevate_knots (nc_knots c); scale_knots (fst e)) = Ok (nc_knots c')) as A.
  { intros c c' D H. apply bind_Ok in H. destruct H as [[b c4] [H E]]. inversion E; subst c'. unfold nc_degree_elevation in H. destruct (Z.leb_spec 3 (nc_degree c)); [lia|].
    apply bind_Ok in H. destruct H as [[ek km] [-> H]]. cbn [bind fst]. apply bind_Ok in H. destruct H as [s [_ H]]. apply bind_Ok in H. destruct H as [p [_ H]].
    apply bind_Ok in H. destruct H as [c5 [H1 H]]. unfold nc_set_knots in H1. apply bind_Ok in H1. destruct H1 as [k' [-> H1]]. inversion H1; subst. 
    apply bind_Ok in H. destruct H as [c3 [H2 H]]. inversion H; subst. unfold nc_set_degree in H2. apply bind_Ok in H2. destruct H2 as [tp [_ H2]]. apply bind_Ok in H2. destruct H2 as [tw [_ H2]]. inversion H2; subst. reflexivity. }
  intros H1 H2 D1 D2 E. apply A in H1; [|assumption]. apply A in H2; [|assumption]. rewrite E in H1. congruence.
Qed.
