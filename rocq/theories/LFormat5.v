(** Texts that are kept, files written twice, and the numbers of STEP files. *)
From Coq Require Import String Ascii ZArith List Bool Reals Lra Lia.
From Flocq Require Import Core IEEE754.Binary IEEE754.Bits IEEE754.BinarySingleNaN.
From Verif Require Import Base Num MGeometry MKernel MMesh MMeshRun MText MObj MNurbsSurface MStep MF64 MFormat SMesh SReach SObj SStep SFormat LBase LMesh LReach LF64 LText LObj2 LStep LStep2 LFormat LFormat2 LFormat3 LFormat4.
Import ListNotations.
Open Scope Z_scope.

(** ** The same text *)
Lemma six_unique d X d' X' : 100000 <= d < 1000000 -> 100000 <= d' < 1000000 -> (IZR d * bpow radix10 (X - 5) = IZR d' * bpow radix10 (X' - 5))%R -> d = d' /\ X = X'.
Proof.
  assert (forall d X, 100000 <= d < 1000000 -> (bpow radix10 X <= IZR d * bpow radix10 (X - 5) < bpow radix10 (X + 1))%R) as B.
  { intros d0 X0 H. pose proof (bpow_gt_0 radix10 (X0 - 5)). replace X0 with (5 + (X0 - 5)) at 1 by lia. replace (X0 + 1) with (6 + (X0 - 5)) by lia. rewrite !bpow_plus. change (bpow radix10 5) with (IZR 100000). change (bpow radix10 6) with (IZR 1000000).
    split; [apply Rmult_le_compat_r; [lra|apply IZR_le; lia]|apply Rmult_lt_compat_r; [lra|apply IZR_lt; lia]]. }
  intros H H' E. pose proof (B d X H) as [A1 A2]. pose proof (B d' X' H') as [A3 A4]. assert (X = X') as <-.
  { assert (X < X' + 1) by (apply (lt_bpow radix10); lra). assert (X' < X + 1) by (apply (lt_bpow radix10); lra). lia. }
  split; [|reflexivity]. apply eq_IZR. apply (Rmult_eq_reg_r (bpow radix10 (X - 5))); [exact E|]. apply Rgt_not_eq, bpow_gt_0.
Qed.
Lemma sg_inj s a b : sg s a = sg s b -> a = b.
Proof. destruct s; cbn; intros; lra. Qed.
Theorem same_text (x q : f64) : fin64 x = true -> fin64 q = true -> sign64 q = sign64 x -> six_digits (V64 q) = six_digits (V64 x) -> f64_show q = f64_show x.
Proof.
  intros F G S E.
  assert (forall s m e H, six_digits (V64 (Binary.B754_finite 53 1024 s m e H)) <> 0%R) as NZ.
  { intros s m e H. rewrite B2R_split, sg_sd. destruct (finite_range m e H) as [I _]. pose proof (six_ok (Zpos m) e eq_refl I) as S6. destruct (six (Zpos m) e) as [d X]. destruct S6 as (<- & HD & _).
    pose proof (bpow_gt_0 radix10 (X - 5)). assert (0 < IZR d * bpow radix10 (X - 5))%R by (apply Rmult_lt_0_compat; [apply IZR_lt; lia|assumption]). destruct s; cbn; lra. }
  destruct x as [s|s|s pl Hp|s m e H]; try discriminate; destruct q as [s'|s'|s' pl' Hp'|s' m' e' H']; try discriminate.
  - cbn in S. subst s'. reflexivity.
  - exfalso. apply (NZ s' m' e' H'). rewrite E. apply sd_0.
  - exfalso. apply (NZ s m e H). rewrite <- E. apply sd_0.
  - cbn in S. subst s'. rewrite !B2R_split, !sg_sd in E. apply sg_inj in E.
    destruct (finite_range m e H) as [I _]. pose proof (six_ok (Zpos m) e eq_refl I) as S6. destruct (finite_range m' e' H') as [I' _]. pose proof (six_ok (Zpos m') e' eq_refl I') as S6'.
    assert (f64_show (Binary.B754_finite 53 1024 s m e H) = let (d, X) := six (Zpos m) e in sgn s ++ show_six d X) as -> by reflexivity.
    assert (f64_show (Binary.B754_finite 53 1024 s m' e' H') = let (d, X) := six (Zpos m') e' in sgn s ++ show_six d X) as -> by reflexivity.
    destruct (six (Zpos m) e) as [d X]. destruct (six (Zpos m') e') as [d' X']. destruct S6 as (A & B & _). destruct S6' as (A' & B' & _). destruct (six_unique d X d' X' B B' ltac:(congruence)) as [-> ->]. reflexivity.
Qed.
Lemma six_not_tiny x : not_tiny x -> (six_digits (V64 x) = 0 \/ bpow radix2 (-1022) <= Rabs (six_digits (V64 x)))%R.
Proof.
  intros [Z|N]; [left; rewrite Z; apply sd_0|right].
  change (-1021) with (1 + -1022) in N. rewrite bpow_plus in N. change (bpow radix2 1) with 2%R in N. pose proof (bpow_gt_0 radix2 (-1022)).
  pose proof (Rabs_triang_inv (V64 x) (V64 x - six_digits (V64 x))) as T. replace (V64 x - (V64 x - six_digits (V64 x)))%R with (six_digits (V64 x)) in T by ring. pose proof (sd_error (V64 x)) as E'. rewrite <- Rabs_Ropp in E'. replace (- (six_digits (V64 x) - V64 x))%R with (V64 x - six_digits (V64 x))%R in E' by ring. lra.
Qed.
Lemma sd_idem x : six_digit (six_digits x).
Proof. apply generic_format_round; typeclasses eauto. Qed.
Theorem text_kept (x q : f64) : fin64 x = true -> not_tiny x -> rounded_to x q -> f64_show q = f64_show x.
Proof.
  intros F N (G & E & S). apply same_text; [exact F|exact G|exact S|]. rewrite E. apply sd_td; [apply sd_idem|apply six_not_tiny, N].
Qed.
(** Rounding again changes nothing. *)
Lemma zne_half k : ZnearestE (IZR k + / 2) = if Z.even k then k else k + 1.
Proof.
  assert (Zfloor (IZR k + / 2) = k) as F by (apply Zfloor_imp; rewrite plus_IZR; lra). unfold Znearest. rewrite F.
  rewrite Rcompare_Eq by lra. destruct (Z.even k); cbn [negb]; [reflexivity|]. rewrite Zceil_floor_neq; [rewrite F; reflexivity|]. rewrite F. lra.
Qed.
Lemma zne_mirror u v : (Rabs (v - IZR (ZnearestE u)) <= Rabs (u - IZR (ZnearestE u)))%R -> ZnearestE v = ZnearestE u.
Proof.
  intros H. pose proof (Znearest_half (fun z => negb (Z.even z)) u) as B. set (k := ZnearestE u) in *. change (Znearest _ u) with k in B.
  destruct (Rle_lt_or_eq_dec _ _ (Rle_trans _ _ _ H B)) as [L|E]; [apply Znearest_imp; exact L|].
  assert (Rabs (u - IZR k) = / 2)%R as EU by lra.
  assert (Z.even k = true) as EV.
  { destruct (Z.even k) eqn:Q; [reflexivity|exfalso]. destruct (Rcase_abs (u - IZR k)) as [N|P].
    - rewrite Rabs_left in EU by exact N. assert (u = IZR (k - 1) + / 2)%R as U by (rewrite minus_IZR; lra). assert (k = ZnearestE u) as K by reflexivity. rewrite U, zne_half in K. rewrite Z.even_sub, Q in K. cbn in K. lia.
    - rewrite Rabs_right in EU by exact P. assert (u = IZR k + / 2)%R as U by lra. assert (k = ZnearestE u) as K by reflexivity. rewrite U, zne_half, Q in K. lia. }
  destruct (Rcase_abs (v - IZR k)) as [N|P].
  - rewrite Rabs_left in E by exact N. replace v with (IZR (k - 1) + / 2)%R by (rewrite minus_IZR; lra). rewrite zne_half, Z.even_sub, EV. cbn. lia.
  - rewrite Rabs_right in E by (apply P). replace v with (IZR k + / 2)%R by lra. rewrite zne_half, EV. reflexivity.
Qed.
Lemma td_tiny y : (Rabs y < bpow radix2 (-1021))%R -> (to_double y = IZR (ZnearestE (y * bpow radix2 1074)) * bpow radix2 (-1074))%R.
Proof.
  intros H. unfold to_double, round, scaled_mantissa, cexp, F2R. cbn [Fnum Fexp]. destruct (Req_dec y 0) as [->|N].
  - rewrite !Rmult_0_l. change 0%R with (IZR 0). rewrite !(Zrnd_IZR ZnearestE 0). rewrite !Rmult_0_l. reflexivity.
  - pose proof (mag_le_bpow radix2 y (-1021) N H) as M. replace (FLT_exp (-1074) 53 (mag radix2 y)) with (-1074) by (unfold FLT_exp; lia). reflexivity.
Qed.
Lemma sd_nearest y t : six_digit t -> (Rabs (six_digits y - y) <= Rabs (t - y))%R.
Proof. intros F. destruct (round_N_pt radix10 (FLX_exp 6) (fun z => negb (Z.even z)) y) as [_ H]. apply H, F. Qed.
Lemma td_sd_td t : six_digit t -> to_double (six_digits (to_double t)) = to_double t.
Proof.
  intros F. destruct (Rle_or_lt (bpow radix2 (-1022)) (Rabs t)) as [L|L]; [rewrite sd_td by auto; reflexivity|].
  pose proof (sd_nearest (to_double t) t F) as NR. set (q := to_double t) in *. set (t' := six_digits q) in *.
  pose proof (bpow_gt_0 radix2 (-1074)) as P. pose proof (bpow_gt_0 radix2 1074) as P'.
  assert (bpow radix2 1074 * bpow radix2 (-1074) = 1)%R as I by (rewrite <- bpow_plus; reflexivity).
  assert (bpow radix2 (-1021) = 2 * bpow radix2 (-1022))%R as B21 by (change (-1021) with (1 + -1022); rewrite bpow_plus; reflexivity).
  assert (bpow radix2 (-1074) < bpow radix2 (-1022))%R as B74 by (apply bpow_lt; lia).
  assert (q = IZR (ZnearestE (t * bpow radix2 1074)) * bpow radix2 (-1074))%R as EQ by (apply td_tiny; pose proof (bpow_gt_0 radix2 (-1022)); lra).
  set (u := (t * bpow radix2 1074)%R) in *. set (k := ZnearestE u) in *.
  assert (t = u * bpow radix2 (-1074))%R as ET by (unfold u; rewrite Rmult_assoc, I; ring).
  assert (Rabs (t - q) = Rabs (u - IZR k) * bpow radix2 (-1074))%R as D1. { rewrite ET, EQ, <- Rmult_minus_distr_r, Rabs_mult, (Rabs_pos_eq (bpow _ _)) by lra. reflexivity. }
  set (v := (t' * bpow radix2 1074)%R). assert (t' = v * bpow radix2 (-1074))%R as EV by (unfold v; rewrite Rmult_assoc, I; ring).
  assert (Rabs (t' - q) = Rabs (v - IZR k) * bpow radix2 (-1074))%R as D2. { rewrite EV, EQ, <- Rmult_minus_distr_r, Rabs_mult, (Rabs_pos_eq (bpow _ _)) by lra. reflexivity. }
  assert (Rabs (v - IZR k) <= Rabs (u - IZR k))%R as LE by (apply (Rmult_le_reg_r (bpow radix2 (-1074))); [exact P|lra]).
  pose proof (Znearest_half (fun z => negb (Z.even z)) u) as HB. change (Znearest _ u) with k in HB.
  assert (Rabs (t - q) <= / 2 * bpow radix2 (-1074))%R as D3 by (rewrite D1; apply Rmult_le_compat_r; lra).
  assert (Rabs t' < bpow radix2 (-1021))%R as T'.
  { replace t' with ((t' - q) + ((q - t) + t))%R by ring. eapply Rle_lt_trans; [apply Rabs_triang|]. pose proof (Rabs_triang (q - t) t) as TR. rewrite (Rabs_minus_sym q t) in TR. lra. }
  rewrite (td_tiny t' T'). fold v. rewrite (zne_mirror u v LE). symmetry. exact EQ.
Qed.
Theorem rounded_twice (x q : f64) : rounded_to x q -> rounded_to q q.
Proof. intros (G & E & S). split; [exact G|]. split; [|reflexivity]. rewrite E. symmetry. apply td_sd_td, sd_idem. Qed.
Lemma rounded_unique (x q r : f64) : rounded_to x q -> rounded_to x r -> q = r.
Proof. intros (A & B & C) (A' & B' & C'). apply Binary.B2R_Bsign_inj; [exact A|exact A'|rewrite B, B'; reflexivity|rewrite C, C'; reflexivity]. Qed.

(** ** Files written twice *)
Lemma zero_rounded : rounded_to (Binary.B754_zero 53 1024 false) (Binary.B754_zero 53 1024 false).
Proof. split; [reflexivity|]. split; [|reflexivity]. cbn. rewrite sd_0, td_0. reflexivity. Qed.
Lemma pt_twice p q r : pt_rounded p q -> pt_rounded q r -> q = r.
Proof.
  intros (X1 & Y1 & Z1) (X2 & Y2 & Z2).
  assert (px q = px r) as EX by (apply (rounded_unique (px q)); [exact (rounded_twice (px p) (px q) X1)|exact X2]).
  assert (py q = py r) as EY by (apply (rounded_unique (py q)); [exact (rounded_twice (py p) (py q) Y1)|exact Y2]).
  assert (pz q = pz r) as EZ.
  { destruct Z1 as [[F Z1]|[F Z1]].
    - destruct Z2 as [[G Z2]|[G _]]; [|exfalso; apply G, Z1]. apply (rounded_unique (pz q)); [exact (rounded_twice (pz p) (pz q) Z1)|exact Z2].
    - rewrite Z1 in Z2 |- *. destruct Z2 as [[_ Z2]|[_ Z2]]; [|congruence]. eapply rounded_unique; [apply zero_rounded|exact Z2]. }
  destruct q, r; cbn in *; congruence.
Qed.
Lemma pts_twice ps qs : Forall2 pt_rounded ps qs -> Forall finite_xy qs /\ forall rs, Forall2 pt_rounded qs rs -> qs = rs.
Proof.
  intros H. induction H as [|p q ps qs P H [A B] ]; [split; [constructor|intros rs K; inversion K; reflexivity]|]. split.
  - constructor; [split; [apply P|apply P]|exact A].
  - intros rs K. inversion K; subst. f_equal; [eapply pt_twice; eassumption|apply B; assumption].
Qed.
Lemma live_all {T} (ps : list (Point3 T)) ts c : live (mkA ps (map (fun t => (t, true)) ts) c) = ts.
Proof. unfold live. cbn [atris]. induction ts as [|t ts IH]; [reflexivity|]. cbn in *. f_equal. exact IH. Qed.
Theorem saved_twice (m m0 m0' : Mesh f64) a t m1 : reach m -> shows m a -> len (averts a) < int_max -> Forall finite_xy (averts a) -> reach m0 -> reach m0' ->
  obj_save m = Ok (true, t) -> obj_load t m0 = Ok (true, m1) -> exists t2 m2 b, obj_save m1 = Ok (true, t2) /\ obj_load t2 m0' = Ok (true, m2) /\
    shows m1 b /\ shows m2 (mkA (averts b) (atris b) (get_color m0')).
Proof.
  intros R S L F R0 R0' ES EL. destruct (save_load_f64 m m0 a R S L R0) as (t' & E1 & A & _). assert (t' = t) as -> by congruence.
  destruct (A F) as (qs & m1' & Q & E2 & R1 & S1). assert (m1' = m1) as -> by congruence. destruct (pts_twice _ qs Q) as [FQ UQ].
  destruct (save_load_f64 m1 m0' _ R1 S1) as (t2 & E3 & B & _); [cbn [averts]; unfold len in *; rewrite <- (pt_back_length _ _ Q); exact L|exact R0'|].
  destruct (B FQ) as (rs & m2 & Q2 & E4 & R2 & S2). exists t2, m2. eexists. split; [exact E3|]. split; [exact E4|]. split; [exact S1|]. cbn [averts atris] in *. rewrite (UQ rs Q2). rewrite live_all in S2. exact S2.
Qed.

(** ** STEP *)
Lemma drop_digits_app l r : Forall isd l -> stops r -> drop_digits (l ++ r) = r.
Proof.
  induction 1 as [|c l Hc Hl IH]; intros S; cbn [app drop_digits]; [|rewrite is_digit_isd by exact Hc; apply IH, S].
  destruct r as [|c r]; [reflexivity|]. cbn in S |- *. rewrite S. reflexivity.
Qed.
Lemma digits1_app l r : l <> [] -> Forall isd l -> stops r -> digits1 (l ++ r) = Some r.
Proof. intros N F S. destruct l as [|c l]; [congruence|]. inversion F; subst. cbn [app digits1]. rewrite is_digit_isd by assumption. rewrite drop_digits_app by assumption. reflexivity. Qed.
Lemma drop_sgn s ip r : ip <> [] -> Forall isd ip -> drop_sign (sgn s ++ ip ++ r) = ip ++ r.
Proof.
  intros N F. destruct s; [reflexivity|]. destruct ip as [|c ip]; [congruence|]. apply Forall_inv in F. unfold isd in F. cbn [sgn app drop_sign]. rewrite (proj2 (Z.eqb_neq c 43)), (proj2 (Z.eqb_neq c 45)) by lia. reflexivity.
Qed.
Lemma step_real_text s ip fp Y : ip <> [] -> Forall isd ip -> Forall isd fp -> step_real (sgn s ++ ip ++ dot fp ++ expo Y) = match fp, Y with _ :: _, None => true | _, _ => false end.
Proof.
  intros N F G. unfold step_real. rewrite drop_sgn by assumption. rewrite digits1_app; [|exact N|exact F|destruct fp; [destruct Y; reflexivity|reflexivity]].
  destruct fp as [|c fp]; cbn [dot app].
  - destruct Y as [X|]; reflexivity.
  - replace (drop_digits (c :: fp ++ expo Y)) with (expo Y) by (symmetry; apply (drop_digits_app (c :: fp)); [exact G|destruct Y; reflexivity]). destruct Y; reflexivity.
Qed.
Lemma digval_cons l : forall a, fold_left (fun a c => 10 * a + (c - 48)) l a = a * 10 ^ Z.of_nat (length l) + digval l.
Proof.
  unfold digval. induction l as [|c l IH]; intros a; cbn [fold_left length].
  - change (10 ^ Z.of_nat 0) with 1. lia.
  - rewrite IH, (IH (10 * 0 + (c - 48))). replace (Z.of_nat (S (length l))) with (Z.of_nat (length l) + 1) by lia. rewrite Z.pow_add_r by lia. change (10 ^ 1) with 10. ring.
Qed.
Lemma digval_app l r : digval (l ++ r) = digval l * 10 ^ Z.of_nat (length r) + digval r.
Proof. unfold digval at 1. rewrite fold_left_app. apply digval_cons. Qed.
Lemma digval_range l : Forall isd l -> 0 <= digval l < 10 ^ Z.of_nat (length l).
Proof.
  induction 1 as [|c l Hc Hl IH]; [cbn; lia|]. change (c :: l) with ([c] ++ l). rewrite digval_app. cbn [app length]. unfold isd in Hc. replace (Z.of_nat (S (length l))) with (1 + Z.of_nat (length l)) by lia. rewrite Z.pow_add_r by lia. change (10 ^ 1) with 10.
  assert (digval [c] = c - 48) as -> by (unfold digval; cbn [fold_left]; lia). nia.
Qed.
Lemma digval_zero l : Forall isd l -> digval l = 0 -> strip l = [].
Proof.
  induction 1 as [|c l Hc Hl IH]; [reflexivity|]. intros E. change (c :: l) with ([c] ++ l) in E. rewrite digval_app in E. pose proof (digval_range l Hl). unfold isd in Hc. assert (digval [c] = c - 48) as EC by (unfold digval; cbn [fold_left]; lia). rewrite EC in E.
  assert (0 < 10 ^ Z.of_nat (length l)) by (apply Z.pow_pos_nonneg; lia). assert (c = 48 /\ digval l = 0) as [-> E0] by nia. cbn [strip]. rewrite (IH E0). reflexivity.
Qed.

Lemma sg_abs s x : (0 <= x)%R -> Rabs (sg s x) = x.
Proof. intros. destruct s; cbn [sg]; rewrite ?Rabs_Ropp; apply Rabs_pos_eq; assumption. Qed.
Lemma sg_int s x : (forall n, sg s x <> IZR n) <-> (forall n, x <> IZR n).
Proof. destruct s; cbn [sg]; [|tauto]. split; intros H n E; apply (H (- n)); rewrite opp_IZR; lra. Qed.
Theorem step_real_iff (x : f64) : step_real (f_show (T := f64) x) = true <-> fin64 x = true /\ a_step_value (six_digits (V64 x)).
Proof.
  cbn [f_show F64Text]. destruct x as [s|s|s pl Hp|s m e H].
  - split; [destruct s; discriminate|]. intros [_ [A _]]. cbn in A. rewrite sd_0, Rabs_R0 in A. lra.
  - split; [destruct s; discriminate|intros [K _]; discriminate].
  - split; [destruct s; discriminate|intros [K _]; discriminate].
  - rewrite B2R_split, sg_sd. destruct (finite_range m e H) as [I _]. pose proof (six_ok (Zpos m) e eq_refl I) as S6.
    assert (f64_show (Binary.B754_finite 53 1024 s m e H) = let (d, X) := six (Zpos m) e in sgn s ++ show_six d X) as -> by reflexivity.
    destruct (six (Zpos m) e) as [d X]. destruct S6 as (EV & HD & _). rewrite <- EV. set (t := (IZR d * bpow radix10 (X - 5))%R).
    pose proof (bpow_gt_0 radix10 (X - 5)) as PB. assert (0 < t)%R as PT by (apply Rmult_lt_0_compat; [apply IZR_lt; lia|exact PB]).
    assert (bpow radix10 X <= t < bpow radix10 (X + 1))%R as BT.
    { unfold t. replace X with (5 + (X - 5)) at 1 by lia. replace (X + 1) with (6 + (X - 5)) by lia. rewrite !bpow_plus. change (bpow radix10 5) with (IZR 100000). change (bpow radix10 6) with (IZR 1000000).
      split; [apply Rmult_le_compat_r; [lra|apply IZR_le; lia]|apply Rmult_lt_compat_r; [lra|apply IZR_lt; lia]]. }
    assert (a_step_value (sg s t) <-> (-4 <= X < 6 /\ forall n, t <> IZR n)) as AS.
    { unfold a_step_value. rewrite sg_abs by lra. rewrite sg_int. change (/ 10000)%R with (bpow radix10 (-4)). change 1000000%R with (bpow radix10 6). split; intros [A B]; (split; [|exact B]).
      - assert (-4 < X + 1) by (apply (lt_bpow radix10); lra). assert (X < 6) by (apply (lt_bpow radix10); lra). lia.
      - pose proof (bpow_le radix10 (-4) X ltac:(lia)). pose proof (bpow_le radix10 (X + 1) 6 ltac:(lia)). lra. }
    cbn [Binary.is_finite]. rewrite AS. clear AS. unfold show_six.
    pose proof (dig6_isd d) as I6. pose proof (dig6_val d ltac:(lia)) as V6. assert (length (dig6 d) = 6%nat) as L6 by reflexivity.
    assert (forall n, Forall isd (firstn n (dig6 d)) /\ Forall isd (skipn n (dig6 d))) as FS by (intros n; apply Forall_app; rewrite firstn_skipn; exact I6).
    destruct ((-4 <=? X) && (X <? 6)) eqn:EX; [apply andb_true_iff in EX; rewrite Z.leb_le, Z.ltb_lt in EX; destruct (Z.leb_spec 0 X) as [P|P]|].
    + set (n := Z.to_nat (X + 1)). rewrite <- (app_nil_r (dot _)). change (@nil Z) with (expo None) at 1.
      rewrite step_real_text; [|unfold n; replace (Z.to_nat (X + 1)) with (S (Z.to_nat X)) by lia; discriminate|apply FS|apply strip_isd, FS].
      assert (d = digval (firstn n (dig6 d)) * 10 ^ (5 - X) + digval (skipn n (dig6 d))) as SP.
      { rewrite <- V6 at 1. rewrite <- (firstn_skipn n (dig6 d)) at 1. rewrite digval_app. do 3 f_equal. rewrite skipn_length, L6. unfold n. lia. }
      assert (0 < 10 ^ (5 - X)) as P10 by (apply Z.pow_pos_nonneg; lia).
      assert (IZR (10 ^ (5 - X)) * bpow radix10 (X - 5) = 1)%R as I10. { rewrite (IZR_Zpower radix10 (5 - X) ltac:(lia) : IZR (10 ^ (5 - X)) = _), <- bpow_plus. replace (5 - X + (X - 5)) with 0 by lia. reflexivity. }
      pose proof (digval_range _ (proj2 (FS n))) as DR. replace (Z.of_nat (length (skipn n (dig6 d)))) with (5 - X) in DR by (rewrite skipn_length, L6; unfold n; lia).
      destruct (strip (skipn n (dig6 d))) as [|c fp] eqn:ST.
      * split; [discriminate|]. intros (_ & _ & NI). exfalso. destruct (strip_ok (skipn n (dig6 d))) as [k K]. rewrite ST in K. cbn [app] in K.
        assert (digval (skipn n (dig6 d)) = 0) as Z0. { rewrite K. rewrite <- (app_nil_r (repeat 48 k)), digval_lead. reflexivity. }
        apply (NI (digval (firstn n (dig6 d)))). unfold t. rewrite SP at 1. rewrite Z0, Z.add_0_r, mult_IZR, Rmult_assoc, I10. ring.
      * split; [|reflexivity]. intros _. split; [reflexivity|]. split; [lia|]. intros z E. 
        assert (d = z * 10 ^ (5 - X)) as DZ. { apply eq_IZR. rewrite mult_IZR. apply (Rmult_eq_reg_r (bpow radix10 (X - 5))); [|lra]. rewrite Rmult_assoc, I10. unfold t in E. lra. }
        assert (digval (skipn n (dig6 d)) = 0) as Z0.
        { set (r := digval (skipn n (dig6 d))) in *. set (f := digval (firstn n (dig6 d))) in *. set (w := 10 ^ (5 - X)) in *. clearbody r f w.
          assert (r = (z - f) * w) as ER by (rewrite Z.mul_sub_distr_r; lia). assert (z - f < 1) by nia. assert (0 <= z - f) by nia. nia. }
        apply digval_zero in Z0; [congruence|apply FS].
    + assert (sgn s ++ 48 :: 46 :: repeat 48 (Z.to_nat (- X - 1)) ++ strip (dig6 d) = sgn s ++ [48] ++ dot (repeat 48 (Z.to_nat (- X - 1)) ++ strip (dig6 d)) ++ expo None) as ->.
      { f_equal. cbn [app]. f_equal. rewrite app_nil_r. destruct (repeat 48 (Z.to_nat (- X - 1)) ++ strip (dig6 d)) eqn:ER; [|reflexivity]. exfalso. apply app_eq_nil in ER as [_ ER]. destruct (strip_ok (dig6 d)) as [k K]. rewrite ER in K. cbn [app] in K. rewrite K in V6. rewrite <- (app_nil_r (repeat 48 k)), digval_lead in V6. cbn in V6. lia. }
      rewrite step_real_text; [|discriminate|repeat constructor; unfold isd; lia|apply Forall_app; split; [apply Forall_forall; intros c Hc; apply repeat_spec in Hc; subst c; unfold isd; lia|apply strip_isd, I6]].
      destruct (repeat 48 (Z.to_nat (- X - 1)) ++ strip (dig6 d)) eqn:ER.
      * exfalso. apply app_eq_nil in ER as [_ ER]. destruct (strip_ok (dig6 d)) as [k K]. rewrite ER in K. cbn [app] in K. rewrite K in V6. rewrite <- (app_nil_r (repeat 48 k)), digval_lead in V6. cbn in V6. lia.
      * split; [|reflexivity]. intros _. split; [reflexivity|]. split; [lia|]. intros y E. pose proof (bpow_le radix10 (X + 1) 0 ltac:(lia)) as B0. change (bpow radix10 0) with 1%R in B0. assert (0 < y) by (apply lt_IZR; lra). assert (y < 1) by (apply lt_IZR; lra). lia.
    + change ([101] ++ show_exp X) with (expo (Some X)). rewrite step_real_text; [|discriminate|apply FS|apply strip_isd, FS]. split; [destruct (strip _); discriminate|]. intros (_ & B & _). apply andb_false_iff in EX. rewrite Z.leb_gt, Z.ltb_ge in EX. lia.
Qed.

Lemma show_no_hash : no_hash (T := f64).
Proof. intros x I. pose proof (show_chars x) as A. rewrite Forall_forall in A. specialize (A _ I). cbn in A. lia. Qed.
Theorem step_zero_knot (xs : list (list (NurbsSurface f64))) n : Forall (Forall full) xs -> In n (concat xs) -> clamped_ends (ns_degU n) (ns_knotsU n) ->
  (exists k, vget (ns_knotsU n) 0 = Ok k /\ V64 k = 0%R /\ fin64 k = true) ->
  exists t pre post mu mv ku kv k, step_file xs = Ok t /\ t = pre ++ mult_text mu mv ku kv ++ post /\ expand mu ku = ns_knotsU n /\ In k ku /\ step_real (f_show k) = false.
Proof.
  intros F I C (k & K & KV & KF). destruct (step_file_mults xs n show_no_hash F I) as (t & pre & post & mu & mv & ku & kv & E & ET & _ & _ & _ & _ & EU & _).
  exists t, pre, post, mu, mv, ku, kv, k. split; [exact E|]. split; [exact ET|]. split; [apply EU, C|]. split.
  - assert (In k (expand mu ku)) as IK by (rewrite (EU C); eapply vget_In; exact K). unfold expand in IK. apply in_concat in IK as (l & IL & IK). apply in_map_iff in IL as ([c y] & <- & IP). cbn [fst snd] in IK. apply repeat_spec in IK. subst y. eapply in_combine_r. exact IP.
  - destruct (step_real (f_show k)) eqn:SR; [|reflexivity]. exfalso. apply step_real_iff in SR. destruct SR as [_ [[A _] _]]. rewrite KV, sd_0, Rabs_R0 in A. lra.
Qed.
