(** Reading decimal numbers: the double nearest to the text. *)
From Coq Require Import ZArith List Bool Reals Lra Lia.
From Flocq Require Import Core IEEE754.Binary IEEE754.Bits IEEE754.BinarySingleNaN.
From Verif Require Import Base Num MText MF64 MFormat SObj SFormat LBase LF64 LText LFormat.
Import ListNotations.
Open Scope Z_scope.

#[export] Instance prec53 : Prec_gt_0 53 := eq_refl.
#[export] Instance prec6 : Prec_gt_0 6 := eq_refl.
Notation sign64 := (Binary.Bsign 53 1024).
Definition sg (s : bool) (x : R) : R := if s then Ropp x else x.

Lemma frac2 n d k : 0 < d -> (IZR (n * up 2 (- k)) / IZR (d * up 2 k) = IZR n / IZR d * bpow radix2 (- k))%R.
Proof.
  intros Hd. rewrite !mult_IZR. rewrite (up_ratio radix2 (- k) : IZR (up 2 (- k)) = _). rewrite Z.opp_involutive. change (up radix2 k) with (up 2 k).
  assert (0 < IZR (up 2 k))%R by (apply IZR_lt, up_pos; lia). assert (0 < IZR d)%R by (apply IZR_lt; lia). field. lra.
Qed.
Lemma log2_bounds n : 0 < n -> (bpow radix2 (Z.log2 n) <= IZR n < bpow radix2 (Z.log2 n + 1))%R.
Proof.
  intros H. pose proof (Z.log2_spec n H) as [A B]. pose proof (Z.log2_nonneg n). rewrite <- !(IZR_Zpower radix2) by lia. unfold Zpower. split; [apply IZR_le|apply IZR_lt]; assumption.
Qed.
Lemma div_le a b c : (0 < b)%R -> (a * b <= c -> a <= c / b)%R.
Proof. intros. apply (Rmult_le_reg_r b); [assumption|]. unfold Rdiv. rewrite Rmult_assoc, Rinv_l by lra. lra. Qed.
Lemma div_lt a b c : (0 < b)%R -> (c < a * b -> c / b < a)%R.
Proof. intros. apply (Rmult_lt_reg_r b); [assumption|]. unfold Rdiv. rewrite Rmult_assoc, Rinv_l by lra. lra. Qed.
Lemma le_div a b c : (0 < b)%R -> (a <= c / b -> a * b <= c)%R.
Proof. intros P H. apply (Rmult_le_compat_r b) in H; [|lra]. unfold Rdiv in H. rewrite Rmult_assoc, Rinv_l in H by lra. lra. Qed.

Lemma top_bit n d : 0 < n -> 0 < d -> let k := Z.log2 n - Z.log2 d in let g := if d * up 2 k <=? n * up 2 (- k) then k else k - 1 in
  (bpow radix2 g <= IZR n / IZR d < bpow radix2 (g + 1))%R.
Proof.
  intros Hn Hd. cbv zeta. set (k := Z.log2 n - Z.log2 d). pose proof (log2_bounds n Hn) as [N1 N2]. pose proof (log2_bounds d Hd) as [D1 D2].
  assert (0 < IZR d)%R as PD by (apply IZR_lt; lia). assert (0 < IZR (d * up 2 k))%R as PU by (apply IZR_lt, Z.mul_pos_pos; [lia|apply up_pos; lia]).
  pose proof (bpow_gt_0 radix2 k) as PK. pose proof (bpow_gt_0 radix2 (k + 1)). pose proof (bpow_gt_0 radix2 (k - 1)).
  assert (bpow radix2 (- k) * bpow radix2 k = 1)%R as I by (rewrite <- bpow_plus; replace (- k + k) with 0 by lia; reflexivity).
  pose proof (frac2 n d k Hd) as F.
  assert (IZR n / IZR d < bpow radix2 (k + 1))%R as HI.
  { apply div_lt; [exact PD|]. eapply Rlt_le_trans; [exact N2|]. replace (Z.log2 n + 1) with (k + 1 + Z.log2 d) by (unfold k; lia). rewrite bpow_plus. apply Rmult_le_compat_l; lra. }
  assert (bpow radix2 (k - 1) <= IZR n / IZR d)%R as LO.
  { apply div_le; [exact PD|]. eapply Rle_trans; [|exact N1]. replace (Z.log2 n) with (k - 1 + (Z.log2 d + 1)) by (unfold k; lia). rewrite bpow_plus. apply Rmult_le_compat_l; lra. }
  destruct (Z.leb_spec (d * up 2 k) (n * up 2 (- k))) as [L|L].
  - split; [|exact HI]. apply IZR_le in L. assert (1 <= IZR n / IZR d * bpow radix2 (- k))%R as G by (rewrite <- F; apply div_le; [exact PU|lra]). nra.
  - split; [exact LO|]. replace (k - 1 + 1) with k by lia. apply IZR_lt in L. assert (IZR n / IZR d * bpow radix2 (- k) < 1)%R as G by (rewrite <- F; apply div_lt; [exact PU|lra]). nra.
Qed.

Lemma to_double_dec n d : 0 < n -> 0 < d ->
  let k := Z.log2 n - Z.log2 d in let g := if d * up 2 k <=? n * up 2 (- k) then k else k - 1 in let e := Z.max (g - 52) (-1074) in
  (F2R (Float radix2 (half_even (n * up 2 (- e)) (d * up 2 e)) e) = to_double (IZR n / IZR d))%R.
Proof.
  intros Hn Hd. pose proof (top_bit n d Hn Hd) as B. cbv zeta in B |- *. set (g := if d * up 2 (Z.log2 n - Z.log2 d) <=? n * up 2 (- (Z.log2 n - Z.log2 d)) then Z.log2 n - Z.log2 d else Z.log2 n - Z.log2 d - 1) in *. set (e := Z.max (g - 52) (-1074)).
  rewrite half_even_ok by (apply Z.mul_pos_pos; [lia|apply up_pos; lia]). rewrite frac2 by exact Hd.
  unfold to_double, round, scaled_mantissa, cexp. rewrite (mag_unique_pos radix2 _ (g + 1)) by (replace (g + 1 - 1) with g by lia; exact B).
  replace (FLT_exp (-1074) 53 (g + 1)) with e by (unfold FLT_exp, e; lia). reflexivity.
Qed.

Lemma dec_ratio D E : (IZR (D * up 10 E) / IZR (up 10 (- E)) = IZR D * bpow radix10 E)%R.
Proof.
  rewrite mult_IZR, (up_ratio radix10 E : IZR (up 10 E) = _). change (up radix10 (- E)) with (up 10 (- E)). assert (0 < IZR (up 10 (- E)))%R by (apply IZR_lt, up_pos; lia). field. lra.
Qed.

Lemma norm_ok s m e : 0 <= m -> generic_format radix2 (FLT_exp (-1074) 53) (F2R (Float radix2 m e)) -> (F2R (Float radix2 m e) < bpow radix2 1024)%R ->
  V64 (f64_norm s m e) = sg s (F2R (Float radix2 m e)) /\ fin64 (f64_norm s m e) = true /\ sign64 (f64_norm s m e) = s.
Proof.
  intros Hm G L. pose proof (Binary.binary_normalize_correct 53 1024 eq_refl eq_refl mode_NE (SpecFloat.cond_Zopp s m) e s) as C.
  change (SpecFloat.fexp 53 1024) with (FLT_exp (-1074) 53) in C. change (round_mode mode_NE) with ZnearestE in C.
  assert (F2R (Float radix2 (SpecFloat.cond_Zopp s m) e) = sg s (F2R (Float radix2 m e))) as EV by (destruct s; [apply F2R_Zopp|reflexivity]).
  assert (0 <= F2R (Float radix2 m e))%R as P by (apply F2R_ge_0; exact Hm).
  rewrite EV in C. assert (generic_format radix2 (FLT_exp (-1074) 53) (sg s (F2R (Float radix2 m e)))) as G' by (destruct s; [apply generic_format_opp|]; exact G).
  rewrite round_generic in C; [|typeclasses eauto|exact G'].
  rewrite Rlt_bool_true in C by (destruct s; cbn [sg]; rewrite ?Rabs_Ropp, Rabs_pos_eq by exact P; exact L).
  destruct C as (C1 & C2 & C3). split; [exact C1|]. split; [exact C2|]. unfold f64_norm. rewrite C3.
  destruct s; cbn [sg]; [destruct (Rcompare_spec (- F2R (Float radix2 m e)) 0)|destruct (Rcompare_spec (F2R (Float radix2 m e)) 0)]; try reflexivity; lra.
Qed.

Lemma dec_to_f64_ok s D E : 0 < D -> (to_double (IZR D * bpow radix10 E) < bpow radix2 1024)%R ->
  exists q, dec_to_f64 s D E = (q, true) /\ V64 q = sg s (to_double (IZR D * bpow radix10 E)) /\ fin64 q = true /\ sign64 q = s.
Proof.
  intros HD L. unfold dec_to_f64. rewrite (proj2 (Z.eqb_neq D 0)) by lia. set (n := D * up 10 E). set (d := up 10 (- E)).
  assert (0 < d) as Hd by (apply up_pos; lia). assert (0 < n) as Hn by (apply Z.mul_pos_pos; [lia|apply up_pos; lia]).
  pose proof (to_double_dec n d Hn Hd) as TD. cbv zeta in TD |- *. set (g := if d * up 2 (Z.log2 n - Z.log2 d) <=? n * up 2 (- (Z.log2 n - Z.log2 d)) then Z.log2 n - Z.log2 d else Z.log2 n - Z.log2 d - 1) in *. set (e := Z.max (g - 52) (-1074)) in *. set (m := half_even _ _) in *.
  assert (IZR n / IZR d = IZR D * bpow radix10 E)%R as ER by apply dec_ratio. rewrite ER in TD.
  assert (0 <= IZR D * bpow radix10 E)%R as P0 by (apply Rmult_le_pos; [apply IZR_le; lia|apply bpow_ge_0]).
  assert (0 <= m) as Hm. { apply (ge_0_F2R radix2 m e). rewrite TD. unfold to_double. apply round_ge_generic; [typeclasses eauto|typeclasses eauto|apply generic_format_0|exact P0]. }
  destruct (norm_ok s m e Hm) as (A & B & C).
  - rewrite TD. apply generic_format_round; typeclasses eauto.
  - rewrite TD. exact L.
  - rewrite B. exists (f64_norm s m e). rewrite A, TD. auto.
Qed.

(** ** The text *)
Definition isd (c : Z) : Prop := 48 <= c <= 57.
Lemma is_digit_isd c : isd c -> is_digit c = true.
Proof. unfold isd, is_digit. intros. apply andb_true_intro. split; apply Z.leb_le; lia. Qed.
Definition stops (l : list Z) : Prop := match l with [] => True | c :: _ => is_digit c = false end.
Lemma take_digits_app l r : Forall isd l -> stops r -> take_digits (l ++ r) = (l, r).
Proof.
  induction 1 as [|c l Hc Hl IH]; intros S; cbn [app take_digits].
  - destruct r as [|c r]; [reflexivity|]. cbn in S. cbn. rewrite S. reflexivity.
  - rewrite is_digit_isd by exact Hc. rewrite IH by exact S. reflexivity.
Qed.
Lemma digval_app_gen l r a : fold_left (fun a c => 10 * a + (c - 48)) (l ++ r) a = fold_left (fun a c => 10 * a + (c - 48)) r (fold_left (fun a c => 10 * a + (c - 48)) l a).
Proof. apply fold_left_app. Qed.
Lemma digval_snoc l c : digval (l ++ [c]) = 10 * digval l + (c - 48).
Proof. unfold digval. rewrite fold_left_app. reflexivity. Qed.
Lemma digval_zeros l k : digval (l ++ repeat 48 k) = digval l * 10 ^ Z.of_nat k.
Proof.
  induction k as [|k IH].
  - cbn [repeat]. rewrite app_nil_r. change (10 ^ Z.of_nat 0) with 1. lia.
  - cbn [repeat]. rewrite repeat_cons, app_assoc, digval_snoc, IH. replace (Z.of_nat (S k)) with (Z.of_nat k + 1) by lia. rewrite Z.pow_add_r by lia. lia.
Qed.
Lemma digval_lead k l : digval (repeat 48 k ++ l) = digval l.
Proof. induction k as [|k IH]; [reflexivity|]. cbn [repeat app]. exact IH. Qed.
Lemma strip_ok l : exists k, l = strip l ++ repeat 48 k.
Proof.
  induction l as [|c l [k IH]]; [exists O; reflexivity|]. cbn [strip]. destruct (strip l) as [|x s].
  - destruct (Z.eqb_spec c 48) as [->|]; [exists (S k)|exists k]; cbn in *; congruence.
  - exists k. cbn [app] in *. congruence.
Qed.
Lemma strip_isd l : Forall isd l -> Forall isd (strip l).
Proof. intros H. destruct (strip_ok l) as [k E]. rewrite E in H. apply Forall_app in H. apply H. Qed.
Lemma mod10_isd z : isd (48 + z mod 10).
Proof. unfold isd. pose proof (Z.mod_pos_bound z 10). lia. Qed.
Lemma dig6_isd d : Forall isd (dig6 d).
Proof. unfold dig6. cbn [map]. repeat constructor; apply mod10_isd. Qed.
Lemma dig6_val d : 0 <= d < 1000000 -> digval (dig6 d) = d.
Proof.
  intros H. unfold dig6, digval. cbn [map fold_left].
  assert (d / 100000 = d / 10000 / 10) as -> by (rewrite Z.div_div by lia; reflexivity).
  assert (d / 10000 = d / 1000 / 10) as -> by (rewrite Z.div_div by lia; reflexivity).
  assert (d / 1000 = d / 100 / 10) as -> by (rewrite Z.div_div by lia; reflexivity).
  assert (d / 100 = d / 10 / 10) as -> by (rewrite Z.div_div by lia; reflexivity).
  Z.div_mod_to_equations. lia.
Qed.

Definition expo (X : option Z) : list Z := match X with Some X => 101 :: show_exp X | None => [] end.
Definition eval10 (X : option Z) : Z := match X with Some X => X | None => 0 end.
Lemma ends_stops rest : ends rest -> stops rest.
Proof. destruct rest as [|c r]; [auto|]. cbn. unfold is_space, is_digit. intros H. apply orb_true_iff in H. rewrite !andb_true_iff, ?Z.eqb_eq, ?Z.leb_le in H. apply andb_false_iff. rewrite !Z.leb_gt. lia. Qed.
Lemma ends_head c r : ends (c :: r) -> c <> 46 /\ c <> 101 /\ c <> 69.
Proof. cbn. unfold is_space. intros H. apply orb_true_iff in H. rewrite !andb_true_iff, ?Z.eqb_eq, ?Z.leb_le in H. lia. Qed.

Lemma show_exp_read X rest : -999 <= X <= 999 -> ends rest -> exists es ep, take_sign (show_exp X ++ rest) = (es, ep ++ rest) /\ Forall isd ep /\ ep <> [] /\ (if es then - digval ep else digval ep) = X.
Proof.
  intros H E. unfold show_exp. set (a := Z.abs X). set (ep := map _ _).
  assert (Forall isd ep /\ ep <> [] /\ digval ep = a) as (A & B & C).
  { unfold ep. destruct (Z.ltb_spec a 100) as [L|L]; cbn [map]; (split; [repeat constructor; apply mod10_isd|split; [discriminate|]]); unfold digval; cbn [fold_left].
    - assert (0 <= a / 10 < 10) by (split; [apply Z.div_pos; lia|apply Z.div_lt_upper_bound; lia]). rewrite (Z.mod_small (a / 10)) by lia. pose proof (Z.div_mod a 10). lia.
    - assert (a / 100 = a / 10 / 10) as -> by (rewrite Z.div_div by lia; reflexivity). assert (0 <= a / 10 / 10 < 10) by (split; [apply Z.div_pos; [apply Z.div_pos|]; lia|apply Z.div_lt_upper_bound; [lia|]; apply Z.div_lt_upper_bound; lia]).
      rewrite (Z.mod_small (a / 10 / 10)) by lia. pose proof (Z.div_mod a 10). pose proof (Z.div_mod (a / 10) 10). lia. }
  clearbody ep. destruct (Z.ltb_spec X 0) as [L|L]; cbn [app take_sign]; [exists true|exists false]; exists ep; (split; [reflexivity|]); (split; [exact A|]); (split; [exact B|]); rewrite C; unfold a; lia.
Qed.

Lemma scan_number s ip fp X rest : Forall isd ip -> ip <> [] -> Forall isd fp -> (forall x, X = Some x -> -999 <= x <= 999) -> ends rest ->
  f64_scan (sgn s ++ ip ++ dot fp ++ expo X ++ rest) = (let (x, ok) := dec_to_f64 s (digval (ip ++ fp)) (eval10 X - vsize fp) in (x, ok, rest)).
Proof.
  intros Hi Ni Hf HX E. unfold f64_scan.
  assert (take_sign (sgn s ++ ip ++ dot fp ++ expo X ++ rest) = (s, ip ++ dot fp ++ expo X ++ rest)) as ->.
  { destruct s; [reflexivity|]. destruct ip as [|c ip']; [congruence|]. apply Forall_inv in Hi. unfold isd in Hi. cbn [sgn app take_sign]. rewrite (proj2 (Z.eqb_neq c 45)), (proj2 (Z.eqb_neq c 43)) by lia. reflexivity. }
  assert (stops (expo X ++ rest)) as S1 by (destruct X; [reflexivity|apply ends_stops, E]).
  rewrite take_digits_app by (first [exact Hi | destruct fp; [exact S1|reflexivity]]).
  assert (match dot fp ++ expo X ++ rest with c :: l' => if c =? 46 then take_digits l' else ([], dot fp ++ expo X ++ rest) | [] => ([], dot fp ++ expo X ++ rest) end = (fp, expo X ++ rest)) as ->.
  { destruct fp as [|f fp']; cbn [dot app].
    - destruct X as [x|]; [reflexivity|]. cbn [expo app]. destruct rest as [|c r]; [reflexivity|]. destruct (ends_head _ _ E) as [N _]. rewrite (proj2 (Z.eqb_neq c 46) N). reflexivity.
    - rewrite Z.eqb_refl. apply (take_digits_app (f :: fp')); assumption. }
  destruct (ip ++ fp) as [|y ys] eqn:EY; [destruct ip; [congruence|discriminate]|].
  destruct X as [x|]; cbn [expo app eval10].
  - cbn [orb Z.eqb Pos.eqb]. destruct (show_exp_read x rest (HX x eq_refl) E) as (es & ep & A & B & C & D). rewrite A, take_digits_app by (try exact B; apply ends_stops, E).
    destruct ep as [|e0 ep']; [congruence|]. rewrite D. reflexivity.
  - destruct rest as [|c r]; [reflexivity|]. destruct (ends_head _ _ E) as (_ & N1 & N2). rewrite (proj2 (Z.eqb_neq c 101) N1), (proj2 (Z.eqb_neq c 69) N2). reflexivity.
Qed.

(** The text of [show_six] in those terms *)
Lemma show_six_shape d X : 100000 <= d < 1000000 -> exists ip fp Y, show_six d X = ip ++ dot fp ++ expo Y /\ Forall isd ip /\ ip <> [] /\ Forall isd fp /\
  (Y = None \/ Y = Some X) /\ exists D, digval (ip ++ fp) = D /\ 0 < D /\ (IZR D * bpow radix10 (eval10 Y - vsize fp) = IZR d * bpow radix10 (X - 5))%R.
Proof.
  intros Hd. pose proof (dig6_isd d) as I6. pose proof (dig6_val d ltac:(lia)) as V6. assert (length (dig6 d) = 6%nat) as L6 by reflexivity.
  assert (forall (D : Z) k c, D * 10 ^ Z.of_nat k = d -> c = X - 5 + Z.of_nat k -> 0 < D /\ (IZR D * bpow radix10 c = IZR d * bpow radix10 (X - 5))%R) as FIN.
  { intros D k c HD ->. pose proof (Z.pow_pos_nonneg 10 (Z.of_nat k)). split; [nia|]. rewrite <- HD, mult_IZR, (IZR_Zpower radix10 (Z.of_nat k) ltac:(lia) : IZR (10 ^ Z.of_nat k) = _). rewrite bpow_plus. ring. }
  assert (forall n, (0 < n <= 6)%nat -> exists ip fp k, firstn n (dig6 d) = ip /\ strip (skipn n (dig6 d)) = fp /\ Forall isd ip /\ ip <> [] /\ Forall isd fp /\ digval (ip ++ fp) * 10 ^ Z.of_nat k = d /\ vsize fp + Z.of_nat k = 6 - Z.of_nat n) as CUT.
  { intros n Hn. destruct (strip_ok (skipn n (dig6 d))) as [k K]. exists (firstn n (dig6 d)), (strip (skipn n (dig6 d))), k. pose proof (firstn_skipn n (dig6 d)) as FS.
    rewrite <- FS in I6. apply Forall_app in I6. destruct I6 as [I1 I2]. split; [reflexivity|]. split; [reflexivity|]. split; [exact I1|].
    split; [destruct n; [lia|discriminate]|]. split; [apply strip_isd, I2|]. split.
    - rewrite <- digval_zeros, <- app_assoc, <- K, FS. exact V6.
    - assert (length (skipn n (dig6 d)) = (6 - n)%nat) as LS by (rewrite skipn_length; lia). rewrite K, app_length, repeat_length in LS. unfold vsize. lia. }
  unfold show_six. destruct ((-4 <=? X) && (X <? 6)) eqn:EX; [apply andb_true_iff in EX; rewrite Z.leb_le, Z.ltb_lt in EX; destruct (Z.leb_spec 0 X) as [P|P]|].
  - destruct (CUT (Z.to_nat (X + 1)) ltac:(lia)) as (ip & fp & k & E1 & E2 & A & B & C & D & F). exists ip, fp, None. rewrite E1, E2. cbn [expo eval10]. rewrite app_nil_r.
    split; [reflexivity|]. split; [exact A|]. split; [exact B|]. split; [exact C|]. split; [left; reflexivity|]. eexists. split; [reflexivity|]. apply (FIN _ k); [exact D|lia].
  - destruct (strip_ok (dig6 d)) as [k K]. set (z := Z.to_nat (- X - 1)). exists [48], (repeat 48 z ++ strip (dig6 d)), None. cbn [expo eval10]. rewrite app_nil_r.
    assert (length (strip (dig6 d)) + k = 6)%nat as LS by (rewrite K, app_length, repeat_length in L6; lia).
    assert (digval (strip (dig6 d)) * 10 ^ Z.of_nat k = d) as DV by (rewrite <- digval_zeros, <- K; exact V6).
    assert (strip (dig6 d) <> []) as NE by (intros N; rewrite N in DV; change (digval []) with 0 in DV; lia).
    split. { cbn [app]. f_equal. destruct (repeat 48 z ++ strip (dig6 d)) eqn:ER; [apply app_eq_nil in ER; destruct ER; congruence|reflexivity]. }
    split; [repeat constructor; unfold isd; lia|]. split; [discriminate|].
    split; [apply Forall_app; split; [apply Forall_forall; intros c Hc; apply repeat_spec in Hc; subst c; unfold isd; lia|apply strip_isd, I6]|].
    split; [left; reflexivity|]. exists (digval (strip (dig6 d))). split; [apply (digval_lead (S z))|]. apply (FIN _ k); [exact DV|]. unfold vsize. rewrite app_length, repeat_length. unfold z. lia.
  - destruct (CUT 1%nat ltac:(lia)) as (ip & fp & k & E1 & E2 & A & B & C & D & F). exists ip, fp, (Some X). rewrite E1, E2. cbn [expo eval10 app].
    split; [reflexivity|]. split; [exact A|]. split; [exact B|]. split; [exact C|]. split; [right; reflexivity|]. eexists. split; [reflexivity|]. apply (FIN _ k); [exact D|lia].
Qed.
