(** What a double becomes when it is printed and read again. *)
From Coq Require Import ZArith List Bool Reals Lra Lia.
From Flocq Require Import Core Relative IEEE754.Binary IEEE754.Bits IEEE754.BinarySingleNaN.
From Verif Require Import Base Num MText MF64 MFormat SObj SFormat LBase LF64 LText LFormat LFormat2.
Import ListNotations.
Open Scope Z_scope.

Lemma sd_opp x : six_digits (- x) = Ropp (six_digits x).
Proof. apply round_NE_opp. Qed.
Lemma td_opp x : to_double (- x) = Ropp (to_double x).
Proof. apply round_NE_opp. Qed.
Lemma sd_le x y : (x <= y)%R -> (six_digits x <= six_digits y)%R.
Proof. apply round_le; typeclasses eauto. Qed.
Lemma td_le x y : (x <= y)%R -> (to_double x <= to_double y)%R.
Proof. apply round_le; typeclasses eauto. Qed.
Lemma sd_0 : six_digits 0 = 0%R.
Proof. apply round_0; typeclasses eauto. Qed.
Lemma td_0 : to_double 0 = 0%R.
Proof. apply round_0; typeclasses eauto. Qed.
Lemma sg_td s x : to_double (sg s x) = sg s (to_double x).
Proof. destruct s; [apply td_opp|reflexivity]. Qed.
Lemma sg_sd s x : six_digits (sg s x) = sg s (six_digits x).
Proof. destruct s; [apply sd_opp|reflexivity]. Qed.

(** The range of doubles in powers of ten *)
Notation MAXM := 9007199254740991.
Lemma max_in64 : in64 MAXM 971.
Proof.
  unfold in64. split.
  - apply Rle_trans with (bpow radix10 0); [apply bpow_le; lia|]. cbn [bpow]. unfold F2R. cbn [Fnum Fexp]. pose proof (bpow_le radix2 0 971 ltac:(lia)) as B. change (bpow radix2 0) with 1%R in B. nra.
  - unfold F2R. cbn [Fnum Fexp]. rewrite <- (IZR_Zpower radix2 971), <- (IZR_Zpower radix10 309), <- mult_IZR by lia. apply IZR_lt. apply Z.ltb_lt. vm_compute. reflexivity.
Qed.
Lemma max_six : (six_digits (V MAXM 971) <= V MAXM 971)%R.
Proof.
  pose proof (six_ok MAXM 971 eq_refl max_in64) as H. assert (six MAXM 971 = (179769, 308)) as E by (vm_compute; reflexivity). rewrite E in H. destruct H as [<- _].
  unfold F2R. cbn [Fnum Fexp]. change (308 - 5) with 303. rewrite <- (IZR_Zpower radix2 971), <- (IZR_Zpower radix10 303), <- !mult_IZR by lia. apply IZR_le. apply Z.leb_le. vm_compute. reflexivity.
Qed.
Lemma max_format : generic_format radix2 (FLT_exp (-1074) 53) (V MAXM 971).
Proof. apply generic_format_FLT. exists (Float radix2 MAXM 971); cbn; [reflexivity|lia|lia]. Qed.
Lemma finite_range m e : SpecFloat.bounded 53 1024 m e = true -> in64 (Zpos m) e /\ (V (Zpos m) e <= V MAXM 971)%R.
Proof.
  intros H. pose proof (Binary.bounded_ge_emin 53 1024 m e H) as G. pose proof (Binary.bounded_le_emax_minus_prec 53 1024 prec53 m e H) as K.
  assert (V (Zpos m) e <= V MAXM 971)%R as M.
  { eapply Rle_trans; [exact K|]. right. change MAXM with (Zpower radix2 53 - 1). unfold F2R. cbn [Fnum Fexp]. change 1024 with (53 + 971). change (53 + 971 - 53) with 971. rewrite bpow_plus, minus_IZR, IZR_Zpower by lia. ring. }
  split; [|exact M]. split.
  - eapply Rle_trans; [|exact G]. change (SpecFloat.emin 53 1024) with (-1074).
    replace (-324) with (- (324)) by lia. replace (-1074) with (- (1074)) by lia. rewrite !bpow_opp. apply Rinv_le; [apply bpow_gt_0|]. rewrite <- (IZR_Zpower radix2 1074), <- (IZR_Zpower radix10 324) by lia. apply IZR_le. apply Z.leb_le. vm_compute. reflexivity.
  - eapply Rle_lt_trans; [exact M|apply max_in64].
Qed.

Lemma B2R_split s m e H : V64 (Binary.B754_finite 53 1024 s m e H) = sg s (V (Zpos m) e).
Proof. destruct s; cbn [Binary.B2R sg]; [apply (F2R_Zopp radix2 (Zpos m) e)|reflexivity]. Qed.

Lemma shape_head ip (l : list Z) : Forall isd ip -> ip <> [] -> exists c l', ip ++ l = c :: l' /\ isd c.
Proof. intros A B. destruct ip as [|c ip']; [congruence|]. apply Forall_inv in A. exists c, (ip' ++ l). split; [reflexivity|exact A]. Qed.
Lemma isd_nospace c : 43 <= c -> is_space c = false.
Proof. intros. unfold is_space. apply orb_false_iff. rewrite Z.eqb_neq. split; [lia|]. apply andb_false_iff. right. apply Z.leb_gt. lia. Qed.

Theorem reads_finite (x : f64) : fin64 x = true -> exists q, reads_as x q /\ fin64 q = true /\ V64 q = to_double (six_digits (V64 x)) /\ sign64 q = sign64 x.
Proof.
  destruct x as [s|s|s pl Hp|s m e H]; cbn [Binary.is_finite]; intros F; try discriminate.
  - exists (Binary.B754_zero 53 1024 s). cbn [Binary.is_finite Binary.B2R Binary.Bsign]. rewrite sd_0, td_0. split; [|auto]. split.
    + destruct s; cbn; eexists _, _; split; reflexivity.
    + intros rest E. cbn [f_show f_scan F64Text f64_show]. pose proof (scan_number s [48] [] None rest ltac:(repeat constructor; unfold isd; lia) ltac:(discriminate) ltac:(constructor) ltac:(discriminate) E) as SC. cbn [dot expo app] in SC. rewrite <- app_assoc. cbn [app]. rewrite SC. reflexivity.
  - destruct (finite_range m e H) as [I M]. pose proof (six_ok (Zpos m) e eq_refl I) as S6. cbn [Binary.Bsign]. rewrite B2R_split.
    assert (f64_show (Binary.B754_finite 53 1024 s m e H) = let (d, X) := six (Zpos m) e in sgn s ++ show_six d X) as SH by reflexivity.
    destruct (six (Zpos m) e) as [d X]. destruct S6 as (EV & HD & HX).
    destruct (show_six_shape d X HD) as (ip & fp & Y & ES & A & B & C & HY & D & DV & DP & DE).
    assert (to_double (IZR D * bpow radix10 (eval10 Y - vsize fp)) < bpow radix2 1024)%R as LT.
    { rewrite DE, EV. eapply Rle_lt_trans.
      - apply td_le. eapply Rle_trans; [apply sd_le, M|apply max_six].
      - unfold to_double. rewrite round_generic; [|typeclasses eauto|exact max_format]. unfold F2R. cbn [Fnum Fexp]. rewrite <- (IZR_Zpower radix2 971), <- (IZR_Zpower radix2 1024), <- mult_IZR by lia. apply IZR_lt. apply Z.ltb_lt. vm_compute. reflexivity. }
    destruct (dec_to_f64_ok s D (eval10 Y - vsize fp) DP LT) as (q & Q1 & Q2 & Q3 & Q4). exists q. split; [|split; [exact Q3|split; [|exact Q4]]].
    + unfold reads_as. cbn [f_show f_scan F64Text]. rewrite SH, ES. split.
      * destruct s; cbn [sgn app].
        -- eexists _, _; split; reflexivity.
        -- destruct (shape_head ip (dot fp ++ expo Y) A B) as (c & l' & E1 & E2). exists c, l'. split; [exact E1|]. apply isd_nospace. unfold isd in E2. lia.
      * intros rest E. rewrite <- !app_assoc. rewrite scan_number; [|exact A|exact B|exact C| |exact E].
        -- rewrite DV, Q1. reflexivity.
        -- intros x Hx. destruct HY as [->| ->]; [discriminate|]. injection Hx as <-. lia.
    + rewrite Q2, DE, EV, sg_sd, sg_td. reflexivity.
Qed.
Lemma reads_unique (x q r : f64) : reads_as x q -> reads_as x r -> q = r.
Proof. intros [_ A] [_ B]. specialize (A [] I). specialize (B [] I). congruence. Qed.
Theorem reads_iff (x q : f64) : fin64 x = true -> (reads_as x q <-> fin64 q = true /\ V64 q = to_double (six_digits (V64 x)) /\ sign64 q = sign64 x).
Proof.
  intros F. destruct (reads_finite x F) as (q0 & A & B & C & D). split.
  - intros H. rewrite (reads_unique x q q0 H A). auto.
  - intros (H1 & H2 & H3). assert (q = q0) as ->; [|exact A]. apply Binary.B2R_Bsign_inj; [exact H1|exact B|congruence|congruence].
Qed.
Theorem reads_bad (x q : f64) : fin64 x = false -> ~ reads_as x q.
Proof.
  intros F [_ H]. specialize (H [] I). destruct x as [s|s|s pl Hp|s m e Hb]; try discriminate; destruct s; cbn in H; discriminate.
Qed.

(** ** Consequences *)
Lemma sd_error x : (Rabs (six_digits x - x) <= 5 / 1000000 * Rabs x)%R.
Proof.
  pose proof (relative_error_N_FLX radix10 6 prec6 (fun z => negb (Z.even z)) x) as H. unfold six_digits. eapply Rle_trans; [exact H|]. apply Rmult_le_compat_r; [apply Rabs_pos|].
  change (- (6) + 1) with (-5). change (bpow radix10 (-5)) with (/ 100000)%R. lra.
Qed.
Lemma td_error x : (Rabs (to_double x - x) <= / 1000000000 * Rabs x + bpow radix2 (-1075))%R.
Proof.
  destruct (error_N_FLT radix2 (-1074) 53 prec53 (fun z => negb (Z.even z)) x) as (eps & eta & A & B & _ & E). unfold to_double. rewrite E.
  replace (x * (1 + eps) + eta - x)%R with (x * eps + eta)%R by ring. eapply Rle_trans; [apply Rabs_triang|]. apply Rplus_le_compat.
  - rewrite Rabs_mult, Rmult_comm. apply Rmult_le_compat_r; [apply Rabs_pos|]. eapply Rle_trans; [exact A|]. apply Rle_trans with (/ 2 * bpow radix2 (-50))%R; [apply Rmult_le_compat_l; [lra|apply bpow_le; lia]|]. change (bpow radix2 (-50)) with (/ 1125899906842624)%R. lra.
  - eapply Rle_trans; [exact B|]. change (-1075) with (-1 + -1074). rewrite bpow_plus. right. reflexivity.
Qed.
Theorem reads_close (x q : f64) : fin64 x = true -> reads_as x q -> (Rabs (V64 q - V64 x) <= 6 / 1000000 * Rabs (V64 x) + bpow radix2 (-1075))%R.
Proof.
  intros F H. apply (reads_iff x q F) in H. destruct H as (_ & -> & _). set (v := V64 x). pose proof (sd_error v) as A. pose proof (td_error (six_digits v)) as B. set (w := six_digits v) in *.
  assert (Rabs w <= 2 * Rabs v)%R as C. { replace w with ((w - v) + v)%R by ring. eapply Rle_trans; [apply Rabs_triang|]. pose proof (Rabs_pos v). lra. }
  replace (to_double w - v)%R with ((to_double w - w) + (w - v))%R by ring. eapply Rle_trans; [apply Rabs_triang|]. pose proof (Rabs_pos v). lra.
Qed.
Theorem reads_order (x y q r : f64) : fin64 x = true -> fin64 y = true -> reads_as x q -> reads_as y r -> (V64 x <= V64 y)%R -> (V64 q <= V64 r)%R.
Proof. intros F G A B L. apply (reads_iff x q F) in A. apply (reads_iff y r G) in B. destruct A as (_ & -> & _). destruct B as (_ & -> & _). apply td_le, sd_le, L. Qed.

(** A number near a six-digit number t is rounded to t. *)
Lemma sd_near_pos t y : (0 < t)%R -> six_digit t -> (Rabs (y - t) <= / 10000000 * t)%R -> six_digits y = t.
Proof.
  intros P F H. apply Rabs_le_inv in H. unfold six_digits. apply Rle_antisym.
  - apply round_N_le_midp; [typeclasses eauto|exact F|]. rewrite succ_eq_pos by lra. pose proof (ulp_FLX_ge radix10 6 t) as U. rewrite Rabs_pos_eq in U by lra. change (bpow radix10 (- (6))) with (/ 1000000)%R in U. lra.
  - apply round_N_ge_midp; [typeclasses eauto|exact F|]. pose proof (pred_plus_ulp radix10 (FLX_exp 6) t P F) as E. set (u := pred radix10 (FLX_exp 6) t) in *.
    assert (0 <= u)%R as U0 by (apply pred_ge_0; [typeclasses eauto|exact P|exact F]).
    pose proof (ulp_FLX_ge radix10 6 u) as U. rewrite Rabs_pos_eq in U by lra. change (bpow radix10 (- (6))) with (/ 1000000)%R in U. lra.
Qed.
Lemma sd_near t y : six_digit t -> (Rabs (y - t) <= / 10000000 * Rabs t)%R -> six_digits y = t.
Proof.
  intros F H. destruct (Rtotal_order t 0) as [L|[->|G]].
  - rewrite <- (Ropp_involutive y), sd_opp. rewrite <- (Ropp_involutive t). f_equal. apply sd_near_pos; [lra|apply generic_format_opp, F|]. rewrite (Rabs_left t L) in H. rewrite <- Rabs_Ropp. replace (- (- y - - t))%R with (y - t)%R by ring. exact H.
  - rewrite Rabs_R0, Rmult_0_r in H. pose proof (Rabs_pos (y - 0)). assert (Rabs (y - 0) = 0)%R as Z by lra. assert (y = 0)%R as -> by (destruct (Req_dec (y - 0) 0) as [E|N]; [lra|apply Rabs_no_R0 in N; lra]). apply sd_0.
  - apply sd_near_pos; [exact G|exact F|]. rewrite (Rabs_pos_eq t) in H by lra. exact H.
Qed.
(** Six-digit numbers in the normal range come back. *)
Lemma sd_td t : six_digit t -> (t = 0 \/ bpow radix2 (-1022) <= Rabs t)%R -> six_digits (to_double t) = t.
Proof.
  intros F [->|N]; [rewrite td_0; apply sd_0|]. apply sd_near; [exact F|].
  pose proof (relative_error_N_FLT radix2 (-1074) 53 prec53 (fun z => negb (Z.even z)) t N) as H. eapply Rle_trans; [exact H|]. apply Rmult_le_compat_r; [apply Rabs_pos|].
  apply Rle_trans with (/ 2 * bpow radix2 (-50))%R; [apply Rmult_le_compat_l; [lra|apply bpow_le; lia]|]. change (bpow radix2 (-50)) with (/ 1125899906842624)%R. lra.
Qed.
Theorem reads_decimal (x : f64) t : fin64 x = true -> six_digit t -> (t = 0 \/ bpow radix2 (-1022) <= Rabs t)%R -> V64 x = to_double t -> reads_as x x.
Proof. intros F S N E. apply reads_iff; [exact F|]. rewrite E, sd_td by assumption. auto. Qed.
Theorem reads_twice (x q : f64) : fin64 x = true -> reads_as x q -> (V64 x = 0 \/ bpow radix2 (-1021) <= Rabs (V64 x))%R -> reads_as q q.
Proof.
  intros F H N. apply (reads_iff x q F) in H. destruct H as (FQ & EQ & _). apply (reads_decimal q (six_digits (V64 x)) FQ); [apply generic_format_round; typeclasses eauto| |exact EQ].
  destruct N as [Z|N]; [left; rewrite Z; apply sd_0|right]. pose proof (sd_error (V64 x)) as E. apply Rabs_le_inv in E.
  change (-1021) with (1 + -1022) in N. rewrite bpow_plus in N. change (bpow radix2 1) with 2%R in N. pose proof (bpow_gt_0 radix2 (-1022)).
  pose proof (Rabs_triang_inv (V64 x) (V64 x - six_digits (V64 x))) as T. replace (V64 x - (V64 x - six_digits (V64 x)))%R with (six_digits (V64 x)) in T by ring. pose proof (sd_error (V64 x)) as E'. rewrite <- Rabs_Ropp in E'. replace (- (six_digits (V64 x) - V64 x))%R with (V64 x - six_digits (V64 x))%R in E' by ring. lra.
Qed.

(** ** The conditions of the OBJ theorems *)
Lemma six_text d X : 0 <= d < 1000000 -> Forall (fun c => 43 <= c) (show_six d X).
Proof.
  intros _. assert (forall l, Forall isd l -> Forall (fun c => 43 <= c) l) as W by (intros l H; eapply Forall_impl; [|exact H]; unfold isd; intros; lia).
  assert (forall l, Forall isd l -> Forall (fun c => 43 <= c) (dot l)) as WD by (intros [|c l] H; [constructor|constructor; [lia|apply W, H]]).
  pose proof (dig6_isd d) as I6. assert (forall n, Forall isd (firstn n (dig6 d)) /\ Forall isd (skipn n (dig6 d))) as FS by (intros n; apply Forall_app; rewrite firstn_skipn; exact I6).
  unfold show_six. destruct (_ && _); [destruct (0 <=? X)|].
  - apply Forall_app. split; [apply W, FS|apply WD, strip_isd, FS].
  - constructor; [lia|]. constructor; [lia|]. apply Forall_app. split; [apply Forall_forall; intros c Hc; apply repeat_spec in Hc; lia|apply W, strip_isd, I6].
  - apply Forall_app. split; [apply W, FS|]. apply Forall_app. split; [apply WD, strip_isd, FS|]. constructor; [lia|]. unfold show_exp. apply Forall_app. split; [destruct (X <? 0); repeat constructor; lia|].
    apply W. apply Forall_forall. intros c Hc. apply in_map_iff in Hc. destruct Hc as (z & <- & _). apply mod10_isd.
Qed.
Lemma show_chars (x : f64) : Forall (fun c => 43 <= c) (f64_show x).
Proof.
  destruct x as [s|s|s pl Hp|s m e Hb].
  - destruct s; cbn; repeat constructor; lia.
  - destruct s; cbn; repeat constructor; lia.
  - destruct s; cbn; repeat constructor; lia.
  - assert (f64_show (Binary.B754_finite 53 1024 s m e Hb) = let (d, X) := six (Zpos m) e in sgn s ++ show_six d X) as -> by reflexivity. destruct (finite_range m e Hb) as [I _]. pose proof (six_ok (Zpos m) e eq_refl I) as S6. destruct (six (Zpos m) e) as [d X]. apply Forall_app. split; [destruct s; repeat constructor; lia|]. apply six_text. lia.
Qed.
Theorem show_one_line : one_line (T := f64).
Proof. intros x H. pose proof (show_chars x) as A. rewrite Forall_forall in A. specialize (A 10 H). lia. Qed.
Theorem div255_f64 : div255 (T := f64).
Proof. intros x. eexists. reflexivity. Qed.
