(** Uniform knots in doubles; curves of doubles built through the interface. *)
From Coq Require Import ZArith List Bool Reals Lra Lia.
From Flocq Require Import Core IEEE754.Binary IEEE754.Bits IEEE754.BinarySingleNaN.
From Verif Require Import Base Num MGeometry MNurbs MStl MF64 SGeom SNurbs SF64 LBase LGeom LF64 LF64Ord LF64Arith LBlossom LNurbs LNurbs2 LNurbs3 LNurbs4 LBoxF64 LKnotF64 LEvalT LCurveF64.
Import ListNotations.
Open Scope Z_scope.

Definition zunif (p n i : Z) : Z := Z.max 0 (Z.min (i - p) (n - p)).
Lemma uniform_knots_double p n : 0 <= p < n -> uniform_knots p n = Ok (map (fun i => f64_ofZ (zunif p n i)) (zrange 0 (n + p + 1))).
Proof.
  intros H. unfold uniform_knots. rewrite (for_push (fun _ => n0)). cbn [bind]. rewrite (for_push (fun i => nofZ i)). cbn [bind].
  rewrite (for_push (fun _ => nofZ (n - p))). f_equal. cbn [app].
  rewrite (zrange_app 0 (p + 1) (n + p + 1)) by lia. rewrite (zrange_app (p + 1) n (n + p + 1)) by lia. rewrite !map_app. rewrite <- app_assoc. f_equal; [|f_equal].
  - apply map_ext_in. intros i Hi. apply in_zrange in Hi. unfold zunif. replace (Z.max 0 _) with 0 by lia. reflexivity.
  - replace (zrange (p + 1) n) with (zrange (1 + p) (n - p + p)) by (f_equal; lia). rewrite zrange_shift, map_map.
    apply map_ext_in. intros i Hi. apply in_zrange in Hi. unfold zunif. replace (Z.max 0 _) with i by lia. reflexivity.
  - replace (zrange n (n + p + 1)) with (zrange (0 + n) (p + 1 + n)) by (f_equal; lia). rewrite zrange_shift, map_map.
    apply map_ext_in. intros i Hi. apply in_zrange in Hi. unfold zunif. replace (Z.max 0 _) with (n - p) by lia. reflexivity.
Qed.
Lemma zunif_small p n i : 0 <= p < n -> n - p <= 2 ^ 53 -> 0 <= zunif p n i <= n - p.
Proof. unfold zunif. lia. Qed.
Lemma fmt_Z z : Z.abs z <= 2 ^ 53 -> round64 (IZR z) = IZR z.
Proof. intros H. destruct (ofZ_exact z H) as [A _]. rewrite <- A. apply round64_V. Qed.

Lemma set_uniform_double (c : NurbsCurve f64) : 0 <= nc_degree c < nc_nb c -> nc_nb c - nc_degree c <= 2 ^ 53 ->
  exists c', nc_set_uniform c = Ok c' /\ Forall (fun k : f64 => fin64 k = true) (nc_knots c') /\
    clamped (dvals (nc_knots c')) (nc_degree c) (nc_nb c) /\ tight (dvals (nc_knots c')) (nc_degree c) (nc_nb c) /\
    (forall i, nc_degree c <= i <= nc_nb c ->
       kn (dvals (nc_knots c')) i = round64 (IZR (i - nc_degree c) / IZR (nc_nb c - nc_degree c))) /\
    nc_degree c' = nc_degree c /\ nc_weights c' = nc_weights c /\ nc_points c' = nc_points c /\
    nc_nb c' = nc_nb c /\ nc_tp c' = nc_tp c /\ nc_tw c' = nc_tw c.
Proof.
  set (p := nc_degree c). set (n := nc_nb c). intros H Hb. unfold nc_set_uniform. fold p n. rewrite (uniform_knots_double p n H). cbn [bind].
  set (l := map (fun i => f64_ofZ (zunif p n i)) (zrange 0 (n + p + 1))).
  assert (vsize l = n + p + 1) as L by (apply vsize_tab; lia).
  assert (forall i, V64 (f64_ofZ (zunif p n i)) = IZR (zunif p n i) /\ fin64 (f64_ofZ (zunif p n i)) = true) as X.
  { intros i. apply ofZ_exact. pose proof (zunif_small p n i H Hb). lia. }
  assert (forall i, 0 <= i < n + p + 1 -> vget l i = Ok (f64_ofZ (zunif p n i))) as G by (intros; unfold l; apply (vget_tab (fun i => f64_ofZ (zunif p n i))); lia).
  assert (forall i, 0 <= i < n + p + 1 -> kn (dvals l) i = IZR (zunif p n i)) as K by (intros i Hi; rewrite (vals_kn l i _ (G i Hi)); apply X).
  assert (Forall (fun k : f64 => fin64 k = true) l) as F by (apply Forall_map, Forall_forall; intros i _; apply X).
  assert (sorted (dvals l)) as Sd by (intros i j Hi Hj; rewrite vals_size, L in Hj; rewrite !K by lia; apply IZR_le; unfold zunif; lia).
  assert (zunif p n 0 = 0) as U0 by (unfold zunif; lia). assert (zunif p n (n + p) = n - p) as U1 by (unfold zunif; lia).
  pose proof (G 0 ltac:(lia)) as G0. pose proof (G (n + p) ltac:(lia)) as G1. rewrite U0 in G0. rewrite U1 in G1.
  pose proof (X 0) as X0. rewrite U0 in X0. destruct X0 as [V0 F0]. pose proof (X (n + p)) as X1. rewrite U1 in X1. destruct X1 as [V1 F1].
  assert (0 < IZR (n - p))%R as Pos by (apply IZR_lt; lia).
  assert (round64 (V64 (f64_ofZ (n - p)) - V64 (f64_ofZ 0)) = IZR (n - p)) as Rd by (rewrite V0, V1, Rminus_0_r; apply fmt_Z; lia).
  replace (n + p) with (vsize l - 1) in G1 by lia.
  destruct (set_knots_double c l (f64_ofZ 0) (f64_ofZ (n - p)) F Sd G0 G1) as (c' & v & E & Ev & Fv & Sv & Sov & K0 & K1 & Rv & Kv & _).
  - rewrite ltb_fin by assumption. rewrite V0, V1. apply Rltb_lt. exact Pos.
  - apply sub_fin_iff; [assumption|assumption|]. rewrite Rd. rewrite Rabs_pos_eq by lra. apply Rle_lt_trans with (bpow radix2 53); [|apply bpow_lt; lia].
    rewrite <- (IZR_Zpower radix2) by lia. apply IZR_le. exact Hb.
  - exists c'. subst v. rewrite L in *.
    assert (forall i, 0 <= i < n + p + 1 -> kn (dvals (nc_knots c')) i = round64 (IZR (zunif p n i) / IZR (n - p))) as KK.
    { intros i Hi. rewrite Kv by exact Hi. rewrite Rd. rewrite K by exact Hi. rewrite V0, Rminus_0_r. rewrite (fmt_Z (zunif p n i)); [reflexivity|]. pose proof (zunif_small p n i H Hb). lia. }
    split; [exact E|]. split; [exact Fv|]. split; [|split; [|split]].
    + split; [exact H|]. split; [exact Sv|]. split; [intros i j Hi Hj; apply Sov; lia|]. split; intros i Hi; rewrite KK by lia.
      * replace (zunif p n i) with 0 by (unfold zunif; lia). unfold Rdiv. rewrite Rmult_0_l. apply round64_0.
      * replace (zunif p n i) with (n - p) by (unfold zunif; lia). unfold Rdiv. rewrite Rinv_r by lra. apply round64_1.
    + assert (bpow radix2 (-53) <= / IZR (n - p))%R as Lo.
      { rewrite <- (Rinv_inv (bpow radix2 (-53))). rewrite <- bpow_opp. apply Rinv_le_contravar; [exact Pos|]. rewrite <- (IZR_Zpower radix2) by lia. apply IZR_le. exact Hb. }
      split; rewrite KK by lia.
      * apply Rlt_gt, Rlt_le_trans with (bpow radix2 (-53)); [apply bpow_gt_0|]. rewrite <- (round64_id (bpow radix2 (-53))) by (apply fmt_bpow; lia). apply round64_le.
        replace (zunif p n (p + 1)) with 1 by (unfold zunif; lia). unfold Rdiv. rewrite Rmult_1_l. exact Lo.
      * replace (zunif p n (n - 1)) with (n - p - 1) by (unfold zunif; lia). apply Rle_lt_trans with (1 - bpow radix2 (-53))%R; [|pose proof (bpow_gt_0 radix2 (-53)); lra].
        assert (generic_format radix2 (FLT_exp (-1074) 53) (1 - bpow radix2 (-53))) as Fm.
        { replace (1 - bpow radix2 (-53))%R with (F2R (Float radix2 (2 ^ 53 - 1) (-53))).
          - apply generic_format_FLT. exists (Float radix2 (2 ^ 53 - 1) (-53)); [reflexivity|cbn; lia|cbn; lia].
          - unfold F2R. cbn [Fnum Fexp]. rewrite minus_IZR. replace (IZR (2 ^ 53)) with (bpow radix2 53) by (rewrite <- (IZR_Zpower radix2 53) by lia; reflexivity). rewrite Rmult_minus_distr_r, <- bpow_plus, Rmult_1_l. reflexivity. }
        rewrite <- (round64_id _ Fm). apply round64_le. rewrite minus_IZR. unfold Rdiv. rewrite Rmult_minus_distr_r, Rinv_r, Rmult_1_l by lra. lra.
    + intros i Hi. rewrite KK by lia. replace (zunif p n i) with (i - p) by (unfold zunif; lia). reflexivity.
    + unfold nc_set_knots in E. destruct (scale_knots l) as [ks|]; [|discriminate]. cbn [bind] in E. injection E as <-. cbn. repeat split.
Qed.

(** A client that sets degree, points and weights and then calls set_uniform has a curve ready to be evaluated. *)
Lemma build_double (p : Z) (pts : list dpt) (ws : list f64) : 0 <= p < vsize pts -> vsize ws = vsize pts -> vsize pts <= 2 ^ 53 ->
  exists c, (do c <- nc_set_degree nc_new p; nc_set_uniform (nc_set_weights (nc_set_points c pts) ws)) = Ok c /\ dvalid c /\
    nc_degree c = p /\ nc_points c = pts /\ nc_weights c = ws.
Proof.
  unfold dpt in *. intros H W Hb. unfold nc_set_degree.
  assert (forall A (d : A), vresize [] (p + 1) d = Ok (repeat d (Z.to_nat (p + 1)))) as VR.
  { intros A d. unfold vresize. change (vsize (@nil A)) with 0. destruct (Z.ltb_spec (p + 1) 0); [lia|].
    rewrite firstn_nil. cbn [app length]. rewrite Nat.sub_0_r. reflexivity. }
  change (nc_tp (@nc_new f64)) with (@nil dpt). change (nc_tw (@nc_new f64)) with (@nil f64). rewrite !VR. cbn [bind].
  match goal with |- context [nc_set_uniform ?x] => destruct (set_uniform_double x) as (c & E & F & C & _ & _ & D & W' & P & Nb & TP & TW) end.
  { cbn. exact H. } { cbn [nc_set_weights nc_set_points nc_degree nc_nb]. lia. }
  rewrite E. exists c. cbn [nc_set_weights nc_set_points nc_degree nc_nb nc_weights nc_points nc_tp nc_tw] in *. split; [reflexivity|]. split; [|auto].
  unfold dvalid. rewrite P, W', D, Nb, TP, TW. split; [reflexivity|]. split; [exact W|]. split; [exact F|]. split; [exact C|]. unfold vsize. rewrite !repeat_length. lia.
Qed.
