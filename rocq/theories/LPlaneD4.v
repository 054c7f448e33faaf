(** Crossings of planes and segments in doubles. *)
From Coq Require Import ZArith List Bool Reals Lra Lia Psatz.
From Flocq Require Import Core IEEE754.Binary IEEE754.Bits IEEE754.BinarySingleNaN.
From Verif Require Import Base Num MGeometry MStl MF64 SGeom SErr SErrN SPlaneD LBase LGeom LF64 LF64Arith LF64Ord LErr1 LErr2 LErr3 LErr10 LPlaneD LPlaneD2 LPlaneD3.
Import ListNotations.
Open Scope R_scope.

Lemma absle x y e : Rabs (x - y) <= e -> y - e <= x <= y + e. Proof. unfold Rabs. destruct Rcase_abs; lra. Qed.
(** Numbers between 0 and 1 that are not close to either are rounded to such numbers. *)
Lemma round_inside x : uu <= x <= 1 - uu -> 0 < round64 x < 1.
Proof.
  intros H. assert (round64 uu = uu) as R1 by (apply round_generic; [typeclasses eauto|apply (fmt_bpow (-53)); lia]). pose proof uu_pos as UP. split.
  - apply Rlt_le_trans with uu; [exact UP|]. rewrite <- R1. apply round64_le. lra.
  - assert (generic_format radix2 (FLT_exp (-1074) 53) (1 - uu)) as G.
    { apply generic_format_FLT. exists (Float radix2 9007199254740991 (-53)); [|cbn; lia|cbn; lia]. unfold F2R. cbn [Fnum Fexp]. fold uu. rewrite uu_val. lra. }
    assert (round64 (1 - uu) = 1 - uu) as R2 by (apply round_generic; [typeclasses eauto|exact G]). apply Rle_lt_trans with (1 - uu); [|lra]. rewrite <- R2. apply round64_le. lra.
Qed.
Section Plane.
Variable k : Z.
Hypothesis Hk : (-350 <= k <= 350)%Z.
Let S0 := bpow radix2 k.
Let U1 : 0 < uu * S0 <= S0 / 1000000 := uS k.
Let SP : 0 < S0 := S0_pos k.
Lemma seg_doubles (pl : Plane3 f64) (p q : Point3 f64) : plane_fits k pl -> fits_pt k p -> fits_pt k q ->
  let a := side (val_plane pl) (val_pt p) in let b := side (val_plane pl) (val_pt q) in let e := bpow radix2 (k - 46) in
  exists o, plane_intersect_seg pl (mkSeg p q) = Ok o /\
  match o with
  | Some x => (exists t, 0 < t < 1 /\ close_pt x (lerp3 (val_pt p) (val_pt q) t) (bpow radix2 (k - 51))) /\ Rabs (side (val_plane pl) (val_pt x)) <= e /\ ~ (e < a /\ e < b) /\ ~ (a < - e /\ b < - e)
  | None => ~ (e < a /\ b < - e) /\ ~ (a < - e /\ e < b)
  end.
Proof.
  intros A P Q a b e. pose proof (seg_cases pl p q) as C. cbv zeta in C.
  pose proof (dist_ap k Hk pl p A P) as (Fd & Ed & Bd). pose proof (slope_ap k Hk pl p q A P Q) as (Fu & Eu & Bu). fold S0 in Ed, Bd, Eu, Bu. fold a b in Ed, Eu.
  set (d := plane_distance pl p) in *. set (u := (pa pl * (px q - px p) + pb pl * (py q - py p) + pc pl * (pz q - pz p))%num) in *. set (t := b64_div mode_NE (b64_opp d) u) in *.
  apply absle in Ed. apply absle in Eu. assert (e = 128 * (uu * S0)) as Ee by apply e46. set (w := uu * S0) in *.
  assert (- (16 * S0) <= V64 u <= 16 * S0) as Bu' by (revert Bu; unfold Rabs; destruct Rcase_abs; lra).
  eexists. split; [exact C|]. destruct (f64_eqb u n0) eqn:EU.
  - apply (eqb_fin u n0 Fu F0) in EU. rewrite n0_val in EU. split; intros [H1 H2]; lra.
  - assert (V64 u <> 0) as Nu by (intros Z; assert (f64_eqb u n0 = true) as K by (apply (eqb_fin u n0 Fu F0); rewrite n0_val; exact Z); congruence).
    destruct (quo_test d u Fd Fu Nu) as (T1 & T2 & T3). fold t in T1, T2, T3. set (x := - V64 d / V64 u) in *.
    assert (x * V64 u = - V64 d) as Ex by (unfold x; field; exact Nu).
    destruct (f64_leb t n0 || f64_leb n1 t) eqn:ET.
    + assert (~ (uu <= x <= 1 - uu)) as NI.
      { intros I. pose proof uu_pos. destruct (T3 ltac:(lra)) as [Ft Vt]. destruct (round_inside x I) as [R1 R2]. apply orb_true_iff in ET. destruct ET as [K|K].
        - apply (leb_fin t n0 Ft F0) in K. rewrite n0_val in K. lra.
        - apply (leb_fin n1 t F1 Ft) in K. rewrite n1_val in K. lra. }
      assert (16 * S0 * uu = 16 * w) as W1 by (unfold w; ring).
      assert (x * V64 u * 1 = - V64 d) as Ex' by lra.
      split; intros [H1 H2]; apply NI.
      * assert (V64 u < 0) as U0 by lra. assert (0 <= - V64 u <= 16 * S0) as U2 by lra. pose proof uu_pos. split; apply Rnot_lt_le; intros K.
        -- assert (x * - V64 u <= uu * (16 * S0)) as L; [|lra]. apply Rle_trans with (uu * - V64 u); [apply Rmult_le_compat_r; lra|apply Rmult_le_compat_l; lra].
        -- assert ((1 - x) * - V64 u <= uu * (16 * S0)) as L; [|lra]. apply Rle_trans with (uu * - V64 u); [apply Rmult_le_compat_r; lra|apply Rmult_le_compat_l; lra].
      * assert (0 < V64 u) as U0 by lra. pose proof uu_pos. split; apply Rnot_lt_le; intros K.
        -- assert (x * V64 u <= uu * (16 * S0)) as L; [|lra]. apply Rle_trans with (uu * V64 u); [apply Rmult_le_compat_r; lra|apply Rmult_le_compat_l; lra].
        -- assert ((1 - x) * V64 u <= uu * (16 * S0)) as L; [|lra]. apply Rle_trans with (uu * V64 u); [apply Rmult_le_compat_r; lra|apply Rmult_le_compat_l; lra].
    + apply orb_false_iff in ET. destruct ET as [K1 K2].
      assert (0 < x < 1) as I by (split; apply Rnot_le_lt; intros K; [rewrite (T1 K) in K1|rewrite (T2 K) in K2]; discriminate).
      destruct (T3 I) as [Ft Vt].
      assert (0 < V64 t < 1) as It.
      { split; apply Rnot_le_lt; intros K; [apply (leb_fin t n0 Ft F0) in K || (rewrite <- n0_val in K; apply (leb_fin t n0 Ft F0) in K)|rewrite <- n1_val in K; apply (leb_fin n1 t F1 Ft) in K]; congruence. }
      destruct (rounded_pow t x 0 Vt ltac:(lia)) as [_ Et]; [rewrite Rabs_pos_eq by lra; change (bpow radix2 0) with 1; lra|].
      assert (bpow radix2 (0 - 54) = uu / 2) as W0 by (rewrite uu_val; change (bpow radix2 (0 - 54)) with (/ IZR 18014398509481984); lra). rewrite W0 in Et. apply absle in Et.
      destruct P as (P1 & P2 & P3). destruct Q as (Q1 & Q2 & Q3).
      pose proof (along_ap k Hk (px p) (px q) t P1 Q1 Ft ltac:(lra)) as (Fx & Exx & _). pose proof (along_ap k Hk (py p) (py q) t P2 Q2 Ft ltac:(lra)) as (Fy & Eyy & _). pose proof (along_ap k Hk (pz p) (pz q) t P3 Q3 Ft ltac:(lra)) as (Fz & Ezz & _).
      fold S0 in Exx, Eyy, Ezz. fold w in Exx, Eyy, Ezz.
      pose proof A as (A1 & A2 & A3 & _).
      pose proof (side_move (val_plane pl) (val_pt (crossing p q t)) (lerp3 (val_pt p) (val_pt q) (V64 t)) (4 * w) (proj2 A1) (proj2 A2) (proj2 A3) Exx Eyy Ezz) as Mv. apply absle in Mv.
      rewrite side_lerp in Mv. fold a b in Mv.
      assert (- (47 * w) <= a + V64 t * (b - a) <= 47 * w) as Va.
      { assert (Rabs (x * ((b - a) - V64 u)) <= 24 * w) as L1 by (rewrite Rabs_mult, (Rabs_pos_eq x) by lra; rewrite <- (Rmult_1_l (24 * w)); apply Rmult_le_compat; [lra|apply Rabs_pos|lra|unfold Rabs; destruct Rcase_abs; lra]).
        assert (Rabs ((V64 t - x) * (b - a)) <= uu / 2 * (12 * S0)) as L2.
        { rewrite Rabs_mult. apply Rmult_le_compat; [apply Rabs_pos|apply Rabs_pos|unfold Rabs; destruct Rcase_abs; lra|].
          pose proof (side_move (val_plane pl) (val_pt q) (val_pt p) (2 * S0) (proj2 A1) (proj2 A2) (proj2 A3)) as Sm. fold a b in Sm.
          assert (forall y z : f64, fits k y -> fits k z -> Rabs (val z - val y) <= 2 * S0) as Df by (intros y z [_ G1] [_ G2]; fold S0 in G1, G2; revert G1 G2; unfold Rabs; repeat destruct Rcase_abs; lra).
          specialize (Sm (Df _ _ P1 Q1) (Df _ _ P2 Q2) (Df _ _ P3 Q3)). lra. }
        replace (uu / 2 * (12 * S0)) with (6 * w) in L2 by (unfold w; field).
        replace (a + V64 t * (b - a)) with ((a - V64 d) + x * ((b - a) - V64 u) + (V64 t - x) * (b - a)) by (replace (V64 d) with (- (x * V64 u)) by lra; ring).
        revert L1 L2. unfold Rabs. repeat destruct Rcase_abs; lra. }
      split; [|split; [|split]].
      * exists (V64 t). split; [exact It|]. replace (bpow radix2 (k - 51)) with (4 * w) by (symmetry; apply e51). split; [|split]; (split; assumption).
      * rewrite Ee. unfold Rabs. destruct Rcase_abs; lra.
      * intros [H1 H2]. assert (0 < a + V64 t * (b - a) - 47 * w); [|lra]. destruct (Rle_dec 0 (b - a)); [assert (0 <= V64 t * (b - a)) by (apply Rmult_le_pos; lra); lra|assert (V64 t * (a - b) <= 1 * (a - b)) by (apply Rmult_le_compat_r; lra); lra].
      * intros [H1 H2]. assert (a + V64 t * (b - a) + 47 * w < 0); [|lra]. destruct (Rle_dec 0 (b - a)); [assert (V64 t * (b - a) <= 1 * (b - a)) by (apply Rmult_le_compat_r; lra); lra|assert (0 <= V64 t * (a - b)) by (apply Rmult_le_pos; lra); lra].
Qed.
End Plane.
