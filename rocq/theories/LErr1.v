(** Rounding errors of single operations on doubles, and sums over the triangles of a mesh over any scalar type. *)
From Coq Require Import ZArith List Bool Reals Lra Lia Psatz.
From Flocq Require Import Core Relative IEEE754.Binary IEEE754.Bits IEEE754.BinarySingleNaN.
From Verif Require Import Base Num MGeometry MKernel MMesh MMeshRun MMeasure MStl MF64 SMesh SReach SGeom SMeasure SErr
  LBase LMesh LReach LGeom LMeasure LF64 LF64Arith.
Import ListNotations.
Open Scope R_scope.

Definition uu : R := bpow radix2 (-53).
Definition eta : R := bpow radix2 (-1075).
Lemma uu_val : uu = / 9007199254740992. Proof. reflexivity. Qed.
Lemma uu_pos : 0 < uu. Proof. apply bpow_gt_0. Qed.
Lemma eta_pos : 0 < eta. Proof. apply bpow_gt_0. Qed.

Lemma round_rel x : Rabs (round64 x - x) <= uu * Rabs x + eta.
Proof.
  destruct (error_N_FLT radix2 (-1074) 53 eq_refl (fun z => negb (Z.even z)) x) as (e & h & He & Hh & _ & E).
  change (Znearest (fun z => negb (Z.even z))) with ZnearestE in E. rewrite E.
  replace (x * (1 + e) + h - x) with (e * x + h) by ring.
  eapply Rle_trans; [apply Rabs_triang|]. rewrite Rabs_mult.
  apply Rplus_le_compat.
  - apply Rmult_le_compat_r; [apply Rabs_pos|]. eapply Rle_trans; [exact He|]. unfold uu.
    change (/ 2) with (bpow radix2 (-1)). rewrite <- bpow_plus. apply bpow_le. lia.
  - eapply Rle_trans; [exact Hh|]. unfold eta. change (/ 2) with (bpow radix2 (-1)). rewrite <- bpow_plus. apply bpow_le. lia.
Qed.
Lemma round_nov x b : Rabs x <= b -> b <= bpow radix2 1000 -> Rabs (round64 x) < bpow radix2 1024.
Proof. intros H Hb. apply (round64_small x 1000); [lia|lra|lia]. Qed.

(** The result [r] of an operation whose exact value is [x]: error bounds from a bound on [x]. *)
Lemma rounded_pow (r : f64) x j : V64 r = round64 x -> (-1021 <= j)%Z -> Rabs x <= bpow radix2 j ->
  Rabs (V64 r) <= bpow radix2 j /\ Rabs (V64 r - x) <= bpow radix2 (j - 54).
Proof. intros E Hj H. rewrite E. split; [apply round64_bound; [apply fmt_bpow; lia|exact H]|apply round64_err; assumption]. Qed.
Lemma rounded_rel (r : f64) x b : V64 r = round64 x -> Rabs x <= b -> Rabs (V64 r - x) <= uu * b + eta.
Proof. intros E H. rewrite E. eapply Rle_trans; [apply round_rel|]. apply Rplus_le_compat_r, Rmult_le_compat_l; [apply Rlt_le, uu_pos|exact H]. Qed.

Lemma sub_e x y b : fin64 x = true -> fin64 y = true -> Rabs (V64 x - V64 y) <= b -> b <= bpow radix2 1000 ->
  V64 (b64_minus mode_NE x y) = round64 (V64 x - V64 y) /\ fin64 (b64_minus mode_NE x y) = true.
Proof. intros Fx Fy H Hb. apply sub64; [exact Fx|exact Fy|]. eapply round_nov; eauto. Qed.
Lemma add_e x y b : fin64 x = true -> fin64 y = true -> Rabs (V64 x + V64 y) <= b -> b <= bpow radix2 1000 ->
  V64 (b64_plus mode_NE x y) = round64 (V64 x + V64 y) /\ fin64 (b64_plus mode_NE x y) = true.
Proof. intros Fx Fy H Hb. apply add64; [exact Fx|exact Fy|]. eapply round_nov; eauto. Qed.
Lemma mul_e x y b : fin64 x = true -> fin64 y = true -> Rabs (V64 x * V64 y) <= b -> b <= bpow radix2 1000 ->
  V64 (b64_mult mode_NE x y) = round64 (V64 x * V64 y) /\ fin64 (b64_mult mode_NE x y) = true.
Proof. intros Fx Fy H Hb. apply mul64; [exact Fx|exact Fy|]. eapply round_nov; eauto. Qed.
Lemma div_e x y b : fin64 x = true -> V64 y <> 0 -> Rabs (V64 x / V64 y) <= b -> b <= bpow radix2 1000 ->
  V64 (b64_div mode_NE x y) = round64 (V64 x / V64 y) /\ fin64 (b64_div mode_NE x y) = true.
Proof. intros Fx Fy H Hb. apply div64; [exact Fx|exact Fy|]. eapply round_nov; eauto. Qed.
Lemma sqrt_e x : fin64 x = true -> 0 <= V64 x -> V64 (b64_sqrt mode_NE x) = round64 (sqrt (V64 x)) /\ fin64 (b64_sqrt mode_NE x) = true.
Proof.
  intros Fx Px. destruct (Binary.Bsqrt_correct 53 1024 eq_refl eq_refl unop_nan_pl64 mode_NE x) as (E & F & _).
  change (SpecFloat.fexp 53 1024) with (FLT_exp (-1074) 53) in E. change (round_mode mode_NE) with ZnearestE in E.
  split; [exact E|]. unfold b64_sqrt. rewrite F.
  destruct x as [s|s|s pl H|[|] m e H]; cbn in *; try reflexivity; try discriminate.
  exfalso. assert (F2R (Float radix2 (Z.neg m) e) < 0) by (apply F2R_lt_0; reflexivity). lra.
Qed.

(** ** Sums over the linked triangles, for any scalar type *)
Section Sum.
Context {T : Type} {N : Num T}.
Lemma sum_rule (m : Mesh T) f (P : list triple -> T -> Prop) : wf m -> P [] n0 ->
  (forall l s x y z p q r, P l s -> vget (kverts (mkern m)) x = Ok p -> vget (kverts (mkern m)) y = Ok q -> vget (kverts (mkern m)) z = Ok r ->
     (length l < length (live (abs m)))%nat ->
     exists v, f (mkTri p q r) = Ok v /\ P (l ++ [(x, y, z)]) (nadd s v)) ->
  exists s, sum_triangles m f = Ok s /\ P (live (abs m)) s.
Proof.
  intros W P0 PS. unfold sum_triangles.
  edestruct (for_inv (fun i s => P (live_lt (firstn (Z.to_nat i) (ktris (mkern m)))) s)) as [s [E H]]; [| | |exists s; split; [exact E|]].
  - unfold nb_triangles. apply vsize_nonneg.
  - exact P0.
  - intros i s Hi H. destruct (wf_tri_get m i W Hi) as [t [E Wt]].
    rewrite (is_unlinked_ok _ _ _ E). cbn [bind].
    rewrite (firstn_vget _ _ _ E), live_lt_app.
    destruct (lunl t =? -1)%Z eqn:U.
    + eexists. split; [reflexivity|]. unfold live_lt at 2. cbn. rewrite U. cbn. rewrite app_nil_r. exact H.
    + assert (L1 : live_lt [t] = [(lv1 t, lv2 t, lv3 t)]) by (unfold live_lt; cbn; rewrite U; reflexivity). rewrite L1.
      destruct (get_triangle_ok m i t W E) as (p & q & r & E1 & E2 & E3 & ->). cbn [bind].
      destruct (PS _ s _ _ _ _ _ _ H E1 E2 E3) as [v [EV HV]].
      * rewrite live_abs. rewrite <- (firstn_skipn (Z.to_nat (i + 1)) (ktris (mkern m))) at 2.
        rewrite live_lt_app, (firstn_vget _ _ _ E), live_lt_app, L1, !app_length. cbn [length]. lia.
      * rewrite EV. cbn [bind]. eexists. split; [reflexivity|exact HV].
  - unfold nb_triangles, k_nbt in H. rewrite firstn_vsize in H. rewrite live_abs. exact H.
Qed.
End Sum.
