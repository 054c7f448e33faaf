(** Doubles: order, truncation and the integers among them. *)
From Coq Require Import ZArith Bool Reals Lra Lia.
From Flocq Require Import Core IEEE754.Binary IEEE754.Bits IEEE754.BinarySingleNaN.
From Verif Require Import Base Num MStl MF64 LF64.
Open Scope Z_scope.

Notation nan64 := (Binary.is_nan 53 1024).
(** The value of a double among the reals, infinities at 2^1024. *)
Definition ext (x : f64) : R :=
  match x with
  | Binary.B754_infinity _ _ s => if s then (- bpow radix2 1024)%R else bpow radix2 1024
  | _ => V64 x
  end.
Lemma ext_fin x : fin64 x = true -> ext x = V64 x.
Proof. destruct x; cbn; intros; congruence. Qed.
Lemma ext_bound x : (- bpow radix2 1024 < V64 x < bpow radix2 1024)%R.
Proof. pose proof (Binary.abs_B2R_lt_emax 53 1024 x) as L. apply Rabs_def2 in L. lra. Qed.
Lemma bpow_pos1024 : (0 < bpow radix2 1024)%R. Proof. apply bpow_gt_0. Qed.
Lemma cmp64 x y : nan64 x = false -> nan64 y = false -> b64_compare x y = Some (Rcompare (ext x) (ext y)).
Proof.
  intros Nx Ny. destruct (fin64 x) eqn:Fx; destruct (fin64 y) eqn:Fy.
  - rewrite !ext_fin by assumption. apply Binary.Bcompare_correct; assumption.
  - rewrite (ext_fin x) by assumption. pose proof (ext_bound x) as B. destruct y as [sy|sy|sy py Hy|sy my ey Hy]; try discriminate. cbn [ext].
    destruct x as [sx|sx|sx px Hx|sx mx ex Hx]; try discriminate; destruct sy; cbn -[bpow Rcompare Binary.B2R];
      (rewrite Rcompare_Gt by lra; reflexivity) || (rewrite Rcompare_Lt by lra; reflexivity).
  - rewrite (ext_fin y) by assumption. pose proof (ext_bound y) as B. destruct x as [sy|sy|sy py Hy|sy my ey Hy]; try discriminate. cbn [ext].
    destruct y as [sx|sx|sx px Hx|sx mx ex Hx]; try discriminate; destruct sy; cbn -[bpow Rcompare Binary.B2R];
      (rewrite Rcompare_Gt by lra; reflexivity) || (rewrite Rcompare_Lt by lra; reflexivity).
  - pose proof bpow_pos1024. destruct x as [sx|sx|sx px Hx|sx mx ex Hx]; destruct y as [sy|sy|sy py Hy|sy my ey Hy]; try discriminate.
    destruct sx; destruct sy; cbn -[bpow Rcompare];
      (rewrite Rcompare_Eq by lra; reflexivity) || (rewrite Rcompare_Gt by lra; reflexivity) || (rewrite Rcompare_Lt by lra; reflexivity).
Qed.
Lemma cmp64_nan x y : nan64 x = true \/ nan64 y = true -> b64_compare x y = None.
Proof. destruct x; destruct y; cbn; intros [H|H]; congruence || reflexivity. Qed.
Lemma ltb64 x y : f64_ltb x y = true <-> nan64 x = false /\ nan64 y = false /\ (ext x < ext y)%R.
Proof.
  unfold f64_ltb. destruct (nan64 x) eqn:Nx; [rewrite cmp64_nan by tauto; split; [discriminate|intros [? _]; discriminate]|].
  destruct (nan64 y) eqn:Ny; [rewrite cmp64_nan by tauto; split; [discriminate|intros [_ [? _]]; discriminate]|].
  rewrite cmp64 by assumption. destruct (Rcompare_spec (ext x) (ext y)); split; intros K; try discriminate; repeat split; try lra; destruct K as [_ [_ K]]; lra.
Qed.
Lemma leb64 x y : f64_leb x y = true <-> nan64 x = false /\ nan64 y = false /\ (ext x <= ext y)%R.
Proof.
  unfold f64_leb. destruct (nan64 x) eqn:Nx; [rewrite cmp64_nan by tauto; split; [discriminate|intros [? _]; discriminate]|].
  destruct (nan64 y) eqn:Ny; [rewrite cmp64_nan by tauto; split; [discriminate|intros [_ [? _]]; discriminate]|].
  rewrite cmp64 by assumption. destruct (Rcompare_spec (ext x) (ext y)); split; intros K; try discriminate; repeat split; try lra; destruct K as [_ [_ K]]; lra.
Qed.
Lemma eqb64 x y : f64_eqb x y = true <-> nan64 x = false /\ nan64 y = false /\ ext x = ext y.
Proof.
  unfold f64_eqb. destruct (nan64 x) eqn:Nx; [rewrite cmp64_nan by tauto; split; [discriminate|intros [? _]; discriminate]|].
  destruct (nan64 y) eqn:Ny; [rewrite cmp64_nan by tauto; split; [discriminate|intros [_ [? _]]; discriminate]|].
  rewrite cmp64 by assumption. destruct (Rcompare_spec (ext x) (ext y)); split; intros K; try discriminate; repeat split; try lra; destruct K as [_ [_ K]]; lra.
Qed.
Lemma eqb64_refl x : f64_eqb x x = negb (nan64 x).
Proof. destruct (nan64 x) eqn:Nx; cbn. - unfold f64_eqb. rewrite cmp64_nan by tauto. reflexivity. - apply eqb64. auto. Qed.
(** Integers up to 2^53 are doubles. *)
Lemma ofZ_exact (z : Z) : Z.abs z <= 2 ^ 53 -> V64 (f64_ofZ z) = IZR z /\ fin64 (f64_ofZ z) = true.
Proof.
  intros H. pose proof (Binary.binary_normalize_correct 53 1024 eq_refl eq_refl mode_NE z 0 false) as C.
  change (SpecFloat.fexp 53 1024) with (FLT_exp (-1074) 53) in C. change (round_mode mode_NE) with ZnearestE in C.
  assert (F2R (Float radix2 z 0) = IZR z) as E by (unfold F2R; cbn; lra). rewrite E in C.
  assert (generic_format radix2 (FLT_exp (-1074) 53) (IZR z)) as G.
  { destruct (Z.eq_dec (Z.abs z) (2 ^ 53)) as [Q|Q].
    - replace (IZR z) with (F2R (Float radix2 (Z.sgn z) 53)).
      + apply generic_format_FLT. exists (Float radix2 (Z.sgn z) 53); [reflexivity| |cbn; lia]. cbn. destruct z; cbn; lia.
      + unfold F2R. cbn [Fnum Fexp]. rewrite <- IZR_Zpower by lia. rewrite <- mult_IZR. f_equal. change (Zpower radix2 53) with (2 ^ 53). rewrite <- Q. destruct z; reflexivity || lia.
    - apply generic_format_FLT. exists (Float radix2 z 0); [symmetry; exact E| |cbn; lia]. cbn [Fnum]. change (Zpower radix2 53) with (2 ^ 53). lia. }
  rewrite round_generic in C; [|typeclasses eauto|exact G]. rewrite Rlt_bool_true in C; [destruct C as (C1 & C2 & _); split; assumption|].
  rewrite <- abs_IZR. change (bpow radix2 1024) with (IZR (2 ^ 1024)). apply IZR_lt. apply Z.le_lt_trans with (2 ^ 53); [exact H|]. reflexivity.
Qed.
Lemma trunc64 x z : f64_trunc x = Ok z -> fin64 x = true /\ z = Ztrunc (V64 x).
Proof.
  unfold f64_trunc. destruct (fin64 x) eqn:F; [|discriminate]. cbn [andb]. destruct (_ && _); [|discriminate]. intros E. split; [reflexivity|]. injection E as <-.
  pose proof (Binary.Btrunc_correct 53 1024 eq_refl x) as C. apply eq_IZR. rewrite C.
  unfold round, F2R, scaled_mantissa, cexp, FIX_exp. cbn. rewrite !Rmult_1_r. reflexivity.
Qed.
