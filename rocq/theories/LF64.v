(** IEEE doubles and floats: what the conversions do to values. *)
From Coq Require Import ZArith Bool Reals Lra Lia.
From Flocq Require Import Core IEEE754.Binary IEEE754.Bits IEEE754.BinarySingleNaN.
From Verif Require Import Base Num MStl MF64.
Open Scope Z_scope.

Notation V64 := (Binary.B2R 53 1024).
Notation V32 := (Binary.B2R 24 128).
Notation fin64 := (Binary.is_finite 53 1024).
Notation fin32 := (Binary.is_finite 24 128).
Notation round32 := (round radix2 (FLT_exp (-149) 24) ZnearestE).
Notation round64 := (round radix2 (FLT_exp (-1074) 53) ZnearestE).

Lemma F2R_signed s m e : F2R (Float radix2 (SpecFloat.cond_Zopp s (Zpos m)) e) = F2R (Float radix2 (cond_Zopp s (Zpos m)) e).
Proof. reflexivity. Qed.

Lemma sign_signed s m e : match Rcompare (F2R (Float radix2 (cond_Zopp s (Zpos m)) e)) 0 with Eq => s | Lt => true | Gt => false end = s.
Proof.
  destruct s; cbn [cond_Zopp].
  - rewrite Rcompare_Lt; [reflexivity|]. apply F2R_lt_0. reflexivity.
  - rewrite Rcompare_Gt; [reflexivity|]. apply F2R_gt_0. reflexivity.
Qed.

Lemma to_f32_ok (x : f64) : fin64 x = true -> (Rabs (round32 (V64 x)) < bpow radix2 128)%R ->
  V32 (f64_to_f32 x) = round32 (V64 x) /\ fin32 (f64_to_f32 x) = true /\ Binary.Bsign 24 128 (f64_to_f32 x) = Binary.Bsign 53 1024 x.
Proof.
  destruct x as [s|s|s pl H|s m e H]; cbn; intros Hf Hb; try discriminate.
  - rewrite round_0; [auto|]. typeclasses eauto.
  - pose proof (Binary.binary_normalize_correct 24 128 eq_refl eq_refl mode_NE (cond_Zopp s (Zpos m)) e s) as C.
    change (SpecFloat.fexp 24 128) with (FLT_exp (-149) 24) in C. change (round_mode mode_NE) with ZnearestE in C.
    rewrite Rlt_bool_true in C by exact Hb. destruct C as (C1 & C2 & C3). rewrite sign_signed in C3. auto.
Qed.

Lemma to_f64_ok (y : binary32) : fin32 y = true ->
  V64 (f32_to_f64 y) = V32 y /\ fin64 (f32_to_f64 y) = true /\ Binary.Bsign 53 1024 (f32_to_f64 y) = Binary.Bsign 24 128 y.
Proof.
  destruct y as [s|s|s pl H|s m e H] eqn:E; cbn; intros Hf; try discriminate; [auto|].
  pose proof (Binary.binary_normalize_correct 53 1024 eq_refl eq_refl mode_NE (cond_Zopp s (Zpos m)) e s) as C.
  change (SpecFloat.fexp 53 1024) with (FLT_exp (-1074) 53) in C. change (round_mode mode_NE) with ZnearestE in C.
  assert (generic_format radix2 (FLT_exp (-149) 24) (V32 y)) as G by apply (Binary.generic_format_B2R 24 128 y).
  assert (generic_format radix2 (FLT_exp (-1074) 53) (V32 y)) as G'.
  { revert G. apply generic_inclusion_mag. intros _. unfold FLT_exp. lia. }
  rewrite E in G'. cbn [Binary.B2R] in G'. rewrite round_generic in C; [|typeclasses eauto|exact G'].
  rewrite Rlt_bool_true in C.
  - destruct C as (C1 & C2 & C3). rewrite sign_signed in C3. auto.
  - pose proof (Binary.abs_B2R_lt_emax 24 128 y) as L. rewrite E in L. cbn [Binary.B2R] in L. eapply Rlt_trans; [exact L|]. apply bpow_lt. lia.
Qed.

(** Going through a file: *)
Lemma bits_inv (y : binary32) : b32_of_bits (bits_of_b32 y) = y.
Proof. exact (binary_float_of_bits_of_binary_float 23 8 eq_refl eq_refl eq_refl y). Qed.
Lemma f_bits_range (x : f64) : 0 <= f_bits x < 4294967296.
Proof. apply (bits_of_binary_float_range 23 8); reflexivity. Qed.
Lemma through_single (x : f64) : f_val (f_bits x) = f32_to_f64 (f64_to_f32 x).
Proof. cbn. rewrite bits_inv. reflexivity. Qed.

Lemma single_value (x : f64) : fin64 x = true -> (Rabs (round32 (V64 x)) < bpow radix2 128)%R ->
  fin64 (f_val (f_bits x)) = true /\ V64 (f_val (f_bits x)) = round32 (V64 x).
Proof.
  intros Hf Hb. rewrite through_single. destruct (to_f32_ok x Hf Hb) as (A & B & _). destruct (to_f64_ok _ B) as (C & D & _). split; [exact D|congruence].
Qed.

Lemma single_exact (x : f64) : fin64 x = true -> generic_format radix2 (FLT_exp (-149) 24) (V64 x) -> (Rabs (V64 x) < bpow radix2 128)%R -> f_val (f_bits x) = x.
Proof.
  intros Hf G Hb. rewrite through_single.
  assert (round32 (V64 x) = V64 x) as E. { apply round_generic; [typeclasses eauto|exact G]. }
  destruct (to_f32_ok x Hf) as (A & B & S1). { rewrite E. exact Hb. }
  destruct (to_f64_ok _ B) as (C & D & S2). apply Binary.B2R_Bsign_inj; auto; congruence.
Qed.

Lemma to_f32_of_f32 (y : binary32) : Binary.is_nan 24 128 y = false -> f64_to_f32 (f32_to_f64 y) = y.
Proof.
  intros N. destruct (fin32 y) eqn:Hf.
  - destruct (to_f64_ok y Hf) as (A & B & C).
    assert (round32 (V64 (f32_to_f64 y)) = V32 y) as E. { rewrite A. apply round_generic; [typeclasses eauto|]. apply (Binary.generic_format_B2R 24 128 y). }
    destruct (to_f32_ok _ B) as (A' & B' & C'). { rewrite E. apply Binary.abs_B2R_lt_emax. }
    apply Binary.B2R_Bsign_inj; auto; congruence.
  - destruct y; cbn in *; try discriminate. reflexivity.
Qed.

Lemma to_f32_nan (x : f64) : Binary.is_nan 53 1024 x = false -> Binary.is_nan 24 128 (f64_to_f32 x) = false.
Proof. destruct x as [s|s|s pl H|s m e H]; cbn; intros N; try discriminate; try reflexivity. apply Binary.is_nan_BSN2B'. Qed.

(** A second trip changes nothing. *)
Lemma single_idem (x : f64) : f_val (f_bits (f_val (f_bits x))) = f_val (f_bits x).
Proof.
  rewrite (through_single x), through_single. destruct (Binary.is_nan 53 1024 x) eqn:N.
  - destruct x; try discriminate. reflexivity.
  - rewrite to_f32_of_f32; [reflexivity|]. apply to_f32_nan, N.
Qed.

(** Integers up to 2^53 are exact. *)
Lemma format_IZR z : Z.abs z <= 2 ^ 53 -> generic_format radix2 (FLT_exp (-1074) 53) (IZR z).
Proof.
  intros H. destruct (Z.eq_dec (Z.abs z) (2 ^ 53)) as [E|NE].
  - assert (z = 2 ^ 53 \/ z = - 2 ^ 53) as [-> | ->] by lia.
    + apply generic_format_FLT. exists (Float radix2 1 53); [|reflexivity|simpl; lia]. unfold F2R. simpl. lra.
    + apply generic_format_FLT. exists (Float radix2 (-1) 53); [|reflexivity|simpl; lia]. unfold F2R. simpl. lra.
  - apply generic_format_FLT. exists (Float radix2 z 0); [|simpl; lia|simpl; lia]. unfold F2R. simpl. lra.
Qed.
Lemma ofZ_ok z : Z.abs z <= 2 ^ 53 -> V64 (f64_ofZ z) = IZR z /\ fin64 (f64_ofZ z) = true.
Proof.
  intros H. pose proof (Binary.binary_normalize_correct 53 1024 eq_refl eq_refl mode_NE z 0 false) as C.
  change (SpecFloat.fexp 53 1024) with (FLT_exp (-1074) 53) in C. change (round_mode mode_NE) with ZnearestE in C.
  assert (F2R (Float radix2 z 0) = IZR z) as E by (unfold F2R; simpl; lra). rewrite E in C.
  rewrite round_generic in C; [|typeclasses eauto|apply format_IZR, H]. rewrite Rlt_bool_true in C. { destruct C as (A & B & _). auto. }
  rewrite <- abs_IZR. eapply Rle_lt_trans; [apply IZR_le, H|]. change (bpow radix2 1024) with (IZR (2 ^ 1024)). apply IZR_lt. reflexivity.
Qed.
