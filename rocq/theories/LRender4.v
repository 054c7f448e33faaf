(** Single precision rounding of doubles respects the order; depths never go down. *)
From Coq Require Import ZArith List Bool Reals Lia Lra Permutation.
From Flocq Require Import Core IEEE754.Binary IEEE754.Bits IEEE754.BinarySingleNaN.
From Verif Require Import Base Num MGeometry MKernel MMesh MTransform MStl MF64 MRender SMesh SReach SGeom SMeasure SRender LBase LMesh LReach LF64 LF64Ord LRender LRender2 LRender3.
Import ListNotations.
Open Scope Z_scope.

#[local] Instance prec24 : Prec_gt_0 24 := eq_refl.
Notation single x := (f32_to_f64 (f64_to_f32 x)).
Lemma single_big (y : f64) : fin64 y = true -> ~ (Rabs (round32 (V64 y)) < bpow radix2 128)%R ->
  single y = Binary.B754_infinity 53 1024 (Rlt_bool (V64 y) 0).
Proof.
  destruct y as [s|s|s pl H|s m e H]; cbn [Binary.is_finite Binary.B2R]; intros Hf Hb; try discriminate.
  - exfalso. apply Hb. rewrite round_0 by typeclasses eauto. rewrite Rabs_R0. apply bpow_gt_0.
  - pose proof (Binary.binary_normalize_correct 24 128 eq_refl eq_refl mode_NE (cond_Zopp s (Zpos m)) e s) as C.
    change (SpecFloat.fexp 24 128) with (FLT_exp (-149) 24) in C. change (round_mode mode_NE) with ZnearestE in C. rewrite Rlt_bool_false in C by (apply Rnot_lt_le; exact Hb).
    cbn [f64_to_f32]. change (SpecFloat.cond_Zopp s (Zpos m)) with (cond_Zopp s (Zpos m)). destruct (Binary.binary_normalize 24 128 _ _ _ _ _ _); cbn in C; try discriminate. injection C as ->. reflexivity.
Qed.
Lemma single_nan (x : f64) : nan64 x = false -> nan64 (single x) = false.
Proof.
  intros H. apply to_f32_nan in H. destruct (f64_to_f32 x) as [s|s|s pl Hp|s m e Hm] eqn:E; try discriminate; try reflexivity.
  destruct (to_f64_ok (Binary.B754_finite 24 128 s m e Hm) eq_refl) as (_ & F & _). destruct (f32_to_f64 _); try discriminate; reflexivity.
Qed.
Lemma rounds_f64 : rounds f64.
Proof.
  split; [reflexivity|]. split; [intros x; cbn [nflt F64Flt]; rewrite <- !through_single; apply single_idem|]. split.
  - intros x. change (f64_eqb x x = true -> f64_eqb (single x) (single x) = true). rewrite !eqb64_refl. intros H. apply negb_true_iff in H. rewrite single_nan by exact H. reflexivity.
  - intros x y. change (single x = x -> f64_ltb x y = true -> f64_ltb (single y) x = false). intros Fx L. apply ltb64 in L. destruct L as (Nx & Ny & L).
    destruct (f64_ltb (single y) x) eqn:E; [exfalso|reflexivity]. apply ltb64 in E. destruct E as (_ & _ & E). pose proof bpow_pos1024 as BP.
    assert (fin64 x = true -> generic_format radix2 (FLT_exp (-149) 24) (V64 x) /\ (Rabs (V64 x) < bpow radix2 128)%R) as GX.
    { intros F. destruct (Rlt_dec (Rabs (round32 (V64 x))) (bpow radix2 128)) as [B|B].
      - destruct (to_f32_ok x F B) as (A1 & A2 & _). destruct (to_f64_ok _ A2) as (B1 & _). rewrite Fx in B1. rewrite B1. split; [apply (Binary.generic_format_B2R 24 128)|apply Binary.abs_B2R_lt_emax].
      - pose proof (single_big x F B) as K. rewrite Fx in K. rewrite K in F. discriminate. }
    destruct (fin64 y) eqn:Fy.
    + rewrite (ext_fin y Fy) in L. destruct (fin64 x) eqn:F.
      * destruct (GX eq_refl) as [G B]. rewrite (ext_fin x F) in *. assert (V64 x <= round32 (V64 y))%R as RL. { apply round_ge_generic; try typeclasses eauto; [exact G|lra]. }
        destruct (Rlt_dec (Rabs (round32 (V64 y))) (bpow radix2 128)) as [By|By].
        { destruct (to_f32_ok y Fy By) as (A1 & A2 & _). destruct (to_f64_ok _ A2) as (B1 & B2 & _). rewrite ext_fin in E by exact B2. lra. }
        { rewrite (single_big y Fy By) in E. pose proof (ext_bound x). destruct (Rlt_bool_spec (V64 y) 0) as [N|N]; cbn [ext] in E; [|lra]. apply By.
          assert (round32 (V64 y) <= 0)%R as RN. { apply round_le_generic; try typeclasses eauto; [apply generic_format_0|lra]. }
          apply Rabs_def2 in B. apply Rabs_def1; [|lra]. assert (0 < bpow radix2 128)%R by apply bpow_gt_0. lra. }
      * destruct x as [s|s|s pl H|s m e H]; try discriminate. pose proof (ext_bound y). destruct s; cbn [ext] in L, E; [|lra].
        pose proof (ext_bound (single y)). destruct (single y) as [s'|[]|s' pl' H'|s' m' e' H']; cbn [ext] in E; cbn [Binary.B2R] in *; lra.
    + destruct y as [s|s|s pl H|s m e H]; try discriminate. cbn [f64_to_f32 f32_to_f64] in E. lra.
Qed.

Section Gen.
Context {T : Type} {N : Num T} {TR : Trig T} {FL : Flt T}.
Implicit Types r s : Renderer T.
Hypothesis ORD : ordered T.
Hypothesis RND : rounds T.
Lemma step_mono X Y r o r' : 0 <= X -> 0 <= Y -> framed r X Y -> clean r -> no_line o -> rstep r o = Ok r' ->
  framed r' X Y /\ settings r' = settings r /\ clean r' /\ forall k, 0 <= k < X * Y -> depth r' k = depth r k \/ nltb (depth r' k) (depth r k) = false.
Proof.
  intros X0 Y0 F C NL E. assert (rd_X r = X /\ rd_Y r = Y) as [EX EY] by (split; apply F). assert (ok X Y (settings r) r) as O by (split; [exact F|reflexivity]).
  destruct RND as (R0 & R1 & R2 & R3).
  assert (filled o -> framed r' X Y /\ settings r' = settings r /\ clean r' /\ forall k, 0 <= k < X * Y -> depth r' k = depth r k \/ nltb (depth r' k) (depth r k) = false) as HF.
  { intros FO. pose proof (rel_filled X Y (settings r) r r o FO O O) as H. rewrite E in H. destruct H as (fs & G & -> & _). destruct (ok_paint X Y (settings r) r fs O G) as [F' S'].
    split; [exact F'|]. split; [exact S'|]. split.
    - intros k Hk. assert (0 <= k < X * Y) as Hk' by (destruct F' as (<- & <- & _); exact Hk). unfold depth. rewrite (pixel_paint X Y (settings r)) by (assumption || lia).
      destruct (C k ltac:(rewrite EX, EY; exact Hk')) as [C1 C2]. split; [|exact (nearest_om ORD _ _ C2)].
      destruct (nearest_In (at_ k fs) (pixel r k)) as [->|H]; [exact C1|]. unfold at_ in H at 2. apply in_map_iff in H. destruct H as (f & <- & H). apply filter_In in H. destruct H as [H _].
      rewrite Forall_forall in G. destruct (G f H) as [_ [x ->]]. apply R1.
    - intros k Hk. unfold depth. rewrite (pixel_paint X Y (settings r)) by (assumption || lia). destruct (nearest_grows ORD (at_ k fs) (pixel r k)) as [->|L]; [left; reflexivity|right].
      destruct (nltb (fst (nearest _ _)) _) eqn:E2; [|reflexivity]. exfalso. exact (lt_irrefl ORD _ (lt_trans ORD _ _ _ L E2)). }
  destruct o; cbn [no_line] in NL; try contradiction; try (apply HF; exact NL || exact I). clear HF.
  cbn [rstep] in E. unfold draw_pixel in E. destruct (project (rd_cam r) p) as [[[ix iy] z]|]; [|discriminate]. cbn [bind] in E. rewrite EX, EY in E.
  revert E. destruct (Z.ltb_spec ix 0); [intros [= <-]; split; [exact F|]; split; [reflexivity|]; split; [exact C|left; reflexivity]|].
  destruct (Z.leb_spec X ix); [intros [= <-]; split; [exact F|]; split; [reflexivity|]; split; [exact C|left; reflexivity]|].
  destruct (Z.ltb_spec iy 0); [intros [= <-]; split; [exact F|]; split; [reflexivity|]; split; [exact C|left; reflexivity]|].
  destruct (Z.leb_spec Y iy); [intros [= <-]; split; [exact F|]; split; [reflexivity|]; split; [exact C|left; reflexivity]|]. cbn [orb].
  assert (0 <= ix + iy * X < X * Y) as K by nia. set (k0 := ix + iy * X) in *. unfold put. pose proof F as (_ & _ & EP & EW).
  destruct (vget_in_range (rd_w r) k0 ltac:(lia)) as [old Eo]. rewrite Eo. cbn [bind]. assert (depth r k0 = old) as Ed. { unfold depth, pixel. cbn [fst]. apply vget_Ok in Eo. destruct Eo as [_ Eo]. apply nth_error_nth. exact Eo. }
  destruct (nltb old z) eqn:L; [|intros [= <-]; split; [exact F|]; split; [reflexivity|]; split; [exact C|left; reflexivity]].
  rewrite !vset_in_range by lia. cbn [bind]. intros [= <-].
  assert (framed (with_buffers r (list_set (rd_pix r) (Z.to_nat k0) c) (list_set (rd_w r) (Z.to_nat k0) (nflt z))) X Y) as F'.
  { repeat split; [exact EX|exact EY| |]; cbn [rd_pix rd_w with_buffers]; unfold vsize in *; rewrite list_set_length; assumption. }
  split; [exact F'|]. split; [reflexivity|]. destruct (C k0 ltac:(rewrite EX, EY; exact K)) as [C1 C2]. rewrite Ed in *. split.
  - intros k Hk. cbn [rd_X rd_Y with_buffers] in Hk. unfold depth. rewrite (pixel_set r _ _ _ k X Y) by (assumption || lia). destruct (k =? k0); [|apply C; exact Hk]. cbn [fst]. split; [apply R1|]. apply R2. destruct ORD as (_ & _ & O3 & _). apply (O3 _ _ L).
  - intros k Hk. unfold depth. rewrite (pixel_set r _ _ _ k X Y) by (assumption || lia). destruct (Z.eqb_spec k k0) as [->|NE]; [|left; reflexivity]. right. cbn [fst]. fold (depth r k0). rewrite Ed. apply R3; assumption.
Qed.
Lemma run_mono X Y r os r' : 0 <= X -> 0 <= Y -> framed r X Y -> clean r -> Forall no_line os -> rrun r os = Ok r' ->
  clean r' /\ forall k, 0 <= k < X * Y -> nltb (depth r' k) (depth r k) = false.
Proof.
  intros X0 Y0 F C NL. revert r F C. induction NL as [|o os No NL IH]; intros r F C E; cbn [rrun] in E.
  - injection E as <-. split; [exact C|]. intros k _. apply ORD.
  - destruct (rstep r o) as [s|] eqn:Es; [|discriminate]. cbn [bind] in E. destruct (step_mono X Y r o s X0 Y0 F C No Es) as (F' & _ & C' & M). destruct (IH s F' C' E) as [C'' M'].
    split; [exact C''|]. intros k Hk. specialize (M' k Hk). destruct (M k Hk) as [<-|Mk]; [exact M'|]. destruct (nltb (depth r' k) (depth r k)) eqn:L; [|reflexivity].
    destruct ORD as (_ & _ & _ & O4 & _). destruct F' as (EX & EY & _). destruct (C' k) as [_ Os]; [rewrite EX, EY; exact Hk|]. destruct (O4 _ _ (depth s k) L Os); congruence.
Qed.
Lemma clear_clean X Y r r' : 0 <= X -> 0 <= Y -> framed r X Y -> rd_clear r = Ok r' -> clean r'.
Proof.
  intros X0 Y0 F E. destruct (clear_ok X Y r X0 Y0 F) as [s [Es [_ [F' P]]]]. rewrite Es in E. injection E as <-. intros k Hk. destruct F' as (EX & EY & _). rewrite EX, EY in Hk.
  unfold depth. rewrite (P k Hk). cbn [fst]. destruct RND as (R0 & _). split; [exact R0|]. apply ORD.
Qed.

(** The image of filled shapes. *)
Lemma filled_nearest X Y r os r' : 0 <= X -> 0 <= Y -> framed r X Y -> clean r -> Forall filled os -> rrun r os = Ok r' ->
  exists ims, Forall2 (fun o im => rstep r o = Ok im) os ims /\ forall k, 0 <= k < X * Y -> pixel r' k = nearest (pixel r k) (map (fun im => pixel im k) ims).
Proof.
  intros X0 Y0 F C FO E. assert (ok X Y (settings r) r) as O by (split; [exact F|reflexivity]).
  destruct (run_nearest X Y (settings r) ORD r r os r' O O) as (ims & F2 & _ & P); [|exact FO|exact E|exists ims; split; assumption].
  intros k Hk. destruct F as (EX & EY & _). destruct (C k) as [_ C2]; [rewrite EX, EY; exact Hk|]. split; [exact C2|]. split; [exact C2|]. apply lt_irrefl. exact ORD.
Qed.
Lemma Forall2_perm {A B} (f : A -> B -> Prop) l l' m : Permutation l l' -> Forall2 f l m -> exists m', Permutation m m' /\ Forall2 f l' m'.
Proof.
  intros P. revert m. induction P; intros m H.
  - inversion H; subst. exists []. split; constructor.
  - inversion H; subst. destruct (IHP _ H4) as (m' & P' & F'). exists (y :: m'). split; constructor; assumption.
  - inversion H as [|? u ? m1 Hu H1]; subst. inversion H1 as [|? v ? m2 Hv H2]; subst. exists (v :: u :: m2). split; [constructor|]. constructor; [exact Hv|]. constructor; assumption.
  - destruct (IHP1 _ H) as (m1 & Q1 & G1). destruct (IHP2 _ G1) as (m2 & Q2 & G2). exists m2. split; [eapply perm_trans; eassumption|exact G2].
Qed.
Lemma Forall2_det {A B} (f : A -> res B) l m m' : Forall2 (fun a b => f a = Ok b) l m -> Forall2 (fun a b => f a = Ok b) l m' -> m = m'.
Proof. intros H. revert m'. induction H; intros m' H'; inversion H'; subst; [reflexivity|]. f_equal; [congruence|apply IHForall2; assumption]. Qed.
Lemma Forall2_in_r {A B} (f : A -> B -> Prop) l m b : Forall2 f l m -> In b m -> exists a, In a l /\ f a b.
Proof. intros H. induction H; intros []; [subst; exists x; split; [left; reflexivity|assumption]|]. destruct (IHForall2 H1) as (a & I1 & I2). exists a. split; [right; assumption|assumption]. Qed.
Lemma filled_order X Y r os os' r1 : 0 <= X -> 0 <= Y -> framed r X Y -> clean r -> Forall filled os -> Permutation os os' -> rrun r os = Ok r1 ->
  exists r2, rrun r os' = Ok r2 /\ forall k, 0 <= k < X * Y -> nltb (depth r1 k) (depth r2 k) = false /\ nltb (depth r2 k) (depth r1 k) = false /\
    ((forall o o' a b, In o os -> In o' os -> rstep r o = Ok a -> rstep r o' = Ok b -> nltb (depth a k) (depth b k) = false -> nltb (depth b k) (depth a k) = false -> pixel a k = pixel b k) ->
     pixel r1 k = pixel r2 k).
Proof.
  intros X0 Y0 F C FO P E. destruct (filled_nearest X Y r os r1 X0 Y0 F C FO E) as (ims & F2 & H). assert (ok X Y (settings r) r) as O by (split; [exact F|reflexivity]).
  assert (Forall filled os') as FO' by (eapply Permutation_Forall; eassumption).
  destruct (Forall2_perm _ _ _ _ P F2) as (ims' & PI & F2').
  destruct (run_all X Y (settings r) r r os' O O FO') as [r2 E2]. { clear - F2'. induction F2'; constructor; [eexists; eassumption|assumption]. }
  exists r2. split; [exact E2|]. intros k Hk. destruct (filled_nearest X Y r os' r2 X0 Y0 F C FO' E2) as (ims2 & F22 & H2). rewrite (Forall2_det _ _ _ _ F22 F2') in H2. clear F22 ims2.
  assert (om (pixel r k)) as Op. { destruct F as (EX & EY & _). destruct (C k) as [_ C2]; [rewrite EX, EY; exact Hk|exact C2]. }
  pose proof (Permutation_map (fun im => pixel im k) PI) as PM. unfold depth. rewrite (H k Hk), (H2 k Hk). destruct (nearest_perm ORD _ _ (pixel r k) Op PM) as [A U].
  destruct (nearest_perm ORD _ _ (pixel r k) Op (Permutation_sym PM)) as [B _]. split; [apply not_true_is_false; exact A|]. split; [apply not_true_is_false; exact B|].
  intros NT. apply U. intros q q' Iq Iq' L1 L2. apply in_map_iff in Iq. destruct Iq as (a & <- & Ia). apply in_map_iff in Iq'. destruct Iq' as (b & <- & Ib).
  destruct (Forall2_in_r _ _ _ _ F2 Ia) as (o & Io & Eo). destruct (Forall2_in_r _ _ _ _ F2 Ib) as (o' & Io' & Eo'). apply (NT o o' a b Io Io' Eo Eo'); apply not_true_is_false; assumption.
Qed.
End Gen.
