(** Both arithmetics qualify; programs of calls; clearing. *)
From Coq Require Import ZArith List Bool Reals Lia Lra.
From Flocq Require Import Core.
From Verif Require Import Base Num MGeometry MKernel MMesh MTransform MStl MF64 MRender SMesh SReach SGeom SMeasure SRender LBase LMesh LReach LGeom LF64 LF64Ord LRender.
Import ListNotations.
Open Scope Z_scope.

Lemma sane_R : sane R.
Proof.
  split; [|split; [|split]].
  - intros x y. cbn. destruct (Req_EM_T y 0); discriminate.
  - intros x. cbn. destruct (Rlt_dec x 0); discriminate.
  - intros x. cbn. destruct (_ && _); discriminate.
  - intros x k z K H0 H1. cbn in *. destruct (_ && _); [|discriminate]. intros [= <-]. apply Rleb_le in H0. apply Rltb_lt in H1.
    unfold Rtrunc. destruct (Rlt_dec x 0); [lra|]. pose proof (archimed x) as [A1 A2]. unfold Int_part.
    split. { apply Z.lt_succ_r. apply lt_IZR. unfold Z.succ. rewrite plus_IZR, minus_IZR. lra. } { apply lt_IZR. rewrite minus_IZR. lra. }
Qed.
Lemma sane_f64 : sane f64.
Proof.
  split; [|split; [|split]].
  - intros x y. discriminate.
  - intros x. discriminate.
  - intros x. cbn. unfold f64_trunc. destruct (_ && _ && _); discriminate.
  - intros x k z K H0 H1 E. change (f64_leb (f64_ofZ 0) x = true) in H0. change (f64_ltb x (f64_ofZ k) = true) in H1. change (f64_trunc x = Ok z) in E. destruct (trunc64 x z E) as [F ->]. apply leb64 in H0. apply ltb64 in H1.
    destruct (ofZ_exact 0 ltac:(lia)) as [Z1 Z2]. destruct (ofZ_exact k) as [K1 K2]. { unfold int_max in K. lia. }
    destruct H0 as (_ & _ & H0). destruct H1 as (_ & _ & H1). rewrite !ext_fin, Z1 in H0 by assumption. rewrite !ext_fin, K1 in H1 by assumption.
    rewrite Ztrunc_floor by exact H0. split; [apply Zfloor_lub; exact H0|]. apply lt_IZR. eapply Rle_lt_trans; [apply Zfloor_lb|exact H1].
Qed.
Lemma ordered_R : ordered R.
Proof.
  split; [|split; [|split; [|split]]]; cbn; intros.
  - apply Rltb_ge. lra.
  - rewrite !Rltb_lt in *. lra.
  - split; apply Reqb_eq; reflexivity.
  - rewrite !Rltb_lt in *. lra.
  - apply Reqb_eq. reflexivity.
Qed.
Lemma ordered_f64 : ordered f64.
Proof.
  split; [|split; [|split; [|split]]]; cbn -[f64_ofZ].
  - intros x. destruct (f64_ltb x x) eqn:E; [|reflexivity]. apply ltb64 in E. lra.
  - intros x y z H1 H2. rewrite ltb64 in *. intuition lra.
  - intros x y H. rewrite ltb64 in H. rewrite !eqb64_refl. destruct H as (-> & -> & _). auto.
  - intros x y z H E. rewrite eqb64_refl in E. rewrite !ltb64 in *. destruct (nan64 z); [discriminate|]. destruct (Rlt_dec (ext x) (ext z)); [left|right]; intuition lra.
  - reflexivity.
Qed.

Section Gen.
Context {T : Type} {N : Num T} {TR : Trig T} {FL : Flt T}.
Implicit Types r : Renderer T.
Lemma run_safe X Y r os : sane T -> 0 <= X <= int_max -> 0 <= Y <= int_max -> framed r X Y -> Forall proper os ->
  match rrun r os with Ok r' => framed r' X Y | Err e => e <> FOob end.
Proof.
  intros SN [X0 XM] [Y0 YM] F P. revert r F. induction P as [|o os Po P IH]; intros r F; [exact F|]. cbn [rrun].
  apply (safe_bind (rstep r o) (fun r => rrun r os) (fr X Y) (fun r' => framed r' X Y)); [apply fr_step; assumption|]. intros r' F'. apply IH. exact F'.
Qed.

Lemma nth_set {A} (l : list A) n x m d : (n < length l)%nat -> nth m (list_set l n x) d = if Nat.eqb m n then x else nth m l d.
Proof.
  revert n m. induction l as [|y l IH]; intros n m H; [cbn in H; lia|]. destruct n; destruct m; cbn; try reflexivity. apply IH. cbn in H. lia.
Qed.
Lemma pixel_set r k c w j X Y : framed r X Y -> 0 <= k < X * Y -> 0 <= j ->
  pixel (with_buffers r (list_set (rd_pix r) (Z.to_nat k) c) (list_set (rd_w r) (Z.to_nat k) w)) j = if j =? k then (w, c) else pixel r j.
Proof.
  intros (_ & _ & EP & EW) K J. unfold vsize in *. unfold pixel. cbn [rd_pix rd_w with_buffers]. rewrite !nth_set by lia.
  destruct (Nat.eqb_spec (Z.to_nat j) (Z.to_nat k)); destruct (Z.eqb_spec j k); reflexivity || lia.
Qed.
Lemma clear_ok X Y r : 0 <= X -> 0 <= Y -> framed r X Y ->
  exists r', rd_clear r = Ok r' /\ settings r' = settings r /\ framed r' X Y /\ forall k, 0 <= k < X * Y -> pixel r' k = (n0, rd_bg r).
Proof.
  intros X0 Y0 F. assert (rd_X r = X) as EX by apply F. assert (rd_Y r = Y) as EY by apply F. unfold rd_clear. rewrite EY.
  set (I := fun m s => settings s = settings r /\ framed s X Y /\ forall k, 0 <= k < m -> pixel s k = (n0, rd_bg r)).
  destruct (for_inv (fun j s => I (j * X) s) 0 Y (fun j r0 => for_ 0 (rd_X r0) (fun i r1 =>
      do pix <- vset (rd_pix r1) (j * rd_X r1 + i) (rd_bg r1); do w <- vset (rd_w r1) (j * rd_X r1 + i) n0; Ok (with_buffers r1 pix w)) r0) r Y0) as [s' [E H]].
  - split; [reflexivity|]. split; [exact F|]. intros; lia.
  - intros j s Hj Hs. assert (rd_X s = X) as EXs by apply Hs. rewrite EXs.
    destruct (for_inv (fun i s => I (j * X + i) s) 0 X (fun i r1 =>
      do pix <- vset (rd_pix r1) (j * rd_X r1 + i) (rd_bg r1); do w <- vset (rd_w r1) (j * rd_X r1 + i) n0; Ok (with_buffers r1 pix w)) s X0) as [s2 [E2 H2]].
    + rewrite Z.add_0_r. exact Hs.
    + intros i s2 Hi (S2 & F2 & P2). assert (rd_X s2 = X) as EX2 by apply F2. assert (rd_bg s2 = rd_bg r) as EB by (unfold settings in S2; congruence).
      assert (0 <= j * X + i < X * Y) as K by nia. rewrite EX2, EB. pose proof F2 as (_ & _ & EP & EW). rewrite (vset_in_range (rd_pix s2)) by lia. cbn [bind]. rewrite (vset_in_range (rd_w s2)) by lia. cbn [bind].
      eexists. split; [reflexivity|]. split; [exact S2|]. split.
      * destruct F2 as (A & B & _). repeat split; [exact A|exact B| |]; cbn [rd_pix rd_w with_buffers]; unfold vsize in *; rewrite list_set_length; assumption.
      * intros k Hk. rewrite (pixel_set s2 _ _ _ k X Y) by (assumption || lia). destruct (Z.eqb_spec k (j * X + i)); [reflexivity|]. apply P2. lia.
    + exists s2. split; [exact E2|]. replace ((j + 1) * X) with (j * X + X) by lia. exact H2.
  - exists s'. split; [exact E|]. destruct H as (H1 & H2 & H3). repeat split; try apply H2; try exact H1. intros k Hk. apply H3. lia.
Qed.
Lemma new_ok X Y pix c : 0 <= X -> 0 <= Y -> X * Y <= int_max -> vsize pix = X * Y -> cam_new = Ok c ->
  exists r, rd_new pix X Y = Ok r /\ settings r = (c, [], X, Y, 0) /\ framed r X Y /\ forall k, 0 <= k < X * Y -> pixel r k = (n0, 0).
Proof.
  intros X0 Y0 M P C. unfold rd_new. rewrite C. cbn [bind]. rewrite iint_ok by (unfold int_min; nia). cbn [bind]. destruct (clear_ok X Y (mkRd c [] pix (repeat n0 (Z.to_nat (X * Y))) X Y 0) X0 Y0) as [r [E [S1 [F H]]]].
  - repeat split; [exact P|]. unfold vsize. cbn [rd_w]. rewrite repeat_length. nia.
  - exists r. repeat split; try apply F; try exact S1; [exact E|exact H].
Qed.
End Gen.
Lemma new_large {T} {N : Num T} {TR : Trig T} X Y pix (c : Camera T) : int_max < X * Y -> cam_new = Ok c -> rd_new pix X Y = Err FOverflow.
Proof. intros M C. unfold rd_new. rewrite C. cbn [bind]. rewrite iint_big by exact M. reflexivity. Qed.
