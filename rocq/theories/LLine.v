(** Which pixels a line segment paints, over the reals. *)
From Coq Require Import ZArith List Bool Reals Lia Lra Psatz.
From Verif Require Import Base Num MGeometry MKernel MMesh MTransform MRender SMesh SReach SGeom SRender SLine LBase LGeom LRender LRender2 LRender3 LRender5 LRender6 LRaster.
Import ListNotations.
Open Scope Z_scope.

Lemma Int_part_Z z : Int_part (IZR z) = z.
Proof. pose proof (Int_part_le (IZR z) z ltac:(lra)). pose proof (Int_part_ge (IZR z) z ltac:(lra)). lia. Qed.
Lemma trunc_floor (x : R) k : 0 <= k <= int_max -> (0 <= x < IZR k)%R -> ntrunc x = Ok (Int_part x).
Proof.
  intros K H. assert (IZR k <= IZR int_max)%R by (apply IZR_le; lia). rewrite trunc_ok by (unfold int_min, int_max in *; lra). f_equal. unfold Rtrunc. destruct (Rlt_dec x 0); [lra|reflexivity].
Qed.
Lemma floor_iff x z : Int_part x = z <-> (IZR z <= x < IZR z + 1)%R.
Proof.
  split.
  - intros <-. pose proof (base_Int_part x). lra.
  - intros [A B]. pose proof (Int_part_le x z A). pose proof (Int_part_ge x z B). lia.
Qed.

Section Line.
Context {FL : Flt R}.
Variables X Y : Z.
Hypothesis HX : 0 <= X <= int_max.
Hypothesis HY : 0 <= Y <= int_max.
Implicit Types r s : Renderer R.

Lemma put_pixel s k test w c : framed s X Y -> 0 <= k < X * Y -> exists s', put s k test w c = Ok s' /\ framed s' X Y /\ settings s' = settings s /\
  forall j, 0 <= j -> pixel s' j = if j =? k then (if Rltb (depth s k) test then (w, c) else pixel s k) else pixel s j.
Proof.
  intros F K. pose proof F as (A & B & C & D). unfold put. destruct (vget_in_range (rd_w s) k ltac:(lia)) as [old E]. rewrite E. cbn [bind].
  assert (depth s k = old) as -> by (unfold depth, pixel; cbn [fst]; apply vget_Ok in E; destruct E as [_ E]; apply nth_error_nth; exact E).
  change (nltb old test) with (Rltb old test). destruct (Rltb old test).
  - rewrite !vset_in_range by lia. cbn [bind]. eexists. split; [reflexivity|]. split; [|split; [reflexivity|intros j J; apply (pixel_set s k c w j X Y F K J)]].
    repeat split; [exact A|exact B| |]; cbn [rd_pix rd_w with_buffers]; unfold vsize in *; rewrite list_set_length; assumption.
  - exists s. split; [reflexivity|]. split; [exact F|]. split; [reflexivity|]. intros j _. destruct (Z.eqb_spec j k) as [->|]; reflexivity.
Qed.

Lemma steps_max a b : steps a b = if Rltb (Rabs (IZR (snd b - snd a))) (Rabs (IZR (fst b - fst a))) then Z.abs (fst b - fst a) else Z.abs (snd b - snd a).
Proof.
  unfold steps. rewrite <- !abs_IZR. destruct (Rltb _ _) eqn:E.
  - apply Rltb_lt in E. apply lt_IZR in E. lia.
  - apply Rltb_ge in E. apply le_IZR in E. lia.
Qed.
(** The longer coordinate takes each value once. *)
Lemma once a b i j x y : 1 <= steps a b -> on_pixel a b (part a b i) x y -> on_pixel a b (part a b j) x y -> i = j.
Proof.
  intros S [A1 A2] [B1 B2]. unfold part in *. set (m := steps a b) in *. assert (0 < IZR m)%R as M by (apply IZR_lt; lia).
  assert (forall k d, Z.abs d = m -> (IZR k / IZR m * IZR d = IZR (Z.sgn d * k))%R) as K.
  { intros k d D. assert (IZR d = IZR (Z.sgn d) * IZR m)%R as -> by (rewrite <- mult_IZR; f_equal; lia). rewrite mult_IZR. field. lra. }
  assert (forall o d z, Z.abs d = m -> (IZR z <= IZR o + IZR i / IZR m * IZR d < IZR z + 1)%R -> (IZR z <= IZR o + IZR j / IZR m * IZR d < IZR z + 1)%R -> i = j) as Q.
  { intros o d z D H1 H2. rewrite (K i d D), <- !plus_IZR in H1. rewrite (K j d D), <- !plus_IZR in H2.
    destruct H1 as [H1 H1'], H2 as [H2 H2']. apply le_IZR in H1, H2. apply lt_IZR in H1', H2'. nia. }
  assert (Z.abs (fst b - fst a) = m \/ Z.abs (snd b - snd a) = m) as [D|D] by (unfold m, steps; lia); [eapply (Q _ _ x D); eassumption|eapply (Q _ _ y D); eassumption].
Qed.

Definition at_pixel (x y : Z) : Z := y * X + x.
Lemma at_pixel_inj x y x' y' : 0 <= x < X -> 0 <= x' < X -> at_pixel x y = at_pixel x' y' -> x = x' /\ y = y'.
Proof. unfold at_pixel. intros A B E. assert (y = y') as -> by nia. split; [nia|reflexivity]. Qed.

Lemma line_exact r p q color a b za zb : framed r X Y -> project (rd_cam r) p = Ok (fst a, snd a, za) -> project (rd_cam r) q = Ok (fst b, snd b, zb) -> steps a b <= int_max ->
  exists r', draw_line r p q color = Ok r' /\ framed r' X Y /\ settings r' = settings r /\
    forall x y, 0 <= x < X -> 0 <= y < Y -> let k := y * X + x in
      (forall i, 0 <= i < steps a b -> on_pixel a b (part a b i) x y ->
         pixel r' k = if Rltb (depth r k) (mix za zb (part a b i) + 1 / 100000) then (nflt (mix za zb (part a b i)), color) else pixel r k) /\
      ((forall i, 0 <= i < steps a b -> ~ on_pixel a b (part a b i) x y) -> pixel r' k = pixel r k).
Proof.
  intros F EP EQ SM. unfold draw_line. rewrite EP, EQ. cbn [bind]. assert (Z.abs (fst b - fst a) <= int_max /\ Z.abs (snd b - snd a) <= int_max) as [D1 D2] by (unfold steps in SM; lia).
  rewrite (iint_ok (fst b - fst a)) by (unfold int_min, int_max in *; lia). cbn [bind]. rewrite (iint_ok (snd b - snd a)) by (unfold int_min, int_max in *; lia). cbn [bind]. cbv zeta.
  match goal with |- context [bind ?e _] => assert (e = Ok (steps a b)) as -> end.
  { rewrite (steps_max a b). change (nltb (nabs (nofZ (snd b - snd a))) (nabs (nofZ (fst b - fst a)))) with (Rltb (Rabs (IZR (snd b - snd a))) (Rabs (IZR (fst b - fst a)))).
    assert (forall d, Z.abs d <= int_max -> ntrunc (nabs (nofZ d : R)) = Ok (Z.abs d)) as TR.
    { intros d D. change (nabs (nofZ d)) with (Rabs (IZR d)). rewrite <- abs_IZR. rewrite (trunc_ok (IZR (Z.abs d))).
      - f_equal. unfold Rtrunc. destruct (Rlt_dec (IZR (Z.abs d)) 0) as [L|L]; [apply lt_IZR in L; lia|]. apply Int_part_Z.
      - assert (0 <= IZR (Z.abs d) <= IZR int_max)%R by (split; apply IZR_le; lia). unfold int_min in *. lra. }
    destruct (Rltb _ _); apply TR; assumption. }
  cbn [bind]. destruct (Z.ltb_spec (steps a b) 1) as [S0|S1].
  { exists r. split; [reflexivity|]. split; [exact F|]. split; [reflexivity|]. intros x y _ _. split; [intros i Hi; lia|reflexivity]. }
  set (m := steps a b) in *. assert (0 < IZR m)%R as M by (apply IZR_lt; lia).
  change (nofZ m) with (IZR m). rewrite !div_R by lra. cbn [bind]. change (nofZ ?z) with (IZR z).
  match goal with |- context [for_ 0 m ?bd _] => set (body := bd) end.
  set (I := fun i (s : Renderer R * R * R * R) => let '(s, fx, fy, fz) := s in framed s X Y /\ settings s = settings r /\
     fx = (IZR (fst a) + part a b i * IZR (fst b - fst a))%R /\ fy = (IZR (snd a) + part a b i * IZR (snd b - snd a))%R /\ fz = mix za zb (part a b i) /\
     forall x y, 0 <= x < X -> 0 <= y < Y -> let k := y * X + x in
      (forall j, 0 <= j < i -> on_pixel a b (part a b j) x y ->
         pixel s k = if Rltb (depth r k) (mix za zb (part a b j) + 1 / 100000) then (nflt (mix za zb (part a b j)), color) else pixel r k) /\
      ((forall j, 0 <= j < i -> ~ on_pixel a b (part a b j) x y) -> pixel s k = pixel r k)).
  destruct (for_inv I 0 m body (r, IZR (fst a), IZR (snd a), za) ltac:(lia)) as (s' & E & H).
  - unfold I. split; [exact F|]. split; [reflexivity|]. unfold part, mix. fold m. replace (0 / IZR m)%R with 0%R by (field; lra). split; [ring|]. split; [ring|]. split; [ring|]. intros x y _ _. split; [intros j; lia|reflexivity].
  - intros i [[[s fx] fy] fz] Hi (Fs & Ss & Ex & Ey & Ez & P). unfold body. assert (rd_X s = X) as EX by apply Fs. assert (rd_Y s = Y) as EY by apply Fs. rewrite EX, EY.
    assert (forall s1, framed s1 X Y -> settings s1 = settings r ->
      (forall x y, 0 <= x < X -> 0 <= y < Y -> let k := y * X + x in (on_pixel a b (part a b i) x y -> pixel s1 k = if Rltb (depth s k) (fz + 1 / 100000) then (nflt fz, color) else pixel s k) /\ (~ on_pixel a b (part a b i) x y -> pixel s1 k = pixel s k)) ->
      I (i + 1) (s1, (fx + IZR (fst b - fst a) / IZR m)%R, (fy + IZR (snd b - snd a) / IZR m)%R, (fz + (zb - za) / IZR m)%R)) as NEXT.
    { intros s1 F1 S1' Q. unfold I. split; [exact F1|]. split; [exact S1'|]. do 3 (split; [rewrite ?Ex, ?Ey, ?Ez; unfold part, mix; fold m; rewrite plus_IZR; field; lra|]).
      intros x y Hx Hy. set (k := y * X + x). destruct (P x y Hx Hy) as [P1 P2]. destruct (Q x y Hx Hy) as [Q1 Q2]. fold k in P1, P2, Q1, Q2. split.
      - intros j Hj ON. destruct (Z.eq_dec j i) as [->|NE].
        + rewrite (Q1 ON). assert (pixel s k = pixel r k) as U. { apply P2. intros j Hj' ON'. assert (j = i) by (eapply (once a b); [exact S1|exact ON'|exact ON]). lia. }
          unfold depth. rewrite U, Ez. reflexivity.
        + rewrite Q2; [apply P1; [lia|exact ON]|]. intros ON'. apply NE. eapply (once a b); [exact S1|exact ON|exact ON'].
      - intros NO. rewrite Q2; [apply P2; intros j Hj; apply NO; lia|apply NO; lia]. }
    change (nleb n0 fx) with (Rleb 0 fx). change (nltb fx (IZR X)) with (Rltb fx (IZR X)). change (nleb n0 fy) with (Rleb 0 fy). change (nltb fy (IZR Y)) with (Rltb fy (IZR Y)).
    assert (forall x y, on_pixel a b (part a b i) x y <-> Int_part fx = x /\ Int_part fy = y) as ONP by (intros x y; unfold on_pixel; rewrite !floor_iff, Ex, Ey; tauto).
    destruct (Rleb 0 fx && Rltb fx (IZR X) && Rleb 0 fy && Rltb fy (IZR Y)) eqn:G.
    + apply andb_true_iff in G. destruct G as [G G4]. apply andb_true_iff in G. destruct G as [G G3]. apply andb_true_iff in G. destruct G as [G1 G2]. apply Rleb_le in G1, G3. apply Rltb_lt in G2, G4.
      rewrite (trunc_floor fx X HX) by lra. cbn [bind]. rewrite (trunc_floor fy Y HY) by lra. cbn [bind].
      assert (0 <= Int_part fx < X) as RX. { split; [apply Int_part_le; lra|]. destruct (base_Int_part fx) as [U _]. apply lt_IZR. lra. }
      assert (0 <= Int_part fy < Y) as RY. { split; [apply Int_part_le; lra|]. destruct (base_Int_part fy) as [U _]. apply lt_IZR. lra. }
      destruct (put_pixel s (Int_part fx + Int_part fy * X) (nadd fz (nlit 1 100000)) (nflt fz) color Fs ltac:(nia)) as (s1 & E1 & F1 & T1 & P1). rewrite E1. cbn [bind].
      eexists. split; [reflexivity|]. apply NEXT; [exact F1|congruence|]. intros x y Hx Hy k. rewrite P1 by (unfold k; nia). split.
      * intros ON. apply ONP in ON. destruct ON as [<- <-]. replace k with (Int_part fx + Int_part fy * X) by (unfold k; ring). rewrite Z.eqb_refl. reflexivity.
      * intros NO. destruct (Z.eqb_spec k (Int_part fx + Int_part fy * X)) as [EK|]; [|reflexivity]. contradiction NO. apply ONP. unfold k in EK. assert (y = Int_part fy) as -> by nia. split; [nia|reflexivity].
    + cbn [bind]. eexists. split; [reflexivity|]. apply NEXT; [exact Fs|exact Ss|]. intros x y Hx Hy k. split; [|reflexivity]. intros [O1 O2]. exfalso. rewrite <- Ex in O1. rewrite <- Ey in O2.
      assert (0 <= IZR x /\ IZR x + 1 <= IZR X /\ 0 <= IZR y /\ IZR y + 1 <= IZR Y)%R as (U1 & U2 & U3 & U4) by (rewrite <- !plus_IZR; repeat split; apply IZR_le; lia).
      rewrite (proj2 (Rleb_le 0 fx)), (proj2 (Rltb_lt fx (IZR X))), (proj2 (Rleb_le 0 fy)), (proj2 (Rltb_lt fy (IZR Y))) in G by lra. discriminate G.
  - rewrite E. cbn [bind]. destruct s' as [[[s fx] fy] fz]. cbn [fst]. destruct H as (F' & S' & _ & _ & _ & P). exists s. split; [reflexivity|]. split; [exact F'|]. split; [exact S'|exact P].
Qed.
End Line.
