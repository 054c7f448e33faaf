(** Consequences: chains of pixels, ends of segments, and drift in doubles. *)
From Coq Require Import ZArith List Bool Reals Lia Lra Psatz.
From Verif Require Import Base Num MF64 MGeometry MKernel MMesh MTransform MRender SMesh SReach SGeom SRender SRaster SLine LBase LGeom LMeasureEx LRender LRender2 LRender3 LRender5 LRender6 LRaster LRaster3 LRaster4 LLine.
Import ListNotations.
Open Scope Z_scope.

Lemma part_0 a b : part a b 0 = 0%R.
Proof. unfold part, Rdiv. apply Rmult_0_l. Qed.
Lemma part_1 a b : 1 <= steps a b -> part a b (steps a b) = 1%R.
Proof. intros H. unfold part. apply Rinv_r. apply not_0_IZR. lia. Qed.
Lemma on_start a b : on_pixel a b 0 (fst a) (snd a).
Proof. unfold on_pixel. lra. Qed.
Lemma on_end a b : on_pixel a b 1 (fst b) (snd b).
Proof. unfold on_pixel. rewrite !minus_IZR. lra. Qed.
Lemma on_floor a b t : on_pixel a b t (Int_part (IZR (fst a) + t * IZR (fst b - fst a))) (Int_part (IZR (snd a) + t * IZR (snd b - snd a))).
Proof. split; apply floor_iff; reflexivity. Qed.
Lemma on_neighbours a b i x y x' y' : 1 <= steps a b -> on_pixel a b (part a b i) x y -> on_pixel a b (part a b (i + 1)) x' y' -> neighbours x y x' y'.
Proof.
  intros S [A1 A2] [B1 B2]. unfold part in *. set (m := steps a b) in *. assert (0 < IZR m)%R as M by (apply IZR_lt; lia). rewrite plus_IZR in B1, B2.
  assert (forall o d z z', Z.abs d <= m -> (IZR z <= IZR o + IZR i / IZR m * IZR d < IZR z + 1)%R -> (IZR z' <= IZR o + (IZR i + 1) / IZR m * IZR d < IZR z' + 1)%R -> Z.abs (z' - z) <= 1) as Q.
  { intros o d z z' D H1 H2. assert (-1 <= IZR d / IZR m <= 1)%R as U.
    { assert (- IZR m <= IZR d <= IZR m)%R as [U1 U2] by (split; [rewrite <- opp_IZR|]; apply IZR_le; lia). split.
      - replace (-1)%R with (- IZR m / IZR m)%R by (field; lra). apply Rmult_le_compat_r; [left; apply Rinv_0_lt_compat; exact M|exact U1].
      - replace 1%R with (IZR m / IZR m)%R by (field; lra). apply Rmult_le_compat_r; [left; apply Rinv_0_lt_compat; exact M|exact U2]. }
    replace ((IZR i + 1) / IZR m * IZR d)%R with (IZR i / IZR m * IZR d + IZR d / IZR m)%R in H2 by (field; lra).
    assert (z' < z + 2 /\ z < z' + 2) by (split; apply lt_IZR; rewrite plus_IZR; lra). lia. }
  split; [apply (Q (fst a) (fst b - fst a)); [unfold m, steps; lia|exact A1|exact B1]|apply (Q (snd a) (snd b - snd a)); [unfold m, steps; lia|exact A2|exact B2]].
Qed.
Lemma chain a b : 1 <= steps a b -> exists f : Z -> Z * Z, f 0 = a /\ f (steps a b) = b /\ (forall i, 0 <= i <= steps a b -> on_pixel a b (part a b i) (fst (f i)) (snd (f i))) /\
  (forall i, 0 <= i < steps a b -> neighbours (fst (f i)) (snd (f i)) (fst (f (i + 1))) (snd (f (i + 1)))) /\ forall i j, f i = f j -> i = j.
Proof.
  intros S. exists (fun i => (Int_part (IZR (fst a) + part a b i * IZR (fst b - fst a)), Int_part (IZR (snd a) + part a b i * IZR (snd b - snd a)))). cbn [fst snd].
  split. { destruct a as [ax ay]. rewrite part_0, !Rmult_0_l, !Rplus_0_r. cbn [fst snd]. rewrite !Int_part_Z. reflexivity. }
  split. { rewrite part_1 by exact S. rewrite !Rmult_1_l, <- !plus_IZR, !Int_part_Z. destruct b as [bx by_]. cbn [fst snd]. f_equal; ring. }
  split; [intros i _; apply on_floor|]. split; [intros i _; eapply (on_neighbours a b i); [exact S|apply on_floor|apply on_floor]|].
  intros i j [= E1 E2]. eapply (once a b); [exact S|apply on_floor|]. rewrite E1, E2. apply on_floor.
Qed.
Lemma end_skipped {FL : Flt R} X Y (r r' : Renderer R) p q color a b za zb : 0 <= X <= int_max -> 0 <= Y <= int_max -> framed r X Y -> project (rd_cam r) p = Ok (fst a, snd a, za) -> project (rd_cam r) q = Ok (fst b, snd b, zb) ->
  steps a b <= int_max -> draw_line r p q color = Ok r' -> 0 <= fst b < X -> 0 <= snd b < Y -> pixel r' (snd b * X + fst b) = pixel r (snd b * X + fst b).
Proof.
  intros HX HY F EP EQ SM E BX BY. destruct (line_exact X Y HX HY r p q color a b za zb F EP EQ SM) as (r2 & E2 & _ & _ & H). rewrite E in E2. injection E2 as <-.
  apply (H (fst b) (snd b) BX BY). intros i Hi ON. assert (i = steps a b); [|lia]. eapply (once a b); [lia|exact ON|]. rewrite part_1 by lia. apply on_end.
Qed.
Lemma dot_skipped {FL : Flt R} (r : Renderer R) p q color x y za zb : project (rd_cam r) p = Ok (x, y, za) -> project (rd_cam r) q = Ok (x, y, zb) -> draw_line r p q color = Ok r.
Proof.
  intros EP EQ. unfold draw_line. rewrite EP, EQ. cbn [bind]. rewrite !Z.sub_diag. change (iint 0) with (@Ok Z 0). cbn [bind]. cbv zeta.
  assert (ntrunc (nabs (nofZ 0 : R)) = Ok 0) as T. { change (nabs (nofZ 0)) with (Rabs 0). rewrite Rabs_R0. rewrite trunc_ok by (unfold int_min, int_max; lra). f_equal. unfold Rtrunc. destruct (Rlt_dec 0 0); [lra|]. apply (Int_part_Z 0). }
  rewrite T. destruct (nltb _ _); reflexivity.
Qed.

(** ** A segment that meets the hypotheses *)
Lemma line_case : exists r : Renderer R, framed r 8 8 /\ project (rd_cam r) (mkP (-4) 4 1)%R = Ok (0, 0, 1%R) /\ project (rd_cam r) (mkP 3 4 1)%R = Ok (7, 0, 1%R) /\
  steps (0, 0) (7, 0) = 7 /\ depth r 3 = 0%R /\ on_pixel (0, 0) (7, 0) (part (0, 0) (7, 0) 3) 3 0.
Proof.
  destruct flat_case as (r & F & B & PA & PB & _). exists r. split; [exact F|]. split; [exact PA|]. split; [exact PB|]. split; [reflexivity|]. split.
  - apply B. destruct F as (-> & -> & _). lia.
  - unfold part, on_pixel. change (steps (0, 0) (7, 0)) with 7. cbn [fst snd]. rewrite !minus_IZR. lra.
Qed.

(** ** In doubles: ten times 0.1 is less than 1 *)
#[local] Existing Instance level_trig.
#[local] Existing Instance F64Flt.
Definition gentle : rop f64 := RLine (P64 (-16) 2 1) (P64 4 0 1) 255.
Lemma drift : place 32 4 [] (P64 (-16) 2 1) = Some (0, 0) /\ place 32 4 [] (P64 4 0 1) = Some (20, 2) /\ on_pixel (0, 0) (20, 2) (part (0, 0) (20, 2) 10) 10 1 /\
  seen 32 4 [gentle] 10 1 = seen 32 4 [] 10 1 /\ seen 32 4 [gentle] 10 0 = Ok 255 /\ seen 32 4 [] 10 0 <> Ok 255 /\ (forall i, ~ on_pixel (0, 0) (20, 2) (part (0, 0) (20, 2) i) 10 0).
Proof.
  split; [vm_compute; reflexivity|]. split; [vm_compute; reflexivity|]. assert (on_pixel (0, 0) (20, 2) (part (0, 0) (20, 2) 10) 10 1) as ON. { unfold part, on_pixel. change (steps (0, 0) (20, 2)) with 20. cbn [fst snd]. rewrite !minus_IZR. lra. }
  split; [exact ON|]. split; [vm_compute; reflexivity|]. split; [vm_compute; reflexivity|]. split; [vm_compute; discriminate|].
  intros i [A B]. unfold part in A, B. change (steps (0, 0) (20, 2)) with 20 in *. cbn [fst snd] in *. rewrite !minus_IZR in A, B. assert (IZR i = 10)%R as E. { assert (10 <= i /\ i < 11) as [U V] by (split; [apply le_IZR|apply lt_IZR]; lra). assert (i = 10) as -> by lia. reflexivity. } rewrite E in B. lra.
Qed.
