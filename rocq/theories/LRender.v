(** No call of the renderer leaves its buffers. *)
From Coq Require Import ZArith List Bool Reals Lia Lra.
From Verif Require Import Base Num MGeometry MKernel MMesh MTransform MRender SMesh SReach SGeom SMeasure SRender LBase LMesh LReach.
Import ListNotations.
Open Scope Z_scope.

Definition safe {A} (x : res A) (P : A -> Prop) : Prop := match x with Ok a => P a | Err e => e <> FOob end.
Lemma safe_bind {A B} (x : res A) (f : A -> res B) (P : A -> Prop) (Q : B -> Prop) : safe x P -> (forall a, P a -> safe (f a) Q) -> safe (bind x f) Q.
Proof. intros H K. destruct x as [a|e]; cbn [bind]; [apply K; exact H|exact H]. Qed.
Lemma safe_any {A} (x : res A) (P : A -> Prop) : x <> Err FOob -> (forall a, x = Ok a -> P a) -> safe x P.
Proof. intros H K. destruct x; cbn; [apply K; reflexivity|congruence]. Qed.
Lemma safe_assert b (Q : unit -> Prop) : Q tt -> safe (massert b) Q.
Proof. intros H. destruct b; cbn; [exact H|discriminate]. Qed.
Lemma safe_for {ST} (I : ST -> Prop) a b body (s : ST) : I s -> (forall i s, a <= i < b -> I s -> safe (body i s) I) -> safe (for_ a b body s) I.
Proof.
  intros H K. destruct (Z_le_gt_dec b a) as [L|G]; [rewrite for_empty by lia; exact H|].
  replace b with (a + Z.of_nat (Z.to_nat (b - a))) in * by lia. clear G. revert s H K. generalize (Z.to_nat (b - a)) as n. intros n. revert a.
  induction n as [|n IH]; intros a s H K; [rewrite Z.add_0_r, for_empty by lia; exact H|].
  rewrite for_step by lia. eapply safe_bind; [apply K; [lia|exact H]|]. intros s' H'. replace (a + Z.of_nat (S n)) with (a + 1 + Z.of_nat n) in * by lia. apply IH; [exact H'|].
  intros i s2 Hi Hs. apply K; [lia|exact Hs].
Qed.
Lemma safe_weak {A} (x : res A) (P Q : A -> Prop) : safe x P -> (forall a, P a -> Q a) -> safe x Q.
Proof. destruct x; cbn; auto. Qed.
Definition anyv {A} (x : A) : Prop := True.

Section Gen.
Context {T : Type} {N : Num T} {TR : Trig T} {FL : Flt T}.
Hypothesis SANE : sane T.
Lemma s_div (x y : T) : safe (ndiv x y) anyv. Proof. apply safe_any; [apply SANE|constructor]. Qed.
Lemma s_sqrt (x : T) : safe (nsqrt x) anyv. Proof. apply safe_any; [apply SANE|constructor]. Qed.
Lemma s_trunc (x : T) : safe (ntrunc x) anyv. Proof. apply safe_any; [apply SANE|constructor]. Qed.
Lemma s_iint z : safe (iint z) anyv. Proof. unfold iint. destruct (_ && _); [exact I|discriminate]. Qed.
Lemma s_unit (t : T) : safe (unit_t t) anyv.
Proof. unfold unit_t. eapply (safe_bind _ _ anyv); [apply (safe_assert _ anyv); exact I|]. intros _ _. apply safe_assert. exact I. Qed.
Ltac sb := lazymatch goal with
  | |- safe (bind (ndiv _ _) _) _ => eapply safe_bind; [apply s_div|intros ? _]
  | |- safe (bind (nsqrt _) _) _ => eapply safe_bind; [apply s_sqrt|intros ? _]
  | |- safe (bind (ntrunc _) _) _ => eapply safe_bind; [apply s_trunc|intros ? _]
  | |- safe (bind (unit_t _) _) _ => eapply safe_bind; [apply s_unit|intros ? _]
  | |- safe (bind (iint _) _) _ => eapply safe_bind; [apply s_iint|intros ? _]
  | |- safe (bind (massert _) _) _ => eapply safe_bind; [apply (safe_assert _ anyv); exact I|intros ? _]
  | |- safe (Ok _) _ => cbn [safe]
  | |- safe (bind (Ok ?x) _) _ => cbn [bind]
  end.
Variable X Y : Z.
Hypothesis X0 : 0 <= X. Hypothesis Y0 : 0 <= Y.
Definition fr (r : Renderer T) : Prop := framed r X Y.
Lemma fr_put r k test w c : fr r -> 0 <= k < X * Y -> safe (put r k test w c) fr.
Proof.
  intros (EX & EY & EP & EW) K. unfold put. destruct (vget_in_range (rd_w r) k ltac:(lia)) as [old ->]. cbn [bind]. destruct (nltb old test); [|cbn; repeat split; assumption].
  pose proof (vset_in_range (rd_w r) k w ltac:(lia)) as Ew. pose proof (vset_in_range (rd_pix r) k c ltac:(lia)) as Ep. rewrite Ew. cbn [bind]. rewrite Ep. cbn [bind safe].
  split; [exact EX|]. split; [exact EY|]. cbn [rd_pix rd_w with_buffers]. rewrite (vset_size _ _ _ _ Ew), (vset_size _ _ _ _ Ep). split; assumption.
Qed.
Lemma fr_hline r ax aw bx bw y c : fr r -> safe (draw_horizontal_line r ax aw bx bw y c) fr.
Proof.
  intros F. assert (F' := F). destruct F' as (EX & EY & EP & EW). unfold draw_horizontal_line. sb.
  destruct (Z.ltb_spec bx 0); [exact F|]. destruct (Z.leb_spec (rd_X r) ax); [exact F|]. destruct (Z.ltb_spec y 0); [exact F|]. destruct (Z.leb_spec (rd_Y r) y); [exact F|].
  eapply (safe_bind _ _ (fun c => 0 <= fst c)). { destruct (Z.ltb_spec ax 0); [|cbn; lia]. repeat sb. cbn. lia. }
  intros [ax' aw'] A. cbn [fst] in A. eapply (safe_bind _ _ (fun c => fst c < X)). { destruct (Z.leb_spec (rd_X r) bx); [|cbn; lia]. sb. cbv zeta. repeat sb. cbn. lia. }
  intros [bx' bw'] B. cbn [fst] in B. apply safe_for; [exact F|]. intros i s Hi Fs. eapply (safe_bind _ _ anyv). { destruct (ax' =? bx'); [exact I|]. repeat sb. exact I. }
  intros t _. sb. cbv zeta. apply fr_put; [exact Fs|]. destruct Fs as (EX' & _). rewrite EX'. nia.
Qed.
Lemma fr_trapeze r ax aw bx bw ay cx cw dx dw cy c : fr r -> safe (draw_trapeze r ax aw bx bw ay cx cw dx dw cy c) (fun x => fr (fst x)).
Proof.
  intros F. unfold draw_trapeze. do 3 sb. destruct (cy <? 0); [exact F|]. destruct (rd_Y r <=? ay); [exact F|].
  eapply (safe_bind _ _ anyv). { destruct (ay <? 0); repeat sb; exact I. } intros [[[[ay' ax'] aw'] bx'] bw'] _.
  eapply (safe_bind _ _ anyv). { destruct (rd_Y r <=? cy); repeat sb; exact I. } intros [[[[cy' cx'] cw'] dx'] dw'] _.
  do 4 sb. eapply (safe_bind _ _ fr); [|intros s Fs; exact Fs]. apply safe_for; [exact F|]. intros y s Hy Fs. do 3 sb. cbv zeta. do 2 sb. apply fr_hline. exact Fs.
Qed.
Lemma s_project (c : Camera T) p : safe (project c p) anyv.
Proof. unfold project. cbv zeta. do 4 sb. destruct (negb _); repeat sb; exact I. Qed.
Lemma s_normal t : safe (tri_normal t) anyv.
Proof. unfold tri_normal, normalized, norm. do 2 sb. exact I. Qed.
Lemma s_factor f c k : safe (factor f c k) anyv. Proof. apply s_div. Qed.
Lemma s_color ls c n : safe (compute_color ls c n) anyv.
Proof.
  unfold compute_color. do 3 sb. eapply (safe_bind _ _ anyv).
  { apply safe_for; [exact I|]. intros i [[x y] z] Hi _. destruct (vget_in_range ls i Hi) as [l ->]. cbn [bind]. destruct (light_apply l _ _ _ n) as [[r g] b]. exact I. }
  intros [[x y] z] _. assert (forall d, safe (level d) anyv) as L by (intros d; unfold level; sb; exact I).
  do 3 (eapply safe_bind; [apply L|intros ? _]). exact I.
Qed.
Lemma fr_triangle r A B C c two : fr r -> safe (draw_triangle r A B C c two) (fun x => fr (fst x)).
Proof.
  intros F. unfold draw_triangle. do 3 (eapply safe_bind; [apply s_project|]; intros [[? ?] ?] _). cbv zeta.
  eapply (safe_bind _ _ anyv). { destruct two; repeat sb; exact I. } intros back _.
  do 5 match goal with |- safe (if ?b then _ else _) _ => destruct b; [exact F|] end.
  destruct (sort_y _ _ _) as [[[[ax ay] aw] [[bx by_] bw]] [[cx cy] cw]].
  eapply (safe_bind _ _ anyv). { destruct (negb _); [do 2 sb; apply s_div|exact I]. } intros tt_ _. do 3 sb. cbv zeta.
  destruct (if _ <? bx then _ else _) as [[[[? ?] ?] ?] ?]. do 3 sb.
  eapply safe_bind; [apply s_normal|intros n _]. eapply safe_bind; [apply s_color|intros col _].
  eapply safe_bind; [apply fr_trapeze; exact F|]. intros r1 F1. eapply safe_bind; [apply fr_trapeze; exact F1|]. intros r2 F2. exact F2.
Qed.
Lemma fr_line r p q c : X <= int_max -> Y <= int_max -> fr r -> safe (draw_line r p q c) fr.
Proof.
  intros XM YM F. unfold draw_line. cbv zeta. do 2 (eapply safe_bind; [apply s_project|]; intros [[? ?] ?] _). do 2 sb.
  eapply (safe_bind _ _ anyv). { destruct (nltb _ _); apply s_trunc. } intros im _. destruct (im <? 1); [exact F|]. do 3 sb.
  eapply (safe_bind _ _ (fun s => fr (fst (fst (fst s))))); [|intros s Fs; exact Fs].
  apply (safe_for (fun s => fr (fst (fst (fst s))))); [exact F|]. intros i [[[r' fx] fy] fz] Hi Fs. cbn [fst] in Fs. eapply (safe_bind _ _ fr); [|intros r2 F2; exact F2].
  destruct (_ && _) eqn:E; [|exact Fs]. apply andb_prop in E. destruct E as [E E4]. apply andb_prop in E. destruct E as [E E3]. apply andb_prop in E. destruct E as [E1 E2].
  assert (Fs' := Fs). destruct Fs' as (EX & EY & _). rewrite EX in E2. rewrite EY in E4. destruct SANE as (_ & _ & S3 & S4).
  eapply (safe_bind _ _ (fun z => 0 <= z < X)). { apply safe_any; [apply S3|]. intros zz Ez. exact (S4 fx X zz (conj X0 XM) E1 E2 Ez). } intros ix Hx.
  eapply (safe_bind _ _ (fun z => 0 <= z < Y)). { apply safe_any; [apply S3|]. intros zz Ez. exact (S4 fy Y zz (conj Y0 YM) E3 E4 Ez). } intros iy Hy.
  apply fr_put; [exact Fs|]. rewrite EX. nia.
Qed.
Lemma fr_pixel r p c : fr r -> safe (draw_pixel r p c) fr.
Proof.
  intros F. unfold draw_pixel. eapply safe_bind; [apply s_project|]. intros [[ix iy] z] _. assert (F' := F). destruct F' as (EX & EY & _). rewrite EX, EY.
  destruct (Z.ltb_spec ix 0); [exact F|]. destruct (Z.leb_spec X ix); [exact F|]. destruct (Z.ltb_spec iy 0); [exact F|]. destruct (Z.leb_spec Y iy); [exact F|]. cbn [orb].
  apply fr_put; [exact F|]. nia.
Qed.
Lemma fr_clear r : fr r -> safe (rd_clear r) fr.
Proof.
  intros F. unfold rd_clear. apply safe_for; [exact F|]. intros j s Hj Fs. apply safe_for; [exact Fs|]. intros i s2 Hi F2. assert (F' := F2). destruct F' as (EX & EY & EP & EW).
  destruct F as (EX0 & EY0 & _). destruct Fs as (EX1 & EY1 & _). assert (0 <= j * rd_X s2 + i < X * Y) as K by (rewrite EX; nia).
  pose proof (vset_in_range (rd_w s2) (j * rd_X s2 + i) n0 ltac:(lia)) as Ew. pose proof (vset_in_range (rd_pix s2) (j * rd_X s2 + i) (rd_bg s2) ltac:(lia)) as Ep. rewrite Ep. cbn [bind]. rewrite Ew. cbn [bind safe].
  split; [exact EX|]. split; [exact EY|]. cbn [rd_pix rd_w with_buffers]. rewrite (vset_size _ _ _ _ Ew), (vset_size _ _ _ _ Ep). split; assumption.
Qed.
Lemma fr_step r o : X <= int_max -> Y <= int_max -> proper o -> fr r -> safe (rstep r o) fr.
Proof.
  intros XM YM P F. destruct o; cbn [rstep].
  - apply fr_clear, F.
  - exact F.
  - unfold rd_set_camera, cam_set_angles, euler_set, deg_to_rad. eapply (safe_bind _ _ anyv); [|intros ? _; exact F]. eapply (safe_bind _ _ anyv); [|intros ? _; exact I]. sb. exact I.
  - unfold rd_add_ambient_light, light_ambient. eapply (safe_bind _ _ anyv); [|intros ? _; exact F]. do 3 (eapply safe_bind; [apply s_factor|intros ? _]). exact I.
  - unfold rd_add_diffuse_light, light_diffuse. eapply (safe_bind _ _ anyv); [|intros ? _; exact F]. do 3 (eapply safe_bind; [apply s_factor|intros ? _]). exact I.
  - eapply safe_bind; [apply fr_triangle; exact F|]. intros [r' b] F'. exact F'.
  - apply fr_line; assumption.
  - apply fr_pixel, F.
  - unfold draw_polyline. destruct (_ <? 2); [exact F|]. apply safe_for; [exact F|]. intros i s Hi Fs.
    destruct (vget_in_range pl (i - 1) ltac:(lia)) as [p ->]. destruct (vget_in_range pl i ltac:(lia)) as [q ->]. cbn [bind]. apply fr_line; assumption.
  - cbn [proper] in P. unfold draw_mesh. cbv zeta. apply safe_for; [exact F|]. intros i s Hi Fs.
    destruct (wf_tri_get m i (reach_wf m P) Hi) as [tl [El _]]. rewrite (is_unlinked_ok m i tl El). cbn [bind]. destruct (lunl tl =? -1); [exact Fs|]. destruct (get_triangle_ok m i tl (reach_wf m P) El) as [p [q [t [_ [_ [_ ->]]]]]]. cbn [bind].
    eapply safe_bind; [apply fr_triangle; exact Fs|]. intros [r' b] F'. cbn [fst] in F'. destruct (_ && _); [|exact F'].
    do 2 (eapply safe_bind; [apply fr_line; assumption|intros ? ?]). apply fr_line; assumption.
Qed.
End Gen.
