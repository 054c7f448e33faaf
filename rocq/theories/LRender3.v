(** Drawing filled shapes is painting fragments that do not depend on the buffers. *)
From Coq Require Import ZArith List Bool Lia Permutation.
From Verif Require Import Base Num MGeometry MKernel MMesh MTransform MRender SMesh SReach SGeom SMeasure SRender LBase LMesh LReach LRender LRender2.
Import ListNotations.
Open Scope Z_scope.

Section Gen.
Context {T : Type} {N : Num T} {TR : Trig T} {FL : Flt T}.
Implicit Types r s : Renderer T.
Definition frag : Type := (Z * (T * Z))%type.
Definition paint1 r (f : frag) : Renderer T :=
  if nltb (depth r (fst f)) (fst (snd f)) then with_buffers r (list_set (rd_pix r) (Z.to_nat (fst f)) (snd (snd f))) (list_set (rd_w r) (Z.to_nat (fst f)) (fst (snd f))) else r.
Definition paint r (fs : list frag) : Renderer T := fold_left paint1 fs r.
Lemma paint_app r fs gs : paint r (fs ++ gs) = paint (paint r fs) gs. Proof. apply fold_left_app. Qed.

Variables X Y : Z.
Variable ST : Camera T * list (Light T) * Z * Z * Z.
Definition ok r : Prop := framed r X Y /\ settings r = ST.
Definition good (f : frag) : Prop := 0 <= fst f < X * Y /\ exists x, fst (snd f) = nflt x.
Lemma ok_paint1 r f : ok r -> good f -> ok (paint1 r f).
Proof.
  intros [F S] [K _]. unfold paint1. destruct (nltb _ _); [|split; assumption]. split; [|exact S]. destruct F as (A & B & C & D).
  repeat split; [exact A|exact B| |]; cbn [rd_pix rd_w with_buffers]; unfold vsize in *; rewrite list_set_length; assumption.
Qed.
Lemma ok_paint r fs : ok r -> Forall good fs -> ok (paint r fs).
Proof. intros O H. revert r O. induction H as [|f fs Hf H IH]; intros r O; [exact O|]. apply IH. apply ok_paint1; assumption. Qed.
Lemma put_paint r k w c : ok r -> 0 <= k < X * Y -> put r k w w c = Ok (paint1 r (k, (w, c))).
Proof.
  intros [(A & B & C & D) S] K. unfold put, paint1. cbn [fst snd]. destruct (vget_in_range (rd_w r) k ltac:(lia)) as [old E]. rewrite E. cbn [bind].
  assert (depth r k = old) as ->. { unfold depth, pixel. cbn [fst]. apply vget_Ok in E. destruct E as [_ E]. apply nth_error_nth. exact E. }
  destruct (nltb old w); [|reflexivity]. rewrite !vset_in_range by lia. reflexivity.
Qed.

(** Two renderers with the same settings. *)
Definition rel {B} r1 r2 (x1 x2 : res (Renderer T * B)) : Prop :=
  match x1, x2 with
  | Ok (s1, b1), Ok (s2, b2) => b1 = b2 /\ exists fs, Forall good fs /\ s1 = paint r1 fs /\ s2 = paint r2 fs
  | Err e1, Err e2 => e1 = e2
  | _, _ => False
  end.
Definition rel1 r1 r2 (x1 x2 : res (Renderer T)) : Prop :=
  match x1, x2 with
  | Ok s1, Ok s2 => exists fs, Forall good fs /\ s1 = paint r1 fs /\ s2 = paint r2 fs
  | Err e1, Err e2 => e1 = e2
  | _, _ => False
  end.
Lemma rel_same {B} r1 r2 (b : B) : rel r1 r2 (Ok (r1, b)) (Ok (r2, b)).
Proof. split; [reflexivity|]. exists []. repeat split. constructor. Qed.
Lemma rel1_same r1 r2 : rel1 r1 r2 (Ok r1) (Ok r2).
Proof. exists []. repeat split. constructor. Qed.
Lemma rel_pure {A B} r1 r2 (x : res A) (f1 f2 : A -> res (Renderer T * B)) : (forall a, x = Ok a -> rel r1 r2 (f1 a) (f2 a)) -> rel r1 r2 (bind x f1) (bind x f2).
Proof. intros H. destruct x; cbn; [apply H; reflexivity|reflexivity]. Qed.
Lemma rel1_pure {A} r1 r2 (x : res A) (f1 f2 : A -> res (Renderer T)) : (forall a, x = Ok a -> rel1 r1 r2 (f1 a) (f2 a)) -> rel1 r1 r2 (bind x f1) (bind x f2).
Proof. intros H. destruct x; cbn; [apply H; reflexivity|reflexivity]. Qed.
Lemma rel1_bind r1 r2 x1 x2 f1 f2 : ok r1 -> ok r2 -> rel1 r1 r2 x1 x2 -> (forall s1 s2, ok s1 -> ok s2 -> rel1 s1 s2 (f1 s1) (f2 s2)) -> rel1 r1 r2 (bind x1 f1) (bind x2 f2).
Proof.
  intros O1 O2 H K. destruct x1 as [s1|]; destruct x2 as [s2|]; cbn in H; try contradiction; [|exact H]. destruct H as (fs & G & -> & ->).
  cbn [bind]. specialize (K _ _ (ok_paint r1 fs O1 G) (ok_paint r2 fs O2 G)). destruct (f1 _) as [t1|]; destruct (f2 _) as [t2|]; cbn in K |- *; try contradiction; [|exact K].
  destruct K as (gs & G' & -> & ->). exists (fs ++ gs). rewrite !paint_app. repeat split. apply Forall_app. split; assumption.
Qed.
Lemma rel_bind {B C} r1 r2 x1 x2 (f1 f2 : Renderer T * B -> res (Renderer T * C)) : ok r1 -> ok r2 -> rel r1 r2 x1 x2 ->
  (forall s1 s2 b, ok s1 -> ok s2 -> rel s1 s2 (f1 (s1, b)) (f2 (s2, b))) -> rel r1 r2 (bind x1 f1) (bind x2 f2).
Proof.
  intros O1 O2 H K. destruct x1 as [[s1 b1]|]; destruct x2 as [[s2 b2]|]; cbn in H; try contradiction; [|exact H]. destruct H as (<- & fs & G & -> & ->).
  cbn [bind]. specialize (K _ _ b1 (ok_paint r1 fs O1 G) (ok_paint r2 fs O2 G)). destruct (f1 _) as [[t1 c1]|]; destruct (f2 _) as [[t2 c2]|]; cbn in K |- *; try contradiction; [|exact K].
  destruct K as (E & gs & G' & -> & ->). split; [exact E|]. exists (fs ++ gs). rewrite !paint_app. repeat split. apply Forall_app. split; assumption.
Qed.
Lemma rel_of1 {B} r1 r2 x1 x2 (b : B) : rel1 r1 r2 x1 x2 -> rel r1 r2 (do s <- x1; Ok (s, b)) (do s <- x2; Ok (s, b)).
Proof. destruct x1; destruct x2; cbn; intros H; try contradiction; [|exact H]. split; [reflexivity|exact H]. Qed.
Lemma rel1_of {B} r1 r2 (x1 x2 : res (Renderer T * B)) : rel r1 r2 x1 x2 -> rel1 r1 r2 (do z <- x1; Ok (fst z)) (do z <- x2; Ok (fst z)).
Proof. destruct x1 as [[]|]; destruct x2 as [[]|]; cbn; intros H; try contradiction; [|exact H]. apply H. Qed.
Lemma rel1_for r1 r2 a b body1 body2 : ok r1 -> ok r2 -> (forall i s1 s2, a <= i < b -> ok s1 -> ok s2 -> rel1 s1 s2 (body1 i s1) (body2 i s2)) ->
  rel1 r1 r2 (for_ a b body1 r1) (for_ a b body2 r2).
Proof.
  intros O1 O2 K. destruct (Z_le_gt_dec b a) as [L|G]; [rewrite !for_empty by lia; apply rel1_same|].
  replace b with (a + Z.of_nat (Z.to_nat (b - a))) in * by lia. clear G. revert r1 r2 O1 O2 K. generalize (Z.to_nat (b - a)) as n. intros n. revert a.
  induction n as [|n IH]; intros a r1 r2 O1 O2 K; [rewrite Z.add_0_r, !for_empty by lia; apply rel1_same|].
  rewrite !for_step by lia. apply rel1_bind; [assumption|assumption|apply K; [lia|assumption|assumption]|]. intros s1 s2 P1 P2.
  replace (a + Z.of_nat (S n)) with (a + 1 + Z.of_nat n) in * by lia. apply IH; [assumption|assumption|]. intros i t1 t2 Hi. apply K. lia.
Qed.
Lemma ok_X r1 r2 : ok r1 -> ok r2 -> rd_X r1 = X /\ rd_Y r1 = Y /\ rd_X r2 = X /\ rd_Y r2 = Y /\ rd_cam r1 = rd_cam r2 /\ rd_lights r1 = rd_lights r2.
Proof. intros [F1 S1] [F2 S2]. rewrite <- S2 in S1. unfold settings in S1. repeat split; try apply F1; try apply F2; congruence. Qed.
Lemma rel_hline r1 r2 ax aw bx bw y c : ok r1 -> ok r2 -> rel1 r1 r2 (draw_horizontal_line r1 ax aw bx bw y c) (draw_horizontal_line r2 ax aw bx bw y c).
Proof.
  intros O1 O2. destruct (ok_X r1 r2 O1 O2) as (X1 & Y1 & X2 & Y2 & _). unfold draw_horizontal_line. rewrite X1, X2, Y1, Y2. apply rel1_pure. intros _ _.
  destruct (Z.ltb_spec bx 0); [apply rel1_same|]. destruct (Z.leb_spec X ax); [apply rel1_same|]. destruct (Z.ltb_spec y 0); [apply rel1_same|]. destruct (Z.leb_spec Y y); [apply rel1_same|].
  apply rel1_pure. intros [ax' aw'] Ea. assert (0 <= ax') as A. { revert Ea. destruct (Z.ltb_spec ax 0); [|intros [= <- _]; lia]. do 3 (match goal with |- bind ?x _ = _ -> _ => destruct x end; cbn [bind]; [|discriminate]; cbv zeta). intros [= <- _]. lia. }
  apply rel1_pure. intros [bx' bw'] Eb. assert (bx' < X) as B. { revert Eb. destruct (Z.leb_spec X bx); [|intros [= <- _]; lia]. do 2 (match goal with |- bind ?x _ = _ -> _ => destruct x end; cbn [bind]; [|discriminate]; cbv zeta). intros [= <- _]. lia. }
  apply rel1_for; [assumption|assumption|]. intros i s1 s2 Hi P1 P2. destruct (ok_X s1 s2 P1 P2) as (X1' & Y1' & X2' & Y2' & _). rewrite X1', X2'. apply rel1_pure. intros t _. apply rel1_pure. intros _ _. cbv zeta.
  assert (0 <= y * X + i < X * Y) as K by nia. rewrite !put_paint by assumption. refine (ex_intro _ [_] (conj _ (conj eq_refl eq_refl))). constructor; [|constructor]. split; [exact K|]. eexists. reflexivity.
Qed.
Lemma rel_trapeze r1 r2 ax aw bx bw ay cx cw dx dw cy c : ok r1 -> ok r2 ->
  rel r1 r2 (draw_trapeze r1 ax aw bx bw ay cx cw dx dw cy c) (draw_trapeze r2 ax aw bx bw ay cx cw dx dw cy c).
Proof.
  intros O1 O2. destruct (ok_X r1 r2 O1 O2) as (X1 & Y1 & X2 & Y2 & _). unfold draw_trapeze. rewrite Y1, Y2. do 3 (apply rel_pure; intros _ _).
  destruct (cy <? 0); [apply rel_same|]. destruct (Y <=? ay); [apply rel_same|]. apply rel_pure. intros [[[[ay' ax'] aw'] bx'] bw'] _. apply rel_pure. intros [[[[cy' cx'] cw'] dx'] dw'] _.
  do 4 (apply rel_pure; intros _ _). apply rel_of1. apply rel1_for; [assumption|assumption|]. intros y s1 s2 _ P1 P2.
  apply rel1_pure; intros t _. apply rel1_pure; intros _ _. apply rel1_pure; intros p1 _. cbv zeta. apply rel1_pure; intros p2 _. apply rel1_pure; intros _ _. apply rel_hline; assumption.
Qed.
Lemma rel_triangle r1 r2 A B C c two : ok r1 -> ok r2 -> rel r1 r2 (draw_triangle r1 A B C c two) (draw_triangle r2 A B C c two).
Proof.
  intros O1 O2. destruct (ok_X r1 r2 O1 O2) as (X1 & Y1 & X2 & Y2 & CC & LL). unfold draw_triangle. rewrite CC, LL, X1, X2, Y1, Y2.
  apply rel_pure. intros [[? ?] ?] _. apply rel_pure. intros [[? ?] ?] _. apply rel_pure. intros [[? ?] ?] _. cbv zeta.
  apply rel_pure. intros back _. do 5 match goal with |- rel _ _ (if ?b then _ else _) _ => destruct b; [apply rel_same|] end.
  destruct (sort_y _ _ _) as [[[[ax ay] aw] [[bx by_] bw]] [[cx cy] cw]]. apply rel_pure. intros t' _. apply rel_pure. intros _ _. apply rel_pure. intros dx _. apply rel_pure. intros dy _. cbv zeta.
  destruct (if dx <? bx then _ else _) as [[[[? ?] ?] ?] ?]. do 3 (apply rel_pure; intros _ _). apply rel_pure. intros n _. apply rel_pure. intros col _.
  eapply rel_bind; [assumption|assumption|apply rel_trapeze; assumption|]. intros s1 s2 b P1 P2. cbn [fst snd]. eapply rel_bind; [assumption|assumption|apply rel_trapeze; assumption|].
  intros u1 u2 b' Q1 Q2. cbn [fst snd]. apply rel_same.
Qed.
Lemma rel_filled r1 r2 o : filled o -> ok r1 -> ok r2 -> rel1 r1 r2 (rstep r1 o) (rstep r2 o).
Proof.
  intros FO O1 O2. destruct o; try contradiction FO; cbn [rstep].
  - apply rel1_of. apply rel_triangle; assumption.
  - cbn [filled] in FO. subst edges. unfold draw_mesh. cbv zeta. apply rel1_for; [assumption|assumption|]. intros i s1 s2 _ P1 P2. apply rel1_pure. intros u _. destruct u; [apply rel1_same|].
    apply rel1_pure. intros t _. pose proof (rel_triangle s1 s2 (t1 t) (t2 t) (t3 t) (if c =? -1 then get_color m else c) false P1 P2) as H. cbn [andb].
    destruct (draw_triangle s1 _ _ _ _ _) as [[u1 b1]|]; destruct (draw_triangle s2 _ _ _ _ _) as [[u2 b2]|]; cbn in H |- *; try contradiction; [apply H|exact H].
Qed.

(** ** The order of depths *)
Hypothesis ORD : ordered T.
Definition om (p : T * Z) : Prop := neqb (fst p) (fst p) = true.
Definition lt (p q : T * Z) : Prop := nltb (fst p) (fst q) = true.
Lemma lt_irrefl p : ~ lt p p. Proof. unfold lt. rewrite (proj1 ORD). discriminate. Qed.
Lemma lt_trans p q u : lt p q -> lt q u -> lt p u. Proof. apply (proj1 (proj2 ORD)). Qed.
Lemma lt_om p q : lt p q -> om p /\ om q. Proof. apply (proj1 (proj2 (proj2 ORD))). Qed.
Lemma lt_co p q u : lt p q -> om u -> lt p u \/ lt u q. Proof. apply (proj1 (proj2 (proj2 (proj2 ORD)))). Qed.
Lemma lt_dec p q : lt p q \/ ~ lt p q. Proof. unfold lt. destruct (nltb _ _); [left; reflexivity|right; discriminate]. Qed.
Lemma nearer_lt p q : lt p q -> nearer p q = q. Proof. unfold lt, nearer. intros ->. reflexivity. Qed.
Lemma nearer_nlt p q : ~ lt p q -> nearer p q = p. Proof. unfold lt, nearer. destruct (nltb _ _); [intros H; contradiction H; reflexivity|reflexivity]. Qed.
Lemma nearest_cons p q l : nearest p (q :: l) = nearest (nearer p q) l. Proof. reflexivity. Qed.
Lemma nearest_grows l p : nearest p l = p \/ lt p (nearest p l).
Proof.
  revert p. induction l as [|q l IH]; intros p; [left; reflexivity|]. rewrite nearest_cons. destruct (lt_dec p q) as [L|L].
  - rewrite nearer_lt by exact L. right. destruct (IH q) as [->|H]; [exact L|eapply lt_trans; eassumption].
  - rewrite nearer_nlt by exact L. apply IH.
Qed.
Lemma nearest_om l p : om p -> om (nearest p l).
Proof. intros H. destruct (nearest_grows l p) as [->|L]; [exact H|]. apply (lt_om _ _ L). Qed.
Lemma nearest_from l p p0 : om p -> om p0 -> ~ lt p p0 -> nearest p l = nearer p (nearest p0 l).
Proof.
  revert p p0. induction l as [|q l IH]; intros p p0 Op O0 L; [cbn; rewrite nearer_nlt by exact L; reflexivity|]. rewrite !nearest_cons. destruct (lt_dec p0 q) as [L1|L1].
  - rewrite (nearer_lt p0 q L1). destruct (lt_dec p q) as [L2|L2].
    + rewrite (nearer_lt p q L2). rewrite nearer_lt; [reflexivity|]. destruct (nearest_grows l q) as [->|G]; [exact L2|eapply lt_trans; eassumption].
    + rewrite (nearer_nlt p q L2). apply IH; [exact Op|apply (lt_om _ _ L1)|exact L2].
  - rewrite (nearer_nlt p0 q L1). rewrite (nearer_nlt p q). + apply IH; assumption. + intros L2. destruct (lt_co p q p0 L2 O0); contradiction.
Qed.
(** ** Pixels of a painting *)
Definition at_ (j : Z) (fs : list frag) : list (T * Z) := map snd (filter (fun f => fst f =? j) fs).
Lemma pixel_paint1 r f j : ok r -> good f -> 0 <= j -> pixel (paint1 r f) j = if fst f =? j then nearer (pixel r j) (snd f) else pixel r j.
Proof.
  intros [F _] [K _] J. unfold paint1, nearer. fold (depth r j). destruct (Z.eqb_spec (fst f) j) as [<-|NE].
  - change (fst (pixel r (fst f))) with (depth r (fst f)). destruct (nltb _ _); [|reflexivity]. rewrite (pixel_set r _ _ _ _ X Y) by (assumption || lia). rewrite Z.eqb_refl. destruct f as [? []]; reflexivity.
  - destruct (nltb _ _); [|reflexivity]. rewrite (pixel_set r _ _ _ _ X Y) by (assumption || lia). destruct (Z.eqb_spec j (fst f)); [congruence|reflexivity].
Qed.
Lemma pixel_paint r fs j : ok r -> Forall good fs -> 0 <= j -> pixel (paint r fs) j = nearest (pixel r j) (at_ j fs).
Proof.
  intros O G J. revert r O. induction G as [|f fs Hf G IH]; intros r O; [reflexivity|]. change (paint r (f :: fs)) with (paint (paint1 r f) fs).
  rewrite IH by (apply ok_paint1; assumption). rewrite (pixel_paint1 r f j O Hf J). unfold at_. cbn [filter]. destruct (fst f =? j); reflexivity.
Qed.
(** ** Drawing filled shapes one after the other *)
Lemma run_nearest r0 r os r' : ok r0 -> ok r -> (forall k, 0 <= k < X * Y -> om (pixel r0 k) /\ om (pixel r k) /\ ~ lt (pixel r k) (pixel r0 k)) ->
  Forall filled os -> rrun r os = Ok r' ->
  exists ims, Forall2 (fun o im => rstep r0 o = Ok im) os ims /\ ok r' /\ forall k, 0 <= k < X * Y -> pixel r' k = nearest (pixel r k) (map (fun im => pixel im k) ims).
Proof.
  intros O0 O HO FO. revert r O HO. induction FO as [|o os Fo FO IH]; intros r O HO E; cbn [rrun] in E.
  - injection E as <-. exists []. repeat split; try apply O. constructor.
  - pose proof (rel_filled r0 r o Fo O0 O) as H. destruct (rstep r o) as [s|] eqn:Es; [|discriminate]. cbn [bind] in E. destruct (rstep r0 o) as [s0|] eqn:E0; [|contradiction].
    destruct H as (fs & G & -> & ->). destruct (IH (paint r fs)) as (ims & F2 & O' & P); [apply ok_paint; assumption| |exact E|].
    + intros k Hk. destruct (HO k Hk) as (A & B & C). rewrite pixel_paint by (assumption || lia). split; [exact A|]. split; [apply nearest_om; exact B|].
      intros L. destruct (nearest_grows (at_ k fs) (pixel r k)) as [E2|G2]; [rewrite E2 in L; contradiction|]. apply C. eapply lt_trans; eassumption.
    + exists (paint r0 fs :: ims). split; [constructor; assumption|]. split; [exact O'|]. intros k Hk. rewrite (P k Hk). cbn [map]. rewrite nearest_cons. f_equal.
      rewrite !pixel_paint by (assumption || lia). destruct (HO k Hk) as (A & B & C). apply nearest_from; assumption.
Qed.
(** Success does not depend on the buffers. *)
Lemma run_all r0 r os : ok r0 -> ok r -> Forall filled os -> Forall (fun o => exists im, rstep r0 o = Ok im) os -> exists r', rrun r os = Ok r'.
Proof.
  intros O0 O FO. revert r O. induction FO as [|o os Fo FO IH]; intros r O H; [eexists; reflexivity|]. inversion H as [|? ? [im E] H']; subst. cbn [rrun].
  pose proof (rel_filled r0 r o Fo O0 O) as K. rewrite E in K. destruct (rstep r o) as [s|]; [|contradiction]. destruct K as (fs & G & _ & ->). cbn [bind]. apply IH; [apply ok_paint; assumption|exact H'].
Qed.
Lemma nearest_max l p q : om p -> om q -> In q l -> ~ lt (nearest p l) q.
Proof.
  intros Op Oq. revert p Op. induction l as [|x l IH]; intros p Op H; [contradiction|]. rewrite nearest_cons. destruct H as [->|H].
  - intros L. destruct (lt_dec p q) as [L2|L2].
    + rewrite nearer_lt in L by exact L2. destruct (nearest_grows l q) as [E|G]; [rewrite E in L; exact (lt_irrefl _ L)|exact (lt_irrefl _ (lt_trans _ _ _ L G))].
    + rewrite nearer_nlt in L by exact L2. destruct (nearest_grows l p) as [E|G]; [rewrite E in L; contradiction|]. apply L2. eapply lt_trans; eassumption.
  - apply IH; [|exact H]. destruct (lt_dec p x) as [L|L]; [rewrite nearer_lt by exact L; apply (lt_om _ _ L)|rewrite nearer_nlt by exact L; exact Op].
Qed.
Lemma nearest_In l p : nearest p l = p \/ In (nearest p l) l.
Proof.
  revert p. induction l as [|x l IH]; intros p; [left; reflexivity|]. rewrite nearest_cons. unfold nearer. destruct (nltb _ _).
  - right. destruct (IH x) as [->|H]; [left; reflexivity|right; exact H].
  - destruct (IH p) as [->|H]; [left; reflexivity|right; right; exact H].
Qed.
Lemma nearest_perm l l' p : om p -> Permutation l l' -> ~ lt (nearest p l) (nearest p l') /\
  ((forall q q', In q l -> In q' l -> ~ lt q q' -> ~ lt q' q -> q = q') -> nearest p l = nearest p l').
Proof.
  intros Op P. assert (~ lt (nearest p l) (nearest p l')) as A.
  { destruct (nearest_In l' p) as [->|H]. - intros L. destruct (nearest_grows l p) as [E|G]; [rewrite E in L; exact (lt_irrefl _ L)|exact (lt_irrefl _ (lt_trans _ _ _ L G))].
    - apply Permutation_sym in P. apply nearest_max; [exact Op|apply nearest_om; exact Op|]. eapply Permutation_in; eassumption. }
  assert (~ lt (nearest p l') (nearest p l)) as B.
  { destruct (nearest_In l p) as [->|H]. - intros L. destruct (nearest_grows l' p) as [E|G]; [rewrite E in L; exact (lt_irrefl _ L)|exact (lt_irrefl _ (lt_trans _ _ _ L G))].
    - apply nearest_max; [exact Op|apply nearest_om; exact Op|]. eapply Permutation_in; eassumption. }
  split; [exact A|]. intros U. destruct (nearest_grows l p) as [E|G]; destruct (nearest_grows l' p) as [E'|G'].
  - congruence.
  - rewrite E in A. contradiction.
  - rewrite E' in B. contradiction.
  - destruct (nearest_In l p) as [E|H]; [rewrite E in G; contradiction (lt_irrefl _ G)|]. destruct (nearest_In l' p) as [E|H']; [rewrite E in G'; contradiction (lt_irrefl _ G')|].
    apply U; [exact H| |exact A|exact B]. eapply Permutation_in; [apply Permutation_sym; exact P|exact H'].
Qed.
End Gen.
