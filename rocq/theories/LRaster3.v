(** The last row, in any arithmetic; the theorems on filled triangles. *)
From Coq Require Import ZArith List Bool Reals Lia Lra Psatz.
From Verif Require Import Base Num MGeometry MKernel MMesh MTransform MRender SMesh SReach SGeom SRender SRaster LBase LGeom LRender LRender2 LRender3 LRender5 LRender6 LRaster LRaster2.
Import ListNotations.
Open Scope Z_scope.

Section Last.
Context {T : Type} {N : Num T} {TR : Trig T} {FL : Flt T}.
Implicit Types r s : Renderer T.
Variables X Y : Z.
Hypothesis X0 : 0 <= X.
Variable ST : Camera T * list (Light T) * Z * Z * Z.
Notation ok := (ok X Y ST).
Definition high (f : frag) : Prop := good X Y f /\ fst f < X * (Y - 1).
Definition above {B} r (x : res (Renderer T * B)) : Prop := match x with Ok (s, _) => exists fs, Forall high fs /\ s = paint r fs | Err _ => True end.
Definition above1 r (x : res (Renderer T)) : Prop := match x with Ok s => exists fs, Forall high fs /\ s = paint r fs | Err _ => True end.
Lemma high_good fs : Forall high fs -> Forall (good X Y) fs. Proof. apply Forall_impl. intros f H. apply H. Qed.
Lemma above_same {B} r (b : B) : above r (Ok (r, b)). Proof. exists []. split; [constructor|reflexivity]. Qed.
Lemma above1_same r : above1 r (Ok r). Proof. exists []. split; [constructor|reflexivity]. Qed.
Lemma above_pure {A B} r (x : res A) (f : A -> res (Renderer T * B)) : (forall a, x = Ok a -> above r (f a)) -> above r (bind x f).
Proof. intros H. destruct x; cbn; [apply H; reflexivity|exact I]. Qed.
Lemma above1_pure {A} r (x : res A) (f : A -> res (Renderer T)) : (forall a, x = Ok a -> above1 r (f a)) -> above1 r (bind x f).
Proof. intros H. destruct x; cbn; [apply H; reflexivity|exact I]. Qed.
Lemma above1_bind r x f : ok r -> above1 r x -> (forall s, ok s -> above1 s (f s)) -> above1 r (bind x f).
Proof.
  intros O H K. destruct x as [s|]; [|exact I]. destruct H as (fs & G & ->). cbn [bind]. specialize (K _ (ok_paint X Y ST r fs O (high_good fs G))). destruct (f _) as [t|]; [|exact I].
  destruct K as (gs & G' & ->). exists (fs ++ gs). rewrite paint_app. split; [apply Forall_app; split; assumption|reflexivity].
Qed.
Lemma above_bind {B C} r x (f : Renderer T * B -> res (Renderer T * C)) : ok r -> above r x -> (forall s b, ok s -> above s (f (s, b))) -> above r (bind x f).
Proof.
  intros O H K. destruct x as [[s b]|]; [|exact I]. destruct H as (fs & G & ->). cbn [bind]. specialize (K _ b (ok_paint X Y ST r fs O (high_good fs G))). destruct (f _) as [[t c]|]; [|exact I].
  destruct K as (gs & G' & ->). exists (fs ++ gs). rewrite paint_app. split; [apply Forall_app; split; assumption|reflexivity].
Qed.
Lemma above1_for r a b body : ok r -> (forall i s, a <= i < b -> ok s -> above1 s (body i s)) -> above1 r (for_ a b body r).
Proof.
  intros O K. destruct (Z_le_gt_dec b a) as [L|G]; [rewrite for_empty by lia; apply above1_same|].
  replace b with (a + Z.of_nat (Z.to_nat (b - a))) in * by lia. clear G. revert r O K. generalize (Z.to_nat (b - a)) as n. intros n. revert a.
  induction n as [|n IH]; intros a r O K; [rewrite Z.add_0_r, for_empty by lia; apply above1_same|].
  rewrite for_step by lia. apply above1_bind; [assumption|apply K; [lia|assumption]|]. intros s P.
  replace (a + Z.of_nat (S n)) with (a + 1 + Z.of_nat n) in * by lia. apply IH; [assumption|]. intros i t Hi. apply K. lia.
Qed.
Lemma above_hline r ax aw bx bw y c : ok r -> y < Y - 1 -> above1 r (draw_horizontal_line r ax aw bx bw y c).
Proof.
  intros O HY. destruct (ok_X X Y ST r r O O) as (EX & EY & _). unfold draw_horizontal_line. rewrite EX, EY. apply above1_pure. intros _ _.
  destruct (Z.ltb_spec bx 0); [apply above1_same|]. destruct (Z.leb_spec X ax); [apply above1_same|]. destruct (Z.ltb_spec y 0); [apply above1_same|]. destruct (Z.leb_spec Y y); [apply above1_same|].
  apply above1_pure. intros [ax' aw'] Ea. assert (0 <= ax') as A. { revert Ea. destruct (Z.ltb_spec ax 0); [|intros [= <- _]; lia]. do 3 (match goal with |- bind ?x _ = _ -> _ => destruct x end; cbn [bind]; [|discriminate]; cbv zeta). intros [= <- _]. lia. }
  apply above1_pure. intros [bx' bw'] Eb. assert (bx' < X) as B. { revert Eb. destruct (Z.leb_spec X bx); [|intros [= <- _]; lia]. do 2 (match goal with |- bind ?x _ = _ -> _ => destruct x end; cbn [bind]; [|discriminate]; cbv zeta). intros [= <- _]. lia. }
  apply above1_for; [assumption|]. intros i s Hi P. destruct (ok_X X Y ST s s P P) as (X1' & _). rewrite X1'. apply above1_pure. intros t _. apply above1_pure. intros _ _. cbv zeta.
  assert (0 <= y * X + i < X * (Y - 1)) as K by nia. rewrite (put_paint X Y ST) by (assumption || nia). refine (ex_intro _ [_] (conj _ eq_refl)). constructor; [|constructor]. split; [split; [cbn [fst]; nia|eexists; reflexivity]|cbn [fst]; lia].
Qed.
Lemma above_trapeze r ax aw bx bw ay cx cw dx dw cy c : ok r -> above r (draw_trapeze r ax aw bx bw ay cx cw dx dw cy c).
Proof.
  intros O. destruct (ok_X X Y ST r r O O) as (EX & EY & _). unfold draw_trapeze. rewrite EY. do 3 (apply above_pure; intros _ _).
  destruct (cy <? 0); [apply above_same|]. destruct (Y <=? ay); [apply above_same|]. apply above_pure. intros [[[[ay' ax'] aw'] bx'] bw'] _. apply above_pure. intros [[[[cy' cx'] cw'] dx'] dw'] _.
  do 2 (apply above_pure; intros _ _). apply above_pure. intros [] HC. apply above_pure. intros _ _.
  assert (cy' < Y) as CY by (apply Z.ltb_lt; destruct (cy' <? Y); [reflexivity|discriminate HC]).
  match goal with |- above _ (bind ?e _) => assert (above1 r e) as H; [|destruct e; [exact H|exact I]] end.
  apply above1_for; [assumption|]. intros y s Hy P.
  apply above1_pure; intros t _. apply above1_pure; intros _ _. apply above1_pure; intros p1 _. cbv zeta. apply above1_pure; intros p2 _. apply above1_pure; intros _ _. apply above_hline; [assumption|lia].
Qed.
Lemma above_triangle r A B C c two : ok r -> above r (draw_triangle r A B C c two).
Proof.
  intros O. unfold draw_triangle.
  apply above_pure. intros [[? ?] ?] _. apply above_pure. intros [[? ?] ?] _. apply above_pure. intros [[? ?] ?] _. cbv zeta.
  apply above_pure. intros back _. do 5 match goal with |- above _ (if ?b then _ else _) => destruct b; [apply above_same|] end.
  destruct (sort_y _ _ _) as [[[[ax ay] aw] [[bx by_] bw]] [[cx cy] cw]]. apply above_pure. intros t' _. apply above_pure. intros _ _. apply above_pure. intros dx _. apply above_pure. intros dy _. cbv zeta.
  destruct (if dx <? bx then _ else _) as [[[[? ?] ?] ?] ?]. do 3 (apply above_pure; intros _ _). apply above_pure. intros n _. apply above_pure. intros col _.
  eapply above_bind; [assumption|apply above_trapeze; assumption|]. intros s b P. cbn [fst snd]. eapply above_bind; [assumption|apply above_trapeze; assumption|].
  intros u b' Q. cbn [fst snd]. apply above_same.
Qed.
Lemma above_filled r o : filled o -> ok r -> above1 r (rstep r o).
Proof.
  intros FO O. destruct o; try contradiction FO; cbn [rstep].
  - pose proof (above_triangle r A B C c two O) as H. destruct (draw_triangle _ _ _ _ _ _) as [[s b]|]; [exact H|exact I].
  - cbn [filled] in FO. subst edges. unfold draw_mesh. cbv zeta. apply above1_for; [assumption|]. intros i s _ P. apply above1_pure. intros u _. destruct u; [apply above1_same|].
    apply above1_pure. intros t _. pose proof (above_triangle s (t1 t) (t2 t) (t3 t) (if c =? -1 then get_color m else c) false P) as H. cbn [andb].
    destruct (draw_triangle s _ _ _ _ _) as [[u1 b1]|]; [exact H|exact I].
Qed.
Lemma above_run r os : Forall filled os -> ok r -> above1 r (rrun r os).
Proof.
  intros F. revert r. induction F as [|o os Ho F IH]; intros r O; [apply above1_same|]. cbn [rrun]. apply above1_bind; [exact O|apply above_filled; assumption|exact IH].
Qed.
End Last.

Lemma last_row {T} {N : Num T} {TR : Trig T} {FL : Flt T} X Y (r r' : Renderer T) os : 0 <= X -> framed r X Y -> Forall filled os -> rrun r os = Ok r' ->
  forall x, 0 <= x < X -> pixel r' ((Y - 1) * X + x) = pixel r ((Y - 1) * X + x).
Proof.
  intros X0 F FO E x Hx. assert (ok X Y (settings r) r) as O by (split; [exact F|reflexivity]). pose proof (above_run X Y X0 (settings r) r os FO O) as H. rewrite E in H. destruct H as (fs & G & ->).
  destruct (Z_le_gt_dec 0 ((Y - 1) * X + x)) as [K|K].
  - rewrite (pixel_paint X Y (settings r)); [|exact O|apply high_good; exact G|exact K].
    assert (at_ ((Y - 1) * X + x) fs = []) as ->; [|reflexivity]. unfold at_. clear E.
    induction G as [|f fs Hf G IH]; [reflexivity|]. cbn [filter]. destruct (Z.eqb_spec (fst f) ((Y - 1) * X + x)) as [Ef|Ef]; [destruct Hf as [_ Hf]; nia|exact IH].
  - assert (Y <= 0) as Y0 by nia. assert (fs = []) as ->; [|reflexivity]. destruct G as [|f fs Hf G]; [reflexivity|]. destruct Hf as [[Hf _] _]. nia.
Qed.
