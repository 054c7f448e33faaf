(** Which pixels a filled triangle paints, over the reals. *)
From Coq Require Import ZArith List Bool Reals Lia Lra Psatz.
From Verif Require Import Base Num MGeometry MKernel MMesh MTransform MRender SMesh SReach SGeom SRender LBase LGeom LRender LRender2 LRender3 LRender5 LRender6.
Import ListNotations.
Open Scope Z_scope.
#[local] Existing Instance exact_flt.

(** ** Truncation *)
Definition rnd (v : R) : Z := Rtrunc (v + 1 / 2).
Lemma Int_part_le x z : (IZR z <= x)%R -> z <= Int_part x.
Proof. intros H. pose proof (base_Int_part x) as [A B]. apply Z.lt_succ_r. apply lt_IZR. unfold Z.succ. rewrite plus_IZR. lra. Qed.
Lemma Int_part_ge x z : (x < IZR z + 1)%R -> Int_part x <= z.
Proof. intros H. pose proof (base_Int_part x) as [A B]. apply Z.lt_succ_r. apply lt_IZR. unfold Z.succ. rewrite plus_IZR. lra. Qed.
Lemma Int_part_mono x y : (x <= y)%R -> Int_part x <= Int_part y.
Proof. intros H. apply Int_part_le. pose proof (base_Int_part x) as [A B]. lra. Qed.
Lemma Rtrunc_mono x y : (x <= y)%R -> Rtrunc x <= Rtrunc y.
Proof.
  intros H. unfold Rtrunc. destruct (Rlt_dec x 0) as [Hx|Hx]; destruct (Rlt_dec y 0) as [Hy|Hy]; [| |lra|apply Int_part_mono; exact H].
  - pose proof (Int_part_mono (- y) (- x) ltac:(lra)). lia.
  - pose proof (Int_part_le (- x) 0 ltac:(lra)). pose proof (Int_part_le y 0 ltac:(lra)). lia.
Qed.
Lemma Rtrunc_range x : (IZR int_min - 1 < x < IZR int_max + 1)%R -> int_min <= Rtrunc x <= int_max.
Proof.
  intros H. unfold Rtrunc. destruct (Rlt_dec x 0) as [Hx|Hx].
  - pose proof (Int_part_le (- x) 0 ltac:(lra)). assert (Int_part (- x) <= - int_min) by (apply Int_part_ge; rewrite opp_IZR; lra). unfold int_min, int_max in *. lia.
  - pose proof (Int_part_le x 0 ltac:(lra)). assert (Int_part x <= int_max) by (apply Int_part_ge; lra). unfold int_min, int_max in *. lia.
Qed.
Lemma trunc_ok (x : R) : (IZR int_min - 1 < x < IZR int_max + 1)%R -> ntrunc x = Ok (Rtrunc x).
Proof.
  intros H. apply Rtrunc_range in H. cbn. replace (int_min <=? Rtrunc x) with true by (symmetry; apply Z.leb_le; lia).
  replace (Rtrunc x <=? int_max) with true by (symmetry; apply Z.leb_le; lia). reflexivity.
Qed.
Lemma rnd_mono x y : (x <= y)%R -> rnd x <= rnd y.
Proof. intros H. apply Rtrunc_mono. lra. Qed.
Lemma rnd_near x : (0 <= x)%R -> (IZR (rnd x) <= x + 1 / 2 /\ x - 1 / 2 < IZR (rnd x))%R.
Proof. intros H. unfold rnd, Rtrunc. destruct (Rlt_dec _ 0); [lra|]. pose proof (base_Int_part (x + 1 / 2)) as [A B]. lra. Qed.
Lemma rnd_Z z : 0 <= z -> rnd (IZR z) = z.
Proof. intros H. apply IZR_le in H. unfold rnd, Rtrunc. destruct (Rlt_dec _ 0); [lra|]. apply Int_part_char. lra. Qed.
Lemma rnd_Z_neg z : z < 0 -> rnd (IZR z) = z + 1.
Proof. intros H. assert (z <= -1) as H' by lia. apply IZR_le in H'. unfold rnd, Rtrunc. destruct (Rlt_dec _ 0); [|lra]. rewrite (Int_part_char _ (- z - 1)); [lia|]. rewrite minus_IZR, opp_IZR. lra. Qed.
Lemma rnd_between z lo hi : int_min <= lo -> hi <= int_max -> (IZR lo <= z <= IZR hi)%R -> ntrunc (nadd z (nlit 1 2)) = Ok (rnd z) /\ lo <= rnd z <= Z.max 0 hi.
Proof.
  intros A B H. apply IZR_le in A, B. split.
  - change (nadd z (nlit 1 2)) with (z + 1 / 2)%R. apply trunc_ok. lra.
  - split.
    + unfold rnd, Rtrunc. destruct (Rlt_dec _ 0) as [C|C]; [|apply Int_part_le; lra].
      assert (Int_part (- (z + 1 / 2)) <= - lo) by (apply Int_part_ge; rewrite opp_IZR; lra). lia.
    + destruct (Z_le_gt_dec 0 hi) as [Z0|Z0].
      * rewrite Z.max_r by exact Z0. transitivity (rnd (IZR hi)); [apply rnd_mono; lra|]. rewrite rnd_Z by exact Z0. lia.
      * rewrite Z.max_l by lia. transitivity (rnd (IZR hi)); [apply rnd_mono; lra|]. rewrite rnd_Z_neg by lia. lia.
Qed.
Lemma unit_ok (t : R) : (0 <= t <= 1)%R -> unit_t t = Ok tt.
Proof. intros H. unfold unit_t. change (nleb n0 t) with (Rleb 0 t). change (nleb t n1) with (Rleb t 1). rewrite !(proj2 (Rleb_le _ _)) by lra. reflexivity. Qed.
Lemma frac01 a b : (0 <= a <= b)%R -> (0 < b)%R -> (0 <= a / b <= 1)%R.
Proof.
  intros H B. split; [apply Rmult_le_pos; [lra|left; apply Rinv_0_lt_compat; exact B]|].
  apply (Rmult_le_reg_r b); [exact B|]. unfold Rdiv. rewrite Rmult_assoc, Rinv_l by lra. lra.
Qed.
Lemma convex a b t lo hi : (lo <= a <= hi -> lo <= b <= hi -> 0 <= t <= 1 -> lo <= a * t + b * (1 - t) <= hi)%R.
Proof. intros. nra. Qed.

Section Cover.
Implicit Types P Q : Z -> Z -> Prop.
Implicit Types r s : Renderer R.
Variables X Y : Z.
Hypothesis X1 : 1 <= X.
Hypothesis Y1 : 1 <= Y.
Variable ST : Camera R * list (Light R) * Z * Z * Z.
Notation ok := (ok X Y ST).
Notation good := (good X Y).
Variables lo hi : R.
Variable c : Z.

(** The fragments are those of the pixels in [P], of colour [c] and depth between [lo] and [hi]. *)
Definition cover (P : Z -> Z -> Prop) (r : Renderer R) (x : res (Renderer R)) : Prop :=
  exists fs, x = Ok (paint r fs) /\ Forall good fs /\
    (forall k w d, In (k, (w, d)) fs -> d = c /\ (lo <= w <= hi)%R /\ exists x y, P x y /\ 0 <= x < X /\ 0 <= y < Y /\ k = y * X + x) /\
    (forall x y, P x y -> 0 <= x < X -> 0 <= y < Y -> exists w, In (y * X + x, (w, c)) fs).
Lemma cover_nil P r : (forall x y, P x y -> 0 <= x < X -> 0 <= y < Y -> False) -> cover P r (Ok r).
Proof. intros H. exists []. split; [reflexivity|]. split; [constructor|]. split; [intros ? ? ? []|]. intros x y HP Hx Hy. destruct (H x y HP Hx Hy). Qed.
Lemma cover_weak P Q r x : cover P r x -> (forall x y, 0 <= x < X -> 0 <= y < Y -> (P x y <-> Q x y)) -> cover Q r x.
Proof.
  intros (fs & E & G & A & B) H. exists fs. split; [exact E|]. split; [exact G|]. split.
  - intros k w d I. destruct (A k w d I) as (D & W & x' & y & Pxy & Hx & Hy & K). split; [exact D|]. split; [exact W|]. exists x', y. split; [apply H; assumption|auto].
  - intros x' y Q' Hx Hy. apply B; [apply H; assumption|exact Hx|exact Hy].
Qed.
Lemma cover_ok P r x : ok r -> cover P r x -> exists s, x = Ok s /\ ok s.
Proof. intros O (fs & -> & G & _). eexists. split; [reflexivity|]. apply ok_paint; assumption. Qed.
Lemma cover_bind P Q r x f : ok r -> cover P r x -> (forall s, ok s -> cover Q s (f s)) -> cover (fun x y => P x y \/ Q x y) r (bind x f).
Proof.
  intros O (fs & -> & G & A & B) H. cbn [bind]. destruct (H _ (ok_paint X Y ST r fs O G)) as (gs & E & G' & A' & B'). exists (fs ++ gs). rewrite paint_app.
  split; [exact E|]. split; [apply Forall_app; split; assumption|]. split.
  - intros k w d I. apply in_app_or in I as [I|I]; [destruct (A k w d I) as (D & W & x' & y & Pxy & R)|destruct (A' k w d I) as (D & W & x' & y & Pxy & R)]; split; try exact D; (split; [exact W|]); exists x', y; auto.
  - intros x' y [Pxy|Qxy] Hx Hy; [destruct (B x' y Pxy Hx Hy) as [w I]|destruct (B' x' y Qxy Hx Hy) as [w I]]; exists w; apply in_or_app; auto.
Qed.
Lemma cover_seq P Q r s x : cover P r (Ok s) -> cover Q s x -> cover (fun x y => P x y \/ Q x y) r x.
Proof.
  intros (fs & E & G & A & B) (gs & E' & G' & A' & B'). injection E as ->. exists (fs ++ gs). rewrite paint_app.
  split; [exact E'|]. split; [apply Forall_app; split; assumption|]. split.
  - intros k w d I. apply in_app_or in I as [I|I]; [destruct (A k w d I) as (D & W & x' & y & Pxy & R)|destruct (A' k w d I) as (D & W & x' & y & Pxy & R)]; split; try exact D; (split; [exact W|]); exists x', y; auto.
  - intros x' y [Pxy|Qxy] Hx Hy; [destruct (B x' y Pxy Hx Hy) as [w I]|destruct (B' x' y Qxy Hx Hy) as [w I]]; exists w; apply in_or_app; auto.
Qed.
Lemma cover_for (P : Z -> Z -> Z -> Prop) a b body r : ok r -> (forall i s, a <= i < b -> ok s -> cover (P i) s (body i s)) ->
  cover (fun x y => exists i, a <= i < b /\ P i x y) r (for_ a b body r).
Proof.
  intros O K. destruct (Z_le_gt_dec b a) as [L|G]; [rewrite for_empty by lia; apply cover_nil; intros x y (i & Hi & _); lia|].
  replace b with (a + Z.of_nat (Z.to_nat (b - a))) in * by lia. clear G. revert r O K. generalize (Z.to_nat (b - a)) as n. intros n. revert a.
  induction n as [|n IH]; intros a r O K; [rewrite Z.add_0_r, for_empty by lia; apply cover_nil; intros x y (i & Hi & _); lia|].
  rewrite for_step by lia. replace (a + Z.of_nat (S n)) with (a + 1 + Z.of_nat n) in * by lia.
  eapply cover_weak; [apply (cover_bind (P a) (fun x y => exists i, a + 1 <= i < a + 1 + Z.of_nat n /\ P i x y)); [exact O|apply K; [lia|exact O]|]|].
  - intros s Os. apply IH; [exact Os|]. intros i t Hi. apply K. lia.
  - intros x y _ _. split; [intros [H|(i & Hi & H)]; eexists; (split; [|exact H]); lia|]. intros (i & Hi & H). destruct (Z.eq_dec i a) as [->|N]; [left; exact H|right]. exists i. split; [lia|exact H].
Qed.
Lemma cover_put s k w x y : ok s -> 0 <= x < X -> 0 <= y < Y -> k = y * X + x -> (lo <= w <= hi)%R -> cover (fun x' y' => x' = x /\ y' = y) s (put s k w w c).
Proof.
  intros O Hx Hy -> W. assert (0 <= y * X + x < X * Y) as K by nia. rewrite (put_paint X Y ST) by assumption. exists [(y * X + x, (w, c))].
  split; [reflexivity|]. split; [constructor; [|constructor]; split; [exact K|]; exists w; reflexivity|]. split.
  - intros k w' d [E|[]]. injection E as <- <- <-. split; [reflexivity|]. split; [exact W|]. exists x, y. auto.
  - intros x' y' [-> ->] _ _. exists w. left. reflexivity.
Qed.

Lemma cover_hline r ax aw bx bw y : ok r -> ax <= bx -> bx - ax <= int_max -> (lo <= aw <= hi)%R -> (lo <= bw <= hi)%R ->
  cover (fun x' y' => y' = y /\ ax <= x' <= bx) r (draw_horizontal_line r ax aw bx bw y c).
Proof.
  intros O AB FI Ha Hb. destruct (ok_X X Y ST r r O O) as (EX & EY & _). unfold draw_horizontal_line. rewrite EX, EY. rewrite (proj2 (Z.leb_le ax bx) AB). cbn [massert bind].
  destruct (Z.ltb_spec bx 0); [apply cover_nil; lia|]. destruct (Z.leb_spec X ax); [apply cover_nil; lia|]. destruct (Z.ltb_spec y 0); [apply cover_nil; lia|]. destruct (Z.leb_spec Y y); [apply cover_nil; lia|].
  match goal with |- cover _ _ (bind ?e _) => assert (exists aw', e = Ok (Z.max 0 ax, aw') /\ (lo <= aw' <= hi)%R) as (aw' & -> & Ha') end.
  { destruct (Z.ltb_spec ax 0) as [N|N]; [|exists aw; rewrite Z.max_r by exact N; auto]. rewrite Z.max_l by lia.
    rewrite (iint_ok (bx - ax)) by (unfold int_min; lia). cbn [bind].
    assert (IZR (bx - ax) > 0)%R by (apply IZR_lt; lia). change (nofZ bx : R) with (IZR bx). change (nofZ (bx - ax) : R) with (IZR (bx - ax)). rewrite div_R by lra. cbn [bind].
    assert (0 <= IZR bx / IZR (bx - ax) <= 1)%R as T. { apply frac01; [split; apply IZR_le; lia|lra]. }
    rewrite (unit_ok _ T). cbn [bind]. eexists. split; [reflexivity|]. unfold mix. cbn. rewrite (Rmult_comm (1 - _) aw). apply convex; assumption. }
  cbn [bind]. set (a' := Z.max 0 ax).
  match goal with |- cover _ _ (bind ?e _) => assert (exists bw', e = Ok (Z.min (X - 1) bx, bw') /\ (lo <= bw' <= hi)%R) as (bw' & -> & Hb') end.
  { destruct (Z.leb_spec X bx) as [N|N]; [|exists bw; rewrite Z.min_r by lia; auto]. rewrite Z.min_l by lia.
    change (nflt (nofZ (bx - (X - 1)))) with (IZR (bx - (X - 1))). change (nflt (nofZ (bx - a'))) with (IZR (bx - a')).
    assert (IZR (bx - a') > 0)%R by (apply IZR_lt; unfold a'; lia). rewrite div_R by lra. cbn [bind]. cbv zeta. change (nflt ?q) with q.
    assert (0 <= IZR (bx - (X - 1)) / IZR (bx - a') <= 1)%R as T. { apply frac01; [split; apply IZR_le; unfold a'; lia|lra]. }
    rewrite (unit_ok _ T). cbn [bind]. eexists. split; [reflexivity|]. unfold mix. cbn. rewrite (Rmult_comm (1 - _) bw). apply convex; assumption. }
  cbn [bind]. set (b' := Z.min (X - 1) bx).
  eapply cover_weak.
  - apply (cover_for (fun i x' y' => x' = i /\ y' = y)); [exact O|]. intros i s Hi Os. destruct (ok_X X Y ST s s Os Os) as (-> & _).
    match goal with |- cover _ _ (bind ?e _) => assert (exists t, e = Ok t /\ (0 <= t <= 1)%R) as (t & -> & T) end.
    { destruct (Z.eqb_spec a' b') as [E|E]; [eexists; split; [reflexivity|cbn; lra]|]. change (nflt (nofZ (i - a'))) with (IZR (i - a')). change (nflt (nofZ (b' - a'))) with (IZR (b' - a')).
      assert (IZR (b' - a') > 0)%R by (apply IZR_lt; lia). rewrite div_R by lra. cbn [bind]. eexists. split; [reflexivity|]. change (nflt ?q) with q. apply frac01; [split; apply IZR_le; lia|lra]. }
    cbn [bind]. rewrite (unit_ok _ T). cbn [bind]. apply cover_put; [exact Os|unfold a', b' in *; lia|lia|reflexivity|]. cbn. apply convex; assumption.
  - intros x' y' Hx Hy. split; [intros (i & Hi & -> & ->); unfold a', b' in *; lia|]. intros [-> Hx']. exists x'. unfold a', b' in *. repeat split; lia.
Qed.

(** The abscissa at height [y] of the line from ([a], [ay]) to ([b], [cy]). *)
Definition lin (a b : R) (ay cy : Z) (y : Z) : R := ((b * IZR (y - ay) + a * IZR (cy - y)) / IZR (cy - ay))%R.
(** Screen abscissas: a span whose length is an int. *)
Variables xl xh : Z.
Hypothesis XL : int_min <= xl. Hypothesis XH : 0 <= xh <= int_max. Hypothesis XS : xh - xl <= int_max.
Definition inint (x : R) : Prop := (IZR xl <= x <= IZR xh)%R.
Definition inw (x : R) : Prop := (lo <= x <= hi)%R.
Lemma cover_trapeze r ax aw bx bw ay cx cw dx dw cy : ok r -> (ax <= bx)%R -> (cx <= dx)%R -> ay <= cy -> cy - ay <= int_max ->
  inint ax -> inint bx -> inint cx -> inint dx -> inw aw -> inw bw -> inw cw -> inw dw ->
  exists s, draw_trapeze r ax aw bx bw ay cx cw dx dw cy c = Ok (s, negb ((cy <? 0) || (Y <=? ay))) /\
    cover (fun x y => ay <= y < cy /\ y < Y - 1 /\ rnd (lin ax cx ay cy y) <= x <= rnd (lin bx dx ay cy y)) r (Ok s).
Proof.
  intros O AB CD AC FI Ia Ib Ic Id Wa Wb Wc Wd. destruct (ok_X X Y ST r r O O) as (EX & EY & _). unfold draw_trapeze. rewrite EY.
  change (nleb ax bx) with (Rleb ax bx). change (nleb cx dx) with (Rleb cx dx). rewrite (proj2 (Rleb_le _ _) AB), (proj2 (Rleb_le _ _) CD), (proj2 (Z.leb_le _ _) AC). cbn [massert bind].
  destruct (Z.ltb_spec cy 0) as [N0|N0]; [exists r; split; [reflexivity|apply cover_nil; lia]|]. destruct (Z.leb_spec Y ay) as [N1|N1]; [exists r; split; [reflexivity|apply cover_nil; lia]|]. cbn [orb negb].
  set (a' := Z.max 0 ay).
  match goal with |- exists s, bind ?e _ = _ /\ _ => assert (exists ax' aw' bx' bw', e = Ok (a', ax', aw', bx', bw') /\ inint ax' /\ inint bx' /\ inw aw' /\ inw bw' /\ (ax' <= bx')%R /\
    (forall y, a' <= y < cy -> lin ax' cx a' cy y = lin ax cx ay cy y /\ lin bx' dx a' cy y = lin bx dx ay cy y)) as (ax' & aw' & bx' & bw' & -> & Ia' & Ib' & Wa' & Wb' & AB' & LA) end.
  { destruct (Z.ltb_spec ay 0) as [N|N].
    - rewrite (iint_ok (cy - ay)) by (unfold int_min; lia). cbn [bind]. change (nsub n0 (nofZ ay)) with (0 - IZR ay)%R. change (nofZ (cy - ay)) with (IZR (cy - ay)). assert (0 < IZR (cy - ay))%R as D by (apply IZR_lt; lia). rewrite div_R by lra. cbn [bind].
      assert (0 <= (0 - IZR ay) / IZR (cy - ay) <= 1)%R as T. { apply frac01; [|exact D]. rewrite minus_IZR. apply IZR_lt in N. apply IZR_le in N0. lra. }
      rewrite (unit_ok _ T). cbn [bind]. assert (a' = 0) as Ea by (unfold a'; lia). rewrite Ea. do 4 eexists. split; [reflexivity|]. unfold mix. change (nadd (nmul ?x ?y) (nmul (nsub n1 ?y) ?z)) with (x * y + (1 - y) * z)%R.
      set (t := ((0 - IZR ay) / IZR (cy - ay))%R) in *. unfold inint, inw in *. rewrite !(Rmult_comm (1 - t)).
      split; [apply convex; assumption|]. split; [apply convex; assumption|]. split; [apply convex; assumption|]. split; [apply convex; assumption|]. split; [nra|].
      intros y Hy. unfold lin, t. assert (0 < IZR (cy - 0))%R as D' by (apply IZR_lt; lia). rewrite !minus_IZR in *. split; field; lra.
    - assert (a' = ay) as -> by (unfold a'; lia). exists ax, aw, bx, bw. auto 10. }
  cbn [bind]. set (c' := Z.min (Y - 1) cy). assert (a' <= Y - 1) as AY by (unfold a'; lia). assert (a' <= cy) as AC' by (unfold a'; lia).
  match goal with |- exists s, bind ?e _ = _ /\ _ => assert (exists cx' cw' dx' dw', e = Ok (c', cx', cw', dx', dw') /\ inint cx' /\ inint dx' /\ inw cw' /\ inw dw' /\ (cx' <= dx')%R /\
    (forall y, a' <= y < c' -> lin ax' cx' a' c' y = lin ax' cx a' cy y /\ lin bx' dx' a' c' y = lin bx' dx a' cy y)) as (cx' & cw' & dx' & dw' & -> & Ic' & Id' & Wc' & Wd' & CD' & LC) end.
  { destruct (Z.leb_spec Y cy) as [N|N].
    - change (nofZ (cy - (Y - 1))) with (IZR (cy - (Y - 1))). change (nofZ (cy - a')) with (IZR (cy - a')). assert (0 < IZR (cy - a'))%R as D by (apply IZR_lt; lia). rewrite div_R by lra. cbn [bind].
      assert (0 <= IZR (cy - (Y - 1)) / IZR (cy - a') <= 1)%R as T. { apply frac01; [|exact D]. split; apply IZR_le; lia. }
      rewrite (unit_ok _ T). cbn [bind]. assert (c' = Y - 1) as Ec by (unfold c'; lia). rewrite Ec. do 4 eexists. split; [reflexivity|]. unfold mix. change (nadd (nmul ?x ?y) (nmul (nsub n1 ?y) ?z)) with (x * y + (1 - y) * z)%R.
      set (t := (IZR (cy - (Y - 1)) / IZR (cy - a'))%R) in *. unfold inint, inw in *. rewrite !(Rmult_comm (1 - t)).
      split; [apply convex; assumption|]. split; [apply convex; assumption|]. split; [apply convex; assumption|]. split; [apply convex; assumption|]. split; [nra|].
      intros y Hy. unfold lin, t. assert (0 < IZR (Y - 1 - a'))%R as D' by (apply IZR_lt; lia). rewrite !minus_IZR in *. split; field; lra.
    - assert (c' = cy) as -> by (unfold c'; lia). exists cx, cw, dx, dw. auto 10. }
  cbn [bind]. assert (a' <= c') as AC'' by (unfold c'; lia).
  rewrite (proj2 (Z.leb_le 0 a')) by (unfold a'; lia). rewrite (proj2 (Z.leb_le a' c') AC''). rewrite (proj2 (Z.ltb_lt c' Y)) by (unfold c'; lia). cbn [massert bind].
  match goal with |- exists s, bind ?e _ = _ /\ _ => assert (cover (fun x y => exists i, a' <= i < c' /\ (y = i /\ rnd (lin ax' cx' a' c' i) <= x <= rnd (lin bx' dx' a' c' i))) r e) as H end.
  { apply (cover_for (fun i x y => y = i /\ rnd (lin ax' cx' a' c' i) <= x <= rnd (lin bx' dx' a' c' i))); [exact O|]. intros y s Hy Os.
    change (nofZ (y - a')) with (IZR (y - a')). change (nofZ (c' - a')) with (IZR (c' - a')). assert (0 < IZR (c' - a'))%R as D by (apply IZR_lt; lia). rewrite div_R by lra. cbn [bind].
    assert (0 <= IZR (y - a') / IZR (c' - a') <= 1)%R as T. { apply frac01; [|exact D]. split; apply IZR_le; lia. }
    rewrite (unit_ok _ T). cbn [bind]. change (nadd (nmul ?x ?y) (nmul ?z (nsub n1 ?y))) with (x * y + z * (1 - y))%R. set (t := (IZR (y - a') / IZR (c' - a'))%R) in *.
    assert (forall u v, v * t + u * (1 - t) = lin u v a' c' y)%R as LT. { intros u v. unfold lin, t. rewrite !minus_IZR in *. field. lra. }
    unfold inint, inw in *.
    destruct (rnd_between (cx' * t + ax' * (1 - t)) xl xh ltac:(lia) ltac:(lia) (convex _ _ _ _ _ Ic' Ia' T)) as [-> B1].
    destruct (rnd_between (dx' * t + bx' * (1 - t)) xl xh ltac:(lia) ltac:(lia) (convex _ _ _ _ _ Id' Ib' T)) as [-> B2]. cbn [bind].
    assert (rnd (cx' * t + ax' * (1 - t)) <= rnd (dx' * t + bx' * (1 - t))) as LE by (apply rnd_mono; nra). rewrite (proj2 (Z.leb_le _ _) LE). cbn [massert bind].
    rewrite <- !LT. apply cover_hline; [exact Os|exact LE|lia|apply convex; assumption|apply convex; assumption]. }
  destruct (cover_ok _ _ _ O H) as (s & Es & _). rewrite Es in H |- *. cbn [bind]. exists s. split; [reflexivity|]. eapply cover_weak; [exact H|].
  intros x y Hx Hy. split.
  - intros (i & Hi & -> & K). destruct (LC i Hi) as [-> ->] in K. destruct (LA i ltac:(unfold c' in Hi; lia)) as [-> ->] in K. unfold a', c' in Hi. repeat split; lia.
  - intros (H1 & H2 & K). exists y. assert (a' <= y < c') as Hi by (unfold a', c'; lia). split; [exact Hi|]. split; [reflexivity|]. destruct (LC y Hi) as [-> ->]. destruct (LA y ltac:(unfold c' in Hi; lia)) as [-> ->]. exact K.
Qed.
End Cover.
