(** Bounding boxes of doubles. *)
From Coq Require Import ZArith List Bool Reals Lra Lia.
From Flocq Require Import Core IEEE754.Binary.
From Verif Require Import Base Num MGeometry MStl MF64 SGeom LGeom LF64 LF64Ord SF64.
Import ListNotations.
Open Scope R_scope.

Definition ext_pt (p : dpt) : Point3 R := mkP (ext (px p)) (ext (py p)) (ext (pz p)).
Definition ext_box (b : BBox3 f64) : BBox3 R := mkBox (ext (bx1 b)) (ext (by1 b)) (ext (bz1 b)) (ext (bx2 b)) (ext (by2 b)) (ext (bz2 b)) (binit b).
Definition box_no_nan (b : BBox3 f64) : Prop := no_nan_pt (dbox_lo b) /\ no_nan_pt (dbox_hi b).

Lemma ltb_ext x y : no_nan x -> no_nan y -> f64_ltb x y = Rltb (ext x) (ext y).
Proof.
  intros Hx Hy. unfold no_nan in *. unfold Rltb. destruct (Rlt_dec (ext x) (ext y)) as [L|L].
  - apply ltb64. auto.
  - destruct (f64_ltb x y) eqn:E; [|reflexivity]. apply ltb64 in E. lra.
Qed.
Lemma dle_ext x y : no_nan x -> no_nan y -> (dle x y <-> ext x <= ext y).
Proof. intros Hx Hy. unfold dle. rewrite leb64. unfold no_nan in *. tauto. Qed.
Lemma deq_ext x y : no_nan x -> no_nan y -> (deq x y <-> ext x = ext y).
Proof. intros Hx Hy. unfold deq. rewrite eqb64. unfold no_nan in *. tauto. Qed.
Lemma dle_no_nan x y : dle x y -> no_nan x /\ no_nan y.
Proof. unfold dle. rewrite leb64. unfold no_nan. tauto. Qed.

Lemma axis_ext x lo hi : no_nan x -> no_nan lo -> no_nan hi ->
  let r := axis_add x lo hi in no_nan (fst r) /\ no_nan (snd r) /\ axis_add (ext x) (ext lo) (ext hi) = (ext (fst r), ext (snd r)).
Proof.
  intros Hx Hl Hh. unfold axis_add. change (@nltb f64 F64Num) with f64_ltb. change (@nltb R RNum) with Rltb.
  rewrite (ltb_ext x lo) by assumption. rewrite (ltb_ext hi x) by assumption. destruct (Rltb (ext x) (ext lo)); [cbn; tauto|]. destruct (Rltb (ext hi) (ext x)); cbn; tauto.
Qed.
Lemma box_add_ext b p : box_no_nan b -> no_nan_pt p -> box_no_nan (box_add b p) /\ ext_box (box_add b p) = box_add (ext_box b) (ext_pt p).
Proof.
  intros [(A1 & A2 & A3) (A4 & A5 & A6)] (P1 & P2 & P3). unfold box_add. cbn [ext_box binit]. destruct (negb (binit b)).
  - split; [|reflexivity]. repeat split; assumption.
  - cbn in A1, A2, A3, A4, A5, A6. pose proof (axis_ext (px p) (bx1 b) (bx2 b) P1 A1 A4) as (X1 & X2 & X3).
    pose proof (axis_ext (py p) (by1 b) (by2 b) P2 A2 A5) as (Y1 & Y2 & Y3). pose proof (axis_ext (pz p) (bz1 b) (bz2 b) P3 A3 A6) as (Z1 & Z2 & Z3).
    unfold ext_pt, ext_box. cbn [bx1 bx2 by1 by2 bz1 bz2 px py pz]. rewrite X3, Y3, Z3.
    destruct (axis_add (px p) (bx1 b) (bx2 b)). destruct (axis_add (py p) (by1 b) (by2 b)). destruct (axis_add (pz p) (bz1 b) (bz2 b)).
    split; [repeat split; assumption|reflexivity].
Qed.
Lemma boxes_ext (l : list dpt) : forall b, box_no_nan b -> (forall p, In p l -> no_nan_pt p) ->
  box_no_nan (fold_left box_add l b) /\ ext_box (fold_left box_add l b) = fold_left box_add (map ext_pt l) (ext_box b).
Proof.
  induction l as [|p l IH]; cbn [fold_left map]; intros b Hb Hl; [split; [assumption|reflexivity]|].
  pose proof (box_add_ext b p Hb (Hl p (or_introl eq_refl))) as [Q E]. rewrite <- E. apply IH; [exact Q|]. intros; apply Hl; right; assumption.
Qed.
Lemma ext_zero : ext (f64_ofZ 0) = 0. Proof. reflexivity. Qed.
Lemma empty_ext : box_no_nan (@box_empty f64 F64Num) /\ ext_box (@box_empty f64 F64Num) = box_empty.
Proof. split; [repeat split; reflexivity|reflexivity]. Qed.
Lemma boxes_from_empty (l : list dpt) : (forall p, In p l -> no_nan_pt p) ->
  box_no_nan (fold_left box_add l box_empty) /\ ext_box (fold_left box_add l box_empty) = fold_left box_add (map ext_pt l) box_empty.
Proof. intros H. destruct empty_ext as [N E]. rewrite <- E. apply boxes_ext; assumption. Qed.

Lemma in_dbox_ext lo hi x : no_nan_pt lo -> no_nan_pt hi -> no_nan_pt x -> (in_dbox lo hi x <-> in_box (ext_pt lo) (ext_pt hi) (ext_pt x)).
Proof.
  intros (A1 & A2 & A3) (B1 & B2 & B3) (C1 & C2 & C3). unfold in_dbox, in_box. rewrite !dle_ext by assumption. unfold ext_pt. cbn [px py pz]. tauto.
Qed.
Lemma in_dbox_no_nan lo hi x : in_dbox lo hi x -> no_nan_pt lo /\ no_nan_pt hi /\ no_nan_pt x.
Proof. intros (A & B & C & D & E & F). apply dle_no_nan in A, B, C, D, E, F. unfold no_nan_pt. tauto. Qed.

Lemma dbox_smallest (l : list dpt) : l <> [] -> (forall p, In p l -> no_nan_pt p) ->
  let b := fold_left box_add l box_empty in
  (forall x, In x l -> in_dbox (dbox_lo b) (dbox_hi b) x) /\
  (forall lo hi, (forall x, In x l -> in_dbox lo hi x) -> in_dbox lo hi (dbox_lo b) /\ in_dbox lo hi (dbox_hi b)).
Proof.
  intros Ne Hl. cbn zeta. destruct (boxes_from_empty l Hl) as [[Nl Nh] E]. set (b := fold_left box_add l box_empty) in *.
  assert (map ext_pt l <> []) as Ne' by (destruct l; [congruence|discriminate]).
  destruct (box_smallest (map ext_pt l) Ne') as [S1 S2]. unfold box_of in S1, S2. rewrite <- E in S1, S2.
  change (box_lo (ext_box b)) with (ext_pt (dbox_lo b)) in S1, S2. change (box_hi (ext_box b)) with (ext_pt (dbox_hi b)) in S1, S2. split.
  - intros x Hx. apply in_dbox_ext; auto. apply S1. apply in_map. exact Hx.
  - intros lo hi H. assert (no_nan_pt lo /\ no_nan_pt hi) as [Ll Lh].
    { destruct l as [|x l']; [congruence|]. specialize (H x (or_introl eq_refl)). apply in_dbox_no_nan in H. tauto. }
    destruct (S2 (ext_pt lo) (ext_pt hi)) as [G1 G2].
    { intros y Hy. apply in_map_iff in Hy. destruct Hy as (x & <- & Hx). apply in_dbox_ext; auto. }
    split; apply in_dbox_ext; assumption.
Qed.
Lemma dbox_order (l l' : list dpt) : l <> [] -> (forall p, In p l -> no_nan_pt p) -> (forall x, In x l <-> In x l') ->
  deq_pt (dbox_lo (fold_left box_add l box_empty)) (dbox_lo (fold_left box_add l' box_empty)) /\
  deq_pt (dbox_hi (fold_left box_add l box_empty)) (dbox_hi (fold_left box_add l' box_empty)).
Proof.
  intros Ne Hl S. assert (forall p, In p l' -> no_nan_pt p) as Hl' by (intros p Hp; apply Hl, S, Hp).
  destruct (boxes_from_empty l Hl) as [[Nl Nh] E]. destruct (boxes_from_empty l' Hl') as [[Nl' Nh'] E'].
  assert (fold_left box_add (map ext_pt l) box_empty = fold_left box_add (map ext_pt l') box_empty) as Q.
  { apply (box_of_same (map ext_pt l) (map ext_pt l')). - destruct l; [congruence|discriminate]. - intros x. rewrite !in_map_iff. split; intros (y & K1 & K2); exists y; split; auto; apply S; exact K2. }
  rewrite <- E, <- E' in Q. unfold ext_box in Q. unfold deq_pt, dbox_lo, dbox_hi. cbn [px py pz].
  unfold no_nan_pt, dbox_lo, dbox_hi in *. cbn [px py pz] in *.
  rewrite !deq_ext by tauto. injection Q. intuition congruence.
Qed.
Lemma dbox_intersect_ext a b : box_no_nan a -> box_no_nan b -> box_intersect a b = box_intersect (ext_box a) (ext_box b).
Proof.
  intros [(A1 & A2 & A3) (A4 & A5 & A6)] [(B1 & B2 & B3) (B4 & B5 & B6)]. cbn in A1, A2, A3, A4, A5, A6, B1, B2, B3, B4, B5, B6.
  unfold box_intersect. change (@nltb f64 F64Num) with f64_ltb. change (@nltb R RNum) with Rltb.
  rewrite !ltb_ext by assumption. reflexivity.
Qed.
Lemma pick_max x y : no_nan x -> no_nan y -> exists z, no_nan z /\ ext z = Rmax (ext x) (ext y).
Proof. intros Hx Hy. destruct (Rle_dec (ext x) (ext y)); [exists y; rewrite Rmax_right by lra|exists x; rewrite Rmax_left by lra]; auto. Qed.
Lemma dbox_intersect_exact a b : in_dbox (dbox_lo a) (dbox_hi a) (dbox_lo a) -> in_dbox (dbox_lo b) (dbox_hi b) (dbox_lo b) ->
  box_intersect a b = box_intersect b a /\
  (box_intersect a b = true <-> exists x, in_dbox (dbox_lo a) (dbox_hi a) x /\ in_dbox (dbox_lo b) (dbox_hi b) x).
Proof.
  intros Ha Hb. pose proof (in_dbox_no_nan _ _ _ Ha) as (Nla & Nha & _). pose proof (in_dbox_no_nan _ _ _ Hb) as (Nlb & Nhb & _).
  rewrite (dbox_intersect_ext a b) by (split; assumption). rewrite (dbox_intersect_ext b a) by (split; assumption).
  rewrite in_dbox_ext in Ha, Hb by assumption.
  destruct (box_intersect_exact (ext_box a) (ext_box b)) as [S X]; [exact Ha|exact Hb|]. split; [exact S|]. rewrite X. split.
  - intros (x & K1 & K2). unfold in_box, box_lo, box_hi, ext_box in K1, K2. cbn in K1, K2.
    destruct Nla as (? & ? & ?). destruct Nlb as (? & ? & ?). cbn in *.
    destruct (pick_max (bx1 a) (bx1 b)) as (u & Nu & Eu); [assumption..|]. destruct (pick_max (by1 a) (by1 b)) as (v & Nv & Ev); [assumption..|]. destruct (pick_max (bz1 a) (bz1 b)) as (w & Nw & Ew); [assumption..|].
    exists (mkP u v w). rewrite !in_dbox_ext by (repeat split; assumption || apply Nha || apply Nhb).
    unfold in_box, ext_pt, dbox_lo, dbox_hi. cbn [px py pz]. rewrite Eu, Ev, Ew. unfold Rmax. repeat destruct (Rle_dec _ _); lra.
  - intros (x & K1 & K2). exists (ext_pt x). pose proof (in_dbox_no_nan _ _ _ K1) as (_ & _ & Nx).
    rewrite in_dbox_ext in K1, K2 by assumption. split; assumption.
Qed.
