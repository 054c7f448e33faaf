(** Evaluation of curves in an arithmetic whose division never stops the program: success, and independence of
    what the temporaries held before. *)
From Coq Require Import ZArith List Bool Lia.
From Verif Require Import Base Num MGeometry MNurbs LBase.
Import ListNotations.
Open Scope Z_scope.

Lemma for_inv2 {S} (R : Z -> S -> S -> Prop) a b (body : Z -> S -> res S) s1 s2 : a <= b -> R a s1 s2 ->
  (forall i x y, a <= i < b -> R i x y -> exists x' y', body i x = Ok x' /\ body i y = Ok y' /\ R (i + 1) x' y') ->
  exists x y, for_ a b body s1 = Ok x /\ for_ a b body s2 = Ok y /\ R b x y.
Proof.
  intros L H0 St.
  assert (forall n k x y, k + Z.of_nat n = b -> a <= k -> R k x y -> exists x' y', for_ k b body x = Ok x' /\ for_ k b body y = Ok y' /\ R b x' y') as K.
  { induction n as [|n IH]; intros k x y Hk La Hr.
    - replace b with k in * by lia. rewrite !for_empty by lia. eauto.
    - rewrite !for_step by lia. destruct (St k x y ltac:(lia) Hr) as (x' & y' & E1 & E2 & Hr'). rewrite E1, E2. cbn [bind]. apply IH; [lia|lia|exact Hr']. }
  apply (K (Z.to_nat (b - a)) a); [lia|lia|exact H0].
Qed.

Section Total.
Context {T : Type} {N : Num T}.
Hypothesis div_total : forall x y : T, exists q, ndiv x y = Ok q.
Notation temps := (list (Point3 T) * list T)%type.
(** [d + 1] temporaries exist, and the first [k] of them are the same. *)
Definition agree_upto (d k : Z) (s s' : temps) : Prop :=
  d < vsize (fst s) /\ d < vsize (snd s) /\ d < vsize (fst s') /\ d < vsize (snd s') /\
  (forall j, 0 <= j < k -> vget (fst s) j = vget (fst s') j /\ vget (snd s) j = vget (snd s') j).

Lemma load_total (c : NurbsCurve T) ki s s' : nc_degree c <= ki < vsize (nc_points c) -> 0 <= nc_degree c -> nc_nb c = vsize (nc_points c) -> vsize (nc_weights c) = vsize (nc_points c) ->
  agree_upto (nc_degree c) 0 s s' -> exists x y, nc_load c ki s = Ok x /\ nc_load c ki s' = Ok y /\
    vsize (fst x) = vsize (fst s) /\ vsize (snd x) = vsize (snd s) /\ agree_upto (nc_degree c) (nc_degree c + 1) x y.
Proof.
  intros Hk Hd Hn Hw A. unfold nc_load.
  destruct (for_inv2 (fun j x y => vsize (fst x) = vsize (fst s) /\ vsize (snd x) = vsize (snd s) /\ agree_upto (nc_degree c) j x y) 0 (nc_degree c + 1)
    (fun j s => let idx := j + ki - nc_degree c in
    do _ <- massert (0 <=? idx); do _ <- massert (idx <? nc_nb c); do w <- vget (nc_weights c) idx; do tw <- vset (snd s) j w;
    do p <- vget (nc_points c) idx; do tp <- vset (fst s) j (pmul p w); Ok (tp, tw)) s s') as (x & y & E1 & E2 & Q1 & Q2 & Q3).
  - lia.
  - auto.
  - intros i x y Hi (S1 & S2 & B1 & B2 & B3 & B4 & B5). cbv zeta. rewrite !bind_massert_true by (apply Z.leb_le || apply Z.ltb_lt; lia).
    destruct (vget_in_range (nc_weights c) (i + ki - nc_degree c) ltac:(lia)) as [w Ew]. rewrite Ew. cbn [bind].
    destruct (vget_in_range (nc_points c) (i + ki - nc_degree c) ltac:(lia)) as [p Ep].
    pose proof (vset_in_range (snd x) i w ltac:(lia)) as V1. pose proof (vset_in_range (snd y) i w ltac:(lia)) as V2. rewrite V1, V2. cbn [bind]. rewrite Ep. cbn [bind].
    pose proof (vset_in_range (fst x) i (pmul p w) ltac:(lia)) as V3. pose proof (vset_in_range (fst y) i (pmul p w) ltac:(lia)) as V4. rewrite V3, V4. cbn [bind].
    do 2 eexists. split; [reflexivity|]. split; [reflexivity|]. cbn [fst snd].
    pose proof (vset_size _ _ _ _ V1). pose proof (vset_size _ _ _ _ V2). pose proof (vset_size _ _ _ _ V3). pose proof (vset_size _ _ _ _ V4).
    split; [congruence|]. split; [congruence|]. unfold agree_upto. cbn [fst snd]. do 4 (split; [lia|]).
    intros j Hj. rewrite (vget_vset _ _ _ _ j V1), (vget_vset _ _ _ _ j V2), (vget_vset _ _ _ _ j V3), (vget_vset _ _ _ _ j V4).
    destruct (Z.eqb_spec j i); [split; reflexivity|]. apply B5. lia.
  - exists x, y. auto.
Qed.
Lemma step_total ks d ki u r j s s' : 0 <= d <= ki -> ki + d + 1 < vsize ks + 1 -> 1 <= r <= j -> j <= d -> agree_upto d (d + 1) s s' ->
  exists x y, deboor_step ks d ki u r j s = Ok x /\ deboor_step ks d ki u r j s' = Ok y /\
    vsize (fst x) = vsize (fst s) /\ vsize (snd x) = vsize (snd s) /\ agree_upto d (d + 1) x y.
Proof.
  intros Hd Hk Hr Hj (B1 & B2 & B3 & B4 & B5). destruct s as [tp tw]. destruct s' as [tp' tw']. cbn [fst snd] in *. unfold deboor_step.
  destruct (vget_in_range ks (j + ki - d) ltac:(lia)) as [k0 E0]. rewrite E0. cbn [bind].
  destruct (vget_in_range ks (j + 1 + ki - r) ltac:(lia)) as [k1 E1]. rewrite E1. cbn [bind].
  destruct (div_total (nsub u k0) (nsub k1 k0)) as [al Ea]. rewrite Ea. cbn [bind].
  destruct (vget_in_range tp (j - 1) ltac:(lia)) as [a Ga]. destruct (vget_in_range tp j ltac:(lia)) as [b Gb].
  destruct (vget_in_range tw (j - 1) ltac:(lia)) as [wa Gwa]. destruct (vget_in_range tw j ltac:(lia)) as [wb Gwb].
  pose proof (B5 (j - 1) ltac:(lia)) as [C1 C2]. pose proof (B5 j ltac:(lia)) as [C3 C4].
  rewrite <- C1, <- C2, <- C3, <- C4. rewrite Ga, Gb, Gwa, Gwb. cbn [bind].
  set (p := padd _ _). set (w := nadd _ _).
  pose proof (vset_in_range tp j p ltac:(lia)) as V1. pose proof (vset_in_range tp' j p ltac:(lia)) as V2.
  pose proof (vset_in_range tw j w ltac:(lia)) as V3. pose proof (vset_in_range tw' j w ltac:(lia)) as V4. rewrite V1, V2. cbn [bind]. rewrite ?Gwa, ?Gwb, <- ?C2, <- ?C4, ?Gwa, ?Gwb. cbn [bind]. rewrite V3, V4. cbn [bind].
  do 2 eexists. split; [reflexivity|]. split; [reflexivity|]. cbn [fst snd].
  pose proof (vset_size _ _ _ _ V1). pose proof (vset_size _ _ _ _ V2). pose proof (vset_size _ _ _ _ V3). pose proof (vset_size _ _ _ _ V4).
  split; [congruence|]. split; [congruence|]. unfold agree_upto. cbn [fst snd]. do 4 (split; [lia|]).
  intros i Hi. rewrite (vget_vset _ _ _ _ i V1), (vget_vset _ _ _ _ i V2), (vget_vset _ _ _ _ i V3), (vget_vset _ _ _ _ i V4).
  destruct (Z.eqb_spec i j); [split; reflexivity|]. apply B5. exact Hi.
Qed.
Lemma deboor_total ks d ki u s s' : 0 <= d <= ki -> ki + d < vsize ks -> agree_upto d (d + 1) s s' ->
  exists x y, deboor ks d ki u s = Ok x /\ deboor ks d ki u s' = Ok y /\
    vsize (fst x) = vsize (fst s) /\ vsize (snd x) = vsize (snd s) /\ agree_upto d (d + 1) x y.
Proof.
  intros Hd Hk A. unfold deboor. apply (for_inv2 (fun _ x y => vsize (fst x) = vsize (fst s) /\ vsize (snd x) = vsize (snd s) /\ agree_upto d (d + 1) x y)); [lia|auto|].
  intros r x y Hr Q. apply (for_inv2 (fun _ x y => vsize (fst x) = vsize (fst s) /\ vsize (snd x) = vsize (snd s) /\ agree_upto d (d + 1) x y)); [lia|exact Q|].
  intros m x1 y1 Hm (S1 & S2 & Q1). destruct (step_total ks d ki u r (d - m) x1 y1) as (x2 & y2 & E1 & E2 & S3 & S4 & Q2); [lia|lia|lia|lia|exact Q1|].
  exists x2, y2. split; [exact E1|]. split; [exact E2|]. split; [congruence|]. split; [congruence|exact Q2].
Qed.

(** Sizes are consistent and set_degree was called. *)
Definition ready (c : NurbsCurve T) : Prop :=
  nc_nb c = vsize (nc_points c) /\ vsize (nc_weights c) = vsize (nc_points c) /\ 0 <= nc_degree c < vsize (nc_points c) /\
  vsize (nc_knots c) = vsize (nc_points c) + nc_degree c + 1 /\ nc_degree c < vsize (nc_tp c) /\ nc_degree c < vsize (nc_tw c).
Definition same_curve (c c' : NurbsCurve T) : Prop :=
  nc_degree c' = nc_degree c /\ nc_knots c' = nc_knots c /\ nc_weights c' = nc_weights c /\ nc_points c' = nc_points c /\ nc_nb c' = nc_nb c.
Lemma same_curve_refl c : same_curve c c. Proof. repeat split. Qed.
Lemma same_curve_trans a b c : same_curve a b -> same_curve b c -> same_curve a c.
Proof. unfold same_curve. intuition congruence. Qed.

Lemma pdiv_total p w : exists q : Point3 T, pdiv p w = Ok q.
Proof. unfold pdiv. destruct (div_total (px p) w) as [x ->]. destruct (div_total (py p) w) as [y ->]. destruct (div_total (pz p) w) as [z ->]. cbn [bind]. eauto. Qed.
Lemma evaluate_total (c c' : NurbsCurve T) t ki : ready c -> ready c' -> same_curve c c' -> find_knot_span (nc_knots c) t = Ok ki -> nc_degree c <= ki < vsize (nc_points c) ->
  exists p d d', nc_evaluate c t = Ok (p, d) /\ nc_evaluate c' t = Ok (p, d') /\ same_curve c d /\ ready d.
Proof.
  intros (R1 & R2 & R3 & R4 & R5 & R6) (R1' & R2' & R3' & R4' & R5' & R6') (S1 & S2 & S3 & S4 & S5) F B. unfold nc_evaluate.
  rewrite S1, S2, S3, S4, S5 in *. rewrite !bind_massert_true by (apply Z.eqb_eq; lia). rewrite F. cbn [bind].
  destruct (load_total c ki (nc_tp c, nc_tw c) (nc_tp c', nc_tw c') B ltac:(lia) R1 R2) as (x & y & E1 & E2 & Z1 & Z2 & A).
  { unfold agree_upto. cbn [fst snd]. do 4 (split; [lia|]). intros; lia. }
  assert (nc_load c' ki (nc_tp c', nc_tw c') = nc_load c ki (nc_tp c', nc_tw c')) as E3 by (unfold nc_load; rewrite S1, S3, S4, S5; reflexivity).
  rewrite E3, E1, E2. cbn [bind].
  destruct (deboor_total (nc_knots c) (nc_degree c) ki t x y ltac:(lia) ltac:(lia) A) as (x' & y' & E4 & E5 & Z3 & Z4 & A1 & A2 & A3 & A4 & A5). rewrite E4, E5. cbn [bind].
  destruct (A5 (nc_degree c) ltac:(lia)) as [C1 C2]. destruct (vget_in_range (fst x') (nc_degree c) ltac:(lia)) as [pw G1]. destruct (vget_in_range (snd x') (nc_degree c) ltac:(lia)) as [w G2].
  rewrite <- C1, <- C2, G1, G2. cbn [bind]. destruct (pdiv_total pw w) as [q ->]. cbn [bind]. cbn [fst snd] in *.
  exists q. do 2 eexists. split; [reflexivity|]. split; [reflexivity|]. split; [repeat split|]. unfold ready. cbn. lia.
Qed.
End Total.
