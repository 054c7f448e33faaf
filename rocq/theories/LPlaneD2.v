(** Planes in doubles: error bounds. *)
From Coq Require Import ZArith List Bool Reals Lra Lia Psatz.
From Flocq Require Import Core IEEE754.Binary IEEE754.Bits IEEE754.BinarySingleNaN.
From Verif Require Import Base Num MGeometry MStl MF64 SGeom SErr SErrN SPlaneD LBase LGeom LF64 LF64Arith LF64Ord LErr1 LErr2 LErr3 LErr10 LPlaneD.
Import ListNotations.
Open Scope R_scope.

Section Plane.
Variable k : Z.
Hypothesis Hk : (-350 <= k <= 350)%Z.
Let S0 := bpow radix2 k.
Lemma S0_pos : 0 < S0. Proof. apply bpow_gt_0. Qed.
Lemma p2 (c : Z) n : bpow radix2 c = n -> bpow radix2 (k + c) = n * S0.
Proof. intros <-. unfold S0. rewrite bpow_plus. ring. Qed.
Lemma p2e (c d : Z) n : (c - 54 = d - 53)%Z -> bpow radix2 d = n -> bpow radix2 (k + c - 54) = n * (uu * S0).
Proof. intros H <-. unfold S0, uu. rewrite <- !bpow_plus. f_equal. lia. Qed.
Lemma bp1 : bpow radix2 1 = 2. Proof. reflexivity. Qed.
Lemma bp2 : bpow radix2 2 = 4. Proof. reflexivity. Qed.
Lemma bp3 : bpow radix2 3 = 8. Proof. reflexivity. Qed.
Lemma bp4 : bpow radix2 4 = 16. Proof. reflexivity. Qed.
Lemma bp5 : bpow radix2 5 = 32. Proof. reflexivity. Qed.
Lemma uS : 0 < uu * S0 <= S0 / 1000000.
Proof. pose proof S0_pos. rewrite uu_val. split; lra. Qed.
Lemma ap_fin r x e b : ap r x e b -> fin64 r = true. Proof. intros (F & _). exact F. Qed.

(** Three products and their sum: factors up to 2, and up to b * S0 with errors e. *)
Lemma coef_mul (n x : f64) X e c : fits 1 n -> ap x X (e * (uu * S0)) (bpow radix2 (k + c)) -> (0 <= c <= 10)%Z -> 
  ap (b64_mult mode_NE n x) (V64 n * X) (2 * (e * (uu * S0)) + bpow radix2 (k + (c + 1) - 54)) (bpow radix2 (k + (c + 1))).
Proof.
  intros Fn Ax Hc. pose proof (ap_exact 1 n Fn) as An.
  assert (ap n (V64 n) 0 2) as An' by exact An.
  destruct Ax as (Fx & Ex & Bx). destruct (ap_mul n x (V64 n) (V64 x) 0 0 2 (bpow radix2 (k + c)) (bpow radix2 (k + c)) (k + (c + 1)) An') as (F & E & B).
  - split; [exact Fx|]. split; [rewrite Rminus_diag_eq, Rabs_R0 by reflexivity; lra|exact Bx].
  - exact Bx.
  - replace (k + (c + 1))%Z with ((k + c) + 1)%Z by lia. rewrite (bpow_plus radix2 (k + c) 1), bp1. lra.
  - lia.
  - split; [exact F|]. split; [|exact B]. destruct Fn as [_ Bn]. change (Rabs (V64 n) <= 2) in Bn. pose proof (abs_prod _ _ _ _ Bn Ex) as P.
    replace (V64 (b64_mult mode_NE n x) - V64 n * X) with ((V64 (b64_mult mode_NE n x) - V64 n * V64 x) + V64 n * (V64 x - X)) by ring.
    eapply Rle_trans; [apply Rabs_triang|]. lra.
Qed.
(** The signed distance. *)
Lemma dist_ap (pl : Plane3 f64) (p : Point3 f64) : plane_fits k pl -> fits_pt k p -> ap (plane_distance pl p) (side (val_plane pl) (val_pt p)) (17 * (uu * S0)) (16 * S0).
Proof.
  intros (A & B & C & D) (X & Y & Z). pose proof uS as U. pose proof S0_pos as SP.
  assert (forall n x : f64, fits 1 n -> fits k x -> ap (b64_mult mode_NE n x) (V64 n * V64 x) (uu * S0) (2 * S0)) as M.
  { intros n x Fn Fx. destruct Fx as [Fx Bx]. pose proof (coef_mul n x (V64 x) 0 0 Fn) as Q. replace (k + (0 + 1))%Z with (k + 1)%Z in Q by lia. rewrite (p2 1 2 bp1), (p2e 1 0 1 ltac:(lia) eq_refl) in Q.
    eapply ap_weak; [apply Q; [|lia]|lra|lra]. split; [exact Fx|]. split; [rewrite Rminus_diag_eq, Rabs_R0 by reflexivity; lra|]. rewrite Z.add_0_r. exact Bx. }
  pose proof (ap_add _ _ _ _ _ _ _ _ (k + 2) (M _ _ A X) (M _ _ B Y) ltac:(rewrite (p2 2 4 bp2); lra) ltac:(lia)) as Q1. rewrite (p2 2 4 bp2), (p2e 2 1 2 ltac:(lia) bp1) in Q1.
  pose proof (ap_add _ _ _ _ _ _ _ _ (k + 3) Q1 (M _ _ C Z) ltac:(rewrite (p2 3 8 bp3); lra) ltac:(lia)) as Q2. rewrite (p2 3 8 bp3), (p2e 3 2 4 ltac:(lia) bp2) in Q2.
  pose proof (ap_exact (k + 3) (pd pl) D) as AD. rewrite (p2 3 8 bp3) in AD.
  pose proof (ap_add _ _ _ _ _ _ _ _ (k + 4) Q2 AD ltac:(rewrite (p2 4 16 bp4); lra) ltac:(lia)) as Q3. rewrite (p2 4 16 bp4), (p2e 4 3 8 ltac:(lia) bp3) in Q3.
  eapply ap_weak; [exact Q3| |]; lra.
Qed.
Lemma pe (c : Z) n : bpow radix2 (c + 53) = n -> bpow radix2 (k + c) = n * (uu * S0).
Proof. intros <-. unfold S0, uu. rewrite <- !bpow_plus. f_equal. lia. Qed.
Lemma e48 : bpow radix2 (k - 48) = 32 * (uu * S0). Proof. apply (pe (-48) 32). reflexivity. Qed.
Lemma e46 : bpow radix2 (k - 46) = 128 * (uu * S0). Proof. apply (pe (-46) 128). reflexivity. Qed.
Lemma e51 : bpow radix2 (k - 51) = 4 * (uu * S0). Proof. apply (pe (-51) 4). reflexivity. Qed.
Lemma e44 : bpow radix2 (k - 44) = 512 * (uu * S0). Proof. apply (pe (-44) 512). reflexivity. Qed.

Lemma dist_doubles (pl : Plane3 f64) (p : Point3 f64) : plane_fits k pl -> fits_pt k p -> close_to (plane_distance pl p) (side (val_plane pl) (val_pt p)) (bpow radix2 (k - 48)).
Proof. intros A B. destruct (dist_ap pl p A B) as (F & E & _). pose proof uS. split; [exact F|]. rewrite e48. unfold val. lra. Qed.

(** The cut test. *)
Lemma dist_pos pl p : plane_fits k pl -> fits_pt k p -> let d := plane_distance pl p in let s := side (val_plane pl) (val_pt p) in let e := bpow radix2 (k - 48) in
  (e < s -> f64_ltb n0 d = true) /\ (s < - e -> f64_ltb d n0 = true) /\ (f64_ltb n0 d = true -> - e < s) /\ (f64_ltb d n0 = true -> s < e).
Proof.
  intros A B d s e. destruct (dist_doubles pl p A B) as [F E]. fold d s e in F, E. unfold val in E. unfold fin in F. rewrite (ltb_fin n0 d F0 F), (ltb_fin d n0 F F0), n0_val.
  assert (s - e <= V64 d <= s + e) as H by (revert E; unfold Rabs; destruct Rcase_abs; lra). repeat split; intros; lra.
Qed.
Lemma cut_doubles (pl : Plane3 f64) (t : Triangle3 f64) : plane_fits k pl -> fits_tri k t -> let s p := side (val_plane pl) (val_pt p) in let e := bpow radix2 (k - 48) in
  ((exists p, In p [t1 t; t2 t; t3 t] /\ e < s p) -> (exists q, In q [t1 t; t2 t; t3 t] /\ s q < - e) -> cutted_by t pl = true) /\
  (cutted_by t pl = true -> (exists p, In p [t1 t; t2 t; t3 t] /\ - e < s p) /\ exists q, In q [t1 t; t2 t; t3 t] /\ s q < e).
Proof.
  intros A (B1 & B2 & B3) s e.
  assert (cutted_by t pl = (f64_ltb n0 (plane_distance pl (t1 t)) || f64_ltb n0 (plane_distance pl (t2 t)) || f64_ltb n0 (plane_distance pl (t3 t))) &&
    (f64_ltb (plane_distance pl (t1 t)) n0 || f64_ltb (plane_distance pl (t2 t)) n0 || f64_ltb (plane_distance pl (t3 t)) n0)) as E.
  { unfold cutted_by. cbv zeta. change (@nltb f64 F64Num) with f64_ltb.
    destruct (f64_ltb n0 (plane_distance pl (t1 t))), (f64_ltb n0 (plane_distance pl (t2 t))), (f64_ltb n0 (plane_distance pl (t3 t))),
      (f64_ltb (plane_distance pl (t1 t)) n0), (f64_ltb (plane_distance pl (t2 t)) n0), (f64_ltb (plane_distance pl (t3 t)) n0); reflexivity. }
  rewrite E, andb_true_iff, !orb_true_iff.
  destruct (dist_pos pl (t1 t) A B1) as (P1 & N1 & P1' & N1'). destruct (dist_pos pl (t2 t) A B2) as (P2 & N2 & P2' & N2'). destruct (dist_pos pl (t3 t) A B3) as (P3 & N3 & P3' & N3').
  fold e in P1, N1, P1', N1', P2, N2, P2', N2', P3, N3, P3', N3'. fold (s (t1 t)) in *. fold (s (t2 t)) in *. fold (s (t3 t)) in *. split.
  - intros (p & Ip & Hp) (q & Iq & Hq). split; [destruct Ip as [<- | [<- | [<- | []]]]|destruct Iq as [<- | [<- | [<- | []]]]]; tauto.
  - intros [[[H|H]|H] [[H'|H']|H']]; (split; eexists; (split; [|eauto]); cbn; tauto).
Qed.
End Plane.
