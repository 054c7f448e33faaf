(** The smooth sphere in doubles. *)
From Coq Require Import ZArith List Bool Reals Lra Lia Psatz.
From Flocq Require Import Core IEEE754.Binary IEEE754.Bits IEEE754.BinarySingleNaN.
From Verif Require Import Base Num MGeometry MKernel MMesh MMeshRun MMeasure MUtil MMeshFactory MBezier MStl MF64 SMesh SReach SGeom SMeasure SMeshFac SBezier SErr SErrN SPatch
  LBase LReach LGeom LMeasure LMeshFac2 LMeshFac4 LMeshFac7 LF64 LF64Arith LBezier LBezier2 LBezier3 LBezier5 LF64Ord LErr1 LErr2 LErr3 LErrT LErrF LErrR LErr10 LPatch LPatch2 LPatch3.
Import ListNotations.
Open Scope R_scope.

Lemma val_opp (d : f64) : val (b64_opp d) = - val d. Proof. apply Binary.B2R_Bopp. Qed.
Lemma fits_opp k (d : f64) : fits k d -> fits k (b64_opp d).
Proof. intros [F B]. split; [unfold fin in *; rewrite <- F; apply Binary.is_finite_Bopp|rewrite val_opp, Rabs_Ropp; exact B]. Qed.
Lemma val_n0 : val (n0 : f64) = 0. Proof. apply n0_v. Qed.
Lemma val_n1 : val (n1 : f64) = 1. Proof. apply n1_v. Qed.
Lemma val_sphere (x y z : f64) : val_patch (sphere_patch x y z) = sphere_patch (val x) (val y) (val z).
Proof.
  unfold sphere_patch, qbt_set_points, qbt_set_control_points, val_patch, val_pt. cbn [qP1 qP2 qP3 qC12 qC13 qC23 qw1 qw2 qw3 qw12 qw13 qw23 qbt_new px py pz]. rewrite !val_n0, !val_n1. reflexivity.
Qed.
Lemma sphere_within k (x y z : f64) : (-400 <= k <= 400)%Z -> fits k x -> fits k y -> fits k z -> patch_within k 0 0 (sphere_patch x y z).
Proof.
  intros Hk X Y Z. assert (fits k n0) as F0 by (split; [apply n0_v|rewrite val_n0, Rabs_R0; apply bpow_ge_0]). assert (fin n1 /\ bpow radix2 0 <= val n1 <= bpow radix2 0) as F1 by (split; [apply n1_v|rewrite val_n1; change (bpow radix2 0) with 1; lra]).
  split; unfold sphere_patch, qbt_set_points, qbt_set_control_points; cbn [qP1 qP2 qP3 qC12 qC13 qC23 qw1 qw2 qw3 qw12 qw13 qw23 qbt_new].
  - repeat (apply Forall_cons; [split; [|split]; assumption|]). constructor.
  - repeat (apply Forall_cons; [exact F1|]). constructor.
Qed.
Lemma sphere_val_in k (d : f64) sm q : (-400 <= k <= 400)%Z -> fits k d -> In q (sm_sphere d sm) -> patch_within k 0 0 q /\ patch_units q /\ In (val_patch q) (sm_sphere (val d) []).
Proof.
  intros Hk Fd H. pose proof (fits_opp k d Fd) as Fe. pose proof (val_opp d) as Ve.
  unfold sm_sphere in H |- *. cbn [fold_left sm_add_triangle sm_clear vpush app] in H |- *. change (- d)%num with (b64_opp d) in H. change (- val d)%num with (- val d)%R.
  repeat destruct H as [<-|H]; try contradiction; (split; [apply sphere_within; assumption|]; split; [repeat constructor|]); rewrite val_sphere, ?Ve; cbn; tauto.
Qed.
Lemma sphere_doubles k (d : f64) sm q (s u : f64) : (-400 <= k <= 400)%Z -> fits k d -> In q (sm_sphere d sm) -> fin s -> fin u -> 0 <= val s -> 0 <= val u -> val s + val u <= 1 ->
  exists p x, qbt_eval q s u (- n1)%num = Ok p /\ close_pt p x (bpow radix2 (k - 44)) /\ 25 / 27 * (val d * val d) <= sq_dist x <= 9 / 8 * (val d * val d).
Proof.
  intros Hk Fd H Fs Fu Ps Pu Hs. destruct (sphere_val_in k d sm q Hk Fd H) as (W & _ & I).
  destruct (eval_doubles k 0 0 q s u ltac:(unfold patch_sizes; lia) W Fs Fu Ps Pu Hs) as (p & E & C). unfold patch_err in C. replace (k + 0 - 0 - 44)%Z with (k - 44)%Z in C by lia.
  exists p, (patch_pt (val_patch q) (val s) (val u)). split; [exact E|]. split; [exact C|].
  destruct (sphere_near (val d) [] (val_patch q) (val s) (val u) (1 - val s - val u) I Ps Pu ltac:(lra) ltac:(ring)) as (x & Ex & B & _).
  destruct (eval_gen (val_patch q) (val s) (val u) (1 - val s - val u) (1 - val s - val u)) as [K1 K2]; [destruct (Req_EM_T (1 - val s - val u) (-1)); reflexivity|].
  destruct (Req_EM_T (mass (masses (val_patch q) (val s) (val u) (1 - val s - val u))) 0) as [Z|NZ]; [rewrite (K2 Z) in Ex; discriminate|].
  rewrite (K1 NZ) in Ex. injection Ex as Ex. unfold patch_pt. rewrite Ex. exact B.
Qed.

(** Two neighbouring octants at the parameters 1/3, 2/3 of their common edge. *)
Definition oct_a : QBT f64 := sphere_patch n1 n1 n1.
Definition oct_b : QBT f64 := sphere_patch n1 n1 (b64_opp n1).
Definition third1 : f64 := b64_div mode_NE (f64_ofZ 1) (f64_ofZ 3).
Definition third2 : f64 := b64_div mode_NE (f64_ofZ 2) (f64_ofZ 3).
Definition z_sign (r : res (Point3 f64)) : option comparison := match r with Ok p => b64_compare (pz p) n0 | Err _ => None end.
Lemma crack_signs : z_sign (qbt_eval oct_a third1 third2 (- n1)%num) = Some Gt /\ z_sign (qbt_eval oct_b third1 third2 (- n1)%num) = Some Lt.
Proof. split; vm_compute; reflexivity. Qed.
Definition z_fin (r : res (Point3 f64)) : bool := match r with Ok p => fin64 (pz p) | Err _ => false end.
Lemma crack_fin : z_fin (qbt_eval oct_a third1 third2 (- n1)%num) = true /\ z_fin (qbt_eval oct_b third1 third2 (- n1)%num) = true.
Proof. split; vm_compute; reflexivity. Qed.
Lemma sign_val r c : z_fin r = true -> z_sign r = Some c -> exists p, r = Ok p /\ Rcompare (val (pz p)) 0 = c.
Proof.
  destruct r as [p|f]; cbn; [|discriminate]. intros F H. exists p. split; [reflexivity|]. unfold b64_compare in H. rewrite Binary.Bcompare_correct in H; [|exact F|apply n0_v].
  injection H as H. change (Rcompare (val (pz p)) (val n0) = c) in H. rewrite val_n0 in H. exact H.
Qed.
Lemma crack : exists (q r : QBT f64) (s u : f64), In q (sm_sphere n1 []) /\ In r (sm_sphere n1 []) /\ qP1 q = qP1 r /\ qP2 q = qP2 r /\ qC12 q = qC12 r /\
  ndiv (nofZ 1) (nofZ 3) = Ok s /\ ndiv (nofZ 2) (nofZ 3) = Ok u /\
  exists p p', qbt_eval q s u (- n1)%num = Ok p /\ qbt_eval r s u (- n1)%num = Ok p' /\ val (pz p') < 0 < val (pz p).
Proof.
  exists oct_a, oct_b, third1, third2. split; [left; reflexivity|]. split; [right; right; right; left; reflexivity|]. do 3 (split; [reflexivity|]). do 2 (split; [reflexivity|]).
  destruct crack_signs as [A B]. destruct crack_fin as [C D].
  destruct (sign_val _ _ C A) as (p & E & P). destruct (sign_val _ _ D B) as (p' & E' & P'). exists p, p'. split; [exact E|]. split; [exact E'|]. split; [apply Rcompare_Lt_inv|apply Rcompare_Gt_inv]; assumption.
Qed.

(** The octant of radius 1. *)
Definition half64 : f64 := Binary.B754_finite 53 1024 false 4503599627370496 (-53) eq_refl.
Lemma unit_fits : fits 0 (f64_ofZ 1).
Proof. split; [apply n1_v|]. change (f64_ofZ 1) with (n1 : f64). rewrite val_n1, Rabs_R1. change (bpow radix2 0) with 1. lra. Qed.
Lemma half_v : fin half64 /\ val half64 = 1 / 2.
Proof. split; [reflexivity|]. change (IZR 4503599627370496 * / IZR 9007199254740992 = 1 / 2). lra. Qed.
Lemma patch_case : patch_sizes 0 0 0 /\ patch_within 0 0 0 (sphere_patch n1 n1 n1 : QBT f64) /\ patch_units (sphere_patch n1 n1 n1) /\ In (sphere_patch n1 n1 n1) (sm_sphere (n1 : f64) []) /\ fits 0 (n1 : f64) /\
  fin half64 /\ fin (n0 : f64) /\ val half64 = 1 / 2 /\ val (n0 : f64) = 0 /\ reach (@mesh_new f64) /\ shows (@mesh_new f64) (mkA [] [] (-1)).
Proof.
  split; [unfold patch_sizes; lia|]. split; [apply sphere_within; [lia|apply unit_fits..]|]. split; [repeat constructor|]. split; [left; reflexivity|]. split; [apply unit_fits|]. split; [apply half_v|]. split; [apply n0_v|]. split; [apply half_v|]. split; [apply val_n0|]. split; [apply R_new|apply (shows_abs (@mesh_new f64))].
Qed.
