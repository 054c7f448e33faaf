(** Cracks after tessellating in doubles, and welding them. *)
From Coq Require Import ZArith List Bool Reals Lra Lia Psatz Permutation.
From Flocq Require Import Core Relative IEEE754.Binary IEEE754.Bits IEEE754.BinarySingleNaN.
From Verif Require Import LClosed Base Num MGeometry MKernel MMesh MMeshRun MMeasure MUtil MStl MF64 SMesh SReach SGeom SMeasure SUtil SErr SErrM SErrN SMerge SClean SMeshFac
  LBase LMesh LReach LGeom LMeasure LMeasure2 LF64 LF64Arith LF64Ord LErr1 LErr2 LErr3 LErr4 LGrid LUtil LTess LGeo1 LGeo2 LMeshFac LMeshFac2 LMeshFac7 LErrEx LErrR LErrF LMergeG LMergeD LCleanG LCleanD.
Import ListNotations.
Open Scope R_scope.

Lemma in_corners {A} (fs : list (A * A * A)) p : In p (corners_of fs) -> exists f, In f fs /\ (let '(x, y, z) := f in p = x \/ p = y \/ p = z).
Proof. intros H. unfold corners_of in H. apply in_flat_map in H. destruct H as ([[x y] z] & Hf & H). exists (x, y, z). split; [exact Hf|]. destruct H as [<-|[<-|[<-|[]]]]; auto. Qed.
Lemma small_grid n fs p : (1 <= n)%Z -> In p (corners_of (flat_map (small n) fs)) -> exists f u v, In f fs /\ on_grid n u v /\ p = grid_point n f u v.
Proof.
  intros Hn H. apply in_corners in H. destruct H as (g & Hg & H). apply in_flat_map in Hg. destruct Hg as ([[a b] c] & Hf & Hg). cbn [small] in Hg. apply in_map_iff in Hg. destruct Hg as (t & <- & Ht). apply (grid_on n t Hn) in Ht. destruct t as [[[u1 v1] [u2 v2]] [u3 v3]]. destruct Ht as (A & B & C).
  cbn [ip3] in H. exists (a, b, c). destruct H as [-> | [-> | ->]]; [exists u1, v1|exists u2, v2|exists u3, v3]; (split; [exact Hf|]); (split; [assumption|reflexivity]).
Qed.
Lemma ideal_faces {A} (d : A) (fs : list (A * A * A)) : map (m3 (fun i => nth (Z.to_nat i) (corners_of fs) d)) (map id3 (seq 0 (length fs))) = fs.
Proof.
  rewrite map_map. apply nth_error_ext. intros i. rewrite nth_error_map. destruct (nth_error fs i) as [f|] eqn:E.
  - assert (i < length fs)%nat as Hi by (apply nth_error_Some; rewrite E; discriminate).
    rewrite (nth_error_nth' (seq 0 (length fs)) 0%nat) by (rewrite seq_length; exact Hi). rewrite seq_nth by exact Hi. cbn [option_map Nat.add]. f_equal. unfold id3, m3.
    replace (Z.to_nat (3 * Z.of_nat i)) with (3 * i)%nat by lia. replace (Z.to_nat (3 * Z.of_nat i + 1)) with (3 * i + 1)%nat by lia. replace (Z.to_nat (3 * Z.of_nat i + 2)) with (3 * i + 2)%nat by lia.
    exact (flat3_nth (fun f => f) d fs i f E).
  - apply nth_error_None in E. rewrite (proj2 (nth_error_None (seq 0 (length fs)) i)) by (rewrite seq_length; exact E). reflexivity.
Qed.
Lemma near_corners K e fs Fs : Forall2 (near_pts K e) fs Fs -> Forall2 (pnear K e) (corners_of fs) (corners_of Fs).
Proof. induction 1 as [|[[p q] r] [[P Q] S0] fs Fs (A & B & C) _ IH]; [constructor|]. unfold corners_of. cbn [flat_map app]. repeat (constructor; [assumption|]). exact IH. Qed.

Lemma tess_weld (m mo : Mesh f64) a k n (tol : f64) : reach m -> shows m a -> reach mo -> (-350 <= k <= 390)%Z -> Forall (fits_pt k) (averts a) -> (1 <= n <= 2 ^ 50)%Z ->
  closed_surface (faces (val_mesh a)) -> fits 400 tol -> bpow radix2 (k - 46) <= Rabs (val tol) -> grid_apart ((1 + bpow radix2 (-50)) * Rabs (val tol) + bpow radix2 (k - 47)) n (faces (val_mesh a)) ->
  exists m1 m2 b cut, tessellate m n mo = Ok m1 /\ merge_vertices m1 tol = Ok m2 /\ reach m2 /\ shows m2 b /\ (forall f, cuts n f (cut f)) /\
    Forall2 (faces_within (bpow radix2 (k - 48))) (flat_map cut (faces (val_mesh a))) (faces (val_mesh b)) /\ index_closed (live b).
Proof.
  intros R S Ro Hk HF Hn CL Ft Ht GA. rewrite (shows_unique m a (abs m) S (shows_abs m)) in *. set (a0 := abs m) in *.
  destruct (gtessellate m n mo zero_pt divides_f64 (reach_wf m R) Ro ltac:(lia)) as (m1 & E & R' & S'). fold a0 in S'. fold (tess_faces n a0) in S'.
  pose proof (tess_near a0 k n ltac:(lia) Hn HF) as NR. set (e := 12 * bpow radix2 (k - 53)) in *. pose proof (bpow_gt_0 radix2 (k - 53)) as K0. assert (0 <= e) as He by (unfold e; lra).
  set (fs := tess_faces n a0) in *. set (Fs := flat_map (small n) (faces (val_mesh a0))) in *. pose proof (near_corners _ _ _ _ NR) as NC.
  assert (length fs = length Fs) as LE by (clear - NR; induction NR; cbn [length]; congruence).
  set (g := fun i => nth (Z.to_nat i) (corners_of Fs) O3).
  assert (forall p P, pnear (k + 1) e p P -> dist3 P (val_pt p) <= bpow radix2 (k - 48)) as D.
  { intros p P H. pose proof (dist_of_pn _ _ _ _ He H) as X. replace (k - 48)%Z with (5 + (k - 53))%Z by lia. rewrite bpow_plus. change (bpow radix2 5) with 32. unfold e in X. lra. }
  assert (bpow radix2 (k - 47) = 2 * bpow radix2 (k - 48)) as B7 by (replace (k - 47)%Z with (1 + (k - 48))%Z by lia; rewrite bpow_plus; reflexivity). assert (bpow radix2 (k - 46) = 4 * bpow radix2 (k - 48)) as B6 by (replace (k - 46)%Z with (2 + (k - 48))%Z by lia; rewrite bpow_plus; reflexivity). pose proof (bpow_gt_0 radix2 (k - 48)) as B8.
  destruct (weld_ideal m1 _ tol (k + 1) g (bpow radix2 (k - 48)) R' S' ltac:(lia) (tess_fits _ _ _ _ NR) Ft) as (m2 & b & E2 & R2 & S2 & FW & IC).
  - eapply Rle_trans; [|exact Ht]. apply bpow_le. lia.
  - intros i Hi. cbn [averts] in Hi. rewrite pt_val. unfold g, pt. cbn [averts]. apply D. apply F2_nth; [exact NC|]. unfold len in Hi. lia.
  - change (bpow radix2 (-50)) with (/ 1125899906842624). set (x := Rabs (val tol)) in *. lra.
  - cbn [averts]. assert (len (corners_of fs) = len (corners_of Fs)) as LL. { unfold len. rewrite !len_corners, LE. reflexivity. } rewrite LL. intros i j Hi Hj.
    assert (forall i, (0 <= i < len (corners_of Fs))%Z -> exists f u v, In f (faces (val_mesh a0)) /\ on_grid n u v /\ g i = grid_point n f u v) as GP. { intros x Hx. apply small_grid; [lia|]. apply nth_In. unfold len in Hx. fold Fs. lia. }
    destruct (GP i Hi) as (f & u & v & F1 & F2 & ->). destruct (GP j Hj) as (f' & u' & v' & G1 & G2 & ->). rewrite <- B7. apply GA; assumption.
  - rewrite live_alive in FW, IC. rewrite LE in FW, IC. unfold g in FW, IC. rewrite (ideal_faces O3 Fs) in FW, IC.
    exists m1, m2, b, (small n). split; [exact E|]. split; [exact E2|]. split; [exact R2|]. split; [exact S2|]. split; [intros [[p q] r]; apply grid_cuts; lia|]. split; [exact FW|]. apply IC. apply tessellated_closed; [lia|exact CL].
Qed.

(** ** The unit corner, three parts along each side *)
Definition same64 (x y : f64) : bool := negb (f64_ltb x y) && negb (f64_ltb y x).
Definition same_pt (p q : Point3 f64) : bool := same64 (px p) (px q) && same64 (py p) (py q) && same64 (pz p) (pz q).
Lemma same_ok (p q : Point3 f64) : fin64 (px p) = true -> fin64 (py p) = true -> fin64 (pz p) = true -> fin64 (px q) = true -> fin64 (py q) = true -> fin64 (pz q) = true -> val_pt p = val_pt q -> same_pt p q = true.
Proof.
  intros. assert (forall x y : f64, fin64 x = true -> fin64 y = true -> val x = val y -> same64 x y = true) as K.
  { intros x y Fx Fy E. unfold same64. assert (forall b, (b = true -> False) -> negb b = true) as NB by (intros [|] Hb; [destruct (Hb eq_refl)|reflexivity]). rewrite !NB; [reflexivity| |]; intros L; apply ltb_fin in L; try assumption; change val with V64 in E; lra. }
  assert (val (px p) = val (px q) /\ val (py p) = val (py q) /\ val (pz p) = val (pz q)) as (E1 & E2 & E3) by (repeat split; [apply (f_equal px) in H5|apply (f_equal py) in H5|apply (f_equal pz) in H5]; exact H5).
  unfold same_pt. rewrite !K by assumption. reflexivity.
Qed.
Definition edges64 (a : AMesh f64) : list (Point3 f64 * Point3 f64) := flat_map edges3 (map (at_corners (fun p q r => (p, q, r)) a zero_pt) (live a)).
Definition finb (p : Point3 f64) : bool := fin64 (px p) && fin64 (py p) && fin64 (pz p).
Definition open_at (es : list (Point3 f64 * Point3 f64)) (e : Point3 f64 * Point3 f64) : bool := forallb (fun x => negb (same_pt (fst x) (snd e) && same_pt (snd x) (fst e))) es.
Lemma open_mesh a : forallb (fun e => finb (fst e) && finb (snd e)) (edges64 a) = true -> existsb (open_at (edges64 a)) (edges64 a) = true -> ~ closed_surface (faces (val_mesh a)).
Proof.
  intros F X C. unfold closed_surface in C. set (vv := fun e : Point3 f64 * Point3 f64 => (val_pt (fst e), val_pt (snd e))).
  assert (flat_map edges3 (faces (val_mesh a)) = map vv (edges64 a)) as EE.
  { rewrite faces_val. unfold edges64. generalize (live a). intros l. induction l as [|[[x y] z] l IH]; [reflexivity|]. cbn [map flat_map at_corners m3 edges3 app]. rewrite IH. reflexivity. }
  rewrite EE in C. apply existsb_exists in X. destruct X as (e & He & X). rewrite forallb_forall in F.
  pose proof (Permutation_in _ C (in_map vv _ _ He)) as I. apply in_map_iff in I. destruct I as (e' & Ee & He'). apply in_map_iff in He'. destruct He' as (x & <- & Hx).
  unfold open_at in X. rewrite forallb_forall in X. specialize (X x Hx). apply negb_true_iff in X. unfold swap, vv in Ee. cbn [fst snd] in Ee.
  assert (forall p, finb p = true -> fin64 (px p) = true /\ fin64 (py p) = true /\ fin64 (pz p) = true) as FB by (intros p Hp; unfold finb in Hp; rewrite !andb_true_iff in Hp; tauto).
  pose proof (F e He) as Fe. pose proof (F x Hx) as Fx. apply andb_true_iff in Fe, Fx. destruct Fe as [Fe1 Fe2], Fx as [Fx1 Fx2]. apply FB in Fe1, Fe2, Fx1, Fx2.
  assert (val_pt (fst x) = val_pt (snd e)) as V1 by exact (f_equal snd Ee). assert (val_pt (snd x) = val_pt (fst e)) as V2 by exact (f_equal fst Ee).
  rewrite (same_ok (fst x) (snd e)) in X by (exact V1 || tauto). rewrite (same_ok (snd x) (fst e)) in X by (exact V2 || tauto). discriminate.
Qed.
Definition parts3 : Mesh f64 := match tessellate (corner_mesh 0 1 true) 3 mesh_new with Ok m => m | Err _ => mesh_new end.
Lemma crack_checks : forallb (fun e => finb (fst e) && finb (snd e)) (edges64 (abs parts3)) = true /\ existsb (open_at (edges64 (abs parts3))) (edges64 (abs parts3)) = true.
Proof. split; vm_compute; reflexivity. Qed.
Lemma cracks : let m := corner_mesh 0 1 true in let a := corner_abs 0 1 true in reach m /\ shows m a /\ closed_surface (faces (val_mesh a)) /\
  exists m' a', tessellate m 3 mesh_new = Ok m' /\ reach m' /\ shows m' a' /\ ~ closed_surface (faces (val_mesh a')).
Proof.
  intros m a. destruct (corner_exists 0 1 true) as [R S]. split; [exact R|]. split; [exact S|]. split; [apply index_closed_surface, closedb_ok; vm_compute; reflexivity|].
  destruct (gtessellate m 3 mesh_new zero_pt divides_f64 (reach_wf m R) R_new ltac:(lia)) as (m1 & E & R' & S'). exists m1, (abs m1). split; [exact E|]. split; [exact R'|]. split; [apply shows_abs|].
  assert (m1 = parts3) as -> by (unfold parts3; fold m; rewrite E; reflexivity). destruct crack_checks as [A B]. apply open_mesh; assumption.
Qed.
Lemma even_apart (i j k i' j' k' : Z) : (i, j, k) = (i', j', k') \/ 2 <= dist3 (mkP (2 * IZR i) (2 * IZR j) (2 * IZR k)) (mkP (2 * IZR i') (2 * IZR j') (2 * IZR k')).
Proof.
  destruct (Z.eq_dec i i') as [->|Hi]; [destruct (Z.eq_dec j j') as [->|Hj]; [destruct (Z.eq_dec k k') as [->|Hk]; [left; reflexivity|]|]|]; right; unfold dist3, len3, dot3, sub3; cbn [px py pz]; replace 2 with (sqrt (2 * 2)) at 1 by (apply sqrt_square; lra); apply sqrt_le_1_alt.
  - assert (1 <= (k - k') * (k - k'))%Z as H by nia. apply IZR_le in H. rewrite mult_IZR, minus_IZR in H. pose proof (Rle_0_sqr (IZR k - IZR k')) as Qk. unfold Rsqr in *. nra.
  - assert (1 <= (j - j') * (j - j'))%Z as H by nia. apply IZR_le in H. rewrite mult_IZR, minus_IZR in H. pose proof (Rle_0_sqr (IZR j - IZR j')) as Qj. pose proof (Rle_0_sqr (IZR k - IZR k')) as Qk. unfold Rsqr in *. nra.
  - assert (1 <= (i - i') * (i - i'))%Z as H by nia. apply IZR_le in H. rewrite mult_IZR, minus_IZR in H. pose proof (Rle_0_sqr (IZR i - IZR i')) as Qi. pose proof (Rle_0_sqr (IZR j - IZR j')) as Qj. pose proof (Rle_0_sqr (IZR k - IZR k')) as Qk. unfold Rsqr in *. nra.
Qed.
Lemma clean_case : let m := corner_mesh 0 4 true in let a := corner_abs 0 4 true in
  reach m /\ shows m a /\ reach (@mesh_new f64) /\ Forall (fits_pt 2) (averts a) /\ len (live a) = 4%Z /\ fits 400 (f64_ofZ 1) /\ bpow radix2 (-400) <= Rabs (val (f64_ofZ 1)) /\ bpow radix2 (2 - 46) <= Rabs (val (f64_ofZ 1)) /\
  closed_surface (faces (val_mesh a)) /\ grid_apart ((1 + bpow radix2 (-50)) * Rabs (val (f64_ofZ 1)) + bpow radix2 (2 - 47)) 2 (faces (val_mesh a)).
Proof.
  destruct weld_case as (R & S & F & L & T1 & T2 & _ & C). intros m a. split; [exact R|]. split; [exact S|]. split; [exact R_new|]. split; [exact F|]. split; [exact L|]. split; [exact T1|]. split; [exact T2|].
  destruct (ofZ_ok 1 ltac:(lia)) as [E1 _]. assert (val (f64_ofZ 1) = 1) as V1 by exact E1. split; [rewrite V1, Rabs_pos_eq by lra; change 1 with (bpow radix2 0); apply bpow_le; lia|]. split; [exact C|].
  rewrite V1, (Rabs_pos_eq 1) by lra. change (bpow radix2 (2 - 47)) with (/ 35184372088832). change (bpow radix2 (-50)) with (/ 1125899906842624).
  destruct (ofZ_ok 0 ltac:(lia)) as [E0 F0]. destruct (ofZ_ok 4 ltac:(lia)) as [E4 F4].
  assert (faces (val_mesh a) = [(mkP 0 0 0, mkP 0 4 0, mkP 4 0 0); (mkP 0 0 0, mkP 4 0 0, mkP 0 0 4); (mkP 4 0 0, mkP 0 4 0, mkP 0 0 4); (mkP 0 4 0, mkP 0 0 0, mkP 0 0 4)]) as FA.
  { assert (averts (val_mesh a) = [mkP 0 0 0; mkP 4 0 0; mkP 0 4 0; mkP 0 0 4]) as AV. { unfold a, val_mesh, corner_abs. cbn [averts map]. unfold val_pt, dp. cbn [px py pz]. change (0 + 4)%Z with 4%Z. unfold val. fold (V64 (f64_ofZ 0)). fold (V64 (f64_ofZ 4)). rewrite E0, E4. reflexivity. }
    unfold faces, corners, pt. rewrite AV. reflexivity. }
  assert (forall f u v, In f (faces (val_mesh a)) -> exists i j k, grid_point 2 f u v = mkP (2 * IZR i) (2 * IZR j) (2 * IZR k)) as GP.
  { intros f u v H. rewrite FA in H. destruct H as [<-|[<-|[<-|[<-|[]]]]]; unfold grid_point, add3, scal3, sub3; cbn [px py pz].
    - exists v, u, 0%Z. f_equal; lra.
    - exists u, 0%Z, v. f_equal; lra.
    - exists (2 - u - v)%Z, u, v. rewrite !minus_IZR. f_equal; lra.
    - exists 0%Z, (2 - u - v)%Z, v. rewrite !minus_IZR. f_equal; lra. }
  intros f g u v u' v' Hf Hg _ _. destruct (GP f u v Hf) as (i & j & k & ->). destruct (GP g u' v' Hg) as (i' & j' & k' & ->).
  destruct (even_apart i j k i' j' k') as [E|D]; [left; injection E as -> -> ->; reflexivity|right; lra].
Qed.
