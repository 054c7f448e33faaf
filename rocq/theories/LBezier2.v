(** What QuadBezierTriangle::add_to_mesh and SmoothMesh::add_to_mesh append to a mesh. *)
From Coq Require Import ZArith List Bool Reals Lra Lia Psatz.
From Verif Require Import Base Num MGeometry MKernel MMesh MMeshRun MMeasure MUtil MMeshFactory MBezier SMesh SReach SGeom SMeasure SMeshFac SBezier
  LBase LReach LMeasure LMeasure2 LMeshFac LMeshFac2 LMeshFac4 LBezier.
Import ListNotations.
Open Scope Z_scope.

Lemma rank_eq n i j : 2 * rank n i j = i * (2 * n + 3 - i) + 2 * j.
Proof.
  unfold rank. assert (exists k, i * (2 * n + 3 - i) = 2 * k) as [k ->].
  { destruct (Z.Even_or_Odd i) as [[k ->]|[k ->]]; [exists (k * (2 * n + 3 - 2 * k))|exists ((2 * k + 1) * (n + 1 - k))]; ring. }
  rewrite (Z.mul_comm 2 k), Z.div_mul by lia. ring.
Qed.
Lemma rank_next n i j : rank n (i + 1) j = rank n i j + (n - i + 1).
Proof. pose proof (rank_eq n i j). pose proof (rank_eq n (i + 1) j). lia. Qed.
Lemma rank_j n i j k : rank n i (j + k) = rank n i j + k.
Proof. unfold rank. lia. Qed.
Lemma rank_00 n : rank n 0 0 = 0. Proof. reflexivity. Qed.
Lemma rank_range n i j : on_grid n i j -> 0 <= rank n i j < rank n (n + 1) 0.
Proof. intros (A & B & C). pose proof (rank_eq n i j). pose proof (rank_eq n (n + 1) 0). nia. Qed.

Section Gen.
Context {T : Type} {N : Num T}.
Implicit Types m : Mesh T.

Definition isx m (a : AMesh T) : Prop := reach m /\ shows m a.
Lemma wv_app (a : AMesh T) u v : with_verts (with_verts a u) v = with_verts a (u ++ v).
Proof. unfold with_verts. cbn. rewrite app_assoc. reflexivity. Qed.
Lemma wv_nil (a : AMesh T) : with_verts a [] = a.
Proof. destruct a. unfold with_verts. cbn. rewrite app_nil_r. reflexivity. Qed.
Lemma wt_app (a : AMesh T) u v : with_tris (with_tris a u) v = with_tris a (u ++ v).
Proof. unfold with_tris. cbn. rewrite map_app, app_assoc. reflexivity. Qed.
Lemma wt_nil (a : AMesh T) : with_tris a [] = a.
Proof. destruct a. unfold with_tris. cbn. rewrite app_nil_r. reflexivity. Qed.
Lemma isx_v m a p : isx m a -> exists m', run_ops m [OpAddVertex p] = Ok m' /\ isx m' (with_verts a [p]).
Proof.
  intros [R S]. pose proof (shows_run [OpAddVertex p] [OpAddVertex p] m a R S ltac:(repeat constructor)) as H. cbn [srun sstep] in H.
  destruct H as [m' [E [R' S']]]. exists m'. unfold run_ops. rewrite E. split; [reflexivity|]. split; assumption.
Qed.
Lemma isx_t m a x y z : isx m a -> 0 <= x < len (averts a) -> 0 <= y < len (averts a) -> 0 <= z < len (averts a) ->
  exists m', run_ops m [OpAddTriangle x y z] = Ok m' /\ isx m' (with_tris a [(x, y, z)]).
Proof.
  intros [R S] X Y Z. pose proof (shows_run [OpAddTriangle x y z] [OpAddTriangle x y z] m a R S ltac:(repeat constructor)) as H. cbn [srun sstep] in H.
  rewrite oks_true in H by (intros i [<-|[<-|[<-|[]]]]; assumption). destruct H as [m' [E [R' S']]]. exists m'. unfold run_ops. rewrite E. split; [reflexivity|]. split; assumption.
Qed.
Lemma run_ops_app m u v : run_ops m (u ++ v) = do m' <- run_ops m u; run_ops m' v.
Proof.
  unfold run_ops. revert m. induction u as [|o u IH]; intros m; cbn [app mrun bind fst]; [destruct (mrun m v); reflexivity|].
  destruct (mstep m o) as [[m1 x]|f]; cbn [bind fst]; [|reflexivity]. specialize (IH m1). destruct (mrun m1 u) as [[m2 y]|f]; cbn [bind fst snd] in *.
  - destruct (mrun m1 (u ++ v)) as [[m3 z]|f]; cbn [bind fst snd] in *; rewrite <- IH; reflexivity.
  - destruct (mrun m1 (u ++ v)) as [[m3 z]|g]; cbn [bind] in *; congruence.
Qed.
Lemma isx_t2 m a x y z x' y' z' : isx m a -> (forall i, In i [x; y; z; x'; y'; z'] -> 0 <= i < len (averts a)) ->
  exists m', run_ops m [OpAddTriangle x y z; OpAddTriangle x' y' z'] = Ok m' /\ isx m' (with_tris a [(x, y, z); (x', y', z')]).
Proof.
  intros I B. change [OpAddTriangle x y z; OpAddTriangle x' y' z'] with ([@OpAddTriangle T (Mesh T) x y z] ++ [OpAddTriangle x' y' z']). rewrite run_ops_app.
  destruct (isx_t m a x y z I) as [m1 [E1 I1]]; try (apply B; cbn; tauto). rewrite E1. cbn [bind].
  destruct (isx_t m1 _ x' y' z' I1) as [m2 [E2 I2]]; try (cbn [averts with_tris]; apply B; cbn; tauto). exists m2. split; [exact E2|]. rewrite wt_app in I2. exact I2.
Qed.

(** ** Vertices *)
Definition gridz (n : Z) (g : Z -> Z -> Point3 T) : list (Point3 T) := flat_map (fun i => map (g i) (zrange 0 (n - i + 1))) (zrange 0 (n + 1)).
Lemma gridz_grid n g : gridz n g = grid n g.
Proof.
  unfold gridz, grid. assert (forall k, zrange 0 k = map Z.of_nat (seq 0 (Z.to_nat k))) as E.
  { intros k. unfold zrange. rewrite Z.sub_0_r. apply map_ext. intros i. lia. }
  rewrite (E (n + 1)). apply flat_map_ext. intros i. rewrite (E (n - i + 1)). reflexivity.
Qed.
Lemma rows_len n (g : Z -> Z -> Point3 T) k : 0 <= k <= n + 1 -> len (flat_map (fun i => map (g i) (zrange 0 (n - i + 1))) (zrange 0 k)) = rank n k 0.
Proof.
  intros K. replace k with (Z.of_nat (Z.to_nat k)) in * by lia. induction (Z.to_nat k) as [|j IH]; [reflexivity|].
  replace (Z.of_nat (S j)) with (Z.of_nat j + 1) in * by lia. rewrite zrange_last, flat_map_app, len_app by lia. rewrite IH by lia. cbn [flat_map]. rewrite app_nil_r.
  unfold len at 1. rewrite map_length. change (Z.of_nat (length (zrange 0 (n - Z.of_nat j + 1)))) with (len (zrange 0 (n - Z.of_nat j + 1))). rewrite len_zrange, rank_next. lia.
Qed.
Lemma grid_len n g : -1 <= n -> len (gridz n g) = rank n (n + 1) 0.
Proof. intros. apply rows_len. lia. Qed.
Lemma grid_nth n g i j d : on_grid n i j -> nth (Z.to_nat (rank n i j)) (gridz n g) d = g i j.
Proof.
  intros (A & B & C). unfold gridz. rewrite (zrange_app 0 i (n + 1)) by lia. rewrite (zrange_cons i) by lia. rewrite flat_map_app. cbn [flat_map].
  pose proof (rows_len n g i ltac:(lia)) as L. unfold len in L. replace j with (0 + j) at 1 by lia. rewrite rank_j. pose proof (rank_range n i 0 ltac:(unfold on_grid; lia)) as RR.
  rewrite app_nth2 by lia. replace (Z.to_nat (rank n i 0 + j) - _)%nat with (Z.to_nat j) by lia.
  assert (length (map (g i) (zrange 0 (n - i + 1))) = Z.to_nat (n - i + 1)) as LR by (rewrite map_length; pose proof (vsize_zrange 0 (n - i + 1)) as V; unfold vsize in V; lia).
  rewrite app_nth1 by (rewrite LR; lia). rewrite (nth_indep _ d (g i 0)) by (rewrite LR; lia). rewrite map_nth. f_equal.
  unfold zrange. rewrite (nth_indep _ 0 (0 + Z.of_nat 0)) by (rewrite map_length, seq_length; lia). rewrite (map_nth (fun k => 0 + Z.of_nat k)). rewrite seq_nth by lia. lia.
Qed.

Definition evals (q : QBT T) (n : Z) (g : Z -> Z -> Point3 T) : Prop :=
  forall i j, on_grid n i j -> exists s u, ndiv (nofZ i) (nofZ n) = Ok s /\ ndiv (nofZ j) (nofZ n) = Ok u /\ qbt_eval q s u (- n1)%num = Ok (g i j).
Lemma vertices_ok q n g m a : 0 <= n -> evals q n g -> isx m a ->
  exists m', for_ 0 (n + 1) (fun is m =>
    do s <- ndiv (nofZ is) (nofZ n);
    for_ 0 (n - is + 1) (fun iu m =>
      do u <- ndiv (nofZ iu) (nofZ n);
      do p <- qbt_eval q s u (- n1)%num;
      run_ops m [OpAddVertex p]) m) m = Ok m' /\ isx m' (with_verts a (gridz n g)).
Proof.
  intros Hn EV I. unfold gridz.
  match goal with |- exists m', for_ _ _ ?b _ = _ /\ _ => destruct (for_inv (fun i m => isx m (with_verts a (flat_map (fun i => map (g i) (zrange 0 (n - i + 1))) (zrange 0 i)))) 0 (n + 1) b m ltac:(lia)) as [m' [E I']] end.
  - rewrite zrange_empty by lia. cbn [flat_map]. rewrite wv_nil. exact I.
  - intros i s Hi Is. destruct (EV i 0 ltac:(unfold on_grid; lia)) as (x & u0 & Ex & _). rewrite Ex. cbn [bind].
    match goal with |- exists m', for_ _ _ ?b _ = _ /\ _ => destruct (for_inv (fun j m => isx m (with_verts a (flat_map (fun i => map (g i) (zrange 0 (n - i + 1))) (zrange 0 i) ++ map (g i) (zrange 0 j)))) 0 (n - i + 1) b s ltac:(lia)) as [s' [Es I']] end.
    + rewrite (zrange_empty 0 0) by lia. cbn [map]. rewrite app_nil_r. exact Is.
    + intros j s' Hj Ij. destruct (EV i j ltac:(unfold on_grid; lia)) as (x' & u & Ex' & Eu & Ep). rewrite Eu. cbn [bind]. rewrite Ex in Ex'. injection Ex' as <-. rewrite Ep. cbn [bind].
      destruct (isx_v s' _ (g i j) Ij) as [s2 [E2 I2]]. exists s2. split; [exact E2|]. rewrite wv_app in I2. rewrite zrange_last, map_app by lia. rewrite app_assoc. exact I2.
    + exists s'. split; [exact Es|]. rewrite zrange_last, flat_map_app by lia. cbn [flat_map]. rewrite app_nil_r. exact I'.
  - exists m'. split; [exact E|exact I'].
Qed.

(** ** Triangles *)
Definition tri_row (n b i : Z) : list triple :=
  (b + rank n i 0, b + rank n i 1, b + rank n (i + 1) 0) ::
  flat_map (fun j => [(b + rank n (i + 1) j, b + rank n (i + 2) (j + 1), b + rank n (i + 2) j);
                      (b + rank n (i + 1) j, b + rank n (i + 1) (j + 1), b + rank n (i + 2) (j + 1))]) (zrange 1 (n - i - 2)).
Definition patch_tris (n b : Z) : list triple := flat_map (tri_row n b) (zrange 0 n).

Lemma add_to_mesh_ok q n g m a : 1 <= n -> evals q n g -> isx m a ->
  exists m', qbt_add_to_mesh q m n = Ok m' /\ isx m' (with_tris (with_verts a (gridz n g)) (patch_tris n (nb_vertices m))).
Proof.
  intros Hn EV I. unfold qbt_add_to_mesh. destruct (vertices_ok q n g m a ltac:(lia) EV I) as [m1 [E1 I1]]. cbv zeta. rewrite E1. cbn [bind].
  set (b := nb_vertices m). assert (b = len (averts a)) as Eb by (destruct I as [_ [Q _]]; exact Q).
  set (av := with_verts a (gridz n g)) in *. assert (len (averts av) = b + rank n (n + 1) 0) as Ln by (subst av; cbn [averts with_verts]; rewrite len_app, grid_len, Eb by lia; reflexivity).
  assert (forall i j, on_grid n i j -> 0 <= b + rank n i j < len (averts av)) as OK.
  { intros i j G. pose proof (rank_range n i j G). rewrite Ln. assert (0 <= b) by (rewrite Eb; apply len_nonneg). lia. }
  match goal with |- exists m', (do r <- for_ _ _ ?bd _; _) = _ /\ _ =>
    destruct (for_inv (fun i (st : Mesh T * Z) => snd st = b + rank n i 0 /\ isx (fst st) (with_tris av (flat_map (tri_row n b) (zrange 0 i)))) 0 n bd (m1, b) ltac:(lia)) as [[m2 pos] [E2 [P2 I2]]] end.
  - split; [cbn [snd]; rewrite rank_00; lia|]. rewrite zrange_empty by lia. cbn [flat_map]. rewrite wt_nil. exact I1.
  - intros i [s pos] Hi [Hp Is]. cbn [fst snd] in Hp, Is. subst pos. cbv beta iota zeta.
    pose proof (rank_next n i 0) as R1. pose proof (rank_next n (i + 1) 0) as R2. replace (i + 1 + 1) with (i + 2) in R2 by lia.
    assert (b + rank n i 0 + 1 = b + rank n i 1) as -> by (replace 1 with (0 + 1) at 2 by lia; rewrite rank_j; lia).
    assert (b + rank n i 0 + (n - i + 1) = b + rank n (i + 1) 0) as -> by lia.
    destruct (isx_t s _ (b + rank n i 0) (b + rank n i 1) (b + rank n (i + 1) 0) Is) as [s1 [E3 I3]]; try (apply OK; unfold on_grid; lia). rewrite E3. cbn [bind].
    replace (n - i + 1 - 4 + 1) with (n - i - 2) by lia. rewrite wt_app in I3.
    match goal with |- context [for_ 1 (n - i - 2) ?bd s1] => set (body := bd) end.
    set (pre := flat_map (tri_row n b) (zrange 0 i) ++ [(b + rank n i 0, b + rank n i 1, b + rank n (i + 1) 0)]) in *.
    set (h := fun j => [(b + rank n (i + 1) j, b + rank n (i + 2) (j + 1), b + rank n (i + 2) j);
                      (b + rank n (i + 1) j, b + rank n (i + 1) (j + 1), b + rank n (i + 2) (j + 1))]).
    assert (exists s2, for_ 1 (n - i - 2) body s1 = Ok s2 /\ isx s2 (with_tris av (pre ++ flat_map h (zrange 1 (n - i - 2))))) as [s2 [E4 I4]].
    { destruct (Z.le_gt_cases 1 (n - i - 2)) as [L|L].
      2:{ rewrite for_empty, zrange_empty by lia. exists s1. split; [reflexivity|]. cbn [flat_map]. rewrite app_nil_r. exact I3. }
      apply (for_inv (fun j s => isx s (with_tris av (pre ++ flat_map h (zrange 1 j)))) 1 (n - i - 2) body s1 L).
      - rewrite zrange_empty by lia. cbn [flat_map]. rewrite app_nil_r. exact I3.
      - intros j s2 Hj I4. unfold body.
        assert (b + rank n (i + 1) 0 + j = b + rank n (i + 1) j) as A1 by (pose proof (rank_j n (i + 1) 0 j) as Q; rewrite Z.add_0_l in Q; lia).
        assert (b + rank n (i + 1) 0 + j + 1 = b + rank n (i + 1) (j + 1)) as A2 by (rewrite rank_j; lia).
        assert (b + rank n (i + 1) 0 + j + (n - i + 1) = b + rank n (i + 2) (j + 1)) as A3 by (pose proof (rank_j n (i + 2) 0 (j + 1)) as Q; rewrite Z.add_0_l in Q; lia).
        assert (b + rank n (i + 1) 0 + j + (n - i + 1) - 1 = b + rank n (i + 2) j) as A4 by (pose proof (rank_j n (i + 2) 0 j) as Q; rewrite Z.add_0_l in Q; lia).
        rewrite A4, A3, A2, A1.
        destruct (isx_t2 s2 _ (b + rank n (i + 1) j) (b + rank n (i + 2) (j + 1)) (b + rank n (i + 2) j) (b + rank n (i + 1) j) (b + rank n (i + 1) (j + 1)) (b + rank n (i + 2) (j + 1)) I4) as [s3 [E5 I5]].
        { intros k [<-|[<-|[<-|[<-|[<-|[<-|[]]]]]]]; apply OK; unfold on_grid; lia. }
        exists s3. split; [exact E5|]. rewrite wt_app in I5. rewrite zrange_last, flat_map_app by lia. cbn [flat_map]. rewrite app_nil_r, app_assoc. exact I5. }
    rewrite E4. cbn [bind]. eexists. split; [reflexivity|]. cbn [fst snd]. split; [lia|].
    rewrite zrange_last, flat_map_app by lia. cbn [flat_map]. rewrite app_nil_r. unfold tri_row at 2. fold h. subst pre. rewrite <- app_assoc in I4. exact I4.
  - rewrite E2. cbn [bind fst]. exists m2. split; [reflexivity|]. exact I2.
Qed.
Lemma add_to_mesh_neg q n m : n < 0 -> qbt_add_to_mesh q m n = Ok m.
Proof. intros H. unfold qbt_add_to_mesh. rewrite for_empty by lia. cbn [bind]. rewrite for_empty by lia. reflexivity. Qed.

Lemma tri_row_len n b i : i < n -> len (tri_row n b i) = 1 + 2 * Z.max 0 (n - i - 3).
Proof. intros. unfold tri_row. rewrite len_cons, (len_flat _ 2) by reflexivity. rewrite len_zrange. lia. Qed.
Lemma patch_tris_len n b : 1 <= n -> len (patch_tris n b) = patch_count n.
Proof.
  intros Hn. assert (forall k, 0 <= k -> k <= n - 3 -> len (flat_map (tri_row n b) (zrange 0 k)) = k + 2 * k * (n - 3) - k * (k - 1)) as K.
  { intros k K0. replace k with (Z.of_nat (Z.to_nat k)) by lia. induction (Z.to_nat k) as [|j IH]; intros K1; [reflexivity|].
    replace (Z.of_nat (S j)) with (Z.of_nat j + 1) in * by lia. rewrite zrange_last, flat_map_app, len_app by lia. rewrite IH by lia. cbn [flat_map]. rewrite app_nil_r, tri_row_len by lia. lia. }
  unfold patch_count. destruct (Z.eqb_spec n 1) as [->|N1]; [reflexivity|].
  destruct (Z.eq_dec n 2) as [->|N2]; [reflexivity|]. unfold patch_tris.
  rewrite (zrange_app 0 (n - 3) n) by lia. rewrite flat_map_app, len_app, K by lia.
  rewrite (zrange_cons (n - 3)), (zrange_cons (n - 3 + 1)), (zrange_cons (n - 3 + 1 + 1)), (zrange_empty (n - 3 + 1 + 1 + 1)) by lia. cbn [flat_map]. rewrite app_nil_r, len_app, len_app; rewrite (tri_row_len n b (n - 3)), (tri_row_len n b (n - 3 + 1)), (tri_row_len n b (n - 3 + 1 + 1)) by lia. lia.
Qed.
(** Corners of the triangles are grid points; the triangle has half the area of a grid cell. *)
Lemma patch_tris_cells n b t : In t (patch_tris n b) ->
  exists i1 j1 i2 j2 i3 j3, on_grid n i1 j1 /\ on_grid n i2 j2 /\ on_grid n i3 j3 /\ t = (b + rank n i1 j1, b + rank n i2 j2, b + rank n i3 j3) /\
    (i2 - i1) * (j3 - j1) - (i3 - i1) * (j2 - j1) = -1 /\ Z.abs (i2 - i1) <= 1 /\ Z.abs (j2 - j1) <= 1 /\ Z.abs (i3 - i1) <= 1 /\ Z.abs (j3 - j1) <= 1.
Proof.
  intros H. unfold patch_tris in H. apply in_flat_map in H. destruct H as [i [Hi H]]. apply in_zrange in Hi. unfold tri_row in H. destruct H as [<-|H].
  - exists i, 0, i, 1, (i + 1), 0. unfold on_grid. repeat split; lia.
  - apply in_flat_map in H. destruct H as [j [Hj H]]. apply in_zrange in Hj. destruct H as [<-|[<-|[]]].
    + exists (i + 1), j, (i + 2), (j + 1), (i + 2), j. unfold on_grid. repeat split; lia.
    + exists (i + 1), j, (i + 1), (j + 1), (i + 2), (j + 1). unfold on_grid. repeat split; lia.
Qed.
End Gen.
