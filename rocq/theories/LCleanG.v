(** remove_empty_triangles and tessellate for numbers of any kind. *)
From Coq Require Import ZArith List Bool Lia.
From Verif Require Import Base Num MGeometry MKernel MMesh MMeshRun MUtil SMesh SReach SGeom SMeasure SUtil SMerge SClean LBase LMesh LReach LGeom LMeasure LGrid LUtil LTess LMeshFac LMeshFac2 SMeshFac.
Import ListNotations.
Open Scope Z_scope.

Section G.
Context {T : Type} {N : Num T}.
Implicit Types (m : Mesh T) (tol : T) (d : Point3 T).

Definition gretris m (l : list TriLT) : Mesh T := mkMesh (mkK (kverts (mkern m)) l) (mcolor m).
Definition gthin_out m tol d (t : TriLT) : TriLT :=
  if negb (lunl t =? -1) && at_corners (found_thin tol) (abs m) d (lv1 t, lv2 t, lv3 t) then unlinked_tri t else t.
Lemma gthin_out_wf m tol d n t : wf_tri n t -> wf_tri n (gthin_out m tol d t).
Proof. unfold gthin_out. intros W. destruct (_ && _); [apply wf_unlinked|]; exact W. Qed.
Lemma gretris_wf m tol d u v : Forall (wf_tri (nb_vertices m)) (u ++ v) -> wf (gretris m (map (gthin_out m tol d) u ++ v)).
Proof.
  intros W. apply Forall_app in W. destruct W as [W1 W2]. unfold wf, wfk. cbn [gretris mkern ktris].
  apply Forall_app. split; [|exact W2]. apply Forall_map. eapply Forall_impl; [|exact W1]. intros t Ht. apply gthin_out_wf. exact Ht.
Qed.
Lemma gunlink_ok m i t : wf m -> vget (ktris (mkern m)) i = Ok t -> unlink_triangle m i = Ok (unlinked_mesh m i t).
Proof.
  intros W E. pose proof (vget_range _ _ _ E) as H. unfold unlink_triangle.
  rewrite bind_massert_true by (apply in_range_true; exact H). rewrite (k_unlink_ok m i t W H E). reflexivity.
Qed.
Lemma gcorner m i p d : vget (kverts (mkern m)) i = Ok p -> pt (abs m) i d = p.
Proof. intros E. unfold pt. cbn [abs averts]. exact (nth_vget _ _ _ d E). Qed.

Lemma gremove_ok m tol d : wf m -> remove_empty_triangles m tol = Ok (gretris m (map (gthin_out m tol d) (ktris (mkern m)))).
Proof.
  intros W. unfold remove_empty_triangles.
  edestruct (for_inv (fun i s => s = gretris m (map (gthin_out m tol d) (firstn (Z.to_nat i) (ktris (mkern m))) ++ skipn (Z.to_nat i) (ktris (mkern m)))))
    as [s [E H]]; [| | |rewrite E, H].
  - apply vsize_nonneg.
  - cbn. destruct m as [[? ?] ?]. reflexivity.
  - intros i s Hi ->. destruct (vget_in_range (ktris (mkern m)) i Hi) as [t Et].
    pose proof (vsize_firstn (ktris (mkern m)) i ltac:(destruct Hi; split; [lia|apply Z.lt_le_incl; assumption])) as Hs.
    rewrite (skipn_vget _ _ _ Et). set (u := firstn (Z.to_nat i) (ktris (mkern m))) in *.
    set (v := skipn (Z.to_nat (i + 1)) (ktris (mkern m))).
    assert (Forall (wf_tri (nb_vertices m)) (u ++ t :: v)) as WF. { unfold u, v. rewrite <- (skipn_vget _ _ _ Et), firstn_skipn. exact W. }
    pose proof (gretris_wf m tol d u (t :: v) WF) as W'.
    set (s := gretris m (map (gthin_out m tol d) u ++ t :: v)) in *.
    assert (vget (ktris (mkern s)) i = Ok t) as Gt by (apply vget_mid; rewrite vsize_map; exact Hs).
    rewrite (is_unlinked_ok s i t Gt). cbn [bind].
    assert (gretris m (map (gthin_out m tol d) (firstn (Z.to_nat (i + 1)) (ktris (mkern m))) ++ v) = gretris m (map (gthin_out m tol d) u ++ gthin_out m tol d t :: v)) as EQ.
    { rewrite (firstn_vget _ _ _ Et). fold u. rewrite map_app, <- app_assoc. reflexivity. }
    rewrite EQ. clear EQ.
    assert (unlink_triangle s i = Ok (gretris m (map (gthin_out m tol d) u ++ unlinked_tri t :: v))) as U.
    { rewrite (gunlink_ok s i t W' Gt). f_equal. unfold unlinked_mesh, s, gretris. cbn [mkern ktris kverts mcolor]. f_equal. f_equal.
      apply list_set_mid. rewrite map_length. unfold vsize in Hs. lia. }
    unfold gthin_out at 2. destruct (lunl t =? -1) eqn:EL; cbn [negb andb]; [eexists; split; reflexivity|].
    destruct (get_triangle_ok s i t W' Gt) as (p & q & r & E1 & E2 & E3 & EG). rewrite EG. cbn [bind t1 t2 t3].
    change (kverts (mkern s)) with (kverts (mkern m)) in E1, E2, E3. cbn [at_corners]. rewrite (gcorner m _ p d E1), (gcorner m _ q d E2), (gcorner m _ r d E3).
    unfold found_thin.
    change (nltb (norm_square (psub p q)) (nmul tol tol)) with (found_near tol p q). change (nltb (norm_square (psub q r)) (nmul tol tol)) with (found_near tol q r). change (nltb (norm_square (psub r p)) (nmul tol tol)) with (found_near tol r p).
    destruct (found_near tol p q); cbn [orb]; [eexists; split; [exact U|reflexivity]|].
    destruct (found_near tol q r); cbn [orb]; [eexists; split; [exact U|reflexivity]|].
    destruct (found_near tol r p); cbn [orb]; eexists; split; try exact U; reflexivity.
  - change (nb_triangles m) with (vsize (ktris (mkern m))). rewrite firstn_vsize. unfold vsize. rewrite Nat2Z.id, skipn_all, app_nil_r. reflexivity.
Qed.

Lemma remove_any m a tol d : reach m -> shows m a ->
  exists m' a', remove_empty_triangles m tol = Ok m' /\ reach m' /\ shows m' a' /\ averts a' = averts a /\ acolor a' = acolor a /\
    Forall2 (fun t t' => fst t' = fst t /\ snd t' = snd t && negb (at_corners (found_thin tol) a d (fst t))) (atris a) (atris a').
Proof.
  intros R S. pose proof (reach_wf m R) as W. rewrite (shows_unique m a (abs m) S (shows_abs m)).
  pose proof (gremove_ok m tol d W) as E. eexists. eexists. split; [exact E|].
  split; [exact (R_remove_empty m tol _ R E)|]. split; [apply shows_abs|].
  split; [reflexivity|]. split; [reflexivity|]. cbn [abs gretris mkern ktris atris]. rewrite map_map.
  clear E. induction (ktris (mkern m)) as [|t l IH]; cbn [map]; [constructor|]. constructor; [|exact IH].
  unfold gthin_out. change (fst (abs_tri t)) with (lv1 t, lv2 t, lv3 t). change (snd (abs_tri t)) with (negb (lunl t =? -1)).
  destruct (lunl t =? -1) eqn:EL; cbn [negb andb]; [cbn [abs_tri fst snd]; rewrite EL; split; reflexivity|].
  destruct (at_corners _ _ _ _); [split; reflexivity|]. cbn [abs_tri fst snd]. rewrite EL. split; reflexivity.
Qed.

(** ** Tessellation *)
Definition gip (a b c : Point3 T) (n : Z) (uv : Z * Z) : Point3 T :=
  padd (padd a (pmul (psub b a) (dv (nofZ (fst uv)) n))) (pmul (psub c a) (dv (nofZ (snd uv)) n)).
Lemma ginterpolate a b c n u v : divides T -> 1 <= n -> interpolate a b c u v n = Ok (gip a b c n (u, v)).
Proof. intros D H. unfold interpolate. rewrite !ndiv_dv by (assumption || lia). reflexivity. Qed.
Definition gip3 (a b c : Point3 T) (n : Z) (t : uvtri) : Point3 T * Point3 T * Point3 T := let '(p, q, r) := t in (gip a b c n p, gip a b c n q, gip a b c n r).
Definition gsmall (n : Z) (f : Point3 T * Point3 T * Point3 T) : list (Point3 T * Point3 T * Point3 T) := let '(a, b, c) := f in map (gip3 a b c n) (grid n).
Definition id3 (i : nat) : triple := let k := 3 * Z.of_nat i in (k, k + 1, k + 2).
(** A mesh made of separate triangles. *)
Definition gsoup m (fs : list (Point3 T * Point3 T * Point3 T)) (c : Z) : Prop := is m (corners_of fs) (map id3 (seq 0 (length fs))) c.
Lemma len_corners {A} (fs : list (A * A * A)) : length (corners_of fs) = (3 * length fs)%nat.
Proof. induction fs as [|[[p q] r] fs IH]; [reflexivity|]. unfold corners_of in *. cbn [flat_map length app]. rewrite IH. lia. Qed.
Lemma gsoup_add m fs c p q r : gsoup m fs c -> exists m' i, add_triangle_points m p q r = Ok (m', i) /\ gsoup m' (fs ++ [(p, q, r)]) c.
Proof.
  intros [R S]. rewrite add_triangle_points_spec. eexists. eexists. split; [reflexivity|]. set (n := nb_vertices m) in *.
  assert (n = 3 * Z.of_nat (length fs)) as NE. { destruct S as [H _]. cbn [averts] in H. unfold n. rewrite H. unfold len. rewrite len_corners. lia. }
  assert (reach (push_tri (push_vert (push_vert (push_vert m p) q) r) n (n + 1) (n + 2))) as R'.
  { eapply (R_step m (OpAddTrianglePts p q r) _ (OutId (nb_triangles m)) R); [intros f [H|H]; discriminate|]. cbn [mstep]. rewrite add_triangle_points_spec. reflexivity. }
  split; [exact R'|]. pose proof (shows_abs (push_tri (push_vert (push_vert (push_vert m p) q) r) n (n + 1) (n + 2))) as S'.
  pose proof (shows_unique m _ (abs m) S (shows_abs m)) as E. rewrite abs_push_tri, !abs_push_vert, <- E in S'.
  assert (with_tris (with_verts (with_verts (with_verts (mkA (corners_of fs) (alive (map id3 (seq 0 (length fs)))) c) [p]) [q]) [r]) [(n, n + 1, n + 2)] =
          mkA (corners_of (fs ++ [(p, q, r)])) (alive (map id3 (seq 0 (length (fs ++ [(p, q, r)]))))) c) as X; [|rewrite <- X; exact S'].
  unfold with_tris, with_verts. cbn [averts atris acolor]. f_equal.
  - unfold corners_of. rewrite flat_map_app. cbn [flat_map app]. rewrite <- !app_assoc. reflexivity.
  - rewrite app_length. cbn [length]. rewrite Nat.add_1_r, seq_S, map_app, alive_app. cbn [Nat.add map]. unfold id3 at 3. rewrite <- NE. reflexivity.
Qed.
Lemma gtess_triangle a b c n m fs col : divides T -> 1 <= n -> gsoup m fs col ->
  exists m', tessellate_triangle a b c n m = Ok m' /\ gsoup m' (fs ++ map (gip3 a b c n) (grid n)) col.
Proof.
  intros D Hn S. unfold tessellate_triangle. set (ip := gip a b c n). set (ip3 := gip3 a b c n).
  apply (for_inv (fun i m' => gsoup m' (fs ++ map ip3 (grid i)) col)); [lia|cbn; rewrite app_nil_r; exact S|].
  intros s m1 Hs S1. rewrite !ginterpolate by assumption. fold ip. cbn [bind].
  destruct (gsoup_add m1 _ col (ip (s, 0)) (ip (s + 1, 0)) (ip (s, 1)) S1) as [m2 [i2 [E2 S2]]]. rewrite E2. cbn [bind fst].
  edestruct (for_inv (fun j m' => gsoup m' ((fs ++ map ip3 (grid s)) ++ map ip3 (((s, 0), (s + 1, 0), (s, 1)) :: flat_map (inner s) (zrange 0 j))) col))
    as [m3 [E3 S3]]; [| | |exists m3; split; [exact E3|]].
  - lia.
  - exact S2.
  - intros j m3 Hj S3. cbv beta. rewrite !ginterpolate by assumption. fold ip. cbn [bind].
    destruct (gsoup_add m3 _ col (ip (s - j, j)) (ip (s - j, j + 1)) (ip (s - j - 1, j + 1)) S3) as [m4 [i4 [E4 S4]]]. rewrite E4. cbn [bind fst].
    destruct (gsoup_add m4 _ col (ip (s - j - 1, j + 1)) (ip (s - j, j + 1)) (ip (s - j - 1, j + 2)) S4) as [m5 [i5 [E5 S5]]]. rewrite E5. cbn [bind fst].
    exists m5. split; [reflexivity|]. rewrite zrange_last, flat_map_app by lia.
    cbn [map flat_map] in S5 |- *. rewrite map_app. cbn [map inner app]. rewrite <- !app_assoc in S5. rewrite <- !app_assoc. cbn [app] in S5 |- *. rewrite <- ?app_assoc in S5. exact S5.
  - unfold grid in *. rewrite zrange_last, flat_map_app by lia. rewrite map_app, app_assoc. cbn [flat_map]. rewrite app_nil_r. exact S3.
Qed.
Lemma gtessellate m n mo d : divides T -> wf m -> reach mo -> 1 <= n ->
  exists m', tessellate m n mo = Ok m' /\ gsoup m' (flat_map (gsmall n) (map (at_corners (fun p q r => (p, q, r)) (abs m) d) (live (abs m)))) (get_color mo).
Proof.
  intros D W R Hn. unfold tessellate.
  edestruct (for_inv (fun i m' => gsoup m' (flat_map (gsmall n) (map (at_corners (fun p q r => (p, q, r)) (abs m) d) (live_lt (firstn (Z.to_nat i) (ktris (mkern m)))))) (get_color mo))) as [m' [E S]];
    [| | |exists m'; split; [exact E|]].
  - apply vsize_nonneg.
  - cbn. apply is_clear. exact R.
  - intros i m1 Hi S1. destruct (vget_in_range (ktris (mkern m)) i Hi) as [t Et].
    rewrite (is_unlinked_ok m i t Et). cbn [bind]. rewrite (firstn_vget _ _ _ Et), live_lt_app, map_app, flat_map_app.
    destruct (lunl t =? -1) eqn:EL.
    + exists m1. split; [reflexivity|]. unfold live_lt at 2. cbn [map abs_tri filter snd]. rewrite EL. cbn. rewrite app_nil_r. exact S1.
    + rewrite (get_triangle_vertices_ok m i t Et). cbn [bind].
      destruct (get_triangle_ok m i t W Et) as [p [q [r [E1 [E2 [E3 _]]]]]].
      rewrite (get_vertex_ok _ _ _ E1), (get_vertex_ok _ _ _ E2), (get_vertex_ok _ _ _ E3). cbn [bind].
      destruct (gtess_triangle p q r n m1 _ _ D Hn S1) as [m2 [E4 S2]]. exists m2. split; [exact E4|].
      unfold live_lt at 2. cbn [map abs_tri filter snd]. rewrite EL. cbn [negb map fst].
      change (fst (abs_tri t)) with (lv1 t, lv2 t, lv3 t). cbn [at_corners]. rewrite (gcorner m _ p d E1), (gcorner m _ q d E2), (gcorner m _ r d E3).
      cbn [flat_map gsmall]. rewrite app_nil_r. exact S2.
  - change (nb_triangles m) with (vsize (ktris (mkern m))) in S. rewrite firstn_vsize in S. exact S.
Qed.
End G.
