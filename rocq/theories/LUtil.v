(** remove_empty_triangles. *)
From Coq Require Import ZArith List Bool Lia Reals Lra Permutation.
From Verif Require Import Base Num MGeometry MKernel MMesh MMeshRun MUtil SMesh SReach SGeom SMeasure SUtil LBase LMesh LReach LGeom LMeasure.
Import ListNotations.
Open Scope Z_scope.

(** ** Rewriting the triangle list of a mesh in place *)
Definition retris (m : Mesh R) (l : list TriLT) : Mesh R := mkMesh (mkK (kverts (mkern m)) l) (mcolor m).

Lemma vget_mid {A} (u v : list A) x i : vsize u = i -> vget (u ++ x :: v) i = Ok x.
Proof. intros <-. rewrite vget_app_r by lia. rewrite Z.sub_diag. reflexivity. Qed.

Lemma skipn_vget {A} (l : list A) i x : vget l i = Ok x -> skipn (Z.to_nat i) l = x :: skipn (Z.to_nat (i + 1)) l.
Proof.
  intros E. apply vget_Ok in E. destruct E as [H E]. replace (Z.to_nat (i + 1)) with (S (Z.to_nat i)) by lia.
  revert E. generalize (Z.to_nat i). induction l as [|y l IH]; intros [|n] E; cbn in *; try congruence. apply IH. exact E.
Qed.

Lemma vsize_firstn {A} (l : list A) i : 0 <= i <= vsize l -> vsize (firstn (Z.to_nat i) l) = i.
Proof. unfold vsize. intros H. rewrite firstn_length. lia. Qed.

Lemma norm_square_short tol p q : nltb (norm_square (psub p q)) (nmul tol tol) = true <-> short tol p q.
Proof.
  change (Rltb (dot3 (sub3 p q) (sub3 p q)) (tol * tol)%R = true <-> short tol p q).
  rewrite Rltb_lt. unfold short, dist3.
  rewrite <- len3_sq. pose proof (len3_nonneg (sub3 p q)). pose proof (Rabs_pos tol).
  replace (tol * tol)%R with (Rabs tol * Rabs tol)%R by (unfold Rabs; destruct (Rcase_abs tol); ring).
  split; intros; nra.
Qed.

Definition thinb (tol : R) (f : pt3 * pt3 * pt3) : bool :=
  let '(p, q, r) := f in
  nltb (norm_square (psub p q)) (nmul tol tol) || nltb (norm_square (psub q r)) (nmul tol tol) ||
  nltb (norm_square (psub r p)) (nmul tol tol).

Lemma thinb_ok tol f : thinb tol f = true <-> thin tol f.
Proof.
  destruct f as [[p q] r]. cbn [thin thinb]. rewrite !orb_true_iff, !norm_square_short. tauto.
Qed.

Definition thin_out (m : Mesh R) (tol : R) (t : TriLT) : TriLT :=
  if negb (lunl t =? -1) && thinb tol (corners (abs m) (lv1 t, lv2 t, lv3 t)) then unlinked_tri t else t.

Lemma thin_out_wf m tol n t : wf_tri n t -> wf_tri n (thin_out m tol t).
Proof. unfold thin_out. intros W. destruct (_ && _); [apply wf_unlinked|]; exact W. Qed.

Lemma retris_thin_wf m tol u v : Forall (wf_tri (nb_vertices m)) (u ++ v) ->
  wf (retris m (map (thin_out m tol) u ++ v)).
Proof.
  intros W. apply Forall_app in W. destruct W as [W1 W2]. unfold wf, wfk. cbn [retris mkern ktris].
  apply Forall_app. split; [|exact W2]. apply Forall_map. eapply Forall_impl; [|exact W1].
  intros t Ht. apply thin_out_wf. exact Ht.
Qed.

Lemma unlink_ok (m : Mesh R) i t : wf m -> vget (ktris (mkern m)) i = Ok t -> unlink_triangle m i = Ok (unlinked_mesh m i t).
Proof.
  intros W E. pose proof (vget_range _ _ _ E) as H. unfold unlink_triangle.
  rewrite bind_massert_true by (apply in_range_true; exact H). rewrite (k_unlink_ok m i t W H E). reflexivity.
Qed.

Lemma remove_empty_ok m tol : wf m ->
  remove_empty_triangles m tol = Ok (retris m (map (thin_out m tol) (ktris (mkern m)))).
Proof.
  intros W. unfold remove_empty_triangles.
  edestruct (for_inv (fun i s => s = retris m (map (thin_out m tol) (firstn (Z.to_nat i) (ktris (mkern m))) ++ skipn (Z.to_nat i) (ktris (mkern m)))))
    as [s [E H]]; [| | |rewrite E, H].
  - apply vsize_nonneg.
  - cbn. destruct m as [[? ?] ?]. reflexivity.
  - intros i s Hi ->. destruct (vget_in_range (ktris (mkern m)) i Hi) as [t Et].
    pose proof (vsize_firstn (ktris (mkern m)) i ltac:(destruct Hi; split; [lia|apply Z.lt_le_incl; assumption])) as Hs.
    rewrite (skipn_vget _ _ _ Et). set (u := firstn (Z.to_nat i) (ktris (mkern m))) in *.
    set (v := skipn (Z.to_nat (i + 1)) (ktris (mkern m))).
    assert (Forall (wf_tri (nb_vertices m)) (u ++ t :: v)) as WF.
    { unfold u, v. rewrite <- (skipn_vget _ _ _ Et), firstn_skipn. exact W. }
    pose proof (retris_thin_wf m tol u (t :: v) WF) as W'.
    set (s := retris m (map (thin_out m tol) u ++ t :: v)) in *.
    assert (vget (ktris (mkern s)) i = Ok t) as Gt by (apply vget_mid; rewrite vsize_map; exact Hs).
    rewrite (is_unlinked_ok s i t Gt). cbn [bind].
    assert (retris m (map (thin_out m tol) (firstn (Z.to_nat (i + 1)) (ktris (mkern m))) ++ v) =
            retris m (map (thin_out m tol) u ++ thin_out m tol t :: v)) as EQ.
    { rewrite (firstn_vget _ _ _ Et). fold u. rewrite map_app, <- app_assoc. reflexivity. }
    rewrite EQ. clear EQ.
    assert (unlink_triangle s i = Ok (retris m (map (thin_out m tol) u ++ unlinked_tri t :: v))) as U.
    { rewrite (unlink_ok s i t W' Gt). f_equal. unfold unlinked_mesh, s, retris. cbn [mkern ktris kverts mcolor]. f_equal. f_equal.
      apply list_set_mid. rewrite map_length. unfold vsize in Hs. lia. }
    unfold thin_out at 2. destruct (lunl t =? -1) eqn:EL; cbn [negb andb]; [eexists; split; reflexivity|].
    rewrite (get_triangle_corners s i t W' Gt). cbn [bind].
    change (abs s) with (mkA (averts (abs m)) (map abs_tri (ktris (mkern s))) (mcolor m)).
    change (corners (mkA _ _ _)) with (corners (abs m)).
    destruct (corners (abs m) (lv1 t, lv2 t, lv3 t)) as [[p q] r]. cbn [tri3 t1 t2 t3 thinb].
    destruct (nltb (norm_square (psub p q)) _); cbn [orb]; [eexists; split; [exact U|reflexivity]|].
    destruct (nltb (norm_square (psub q r)) _); cbn [orb]; [eexists; split; [exact U|reflexivity]|].
    destruct (nltb (norm_square (psub r p)) _); cbn [orb]; eexists; split; try exact U; reflexivity.
  - change (nb_triangles m) with (vsize (ktris (mkern m))). rewrite firstn_vsize. unfold vsize. rewrite Nat2Z.id, skipn_all, app_nil_r. reflexivity.
Qed.

Lemma abs_tri_thin_out m tol t : fst (abs_tri (thin_out m tol t)) = fst (abs_tri t) /\
  (snd (abs_tri (thin_out m tol t)) = true <-> snd (abs_tri t) = true /\ ~ thin tol (corners (abs m) (fst (abs_tri t)))).
Proof.
  unfold thin_out. rewrite <- (thinb_ok tol). cbn [abs_tri fst snd].
  destruct (lunl t =? -1) eqn:E; cbn [negb andb].
  - split; [reflexivity|]. cbn [abs_tri snd]. rewrite E. cbn. intuition congruence.
  - destruct (thinb _ _) eqn:F; cbn [abs_tri snd fst unlinked_tri lunl lv1 lv2 lv3]; (split; [reflexivity|]).
    + cbn. intuition congruence.
    + rewrite E. cbn. intuition congruence.
Qed.

Lemma remove_empty_exact (m : Mesh R) a tol : reach m -> shows m a ->
  exists m' a', remove_empty_triangles m tol = Ok m' /\ reach m' /\ shows m' a' /\
    averts a' = averts a /\ acolor a' = acolor a /\
    Forall2 (fun t t' => fst t' = fst t /\ (snd t' = true <-> snd t = true /\ ~ thin tol (corners a (fst t)))) (atris a) (atris a').
Proof.
  intros R S. pose proof (reach_wf m R) as W. rewrite (shows_unique m a (abs m) S (shows_abs m)).
  pose proof (remove_empty_ok m tol W) as E. eexists. eexists. split; [exact E|].
  split; [exact (R_remove_empty m tol _ R E)|]. split; [apply shows_abs|].
  split; [reflexivity|]. split; [reflexivity|]. cbn [abs retris mkern ktris atris]. rewrite map_map.
  clear E. induction (ktris (mkern m)) as [|t l IH]; cbn [map]; [constructor|]. constructor; [|exact IH].
  destruct (abs_tri_thin_out m tol t) as [H1 H2]. split; [exact H1|exact H2].
Qed.
