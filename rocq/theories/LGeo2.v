(** Merging the vertices of a mesh whose vertices either coincide or lie apart. *)
From Coq Require Import ZArith List Bool Lia Reals Lra Psatz Permutation Sorted.
From Verif Require Import Base Num MGeometry MKernel MMesh MMeshRun MMeasure MUtil SMesh SReach SGeom SMeasure SUtil LBase LMesh LReach LGeom LMeasure LMeasure2 LUtil LMerge LMeshFac LTess LGeo1.
Import ListNotations.
Open Scope Z_scope.

Definition p_dec (p q : pt3) : {p = q} + {p <> q}.
Proof. decide equality; apply Req_EM_T. Defined.
Fixpoint pidx (l : list pt3) (p : pt3) : Z := match l with [] => 0 | q :: l => if p_dec p q then 0 else 1 + pidx l p end.
Lemma pidx_nth l : NoDup l -> forall i d, (i < length l)%nat -> pidx l (nth i l d) = Z.of_nat i.
Proof.
  induction 1 as [|p l NI ND IH]; intros i d Hi; [cbn in Hi; lia|]. destruct i as [|i]; cbn [nth pidx].
  - destruct (p_dec p p); [reflexivity|congruence].
  - cbn [length] in Hi. destruct (p_dec (nth i l d) p) as [E|_]; [exfalso; apply NI; rewrite <- E; apply nth_In; lia|]. rewrite IH by lia. lia.
Qed.
Definition in_range (a : AMesh R) : Prop := forall x y z, In (x, y, z) (live a) -> 0 <= x < len (averts a) /\ 0 <= y < len (averts a) /\ 0 <= z < len (averts a).
Lemma closed_by_index a : in_range a -> NoDup (averts a) -> closed_surface (faces a) -> index_closed (live a).
Proof.
  intros RG ND C. apply closed_of_sums. intros phi A.
  set (Phi := fun p q => phi (pidx (averts a) p) (pidx (averts a) q)). rewrite <- (closed_psum _ C Phi) by (intros p q; apply A).
  assert (forall i, 0 <= i < len (averts a) -> pidx (averts a) (pt a i O3) = i) as PI. { intros i Hi. unfold pt. unfold len in Hi. rewrite pidx_nth by (try assumption; lia). lia. }
  unfold faces. unfold in_range in RG. induction (live a) as [|[[x y] z] ts IH]; [reflexivity|]. rewrite tris_sum_cons, IH by (intros; apply RG; right; assumption).
  cbn [map psum fold_right psum1 corners tri_sum]. fold (psum Phi (map (corners a) ts)). destruct (RG x y z (or_introl eq_refl)) as [X [Y Z0]]. unfold Phi. rewrite !PI by assumption. reflexivity.
Qed.

Lemma shows_in_range m a : reach m -> shows m a -> in_range a.
Proof.
  intros R S x y z H. pose proof (reach_closed m a R S) as C. unfold live in H. apply in_map_iff in H. destruct H as [[t b] [E H]]. apply filter_In in H. destruct H as [H _]. cbn in E. subst t.
  exact (C x y z b H).
Qed.

Lemma merge_welds (m : Mesh R) a tol : reach m -> shows m a -> tol <> 0%R ->
  (forall p q, In p (averts a) -> In q (averts a) -> p = q \/ ~ short tol p q) ->
  exists m' a', merge_vertices m tol = Ok m' /\ reach m' /\ shows m' a' /\
    NoDup (averts a') /\ (forall p, In p (averts a') <-> In p (averts a)) /\ faces a' = faces a /\
    (closed_surface (faces a) -> index_closed (live a')).
Proof.
  intros R S T0 SEP. destruct (merge_exact m a tol R S) as [m' [ks [f [E [R' [S' [SO [KS [FAR F]]]]]]]]].
  set (a' := mkA (map (fun k => pt a k O3) ks) (map (fun t => (map_triple f t, true)) (live a)) (acolor a)) in *.
  exists m', a'. split; [exact E|]. split; [exact R'|]. split; [exact S'|].
  assert (forall i, 0 <= i < len (averts a) -> In (pt a i O3) (averts a)) as IN by (intros i Hi; unfold pt; apply nth_In; unfold len in Hi; lia).
  assert (forall p, short tol p p) as SH. { intros p. unfold short, dist3, len3, sub3, dot3. cbn [px py pz]. rewrite !Rminus_diag_eq by reflexivity. rewrite !Rmult_0_l, !Rplus_0_l, sqrt_0. apply Rabs_pos_lt. exact T0. }
  assert (NoDup (averts a')) as ND.
  { cbn [averts a']. clear - SO FAR SH. pose proof (strongly_sorted_lt_nth ks SO) as ND. clear SO. induction ND as [|k ks NI ND IH]; cbn [map]; constructor.
    - intros H. apply in_map_iff in H. destruct H as [j [Ej Hj]]. apply (FAR j k); [right; exact Hj|left; reflexivity|intros ->; contradiction|]. rewrite Ej. apply SH.
    - apply IH. intros i j Hi Hj. apply FAR; right; assumption. }
  assert (forall i, 0 <= i < len (averts a) -> pt a' (f i) O3 = pt a i O3) as PF.
  { intros i Hi. destruct (F i Hi) as [k [F0 [FK FD]]]. unfold pt at 1. cbn [averts a']. rewrite (nth_error_nth (map (fun k => pt a k O3) ks) (Z.to_nat (f i)) O3 (x := pt a k O3)) by (rewrite nth_error_map, FK; reflexivity).
    destruct FD as [->|[KI SHK]]; [reflexivity|]. pose proof (KS k (nth_error_In _ _ FK)) as HK. destruct (SEP (pt a i O3) (pt a k O3) (IN i Hi) (IN k HK)) as [EQ|NS]; [symmetry; exact EQ|contradiction]. }
  pose proof (shows_in_range m a R S) as RG.
  assert (live a' = map (map_triple f) (live a)) as LV.
  { unfold live at 1. cbn [atris a']. generalize (live a). clear. intros l. induction l as [|t ts IH]; [reflexivity|]. cbn [map filter snd fst]. f_equal. exact IH. }
  assert (faces a' = faces a) as FA.
  { unfold faces. rewrite LV, map_map. apply map_ext_in. intros [[x y] z] H. destruct (RG x y z H) as [X [Y Z0]]. cbn [map_triple corners]. rewrite !PF by assumption. reflexivity. }
  split; [exact ND|]. split; [|split; [exact FA|]].
  - intros p. cbn [averts a']. rewrite in_map_iff. split.
    + intros [k [<- Hk]]. apply IN, KS, Hk.
    + intros H. apply (In_nth _ _ O3) in H. destruct H as [i [Hi <-]]. assert (0 <= Z.of_nat i < len (averts a)) as Hi' by (unfold len; lia). destruct (F _ Hi') as [k [F0 [FK FD]]]. exists k. split; [|exact (nth_error_In _ _ FK)].
      replace (nth i (averts a) O3) with (pt a (Z.of_nat i) O3) by (unfold pt; rewrite Nat2Z.id; reflexivity). rewrite <- (PF _ Hi'). unfold pt at 2. cbn [averts a']. symmetry. apply nth_error_nth. rewrite nth_error_map, FK. reflexivity.
  - intros C. apply closed_by_index; [exact (shows_in_range m' a' R' S')|exact ND|rewrite FA; exact C].
Qed.
