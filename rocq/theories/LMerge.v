(** merge_vertices. *)
From Coq Require Import ZArith List Bool Lia Reals Lra Sorted.
From Verif Require Import Base Num MGeometry MKernel MMesh MMeshRun MUtil SMesh SReach SGeom SMeasure SUtil LBase LMesh LReach LGeom LMeasure LGrid LUtil.
Import ListNotations.
Open Scope Z_scope.

Section Merge.
Variable m : Mesh R.
Variable tol : R.
Hypothesis W : wf m.
Let n := nb_vertices m.
Let v (k : Z) : pt3 := pt (abs m) k O3.

Lemma vert_ok k : 0 <= k < n -> get_vertex m k = Ok (v k).
Proof.
  intros H. destruct (vget_in_range (kverts (mkern m)) k H) as [p E].
  rewrite (get_vertex_ok m k p E). unfold v, pt. cbn [abs averts]. rewrite (nth_vget _ _ _ O3 E). reflexivity.
Qed.

Definition near (i j : Z) : bool := nltb (distance_square (v i) (v j)) (nmul tol tol).
Lemma near_ok i j : near i j = true <-> short tol (v i) (v j).
Proof. exact (norm_square_short tol (v i) (v j)). Qed.

(** [al] is right for all ids below [i] *)
Definition alias_at (al : list Z) (k : Z) : Prop :=
  (vget al k = Ok (-1) /\ forall j, 0 <= j < k -> vget al j = Ok (-1) -> near k j = false) \/
  (exists j, vget al k = Ok j /\ 0 <= j < k /\ vget al j = Ok (-1) /\ near k j = true).
Definition alias_inv (i : Z) (al : list Z) : Prop :=
  vsize al = n /\ (forall k, 0 <= k < i -> alias_at al k) /\ (forall k, i <= k < n -> vget al k = Ok (-1)).

Lemma alias_at_ext al al' k : (forall j, j <= k -> vget al' j = vget al j) -> alias_at al k -> alias_at al' k.
Proof.
  intros H [[A B]|[j [A [B [C D]]]]].
  - left. split; [rewrite H by lia; exact A|]. intros j Hj. rewrite H by lia. apply B. exact Hj.
  - right. exists j. rewrite !H by lia. auto.
Qed.

Lemma alias_inv_dom i al k : alias_inv i al -> 0 <= k < i -> i <= n ->
  exists j, vget al k = Ok j /\ (j = -1 \/ 0 <= j < k).
Proof.
  intros [_ [H _]] Hk _. destruct (H k Hk) as [[A _]|[j [A [B _]]]]; eexists; split; try exact A; [left; reflexivity|right; lia].
Qed.

Lemma merge_alias_ok : exists al, merge_alias m (nmul tol tol) = Ok al /\ alias_inv n al.
Proof.
  unfold merge_alias. fold n. apply for_inv.
  - apply vsize_nonneg.
  - assert (vsize (repeat (-1) (Z.to_nat n)) = n) as S by (rewrite vsize_repeat; pose proof (vsize_nonneg (kverts (mkern m))); change (vsize (kverts (mkern m))) with n in *; lia).
    split; [exact S|]. split; [lia|]. intros k Hk.
    destruct (vget_in_range (repeat (-1) (Z.to_nat n)) k ltac:(lia)) as [x E]. rewrite E. f_equal.
    apply vget_In in E. apply repeat_spec in E. exact E.
  - intros i al Hi I. rewrite vert_ok by exact Hi. cbn [bind].
    edestruct (for_inv (fun j al' => vsize al' = n /\ (forall k, k <> i -> vget al' k = vget al k) /\
      ((vget al' i = Ok (-1) /\ forall j', 0 <= j' < j -> vget al j' = Ok (-1) -> near i j' = false) \/
       (exists j', vget al' i = Ok j' /\ 0 <= j' < i /\ vget al j' = Ok (-1) /\ near i j' = true)))) as [al' [E [S [O C]]]];
      [| | |exists al'; split; [exact E|]].
    + lia.
    + destruct I as [S [_ Z0]]. split; [exact S|]. split; [reflexivity|]. left. split; [apply Z0; lia|lia].
    + intros j al' Hj [S [O C]]. rewrite O by lia.
      destruct (alias_inv_dom i al j I Hj ltac:(lia)) as [aj [Ej Hd]]. rewrite Ej. cbn [bind].
      destruct (Z.leb_spec 0 aj).
      * exists al'. split; [reflexivity|]. split; [exact S|]. split; [exact O|].
        destruct C as [[C1 C2]|C]; [left; split; [exact C1|]|right; exact C].
        intros j' Hj' Ej'. destruct (Z.eq_dec j' j) as [->|]; [|apply C2; [lia|exact Ej']].
        rewrite Ej in Ej'. injection Ej' as ->. lia.
      * rewrite vert_ok by lia. cbn [bind]. assert (aj = -1) as -> by lia.
        change (nltb (distance_square (v i) (v j)) (nmul tol tol)) with (near i j).
        destruct (near i j) eqn:EN.
        -- rewrite vset_in_range by lia. eexists. split; [reflexivity|].
           pose proof (vset_in_range al' i j ltac:(lia)) as V.
           split; [rewrite (vset_size _ _ _ _ V); exact S|]. split.
           ++ intros k Hk. rewrite (vget_vset _ _ _ _ k V). replace (k =? i) with false by lia. apply O. exact Hk.
           ++ right. exists j. rewrite (vget_vset _ _ _ _ i V), Z.eqb_refl. repeat split; try lia; try assumption.
        -- exists al'. split; [reflexivity|]. split; [exact S|]. split; [exact O|].
           destruct C as [[C1 C2]|C]; [left; split; [exact C1|]|right; exact C].
           intros j' Hj' Ej'. destruct (Z.eq_dec j' j) as [->|]; [exact EN|apply C2; [lia|exact Ej']].
    + split; [exact S|]. destruct I as [S' [I Z0]]. split.
      * intros k Hk. destruct (Z.eq_dec k i) as [->|].
        -- destruct C as [[C1 C2]|[j' [C1 [C2 [C3 C4]]]]].
           ++ left. split; [exact C1|]. intros j Hj. rewrite O by lia. apply C2. exact Hj.
           ++ right. exists j'. rewrite (O j') by lia. auto.
        -- apply alias_at_ext with (al := al); [intros; apply O; lia|]. apply I. lia.
      * intros k Hk. rewrite O by lia. apply Z0. lia.
Qed.

(** The alias function and the kept ids. *)
Section Kept.
Variable al : list Z.
Hypothesis AI : alias_inv n al.
Definition g (k : Z) : Z := nth (Z.to_nat k) al 0.
Definition kept (i : Z) : list Z := filter (fun k => g k =? -1) (zrange 0 i).
Definition rep (k : Z) : Z := if g k =? -1 then k else g k.
Definition rank (k : Z) : Z := vsize (kept k).
Definition ff (k : Z) : Z := rank (rep k).

Lemma g_ok k : 0 <= k < n -> vget al k = Ok (g k).
Proof.
  intros H. destruct AI as [S _]. destruct (vget_in_range al k ltac:(lia)) as [x E]. rewrite E. f_equal.
  unfold g. rewrite (nth_vget _ _ _ 0 E). reflexivity.
Qed.

Lemma g_cases k : 0 <= k < n -> g k = -1 /\ (forall j, 0 <= j < k -> g j = -1 -> near k j = false) \/
  0 <= g k < k /\ g (g k) = -1 /\ near k (g k) = true.
Proof.
  intros H. destruct AI as [_ [I _]]. pose proof (g_ok k H) as G.
  destruct (I k H) as [[A B]|[j [A [B [C D]]]]]; rewrite G in A; injection A as A.
  - left. split; [exact A|]. intros j Hj E. apply B; [exact Hj|]. rewrite g_ok by lia. f_equal. exact E.
  - right. rewrite A. split; [exact B|]. split; [|exact D]. rewrite (g_ok j ltac:(lia)) in C. congruence.
Qed.

Lemma rep_kept k : 0 <= k < n -> 0 <= rep k <= k /\ g (rep k) = -1 /\ (rep k = k \/ rep k < k /\ near k (rep k) = true).
Proof.
  intros H. unfold rep. destruct (Z.eqb_spec (g k) (-1)) as [E|E]; [split; [lia|split; [exact E|left; reflexivity]]|].
  destruct (g_cases k H) as [[E' _]|[A [B C]]]; [contradiction|]. split; [lia|]. split; [exact B|right; split; [lia|exact C]].
Qed.

Lemma kept_app i : 0 <= i -> kept (i + 1) = kept i ++ (if g i =? -1 then [i] else []).
Proof. intros H. unfold kept. rewrite zrange_last, filter_app by lia. cbn. destruct (g i =? -1); reflexivity. Qed.

Lemma kept_get k i : 0 <= k < i -> g k = -1 -> vget (kept i) (rank k) = Ok k.
Proof.
  intros H G. unfold kept. rewrite (zrange_app 0 k i), filter_app by lia. rewrite (zrange_cons k i) by lia. cbn [filter].
  rewrite G. cbn [Z.eqb Pos.eqb]. apply vget_mid. reflexivity.
Qed.

Lemma rank_lt k i : 0 <= k < i -> g k = -1 -> 0 <= rank k < vsize (kept i).
Proof. intros H G. exact (vget_range _ _ _ (kept_get k i H G)). Qed.

Lemma kept_sorted i : StronglySorted Z.lt (kept i).
Proof.
  unfold kept. assert (forall a b, StronglySorted Z.lt (zrange a b)) as H.
  { intros a b. unfold zrange. generalize (Z.to_nat (b - a)) as q, 0%nat as s.
    induction q as [|q IHq]; intros s; cbn; constructor; [apply IHq|].
    apply Forall_forall. intros x Hx. apply in_map_iff in Hx. destruct Hx as [y [<- Hy]]. apply in_seq in Hy. lia. }
  induction (H 0 i); cbn; [constructor|]. destruct (g a =? -1); [|assumption]. constructor; [assumption|].
  apply Forall_forall. intros x Hx. apply filter_In in Hx. eapply Forall_forall in H0; [exact H0|apply Hx].
Qed.

Lemma in_kept i k : In k (kept i) <-> 0 <= k < i /\ g k = -1.
Proof. unfold kept. rewrite filter_In, in_zrange, Z.eqb_eq. reflexivity. Qed.

Definition new_verts (i : Z) : list pt3 := map v (kept i).

Lemma merge_readd_ok (mo : Mesh R) m0 : kverts (mkern mo) = kverts (mkern m) -> nb_vertices m0 = 0 ->
  exists al', merge_readd mo al m0 = Ok (al', push_verts m0 (new_verts n)) /\
    (forall k, 0 <= k < n -> vget al' k = Ok (ff k)).
Proof.
  intros EV E0. unfold merge_readd. assert (vsize al = n) as S by apply AI.
  edestruct (for_inv (fun i s => snd s = push_verts m0 (new_verts i) /\ vsize (fst s) = n /\
      (forall k, 0 <= k < i -> vget (fst s) k = Ok (ff k)) /\ (forall k, i <= k < n -> vget (fst s) k = vget al k)))
    as [[al' m'] [E [H1 [H2 [H3 H4]]]]]; [| | |exists al'; cbn [fst snd] in *; split; [rewrite E; f_equal; f_equal; rewrite S in H1; exact H1|intros; apply H3; lia]].
  - apply vsize_nonneg.
  - cbn [fst snd]. unfold new_verts, kept. cbn. rewrite push_verts_nil. repeat split; try assumption; try lia; reflexivity.
  - intros i [al' m'] Hi [H1 [H2 [H3 H4]]]. cbn [fst snd] in *. rewrite S in Hi.
    rewrite H4 by lia. rewrite (g_ok i Hi). cbn [bind].
    assert (forall x, 0 <= x -> vset al' i x = Ok (list_set al' (Z.to_nat i) x)) as VS by (intros; apply vset_in_range; lia).
    assert (forall x al2, vset al' i x = Ok al2 -> x = ff i ->
      vsize al2 = n /\ (forall k, 0 <= k < i + 1 -> vget al2 k = Ok (ff k)) /\ (forall k, i + 1 <= k < n -> vget al2 k = vget al k)) as NX.
    { intros x al2 V ->. split; [rewrite (vset_size _ _ _ _ V); exact H2|]. split; intros k Hk; rewrite (vget_vset _ _ _ _ k V).
      - destruct (Z.eqb_spec k i) as [->|]; [reflexivity|apply H3; lia].
      - replace (k =? i) with false by lia. apply H4. lia. }
    destruct (Z.eqb_spec (g i) (-1)) as [G|G].
    + assert (get_vertex mo i = Ok (v i)) as ->.
      { rewrite <- (vert_ok i Hi), !get_vertex_spec. unfold nb_vertices, k_nbv. rewrite EV. reflexivity. }
      cbn [bind]. rewrite add_vertex_spec. cbn iota.
      assert (nb_vertices m' = rank i) as NV.
      { rewrite H1, nbv_push_verts, E0. unfold new_verts. rewrite vsize_map. unfold rank. lia. }
      assert (ff i = rank i) as FI by (unfold ff, rep; rewrite G; reflexivity).
      rewrite NV. rewrite (VS (rank i)) by apply vsize_nonneg. cbn [bind]. eexists. split; [reflexivity|]. cbn [fst snd]. split.
      * rewrite H1, push_vert_verts, push_verts_app. f_equal. unfold new_verts. rewrite kept_app, map_app, G by lia. reflexivity.
      * apply (NX (rank i)); [apply VS, vsize_nonneg|symmetry; exact FI].
    + destruct (g_cases i Hi) as [[G' _]|[A [B C]]]; [contradiction|].
      rewrite H3 by lia. cbn [bind].
      assert (ff (g i) = ff i) as FI.
      { unfold ff. f_equal. unfold rep. rewrite B. cbn [Z.eqb Pos.eqb]. destruct (Z.eqb_spec (g i) (-1)); [contradiction|reflexivity]. }
      rewrite (VS (ff (g i))) by apply vsize_nonneg. cbn [bind]. eexists. split; [reflexivity|]. cbn [fst snd]. split.
      * rewrite H1. f_equal. unfold new_verts. rewrite kept_app by lia. destruct (Z.eqb_spec (g i) (-1)); [contradiction|]. rewrite app_nil_r. reflexivity.
      * apply (NX (ff (g i))); [apply VS, vsize_nonneg|exact FI].
Qed.

Lemma ff_range k : 0 <= k < n -> 0 <= ff k < vsize (kept n).
Proof. intros H. destruct (rep_kept k H) as [A [B _]]. apply rank_lt; [lia|exact B]. Qed.

Lemma merge_triangles_ok al' m0 : (forall k, 0 <= k < n -> vget al' k = Ok (ff k)) -> nb_vertices m0 = vsize (kept n) ->
  merge_triangles (copied m) al' m0 = Ok (push_tris m0 (map (map_triple ff) (live (abs m)))).
Proof.
  intros HA HN. unfold merge_triangles.
  assert (ktris (mkern (copied m)) = map (fun t => let '(a, b, c) := t in lt_new a b c) (live (abs m))) as KT.
  { unfold copied, appended. cbn. f_equal. change (nb_vertices mesh_new) with 0. apply map_shift0. }
  edestruct (for_inv (fun i s => s = push_tris m0 (map (map_triple ff) (firstn (Z.to_nat i) (live (abs m)))))) as [s [E H]]; [| | |rewrite E, H].
  - apply vsize_nonneg.
  - cbn. rewrite push_tris_nil. reflexivity.
  - intros i s Hi ->.
    assert (nb_triangles (copied m) = vsize (live (abs m))) as NT by (unfold nb_triangles, k_nbt; rewrite KT, vsize_map; reflexivity).
    destruct (vget_in_range (live (abs m)) i ltac:(lia)) as [[[x y] z] Et].
    assert (vget (ktris (mkern (copied m))) i = Ok (lt_new x y z)) as Gt by
      (pose proof (vget_map (fun t : triple => let '(a, b, c) := t in lt_new a b c) (live (abs m)) i) as VM; rewrite Et in VM; rewrite KT; exact VM).
    rewrite (is_unlinked_ok _ _ _ Gt), (get_triangle_vertices_ok _ _ _ Gt). cbn [lt_new lunl lv1 lv2 lv3 bind Z.eqb].
    destruct (live_in m x y z W (vget_In _ _ _ Et)) as [Hx [Hy Hz]].
    rewrite !HA by assumption. cbn [bind].
    pose proof (ff_range x Hx). pose proof (ff_range y Hy). pose proof (ff_range z Hz).
    set (s := push_tris m0 (map (map_triple ff) (firstn (Z.to_nat i) (live (abs m))))).
    assert (nb_vertices s = vsize (kept n)) as NS by exact HN.
    rewrite !bind_massert_true by lia. rewrite tadd by lia. cbn [bind fst]. eexists. split; [reflexivity|].
    unfold s. rewrite push_tri_tris, push_tris_app. f_equal. rewrite (firstn_vget _ _ _ Et), map_app. reflexivity.
  - assert (nb_triangles (copied m) = vsize (live (abs m))) as -> by (unfold nb_triangles, k_nbt; rewrite KT, vsize_map; reflexivity).
    rewrite firstn_vsize. reflexivity.
Qed.
End Kept.

Lemma merge_ok : exists al, alias_inv n al /\
  merge_vertices m tol = Ok (push_tris (push_verts (clear m) (new_verts al n)) (map (map_triple (ff al)) (live (abs m)))).
Proof.
  destruct merge_alias_ok as [al [EA AI]]. exists al. split; [exact AI|].
  unfold merge_vertices. rewrite EA. cbn [bind]. unfold copy_mesh. rewrite assign_mesh_spec by exact W. cbn [bind].
  destruct (merge_readd_ok al AI (copied m) (clear m) eq_refl eq_refl) as [al' [ER HA]]. rewrite ER. cbn [bind fst snd].
  apply (merge_triangles_ok al AI al' _ HA). rewrite nbv_push_verts. unfold new_verts. rewrite vsize_map. reflexivity.
Qed.
End Merge.

Lemma strongly_sorted_lt_nth (l : list Z) : StronglySorted Z.lt l -> NoDup l.
Proof.
  induction 1; constructor; [|assumption]. intros Hin. eapply Forall_forall in H0; [|exact Hin]. lia.
Qed.

Lemma short_sym tol p q : short tol p q -> short tol q p.
Proof. unfold short. rewrite dist3_sym. auto. Qed.

Lemma merge_exact (m : Mesh R) a tol : reach m -> shows m a ->
  exists m' ks f, merge_vertices m tol = Ok m' /\ reach m' /\
    shows m' (mkA (map (fun k => pt a k O3) ks) (map (fun t => (map_triple f t, true)) (live a)) (acolor a)) /\
    StronglySorted Z.lt ks /\ (forall k, In k ks -> 0 <= k < len (averts a)) /\
    (forall i j, In i ks -> In j ks -> i <> j -> ~ short tol (pt a i O3) (pt a j O3)) /\
    (forall i, 0 <= i < len (averts a) -> exists k, 0 <= f i /\ nth_error ks (Z.to_nat (f i)) = Some k /\
        (k = i \/ k < i /\ short tol (pt a i O3) (pt a k O3))).
Proof.
  intros R S. pose proof (reach_wf m R) as W. rewrite (shows_unique m a (abs m) S (shows_abs m)).
  destruct (merge_ok m tol W) as [al [AI E]].
  eexists. exists (kept al (nb_vertices m)), (ff al). split; [exact E|]. split; [exact (R_merge m tol _ R E)|]. split.
  { match goal with |- shows ?x ?y => assert (abs x = y) as <-; [|apply shows_abs] end.
    rewrite abs_push_tris. unfold with_tris. cbn. f_equal. rewrite map_map. reflexivity. }
  split; [exact (kept_sorted m al _)|]. split; [intros k Hk; apply in_kept in Hk; apply Hk|].
  assert (forall i j, In i (kept al (nb_vertices m)) -> In j (kept al (nb_vertices m)) -> j < i -> ~ short tol (pt (abs m) i O3) (pt (abs m) j O3)) as D.
  { intros i j Hi Hj L. apply in_kept in Hi, Hj. destruct Hi as [Hi Gi], Hj as [Hj Gj].
    destruct (g_cases m tol al AI i Hi) as [[_ B]|[B _]]; [|lia].
    rewrite <- (near_ok m tol i j). rewrite (B j ltac:(lia) Gj). discriminate. }
  split.
  - intros i j Hi Hj NE. destruct (Z_lt_le_dec j i); [apply D; assumption|]. intros SH. apply (D j i Hj Hi ltac:(lia)). apply short_sym, SH.
  - intros i Hi. change (0 <= i < nb_vertices m) in Hi. exists (rep al i).
    destruct (rep_kept m tol al AI i Hi) as [A [B C]].
    pose proof (kept_get m al (rep al i) (nb_vertices m) ltac:(lia) B) as G. apply vget_Ok in G. split; [apply G|]. split; [apply G|].
    destruct C as [C|[C1 C2]]; [left; exact C|right; split; [exact C1|]]. apply (near_ok m tol). exact C2.
Qed.
