(** Ownership of kernels by Mesh objects. *)
From Coq Require Import ZArith List Bool Lia.
From Verif Require Import Base Num MGeometry MKernel MMesh MMeshRun MHeap SMesh SReach SHeap LBase LMesh LReach.
Import ListNotations.
Open Scope Z_scope.

Section LHeap.
Context {T : Type} {N : Num T}.
Implicit Types st : Store T.
Implicit Types m : Mesh T.

Definition inv st : Prop :=
  (forall i p, ptr st i p -> exists k, vget (heap st) p = Ok (Some k)) /\
  (forall i j p, ptr st i p -> ptr st j p -> i = j) /\
  (forall p k, vget (heap st) p = Ok (Some k) -> wfk k).

Lemma inv0 : inv store0.
Proof.
  split; [|split].
  - intros i p [c E]. apply vget_range in E. cbn in E. unfold vsize in E. cbn in E. lia.
  - intros i j p [c E]. apply vget_range in E. cbn in E. unfold vsize in E. cbn in E. lia.
  - intros p k E. apply vget_range in E. cbn in E. unfold vsize in E. cbn in E. lia.
Qed.

Lemma load_Ok st i p m : load st i = Ok (p, m) <->
  vget (objs st) i = Ok (Some (p, mcolor m)) /\ vget (heap st) p = Ok (Some (mkern m)).
Proof.
  unfold load. split.
  - intros E. inv_bind E. destruct x as [[q c]|]; [|discriminate]. inv_bind E.
    destruct x as [k|]; [|discriminate]. injection E as <- <-. auto.
  - intros [-> E2]. cbn. rewrite E2. cbn. destruct m; reflexivity.
Qed.

Lemma inv_load st i p m : inv st -> load st i = Ok (p, m) -> wf m.
Proof. intros [_ [_ I3]] E. apply load_Ok in E. destruct E as [_ E]. eapply I3; exact E. Qed.

Lemma inv_alive st i : inv st -> alive st i -> exists p m, load st i = Ok (p, m).
Proof.
  intros [I1 _] [p [c E]]. destruct (I1 i p (ex_intro _ c E)) as [k Ek]. exists p, (mkMesh k c).
  apply load_Ok. auto.
Qed.

(** Writing through the pointer of an object that owns it. *)
Lemma store_ok st i p m0 m : inv st -> load st i = Ok (p, m0) -> wf m ->
  exists st', store st i p m = Ok st' /\ inv st' /\
    mesh_of st' i = Some m /\ (forall j, j <> i -> mesh_of st' j = mesh_of st j) /\
    (forall j, ptr st' j = ptr st j \/ j = i /\ forall q, ptr st' j q <-> q = p) /\
    vsize (heap st') = vsize (heap st) /\ vsize (objs st') = vsize (objs st) /\
    heap st' = list_set (heap st) (Z.to_nat p) (Some (mkern m)) /\
    objs st' = list_set (objs st) (Z.to_nat i) (Some (p, mcolor m)).
Proof.
  intros I E W. pose proof E as L. apply load_Ok in L. destruct L as [Lo Lh].
  unfold store. rewrite (vset_in_range _ p) by (eapply vget_range; exact Lh). cbn [bind].
  rewrite (vset_in_range _ i) by (eapply vget_range; exact Lo). cbn [bind].
  set (h' := list_set _ _ _). set (o' := list_set _ _ _).
  exists (mkStore h' o'). split; [reflexivity|].
  assert (forall j, vget h' j = if j =? p then Ok (Some (mkern m)) else vget (heap st) j) as Gh.
  { intros j. apply vget_vset. apply vset_in_range. eapply vget_range; exact Lh. }
  assert (forall j, vget o' j = if j =? i then Ok (Some (p, mcolor m)) else vget (objs st) j) as Go.
  { intros j. apply vget_vset. apply vset_in_range. eapply vget_range; exact Lo. }
  assert (forall j q, ptr (mkStore h' o') j q <-> ptr st j q) as P.
  { intros j q. unfold ptr. cbn [objs]. rewrite Go. destruct (Z.eqb_spec j i) as [->|NE]; [|reflexivity].
    split; intros [c Hc].
    - injection Hc as <- <-. eauto.
    - rewrite Lo in Hc. injection Hc as <- <-. eauto. }
  destruct I as [I1 [I2 I3]]. split; [split; [|split]|].
  - intros j q Hq. apply P in Hq. cbn [heap]. rewrite Gh. destruct (Z.eqb_spec q p); [eauto|]. eapply I1; exact Hq.
  - intros j k q H1 H2. apply P in H1, H2. eapply I2; eassumption.
  - intros q k Hk. cbn [heap] in Hk. rewrite Gh in Hk. destruct (Z.eqb_spec q p); [injection Hk as <-; exact W|]. eapply I3; exact Hk.
  - split; [|split; [|split; [|split; [|split; [|split]]]]].
    + unfold mesh_of. replace (load (mkStore h' o') i) with (Ok (p, m)); [reflexivity|]. symmetry. apply load_Ok.
      cbn [heap objs]. rewrite Gh, Go, !Z.eqb_refl. auto.
    + intros j Hj. unfold mesh_of, load. cbn [heap objs]. rewrite Go. destruct (Z.eqb_spec j i); [contradiction|].
      destruct (vget (objs st) j) as [[[q c]|]|] eqn:Eo; cbn; try reflexivity.
      rewrite Gh. destruct (Z.eqb_spec q p) as [->|]; [|reflexivity].
      exfalso. apply Hj. eapply I2; [exists c; exact Eo|exists (mcolor m0); exact Lo].
    + intros j. destruct (Z.eq_dec j i) as [->|Hj].
      * right. split; [reflexivity|]. intros q. rewrite P. split; [intros [c Hc]; congruence|intros ->; eauto]. eexists; exact Lo.
      * left. unfold ptr. cbn [objs]. rewrite Go. destruct (Z.eqb_spec j i); [contradiction|reflexivity].
    + unfold vsize. cbn. unfold h'. rewrite list_set_length. reflexivity.
    + unfold vsize. cbn. unfold o'. rewrite list_set_length. reflexivity.
    + reflexivity.
    + reflexivity.
Qed.

(** ** Counting *)

Lemma count_app {A} (u v : list (option A)) : count (u ++ v) = count u + count v.
Proof. unfold count. rewrite filter_app, vsize_app. reflexivity. Qed.

Lemma count_cons {A} (x : option A) l : count (x :: l) = (match x with Some _ => 1 | None => 0 end) + count l.
Proof. unfold count. cbn. destruct x; rewrite ?vsize_cons; lia. Qed.

Lemma count_set {A} (l : list (option A)) n x y : nth_error l n = Some x ->
  count (list_set l n y) = count l - (match x with Some _ => 1 | None => 0 end) + (match y with Some _ => 1 | None => 0 end).
Proof.
  revert n. induction l as [|a l IH]; intros [|n] E; cbn in E; try discriminate.
  - injection E as ->. cbn [list_set]. rewrite !count_cons. lia.
  - cbn [list_set]. rewrite !count_cons, (IH n E). lia.
Qed.

Lemma vget_nth {A} (l : list A) i x : vget l i = Ok x -> nth_error l (Z.to_nat i) = Some x.
Proof. intros H. apply vget_Ok in H. apply H. Qed.

Lemma mstep_wf m o : wf m ->
  match mstep m (call_op o) with Ok (m', _) => wf m' | Err f => f = FAssert end.
Proof.
  intros W. assert (args_wf (call_op o)) as A by (destruct o; try exact I; destruct f).
  pose proof (mstep_refines m (call_op o) W A) as H. destruct (mstep m (call_op o)) as [[m' x]|f]; apply H.
Qed.

Lemma add_self_wf m fuel : wf m ->
  match add_mesh_self fuel m with Ok m' => wf m' | Err f => f = FDiverge end.
Proof.
  intros W. destruct (Z.eq_dec (nb_vertices m) 0) as [Z0|NZ].
  - destruct fuel; [reflexivity|]. unfold add_mesh_self. cbn [while_ fst snd bind]. rewrite Z0. cbn [Z.ltb Z.compare bind while_ fst snd].
    destruct (Z.ltb_spec 0 (nb_triangles m)) as [L|L]; cbn [bind].
    + destruct (wf_tri_get m 0 W ltac:(lia)) as [t [_ [Ht _]]]. lia.
    + exact W.
  - rewrite add_self_diverges; [reflexivity|]. pose proof (vsize_nonneg (kverts (mkern m))). unfold nb_vertices, k_nbv in *. lia.
Qed.

Lemma load_set_obj_other st i j v (h : list (option (Kernel T))) : i <> j -> 0 <= i < vsize (objs st) ->
  load (mkStore h (list_set (objs st) (Z.to_nat i) v)) j = load (mkStore h (objs st)) j.
Proof.
  intros NE R. unfold load. cbn [objs heap].
  rewrite (vget_vset (objs st) i v (list_set (objs st) (Z.to_nat i) v) j) by (apply vset_in_range, R).
  destruct (Z.eqb_spec j i); [congruence|reflexivity].
Qed.

Lemma load_heap_app st j x p m : load st j = Ok (p, m) -> load (mkStore (heap st ++ x) (objs st)) j = Ok (p, m).
Proof.
  rewrite !load_Ok. intros [H1 H2]. split; [exact H1|]. cbn [heap]. rewrite vget_app_l; [exact H2|]. eapply vget_range; exact H2.
Qed.

Lemma inv_alloc st i c : inv st -> 0 <= i < vsize (objs st) ->
  inv (mkStore (heap st ++ [Some k_empty]) (list_set (objs st) (Z.to_nat i) (Some (vsize (heap st), c)))).
Proof.
  intros [I1 [I2 I3]] R.
  assert (forall j, vget (list_set (objs st) (Z.to_nat i) (Some (vsize (heap st), c))) j
            = if j =? i then Ok (Some (vsize (heap st), c)) else vget (objs st) j) as Go.
  { intros j. apply vget_vset. apply vset_in_range, R. }
  split; [|split].
  - intros j p [d E]. cbn [objs heap] in *. rewrite Go in E. destruct (Z.eqb_spec j i).
    + injection E as <- <-. exists k_empty. apply vget_last.
    + destruct (I1 j p (ex_intro _ d E)) as [k Ek]. exists k. rewrite vget_app_l; [exact Ek|]. eapply vget_range; exact Ek.
  - intros j k p [d1 E1] [d2 E2]. cbn [objs] in *. rewrite Go in E1, E2.
    destruct (Z.eqb_spec j i), (Z.eqb_spec k i); subst; try reflexivity.
    + injection E1 as <- <-. destruct (I1 k _ (ex_intro _ d2 E2)) as [q Eq]. apply vget_range in Eq. lia.
    + injection E2 as <- <-. destruct (I1 j _ (ex_intro _ d1 E1)) as [q Eq]. apply vget_range in Eq. lia.
    + eapply I2; [exists d1; exact E1|exists d2; exact E2].
  - intros p k E. cbn [heap] in E. destruct (Z.lt_ge_cases p (vsize (heap st))).
    + rewrite vget_app_l in E by assumption. eapply I3; exact E.
    + rewrite vget_app_r in E by assumption. destruct (vget_range _ _ _ E) as [_ HH]. unfold vsize at 2 in HH. cbn in HH.
      replace (p - vsize (heap st)) with 0 in E by (apply vget_range in E; unfold vsize at 2 in E; cbn in E; lia).
      injection E as <-. constructor.
Qed.

Definition leak_count st := count (heap st) - count (objs st).

Lemma op_assign_spec fuel st i j c : inv st -> 0 <= i < vsize (objs st) -> (i = j \/ alive st j) ->
  match op_assign fuel st i j c with
  | Ok st' => inv st' /\
      (forall k, k <> i -> mesh_of st' k = mesh_of st k) /\
      vsize (objs st') = vsize (objs st) /\
      mesh_of st' i = (if i =? j then match assign_self fuel (mkMesh k_empty c) with Ok m => Some m | Err _ => None end
                       else match mesh_of st j with Some f => Some (copied f) | None => None end) /\
      leak_count st' = leak_count st + (match nth_error (objs st) (Z.to_nat i) with Some (Some _) => 1 | _ => 0 end)
  | Err f => f = FDiverge
  end.
Proof.
  intros I R A. unfold op_assign, alloc. cbn [heap objs].
  rewrite (vset_in_range _ i) by exact R. cbn [bind heap objs]. unfold vpush.
  set (p := vsize (heap st)). set (st1 := mkStore (heap st ++ [Some k_empty]) (list_set (objs st) (Z.to_nat i) (Some (p, c)))).
  assert (inv st1) as I1 by (apply inv_alloc; assumption).
  assert (load st1 i = Ok (p, mkMesh k_empty c)) as L1.
  { apply load_Ok. cbn [objs heap mcolor mkern st1]. split; [|apply vget_last].
    rewrite (vget_vset (objs st) i (Some (p, c)) _ i (vset_in_range _ _ _ R)), Z.eqb_refl. reflexivity. }
  assert (forall k, k <> i -> mesh_of st1 k = mesh_of st k) as M1.
  { intros k Hk. unfold mesh_of, load. cbn [objs heap st1].
    rewrite (vget_vset (objs st) i (Some (p, c)) _ k (vset_in_range _ _ _ R)).
    destruct (Z.eqb_spec k i); [contradiction|].
    destruct (vget (objs st) k) as [[[q d]|]|] eqn:E; cbn; try reflexivity.
    destruct I as [J1 _]. destruct (J1 k q (ex_intro _ d E)) as [kk Ek]. rewrite vget_app_l by (eapply vget_range; exact Ek). reflexivity. }
  assert (forall m, wf m -> exists st', store st1 i p m = Ok st' /\ inv st' /\
      (forall k, k <> i -> mesh_of st' k = mesh_of st k) /\
      vsize (objs st') = vsize (objs st) /\ mesh_of st' i = Some m /\
      leak_count st' = leak_count st + (match nth_error (objs st) (Z.to_nat i) with Some (Some _) => 1 | _ => 0 end)) as K.
  { intros m W. destruct (store_ok st1 i p _ m I1 L1 W) as [st' [E [I' [M' [O' [_ [_ [S2 [H1 H2]]]]]]]]].
    exists st'. split; [exact E|]. split; [exact I'|]. split; [intros k Hk; rewrite O', M1 by assumption; reflexivity|].
    split; [rewrite S2; cbn; unfold vsize; rewrite list_set_length; reflexivity|]. split.
    - exact M'.
    - unfold leak_count. rewrite H1, H2. cbn [st1 heap objs].
      destruct (vget_in_range (objs st) i R) as [x Ex]. pose proof (vget_nth _ _ _ Ex) as Nx. rewrite Nx.
      rewrite (count_set _ _ (Some k_empty)) by (apply vget_nth, vget_last).
      rewrite (count_set _ _ (Some (p, c))) by (rewrite nth_error_list_set by (unfold vsize in R; lia); rewrite Nat.eqb_refl; reflexivity).
      rewrite (count_set _ _ x _ Nx). rewrite count_app. change (count [Some (@k_empty T)]) with 1.
      destruct x; lia. }
  destruct (Z.eqb_spec i j) as [->|NE].
  - pose proof (add_self_wf (clear (mkMesh k_empty c)) fuel (wf_clear _)) as HS.
    destruct (add_mesh_self fuel _) as [m|f] eqn:HSE; cbn [bind]; [|exact HS].
    destruct (K (set_color m (get_color m)) (wf_set_color _ _ HS)) as [st' [-> [H1 [H2 [H3 [H4 H5]]]]]].
    split; [exact H1|]. split; [exact H2|]. split; [exact H3|]. split; [|exact H5]. rewrite H4. unfold assign_self.
    cbn [mcolor]. unfold clear in HSE |- *. cbn [mcolor] in HSE |- *.
    rewrite HSE. reflexivity.
  - destruct A as [A|A]; [contradiction|]. destruct (inv_alive st j I A) as [q [f Lf]].
    assert (load st1 j = Ok (q, f)) as L2.
    { unfold st1. change (mkStore (heap st ++ [Some k_empty]) (list_set (objs st) (Z.to_nat i) (Some (p, c))))
        with (mkStore (heap st ++ [Some k_empty]) (list_set (objs (mkStore (heap st ++ [Some k_empty]) (objs st))) (Z.to_nat i) (Some (p, c)))).
      rewrite load_set_obj_other by assumption. cbn [heap objs]. apply load_heap_app, Lf. }
    rewrite L2. cbn [bind snd]. pose proof (inv_load st j q f I Lf) as Wf.
    rewrite (add_mesh_spec _ f Wf). cbn [bind].
    destruct (K (set_color (appended (clear (mkMesh k_empty c)) f) (get_color f))) as [st' [-> [H1 [H2 [H3 [H4 H5]]]]]].
    2:{ split; [exact H1|]. split; [exact H2|]. split; [exact H3|]. split; [|exact H5]. rewrite H4.
        unfold mesh_of. rewrite Lf. reflexivity. }
    apply wf_set_color, wf_appended; [apply wf_clear|exact Wf].
Qed.

Lemma vget_push_None (l : list (option (Z * Z))) j p c :
  vget (vpush l None) j = Ok (Some (p, c)) <-> vget l j = Ok (Some (p, c)).
Proof.
  unfold vpush. split; intros E.
  - destruct (Z.lt_ge_cases j (vsize l)); [rewrite vget_app_l in E by assumption; exact E|].
    rewrite vget_app_r in E by assumption. apply vget_In in E. destruct E as [E|[]]. discriminate.
  - rewrite vget_app_l; [exact E|]. eapply vget_range; exact E.
Qed.

Lemma mesh_of_push_None st k : mesh_of (mkStore (heap st) (vpush (objs st) None)) k = mesh_of st k.
Proof.
  unfold mesh_of, load. cbn [objs heap].
  destruct (vget (objs st) k) as [o|f] eqn:E.
  - unfold vpush. rewrite vget_app_l by (eapply vget_range; exact E). rewrite E. reflexivity.
  - destruct (vget (vpush (objs st) None) k) as [[[q d]|]|] eqn:E2; try reflexivity.
    apply (proj1 (vget_push_None _ _ _ _)) in E2. congruence.
Qed.

Lemma hstep_spec fuel st c : inv st -> Forall (alive st) (uses c) ->
  match hstep fuel st c with
  | Ok st' => inv st' /\ (forall k, k <> target st c -> mesh_of st' k = mesh_of st k) /\
              leak_count st' = leak_count st + leaks c /\ effect fuel st c (mesh_of st' (target st c))
  | Err f => f = FAssert \/ f = FDiverge
  end.
Proof.
  intros I U. destruct c as [|j|i j|i j|i o|i]; cbn [hstep uses target leaks effect] in *.
  - unfold alloc. cbn [heap objs]. unfold vpush.
    assert (inv (mkStore (heap st) (vpush (objs st) None))) as I'.
    { destruct I as [I1 [I2 I3]]. split; [|split].
      - intros k p [d E]. cbn [objs heap] in *. apply (proj1 (vget_push_None _ _ _ _)) in E. eapply I1; exists d; exact E.
      - intros k l p [d E] [e F]. cbn [objs heap] in *. apply (proj1 (vget_push_None _ _ _ _)) in E; apply (proj1 (vget_push_None _ _ _ _)) in F. eapply I2; [exists d|exists e]; eassumption.
      - exact I3. }
    pose proof (inv_alloc (mkStore (heap st) (vpush (objs st) None)) (vsize (objs st)) (-1) I') as IA.
    cbn [objs heap] in IA. rewrite vsize_push in IA. pose proof (vsize_nonneg (objs st)). specialize (IA ltac:(lia)).
    assert (list_set (vpush (objs st) None) (Z.to_nat (vsize (objs st))) (Some (vsize (heap st), -1)) = objs st ++ [Some (vsize (heap st), -1)]) as EQ.
    { unfold vpush. apply list_set_mid. unfold vsize. lia. }
    rewrite EQ in IA. split; [exact IA|]. split.
    + intros k Hk. unfold mesh_of, load. cbn [objs heap].
      destruct (vget (objs st) k) as [o|f] eqn:E.
      * rewrite vget_app_l by (eapply vget_range; exact E). rewrite E. cbn.
        destruct o as [[q d]|]; [|reflexivity]. destruct I as [J1 _]. destruct (J1 k q (ex_intro _ d E)) as [kk Ek].
        rewrite vget_app_l by (eapply vget_range; exact Ek). reflexivity.
      * destruct (vget (objs st ++ [Some (vsize (heap st), -1)]) k) as [x|] eqn:E2; [|reflexivity].
        exfalso. destruct (Z.lt_ge_cases k (vsize (objs st))).
        -- rewrite vget_app_l in E2 by assumption. congruence.
        -- apply vget_range in E2. rewrite vsize_app in E2. unfold vsize at 2 in E2. cbn in E2. lia.
    + split.
      * unfold leak_count. cbn [heap objs]. rewrite !count_app.
        change (count [Some (@k_empty T)]) with 1. change (count [Some (vsize (heap st), -1)]) with 1. lia.
      * unfold mesh_of. set (st' := mkStore _ _).
        replace (load st' (vsize (objs st))) with (Ok (vsize (heap st), @mesh_new T)); [reflexivity|].
        symmetry. apply load_Ok. split; apply vget_last.
  - inversion U as [|? ? A _]; subst. destruct (inv_alive st j I A) as [q [f Lf]]. rewrite Lf. cbn [bind].
    set (st1 := mkStore (heap st) (vpush (objs st) None)).
    assert (inv st1) as I'.
    { destruct I as [I1 [I2 I3]]. split; [|split].
      - intros k p [d E]. cbn [objs heap st1] in *. apply (proj1 (vget_push_None _ _ _ _)) in E. eapply I1; exists d; exact E.
      - intros k l p [d E] [e F]. cbn [objs heap st1] in *. apply (proj1 (vget_push_None _ _ _ _)) in E; apply (proj1 (vget_push_None _ _ _ _)) in F. eapply I2; [exists d|exists e]; eassumption.
      - exact I3. }
    pose proof (op_assign_spec fuel st1 (vsize (objs st)) j (-1) I') as H.
    cbn [objs st1] in H. rewrite vsize_push in H. pose proof (vsize_nonneg (objs st)). specialize (H ltac:(lia)).
    assert (alive st1 j) as A1. { destruct A as [p [d E]]. exists p, d. cbn [objs st1]. apply vget_push_None, E. }
    specialize (H (or_intror A1)). destruct (op_assign fuel st1 (vsize (objs st)) j (-1)) as [st'|f'].
    + destruct H as [H1 [H2 [_ [H4 H5]]]]. split; [exact H1|]. split; [|split].
      * intros k Hk. rewrite H2 by exact Hk. apply mesh_of_push_None.
      * rewrite H5. unfold leak_count. cbn [st1 heap objs].
        assert (nth_error (vpush (objs st) None) (Z.to_nat (vsize (objs st))) = Some None) as NE by (apply vget_nth, vget_last).
        rewrite NE. unfold vpush. rewrite count_app. change (count [@None (Z * Z)]) with 0. lia.
      * assert (vsize (objs st) <> j) as NEJ. { destruct A as [p [d E]]. apply vget_range in E. lia. }
        destruct (Z.eqb_spec (vsize (objs st)) j); [contradiction|].
        unfold st1 in H4. rewrite mesh_of_push_None in H4. unfold mesh_of in H4 at 2. rewrite Lf in H4.
        exists f, (copied f). split; [unfold mesh_of; rewrite Lf; reflexivity|]. split; [|exact H4].
        unfold copy_mesh. apply assign_mesh_spec. eapply inv_load; [exact I|exact Lf].
    + auto.
  - inversion U as [|? ? Ai U']; subst. inversion U' as [|? ? Aj _]; subst.
    destruct (inv_alive st i I Ai) as [q [f Lf]]. rewrite Lf. cbn [bind].
    assert (0 <= i < vsize (objs st)) as R. { destruct Ai as [p [d E]]. eapply vget_range; exact E. }
    pose proof (op_assign_spec fuel st i j (mcolor (snd (q, f))) I R (or_intror Aj)) as H.
    destruct (op_assign _ _ _ _ _) as [st'|f'] eqn:HOA; [|auto].
    destruct H as [H1 [H2 [_ [H4 H5]]]]. split; [exact H1|]. split; [exact H2|]. split.
    + rewrite H5. destruct Ai as [p [d E]]. apply vget_nth in E. rewrite E. reflexivity.
    + destruct (inv_alive st j I Aj) as [q2 [f2 Lf2]]. unfold mesh_of in H4 at 2. rewrite Lf2 in H4. cbn [snd] in H4.
      assert (mesh_of st i = Some f) as Mi by (unfold mesh_of; rewrite Lf; reflexivity).
      assert (mesh_of st j = Some f2) as Mj by (unfold mesh_of; rewrite Lf2; reflexivity).
      destruct (Z.eqb_spec i j).
      * change (assign_self fuel (mkMesh k_empty (mcolor f))) with (assign_self fuel f) in H4.
        destruct fuel as [|fl].
        -- exfalso. subst j. unfold op_assign in HOA. rewrite Z.eqb_refl in HOA.
           cbn [alloc fst snd] in HOA. unfold alloc in HOA. inv_bind HOA. cbn in HOA. discriminate.
        -- exists f, f2, (clear f). rewrite assign_self_empties in H4 |- * by lia. auto.
      * exists f, f2, (copied f2). do 2 (split; [assumption|]). split; [exact H4|].
        apply assign_mesh_spec. eapply inv_load; [exact I|exact Lf2].
  - inversion U as [|? ? Ai U']; subst. inversion U' as [|? ? Aj _]; subst.
    destruct (inv_alive st i I Ai) as [q [f Lf]]. rewrite Lf. cbn [bind snd fst].
    pose proof (inv_load st i q f I Lf) as Wf.
    assert (forall m, wf m -> match store st i q m with
      | Ok st' => inv st' /\ (forall k, k <> i -> mesh_of st' k = mesh_of st k) /\ leak_count st' = leak_count st + 0 /\
                  mesh_of st' i = Some m
      | Err f0 => f0 = FAssert \/ f0 = FDiverge end) as K.
    { intros m W. destruct (store_ok st i q f m I Lf W) as [st' [-> [H1 [H2 [H3 [H4 [H5 [H6 [H7 H8]]]]]]]]]. split; [exact H1|]. split; [exact H3|].
      split; [|exact H2]. apply load_Ok in Lf. destruct Lf as [Lo Lh]. unfold leak_count. rewrite H7, H8.
      rewrite (count_set _ _ _ _ (vget_nth _ _ _ Lo)), (count_set _ _ _ _ (vget_nth _ _ _ Lh)). lia. }
    destruct (inv_alive st j I Aj) as [q2 [f2 Lf2]].
    assert (mesh_of st i = Some f) as Mi by (unfold mesh_of; rewrite Lf; reflexivity).
    assert (mesh_of st j = Some f2) as Mj by (unfold mesh_of; rewrite Lf2; reflexivity).
    destruct (Z.eqb_spec i j).
    + pose proof (add_self_wf f fuel Wf) as HS. destruct (add_mesh_self fuel f) as [d|] eqn:ED; cbn [bind]; [|auto].
      specialize (K d HS). destruct (store st i q d) as [st'|]; [|exact K]. destruct K as [K1 [K2 [K3 K4]]].
      do 3 (split; [assumption|]). exists f, f2, d. auto.
    + rewrite Lf2. cbn [bind snd].
      pose proof (inv_load st j q2 f2 I Lf2) as Wf2. rewrite (add_mesh_spec f f2 Wf2). cbn [bind].
      specialize (K (appended f f2) (wf_appended f f2 Wf Wf2)). destruct (store st i q (appended f f2)) as [st'|]; [|exact K].
      destruct K as [K1 [K2 [K3 K4]]]. do 3 (split; [assumption|]). exists f, f2, (appended f f2). pose proof (add_mesh_spec f f2 Wf2). auto.
  - inversion U as [|? ? Ai _]; subst.
    destruct (inv_alive st i I Ai) as [q [f Lf]]. rewrite Lf. cbn [bind snd fst].
    pose proof (inv_load st i q f I Lf) as Wf. pose proof (mstep_wf f o Wf) as HS.
    destruct (mstep f (call_op o)) as [[m x]|] eqn:EM; cbn [bind fst]; [|auto].
    destruct (store_ok st i q f m I Lf HS) as [st' [-> [H1 [H2 [H3 [H4 [H5 [H6 [H7 H8]]]]]]]]]. split; [exact H1|]. split; [exact H3|].
    split; [|exists f, m, x; split; [unfold mesh_of; rewrite Lf; reflexivity|auto]].
    apply load_Ok in Lf. destruct Lf as [Lo Lh]. unfold leak_count. rewrite H7, H8.
    rewrite (count_set _ _ _ _ (vget_nth _ _ _ Lo)), (count_set _ _ _ _ (vget_nth _ _ _ Lh)). lia.
  - inversion U as [|? ? Ai _]; subst. destruct Ai as [p [d E]]. rewrite E. cbn [bind].
    pose proof I as [I1 [I2 I3]]. destruct (I1 i p (ex_intro _ d E)) as [k Ek]. rewrite Ek. cbn [bind].
    rewrite (vset_in_range _ p) by (eapply vget_range; exact Ek). cbn [bind].
    rewrite (vset_in_range _ i) by (eapply vget_range; exact E). cbn [bind].
    assert (forall j, vget (list_set (heap st) (Z.to_nat p) None) j = if j =? p then Ok None else vget (heap st) j) as Gh.
    { intros j. apply vget_vset, vset_in_range. eapply vget_range; exact Ek. }
    assert (forall j, vget (list_set (objs st) (Z.to_nat i) None) j = if j =? i then Ok None else vget (objs st) j) as Go.
    { intros j. apply vget_vset, vset_in_range. eapply vget_range; exact E. }
    split; [split; [|split]|split; [|split]].
    + intros j q [c Hc]. cbn [objs heap] in *. rewrite Go in Hc. destruct (Z.eqb_spec j i); [discriminate|].
      rewrite Gh. destruct (Z.eqb_spec q p) as [->|]; [|apply (I1 j q (ex_intro _ c Hc))].
      exfalso. apply n. eapply I2; [exists c; exact Hc|exists d; exact E].
    + intros j l q [c Hc] [c' Hc']. cbn [objs] in *. rewrite Go in Hc, Hc'.
      destruct (Z.eqb_spec j i), (Z.eqb_spec l i); try discriminate. eapply I2; [exists c; exact Hc|exists c'; exact Hc'].
    + intros q kk Hq. cbn [heap] in Hq. rewrite Gh in Hq. destruct (Z.eqb_spec q p); [discriminate|]. eapply I3; exact Hq.
    + intros j Hj. unfold mesh_of, load. cbn [heap objs]. rewrite Go. destruct (Z.eqb_spec j i); [contradiction|].
      destruct (vget (objs st) j) as [[[q c]|]|] eqn:Ej; cbn; try reflexivity.
      rewrite Gh. destruct (Z.eqb_spec q p) as [->|]; [|reflexivity].
      exfalso. apply Hj. eapply I2; [exists c; exact Ej|exists d; exact E].
    + unfold leak_count. cbn [heap objs]. rewrite (count_set _ _ _ _ (vget_nth _ _ _ E)), (count_set _ _ _ _ (vget_nth _ _ _ Ek)). lia.
    + unfold mesh_of, load. cbn [heap objs]. rewrite Go, Z.eqb_refl. reflexivity.
Qed.

Lemma hrun_spec fuel cs : forall st, inv st -> well_used fuel st cs ->
  match hrun fuel st cs with
  | Ok st' => inv st' /\ leak_count st' = leak_count st + fold_right Z.add 0 (map leaks cs)
  | Err f => f = FAssert \/ f = FDiverge
  end.
Proof.
  induction cs as [|c cs IH]; intros st I U; cbn [hrun map fold_right].
  - split; [exact I|lia].
  - destruct U as [U1 U2]. pose proof (hstep_spec fuel st c I U1) as H.
    destruct (hstep fuel st c) as [st'|f]; cbn [bind]; [|exact H].
    destruct H as [I' [_ [HL _]]]. specialize (IH st' I' U2). destruct (hrun fuel st' cs) as [st''|f]; [|exact IH].
    destruct IH as [I'' L'']. split; [exact I''|]. lia.
Qed.

Lemma hrun_inv fuel cs st' : well_used fuel store0 cs -> hrun fuel store0 cs = Ok st' ->
  inv st' /\ count (heap st') = count (objs st') + fold_right Z.add 0 (map leaks cs).
Proof.
  intros U E. pose proof (hrun_spec fuel cs store0 inv0 U) as H. rewrite E in H. destruct H as [I L].
  split; [exact I|]. unfold leak_count in L. change (count (heap (@store0 T))) with 0 in L. change (count (objs (@store0 T))) with 0 in L. lia.
Qed.

Lemma heap_safe fuel cs st c : well_used fuel store0 cs -> hrun fuel store0 cs = Ok st ->
  Forall (alive st) (uses c) ->
  no_sharing st /\
  match hstep fuel st c with
  | Ok st' => no_sharing st' /\ (forall k, k <> target st c -> mesh_of st' k = mesh_of st k) /\
              effect fuel st c (mesh_of st' (target st c))
  | Err f => f = FAssert \/ f = FDiverge
  end.
Proof.
  intros U E A. destruct (hrun_inv fuel cs st U E) as [I _].
  split; [split; apply I|]. pose proof (hstep_spec fuel st c I A) as H.
  destruct (hstep fuel st c) as [st'|]; [|exact H]. destruct H as [I' [H [_ HE]]]. split; [split; apply I'|split; [exact H|exact HE]].
Qed.

Lemma heap_count fuel cs st : well_used fuel store0 cs -> hrun fuel store0 cs = Ok st ->
  count (heap st) = count (objs st) + nb_assign cs.
Proof. intros U E. apply (hrun_inv fuel cs st U E). Qed.

End LHeap.

(** Checking [well_used] and the counts by computation. *)
Definition aliveb {T} (st : Store T) (i : Z) : bool :=
  match vget (objs st) i with Ok (Some _) => true | _ => false end.
Fixpoint well_usedb {T} {N : Num T} (fuel : nat) (st : Store T) (cs : list (hcmd T)) : bool :=
  match cs with
  | [] => true
  | c :: cs => forallb (aliveb st) (uses c) && match hstep fuel st c with Ok st' => well_usedb fuel st' cs | Err _ => true end
  end.
Lemma well_usedb_ok {T} {N : Num T} fuel (cs : list (hcmd T)) : forall st, well_usedb fuel st cs = true -> well_used fuel st cs.
Proof.
  induction cs as [|c cs IH]; intros st H; cbn in *; [exact I|]. apply andb_true_iff in H. destruct H as [H1 H2]. split.
  - apply Forall_forall. intros i Hi. rewrite forallb_forall in H1. specialize (H1 i Hi). unfold aliveb in H1. unfold alive.
    destruct (vget (objs st) i) as [[[p c']|]|]; try discriminate. eauto.
  - destruct (hstep fuel st c); [apply IH, H2|exact I].
Qed.
