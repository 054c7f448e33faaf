(** Neighbour queries. *)
From Coq Require Import ZArith List Bool Reals Lia.
From Verif Require Import Base Num MGeometry MKernel MKernelRun MMesh MMeshRun MMeasure SMesh SReach SSurface LBase LMesh LKernel LReach.
Import ListNotations.
Open Scope Z_scope.

Lemma near_none {T} {N : Num T} (m : Mesh T) i : reach m -> get_near_triangles m i = if ok_idx i (nb_triangles m) then Ok (-1, -1, -1) else Err FAssert.
Proof.
  intros R. unfold get_near_triangles. change (ok_idx i) with (in_range i). destruct (in_range i (nb_triangles m)) eqn:E; [|reflexivity].
  cbn [bind massert]. unfold k_get_near. change (k_nbt (mkern m)) with (nb_triangles m). rewrite E. cbn [bind massert].
  apply in_range_true in E. destruct (vget_in_range (ktris (mkern m)) i E) as [t Et]. rewrite Et. cbn [bind].
  destruct (wf_get _ _ _ (reach_wf m R) Et) as [_ [(-> & -> & ->) _]]. reflexivity.
Qed.
Lemma near_none_refuted : exists m : Mesh R, reach m /\ nb_triangles m = 2 /\ is_triangle_unlinked m 0 = Ok false /\ is_triangle_unlinked m 1 = Ok false /\
  has_edge m 0 2 0 /\ has_edge m 1 0 2 /\ get_near_triangles m 0 = Ok (-1, -1, -1) /\ get_near_triangles m 1 = Ok (-1, -1, -1).
Proof.
  eexists (mkMesh (mkK [mkP 0 0 0; mkP 1 0 0; mkP 1 1 0; mkP 0 1 0]%R [lt_new 0 1 2; lt_new 2 3 0]) (-1)).
  split. { eapply (R_step mesh_new (OpAddQuadPts (mkP 0 0 0) (mkP 1 0 0) (mkP 1 1 0) (mkP 0 1 0))%R); [constructor|intros f [K|K]; discriminate|reflexivity]. }
  do 3 (split; [reflexivity|]). do 2 (split; [do 3 eexists; split; [reflexivity|right; right; split; reflexivity]|]). split; reflexivity.
Qed.
(** The TIN kernel does not write its outputs; the half-edge kernel has no triangle to ask about. *)
Lemma near_tin {T} (k : KernelTIN T) i out : kt_get_near k i out = if ok_idx i (kt_nbt k) then Ok out else Err FAssert.
Proof. unfold kt_get_near. change (ok_idx i) with (in_range i). destruct (in_range _ _); reflexivity. Qed.
Lemma near_half_edge {T} (cs : list (kcall T)) k i : final he_call kh_empty cs = Ok k -> kh_get_near k i = Err FAssert.
Proof.
  intros H. destruct (he_add_is_lost cs k 0 0 0 H) as (_ & E & _). cbn in E. unfold kh_get_near.
  assert (kh_nbt k = 0) as -> by congruence. destruct (in_range i 0) eqn:E0; [|reflexivity]. apply in_range_true in E0. lia.
Qed.
Lemma closed_any {T} {N : Num T} (m : Mesh T) : exists b, is_closed m = Ok b /\
  (b = true <-> forall i, 0 <= i < nb_triangles m -> is_triangle_unlinked m i = Ok false ->
     exists a b c, get_near_triangles m i = Ok (a, b, c) /\ a <> -1 /\ b <> -1 /\ c <> -1).
Proof.
  unfold is_closed, all_triangles.
  assert (B : 0 <= nb_triangles m) by (change (0 <= vsize (ktris (mkern m))); unfold vsize; lia).
  destruct (for_inv (fun j ok => ok = true <-> forall i, 0 <= i < j -> is_triangle_unlinked m i = Ok false ->
     exists a b c, get_near_triangles m i = Ok (a, b, c) /\ a <> -1 /\ b <> -1 /\ c <> -1) 0 (nb_triangles m)
    (fun i ok => if negb ok then Ok ok else do u <- is_triangle_unlinked m i; if u then Ok ok else
       do n <- get_near_triangles m i; let '(a, b, c) := n in Ok (negb ((a =? -1) || (b =? -1) || (c =? -1)))) true B) as [b [E I]].
  - split; [|reflexivity]. intros _ i Hi. lia.
  - intros i s Hi I. destruct s; cbn [negb].
    + assert (Ir : in_range i (nb_triangles m) = true) by (apply in_range_true; exact Hi).
      destruct (vget_in_range (ktris (mkern m)) i Hi) as [t Et].
      assert (U : is_triangle_unlinked m i = Ok (lunl t =? -1)).
      { unfold is_triangle_unlinked, k_is_unlinked. change (k_nbt (mkern m)) with (nb_triangles m). rewrite ?Ir. cbn [bind massert]. rewrite Et. reflexivity. }
      assert (G : get_near_triangles m i = Ok (ln1 t, ln2 t, ln3 t)).
      { unfold get_near_triangles, k_get_near. change (k_nbt (mkern m)) with (nb_triangles m). rewrite ?Ir. cbn [bind massert]. rewrite Et. reflexivity. }
      rewrite U, G. cbn [bind]. destruct (lunl t =? -1).
      * eexists. split; [reflexivity|]. split; [|reflexivity]. intros _ k Hk Uk. destruct (Z.eq_dec k i) as [->|D]; [rewrite U in Uk; discriminate|].
        apply (proj1 I eq_refl); [lia|exact Uk].
      * eexists. split; [reflexivity|]. split.
        -- intros H k Hk Uk. destruct (Z.eq_dec k i) as [->|D]; [|apply (proj1 I eq_refl); [lia|exact Uk]].
           exists (ln1 t), (ln2 t), (ln3 t). split; [exact G|]. destruct (ln1 t =? -1) eqn:E1; [discriminate|]. destruct (ln2 t =? -1) eqn:E2; [discriminate|].
           destruct (ln3 t =? -1) eqn:E3; [discriminate|]. lia.
        -- intros H. destruct (H i ltac:(lia) U) as (a & b & c & E & Ha & Hb & Hc). rewrite G in E. injection E as <- <- <-.
           apply Z.eqb_neq in Ha, Hb, Hc. rewrite Ha, Hb, Hc. reflexivity.
    + eexists. split; [reflexivity|]. split; [discriminate|]. intros H. apply (proj2 I). intros k Hk. apply H. lia.
  - exists b. split; [exact E|exact I].
Qed.
Lemma edge_query_none : exists m : Mesh R, reach m /\ nb_triangles m = 2 /\ is_triangle_unlinked m 0 = Ok false /\ is_triangle_unlinked m 1 = Ok false /\
  has_edge m 0 2 0 /\ has_edge m 1 0 2 /\ k_near_edge (mkern m) 0 2 = false /\ k_near_edge (mkern m) 2 0 = false.
Proof. destruct near_none_refuted as (m & A & B & C & D & E & F & _). exists m. repeat (split; [assumption|]). split; reflexivity. Qed.
