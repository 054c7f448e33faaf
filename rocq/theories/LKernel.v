(** Lemmas comparing the mesh kernels. *)
From Coq Require Import ZArith List Bool Lia.
From Verif Require Import Base MGeometry MKernel MKernelRun SKernel LBase.
Import ListNotations.
Open Scope Z_scope.

Section Kernels.
Context {T : Type}.

(** the TIN triangle that corresponds to a linked one *)
Definition to_tin (t : TriLT) : TriTIN := mkTIN (lv1 t) (lv2 t) (lv3 t) (lunl t =? -1).
Definition lonely (t : TriLT) : Prop := ln1 t = -1 /\ ln2 t = -1 /\ ln3 t = -1.
Definition same (k : Kernel T) (q : KernelTIN T) : Prop :=
  q = mkKT (kverts k) (map to_tin (ktris k)) /\ Forall lonely (ktris k).

Lemma nbt_same (k : Kernel T) : kt_nbt (mkKT (kverts k) (map to_tin (ktris k))) = k_nbt k.
Proof. unfold kt_nbt, k_nbt. apply vsize_map. Qed.
Lemma nbv_same (k : Kernel T) : kt_nbv (mkKT (kverts k) (map to_tin (ktris k))) = k_nbv k.
Proof. reflexivity. Qed.

Lemma vget_to_tin (l : list TriLT) i : vget (map to_tin l) i = rmap to_tin (vget l i).
Proof. rewrite vget_map. destruct (vget l i); reflexivity. Qed.

Lemma vset_to_tin (l : list TriLT) i t : vset (map to_tin l) i (to_tin t) = rmap (map to_tin) (vset l i t).
Proof.
  unfold vset. rewrite vsize_map. destruct (_ || _); [reflexivity|]. cbn. rewrite map_list_set. reflexivity.
Qed.

Lemma call_same k q c : same k q ->
  match lt_call k c, tin_call q c with
  | Ok (k', a), Ok (q', a') => a = a' /\ same k' q'
  | Err f, Err f' => f = f'
  | _, _ => False
  end.
Proof.
  intros [-> L]. destruct c as [p|i p|i| |a b c|i|i|i| |]; cbn [lt_call tin_call].
  - unfold k_add_vertex, kt_add_vertex. split; [reflexivity|]. split; [reflexivity|exact L].
  - unfold k_set_vertex, kt_set_vertex. rewrite nbv_same. destruct (massert _); cbn; [|reflexivity].
    destruct (vset (kverts k) i p); cbn; [|reflexivity]. repeat split. exact L.
  - unfold k_get_vertex, kt_get_vertex. rewrite nbv_same. destruct (massert _); cbn; [|reflexivity].
    destruct (vget (kverts k) i); cbn; [|reflexivity]. repeat split. exact L.
  - repeat split. exact L.
  - unfold k_add_triangle, kt_add_triangle. rewrite nbv_same.
    destruct (massert _); cbn; [|reflexivity]. destruct (massert _); cbn; [|reflexivity]. destruct (massert _); cbn; [|reflexivity].
    unfold vpush. rewrite !vsize_app, vsize_map. split; [reflexivity|]. split.
    + cbn. rewrite map_app. reflexivity.
    + cbn. apply Forall_app. split; [exact L|]. repeat constructor.
  - unfold k_get_triangle_vertices, kt_get_triangle_vertices. rewrite nbt_same. destruct (massert _); cbn [rmap bind]; [|reflexivity].
    cbn [kttris]. rewrite vget_to_tin. destruct (vget (ktris k) i); cbn; [|reflexivity]. repeat split. exact L.
  - unfold k_unlink, kt_unlink. rewrite nbt_same. destruct (massert _) eqn:M; cbn [rmap bind]; [|reflexivity].
    apply massert_Ok in M. unfold in_range in M.
    cbn [kttris]. rewrite vget_to_tin. destruct (vget (ktris k) i) as [t|f] eqn:E; cbn [rmap bind]; [|reflexivity].
    set (t' := mkLT _ _ _ _ _ _ (-1)).
    change (mkTIN (tv1 (to_tin t)) (tv2 (to_tin t)) (tv3 (to_tin t)) true) with (to_tin t').
    rewrite vset_to_tin. destruct (vset (ktris k) i t') as [ts|f] eqn:EV; cbn [rmap bind]; [|reflexivity].
    assert (Forall lonely ts) as L'.
    { apply vset_Ok in EV. destruct EV as [_ ->]. clear -L E. unfold vget in E. destruct (i <? 0); [discriminate|].
      assert (lonely t') as Lt.
      { apply Forall_forall with (x := t) in L; [exact L|]. destruct (nth_error (ktris k) (Z.to_nat i)) eqn:N; [|discriminate]. injection E as <-. eapply nth_error_In, N. }
      revert Lt. generalize t'. clear E. generalize (Z.to_nat i). induction L as [|x l Hx HL IH]; intros [|n] u Hu; cbn; constructor; auto. }
    assert (vget ts i = Ok t') as G.
    { rewrite (vget_vset _ _ _ _ i EV). destruct (Z.eqb_spec i i); [reflexivity|lia]. }
    unfold k_get_near. cbn [ktris]. unfold k_nbt. cbn [ktris]. rewrite (vset_size _ _ _ _ EV). fold (k_nbt k).
    unfold in_range. rewrite M. cbn [massert bind]. rewrite G. cbn [bind].
    apply Forall_forall with (x := t') in L' as L2; [|eapply vget_In, G]. destruct L2 as [-> [-> ->]].
    cbn [lt_forget bind Z.eqb Pos.eqb]. repeat split. exact L'.
  - unfold k_is_unlinked, kt_is_unlinked. rewrite nbt_same. destruct (massert _); cbn [rmap bind]; [|reflexivity].
    cbn [kttris]. rewrite vget_to_tin. destruct (vget (ktris k) i); cbn; [|reflexivity]. repeat split. exact L.
  - rewrite nbt_same. repeat split. exact L.
  - repeat split. constructor.
Qed.

Lemma trace_same cs : forall k q, same k q -> trace lt_call k cs = trace tin_call q cs.
Proof.
  induction cs as [|c cs IH]; intros k q S; [reflexivity|]. cbn [trace]. pose proof (call_same k q c S) as H.
  destruct (lt_call k c) as [[k' a]|f], (tin_call q c) as [[q' a']|f']; try contradiction.
  - destruct H as [-> S']. rewrite (IH k' q' S'). reflexivity.
  - congruence.
Qed.

Lemma kernels_agree (cs : list (kcall T)) : trace lt_call k_empty cs = trace tin_call kt_empty cs.
Proof. apply trace_same. split; [reflexivity|constructor]. Qed.

(** ** C15 *)
Lemma massert_range i n : 0 <= i < n -> massert (in_range i n) = Ok tt.
Proof. intros H. apply massert_true. unfold in_range. lia. Qed.

Lemma lt_stores (k : Kernel T) a b c : 0 <= a < k_nbv k -> 0 <= b < k_nbv k -> 0 <= c < k_nbv k -> stores lt_call k a b c.
Proof.
  intros Ha Hb Hc. unfold stores. exists (mkK (kverts k) (vpush (ktris k) (lt_new a b c))), (k_nbt k), (k_nbt k + 1).
  pose proof (vsize_nonneg (ktris k)) as P.
  assert (k_nbt (mkK (kverts k) (vpush (ktris k) (lt_new a b c))) = k_nbt k + 1) as N.
  { unfold k_nbt. cbn [ktris]. apply vsize_push. }
  cbn [lt_call]. split; [reflexivity|]. split; [|split; [|split; [reflexivity|split]]].
  - unfold k_add_triangle. rewrite !massert_range by assumption. cbn. unfold k_nbt. rewrite vsize_push. repeat f_equal. lia.
  - rewrite N. reflexivity.
  - unfold k_get_triangle_vertices. rewrite N, massert_range by (unfold k_nbt; lia). cbn [bind ktris]. unfold k_nbt. rewrite vget_last. reflexivity.
  - unfold k_is_unlinked. rewrite N, massert_range by (unfold k_nbt; lia). cbn [bind ktris]. unfold k_nbt. rewrite vget_last. reflexivity.
Qed.

Lemma tin_stores (k : KernelTIN T) a b c : 0 <= a < kt_nbv k -> 0 <= b < kt_nbv k -> 0 <= c < kt_nbv k -> stores tin_call k a b c.
Proof.
  intros Ha Hb Hc. unfold stores. exists (mkKT (ktverts k) (vpush (kttris k) (mkTIN a b c false))), (kt_nbt k), (kt_nbt k + 1).
  pose proof (vsize_nonneg (kttris k)) as P.
  assert (kt_nbt (mkKT (ktverts k) (vpush (kttris k) (mkTIN a b c false))) = kt_nbt k + 1) as N.
  { unfold kt_nbt. cbn [kttris]. apply vsize_push. }
  cbn [tin_call]. split; [reflexivity|]. split; [|split; [|split; [reflexivity|split]]].
  - unfold kt_add_triangle. rewrite !massert_range by assumption. cbn. unfold kt_nbt. rewrite vsize_push. repeat f_equal. lia.
  - rewrite N. reflexivity.
  - unfold kt_get_triangle_vertices. rewrite N, massert_range by (unfold kt_nbt; lia). cbn [bind kttris]. unfold kt_nbt. rewrite vget_last. reflexivity.
  - unfold kt_is_unlinked. rewrite N, massert_range by (unfold kt_nbt; lia). cbn [bind kttris]. unfold kt_nbt. rewrite vget_last. reflexivity.
Qed.

Lemma he_no_triangle (cs : list (kcall T)) : forall k k', kh_nbt k = 0 -> final he_call k cs = Ok k' -> kh_nbt k' = 0.
Proof.
  induction cs as [|c cs IH]; intros k k' H E; cbn in E; [congruence|].
  destruct (he_call k c) as [[k1 a]|f] eqn:EC; [|discriminate]. cbn in E. apply (IH k1 k'); [|exact E]. clear E IH.
  assert (forall i, massert (in_range i 0) = Err FAssert) as NR.
  { intros i. unfold massert, in_range. destruct ((0 <=? i) && (i <? 0)) eqn:B; [lia|reflexivity]. }
  destruct c; cbn [he_call] in EC.
  - injection EC as <- _. exact H.
  - unfold kh_set_vertex in EC. destruct (massert _); cbn in EC; [|discriminate]. destruct (vset _ _ _); cbn in EC; [|discriminate]. injection EC as <- _. exact H.
  - unfold kh_get_vertex in EC. destruct (massert _); cbn in EC; [|discriminate]. destruct (vget _ _); cbn in EC; [|discriminate]. injection EC as <- _. exact H.
  - injection EC as <- _. exact H.
  - injection EC as <- _. exact H.
  - unfold kh_get_triangle_vertices in EC. rewrite H, NR in EC. discriminate.
  - unfold kh_unlink in EC. rewrite H, NR in EC. discriminate.
  - unfold kh_is_unlinked in EC. rewrite H, NR in EC. discriminate.
  - injection EC as <- _. exact H.
  - injection EC as <- _. reflexivity.
Qed.

(** Whatever was called before, the half-edge kernel has no triangle after add_triangle, which returns -1. *)
Lemma he_add_is_lost (cs : list (kcall T)) k a b c : final he_call kh_empty cs = Ok k ->
  he_call k (KAddTriangle a b c) = Ok (k, ANum (-1)) /\ he_call k KNbTriangles = Ok (k, ANum 0) /\
  forall i, he_call k (KGetTriangle i) = Err FAssert.
Proof.
  intros E. pose proof (he_no_triangle cs kh_empty k eq_refl E) as H. cbn [he_call].
  unfold kh_add_triangle. unfold kh_nbt in H. rewrite H. split; [reflexivity|]. split; [unfold kh_nbt; rewrite H; reflexivity|].
  intros i. unfold kh_get_triangle_vertices, kh_nbt. rewrite H. unfold massert, in_range.
  destruct ((0 <=? i) && (i <? 0)) eqn:B; [lia|reflexivity].
Qed.
End Kernels.
