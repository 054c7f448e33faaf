(** Meshing of a solid made of surfaces. *)
From Coq Require Import ZArith List Bool Reals Lra Lia Psatz.
From Verif Require Import Base Num MGeometry MKernel MMesh MMeshRun MNurbs MNurbsSurface SMesh SReach SGeom SMeasure SNurbs SSurface SSolid LBase LMesh LReach LSurfMesh.
Import ListNotations.
Open Scope Z_scope.

Lemma total_cons f x a : total f (x :: a) = f x + total f a. Proof. reflexivity. Qed.
Lemma total_app f a b : total f (a ++ b) = total f a + total f b.
Proof. induction a as [|x a IH]; cbn [app total fold_right]; [reflexivity|]. fold (total f (a ++ b)). fold (total f a). lia. Qed.
Lemma grid_old m m' st t0 seg s : svalid s -> 0 < seg -> 0 <= st -> 0 <= t0 -> st + grid_nv seg s <= nb_vertices m -> t0 + grid_nt seg s <= nb_triangles m ->
  (forall i, 0 <= i < nb_vertices m -> get_vertex m' i = get_vertex m i) ->
  (forall i, 0 <= i < nb_triangles m -> get_triangle_vertices m' i = get_triangle_vertices m i /\ is_triangle_unlinked m' i = is_triangle_unlinked m i) ->
  grid_in m st t0 seg s -> grid_in m' st t0 seg s.
Proof.
  intros V Hs Hst Ht B1 B2 O1 O2 [G1 G2]. unfold grid_nv, grid_nt in *. pose proof V as (_ & _ & (CU & _) & (CV & _) & _).
  assert (0 < seg * ns_nbU s) by nia. assert (0 < seg * ns_nbV s) by nia. split; cbv zeta in *.
  - intros u v Hu Hv. rewrite O1 by nia. apply G1; assumption.
  - intros u v Hu Hv. destruct (O2 (t0 + 2 * (u + seg * ns_nbU s * v))) as [-> ->]; [nia|]. destruct (O2 (t0 + 2 * (u + seg * ns_nbU s * v) + 1)) as [-> ->]; [nia|]. apply G2; assumption.
Qed.
Lemma solid_to_mesh_ok (ss : list (NurbsSurface R)) (m : Mesh R) seg : Forall svalid ss -> 0 < seg -> Forall (meshable seg) ss ->
  exists m', nu_solid_to_mesh ss m seg = Ok m' /\ nb_vertices m' = total (grid_nv seg) ss /\ nb_triangles m' = total (grid_nt seg) ss /\
    forall before s after, ss = before ++ s :: after -> grid_in m' (total (grid_nv seg) before) (total (grid_nt seg) before) seg s.
Proof.
  intros V Hs MS. unfold nu_solid_to_mesh.
  assert (forall l r, ss = l ++ r -> Forall svalid l) as VL by (intros l r E; rewrite E, Forall_app in V; tauto).
  edestruct (for_inv (fun k m' => forall l r, ss = l ++ r -> vsize l = k -> nb_vertices m' = total (grid_nv seg) l /\ nb_triangles m' = total (grid_nt seg) l /\
    forall before s after, l = before ++ s :: after -> grid_in m' (total (grid_nv seg) before) (total (grid_nt seg) before) seg s)) as [m' [E H]];
    [| | |exists m'; split; [exact E|apply (H ss []); [rewrite app_nil_r; reflexivity|reflexivity]]].
  - apply vsize_nonneg.
  - intros l r _ L. destruct l; [|unfold vsize in L; cbn in L; lia]. split; [reflexivity|]. split; [reflexivity|]. intros before s after E. destruct before; discriminate.
  - intros k m1 Hk I. destruct (vget_in_range ss k Hk) as [s G]. rewrite G. cbn [bind].
    assert (exists l r, ss = l ++ s :: r /\ vsize l = k) as (l & r & Es & Lk).
    { unfold vget in G. destruct (k <? 0) eqn:K0; [discriminate|]. destruct (nth_error ss (Z.to_nat k)) as [x|] eqn:En; [|discriminate]. injection G as ->.
      apply nth_error_split in En. destruct En as (l & r & E1 & E2). exists l, r. split; [exact E1|]. unfold vsize. lia. }
    destruct (I l (s :: r) Es Lk) as (N1 & N2 & I3). assert (svalid s) as Vs by (rewrite Es, Forall_app in V; destruct V as [_ V]; inversion V; assumption).
    assert (meshable seg s) as Ms by (rewrite Es, Forall_app in MS; destruct MS as [_ MS]; inversion MS; assumption).
    destruct (to_mesh_facts s m1 seg false Vs Hs Ms) as (m2 & E & C1 & C2 & O1 & O2 & G1 & G2). exists m2. split; [exact E|].
    assert (nb_vertices m2 = nb_vertices m1 + grid_nv seg s) as C1' by exact C1. assert (nb_triangles m2 = nb_triangles m1 + grid_nt seg s) as C2' by exact C2.
    intros l' r' Es' Lk'. assert (l' = l ++ [s]) as ->.
    { rewrite Es in Es'. assert (firstn (length l') (l ++ s :: r) = l') as F by (rewrite Es', firstn_app, firstn_all, Nat.sub_diag, app_nil_r; reflexivity).
      rewrite <- F. unfold vsize in *. replace (length l') with (length l + 1)%nat by lia. rewrite firstn_app, firstn_all2 by lia. f_equal. replace (length l + 1 - length l)%nat with 1%nat by lia. reflexivity. }
    rewrite !total_app, !total_cons. change (total (grid_nv seg) []) with 0. change (total (grid_nt seg) []) with 0. split; [lia|]. split; [lia|].
    assert (forall f : NurbsSurface R -> Z, (forall x, In x l -> 0 <= f x) -> forall b x a, l = b ++ x :: a -> 0 <= total f b /\ total f b + f x <= total f l) as Mono.
    { intros f Hf b x a El. subst l. rewrite total_app, total_cons.
      assert (forall q, (forall x, In x q -> 0 <= f x) -> 0 <= total f q) as P by (induction q as [|y q IH]; intros Hq; [apply Z.le_refl|rewrite total_cons; pose proof (Hq y (or_introl eq_refl)); pose proof (IH (fun z hz => Hq z (or_intror hz))); lia]).
      split; [apply P; intros; apply Hf, in_or_app; left; assumption|]. assert (0 <= total f a) by (apply P; intros; apply Hf, in_or_app; right; right; assumption). lia. }
    intros before s' after El. destruct after as [|z after] using rev_ind.
    + apply app_inj_tail in El. destruct El as [-> ->]. rewrite <- N1, <- N2. split; assumption.
    + clear IHafter. rewrite app_comm_cons, app_assoc in El. apply app_inj_tail in El. destruct El as [El _].
      assert (svalid s') as Vs'. { pose proof (VL l (s :: r) Es) as Vl. rewrite Forall_forall in Vl. apply Vl. rewrite El. apply in_or_app. right. left. reflexivity. }
      assert (forall x, In x l -> 0 <= grid_nv seg x /\ 0 <= grid_nt seg x) as Pos.
      { intros x Hx. pose proof (VL l (s :: r) Es) as Vl. rewrite Forall_forall in Vl. destruct (Vl x Hx) as (_ & _ & (CU & _) & (CV & _) & _). unfold grid_nv, grid_nt. assert (0 <= seg * ns_nbU x) by (apply Z.mul_nonneg_nonneg; lia). assert (0 <= seg * ns_nbV x) by (apply Z.mul_nonneg_nonneg; lia).
        split; [apply Z.mul_nonneg_nonneg; lia|]. apply Z.mul_nonneg_nonneg; lia. }
      destruct (Mono (grid_nv seg) (fun x Hx => proj1 (Pos x Hx)) _ _ _ El) as [M1 M2]. destruct (Mono (grid_nt seg) (fun x Hx => proj2 (Pos x Hx)) _ _ _ El) as [M3 M4].
      apply (grid_old m1 m2); [exact Vs'|exact Hs|exact M1|exact M3|lia|lia|exact O1|exact O2|]. exact (I3 _ _ _ El).
Qed.
