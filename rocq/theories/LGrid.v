(** Grid meshes: create_from_z and create_from_grid. *)
From Coq Require Import ZArith List Bool Lia.
From Verif Require Import Base Num MGeometry MKernel MMesh MMeshRun MUtil SMesh SReach LBase LMesh LReach.
Import ListNotations.
Open Scope Z_scope.

(** ** Lists made of equal chunks *)
Lemma vsize_flat_map {A} (f : Z -> list A) k n a : (forall i, a <= i < a + n -> vsize (f i) = k) -> 0 <= n ->
  vsize (flat_map f (zrange a (a + n))) = k * n.
Proof.
  intros H Hn. revert H. pattern n. apply natlike_ind; [| |exact Hn].
  - intros _. rewrite Z.add_0_r, zrange_empty by lia. cbn. rewrite Z.mul_0_r. reflexivity.
  - intros x Hx IH H. unfold Z.succ. rewrite Z.add_assoc, zrange_last, flat_map_app, vsize_app, IH by (intros; try apply H; lia).
    cbn. rewrite app_nil_r, H by lia. lia.
Qed.

Lemma vsize_flat_map0 {A} (f : Z -> list A) k n : (forall i, 0 <= i < n -> vsize (f i) = k) -> 0 <= n ->
  vsize (flat_map f (zrange 0 n)) = k * n.
Proof. intros H Hn. apply (vsize_flat_map f k n 0); [|exact Hn]. intros i Hi. apply H. lia. Qed.

Lemma vget_flat_map {A} (f : Z -> list A) k n i r : (forall i, 0 <= i < n -> vsize (f i) = k) -> 0 <= i < n -> 0 <= r < k ->
  vget (flat_map f (zrange 0 n)) (k * i + r) = vget (f i) r.
Proof.
  intros H Hi Hr. rewrite (zrange_app 0 i n) by lia. rewrite (zrange_cons i n) by lia.
  rewrite flat_map_app. cbn [flat_map].
  assert (vsize (flat_map f (zrange 0 i)) = k * i) as S.
  { replace i with (0 + i) at 1 by lia. apply vsize_flat_map; [|lia]. intros j Hj. apply H. lia. }
  rewrite vget_app_r by lia. rewrite S. replace (k * i + r - k * i) with r by lia.
  apply vget_app_l. rewrite H by lia. lia.
Qed.

Section Grid.
Context {T : Type} {N : Num T}.
Implicit Types m : Mesh T.

Definition cell (sx i j : Z) : list triple :=
  [(i + sx * j, i + 1 + sx * j, i + 1 + sx * (j + 1)); (i + 1 + sx * (j + 1), i + sx * (j + 1), i + sx * j)].
Definition cell_row (sx j : Z) : list triple := flat_map (fun i => cell sx i j) (zrange 0 (sx - 1)).
Definition grid_triples (sx sy : Z) : list triple := flat_map (cell_row sx) (zrange 0 (sy - 1)).

Lemma push_tris_app m u v : push_tris (push_tris m u) v = push_tris m (u ++ v).
Proof. unfold push_tris. cbn. rewrite map_app, app_assoc. reflexivity. Qed.
Lemma push_tris_nil m : push_tris m [] = m.
Proof. unfold push_tris. cbn. rewrite app_nil_r. destruct m as [[? ?] ?]. reflexivity. Qed.
Lemma push_verts_app m u v : push_verts (push_verts m u) v = push_verts m (u ++ v).
Proof. unfold push_verts. cbn. rewrite app_assoc. reflexivity. Qed.
Lemma push_verts_nil m : push_verts m [] = m.
Proof. unfold push_verts. cbn. rewrite app_nil_r. destruct m as [[? ?] ?]. reflexivity. Qed.
Lemma push_vert_verts m p : push_vert m p = push_verts m [p].
Proof. reflexivity. Qed.
Lemma push_tri_tris m a b c : push_tri m a b c = push_tris m [(a, b, c)].
Proof. reflexivity. Qed.

Lemma add_quad_ok m a b c d : 0 <= a < nb_vertices m -> 0 <= b < nb_vertices m -> 0 <= c < nb_vertices m -> 0 <= d < nb_vertices m ->
  add_quad m a b c d = Ok (push_tris m [(a, b, c); (c, d, a)]).
Proof.
  intros Ha Hb Hc Hd. unfold add_quad.
  rewrite !bind_massert_true by lia.
  rewrite kadd by assumption. cbn [bind fst]. rewrite kadd by assumption. cbn [bind fst].
  rewrite !push_tri_tris, push_tris_app. reflexivity.
Qed.

Lemma grid_quads_ok m sx sy : 1 <= sx -> 1 <= sy -> nb_vertices m = sx * sy ->
  grid_quads sx sy m = Ok (push_tris m (grid_triples sx sy)).
Proof.
  intros Hx Hy Hn. unfold grid_quads.
  edestruct (for_inv (fun j s => s = push_tris m (flat_map (cell_row sx) (zrange 0 j)))) as [s [E H]]; [| | |rewrite E, H; reflexivity].
  - lia.
  - cbn. rewrite push_tris_nil. reflexivity.
  - intros j s Hj ->. cbn beta.
    edestruct (for_inv (fun i s => s = push_tris m (flat_map (cell_row sx) (zrange 0 j) ++ flat_map (fun i => cell sx i j) (zrange 0 i)))) as [s [E H]];
      [| | |exists s; split; [exact E|rewrite H]].
    + lia.
    + cbn. rewrite app_nil_r. reflexivity.
    + intros i s Hi ->. cbn beta. rewrite add_quad_ok.
      * eexists. split; [reflexivity|]. rewrite push_tris_app, <- app_assoc. f_equal. f_equal.
        rewrite zrange_last, flat_map_app by lia. cbn. reflexivity.
      * change (nb_vertices (push_tris m _)) with (nb_vertices m). rewrite Hn. nia.
      * change (nb_vertices (push_tris m _)) with (nb_vertices m). rewrite Hn. nia.
      * change (nb_vertices (push_tris m _)) with (nb_vertices m). rewrite Hn. nia.
      * change (nb_vertices (push_tris m _)) with (nb_vertices m). rewrite Hn. nia.
    + rewrite zrange_last, flat_map_app by lia. cbn [flat_map]. rewrite app_nil_r. reflexivity.
Qed.

Lemma cell_row_size sx j : 1 <= sx -> vsize (cell_row sx j) = 2 * (sx - 1).
Proof. intros H. unfold cell_row. apply vsize_flat_map0; [reflexivity|lia]. Qed.

Lemma grid_triples_size sx sy : 1 <= sx -> 1 <= sy -> vsize (grid_triples sx sy) = 2 * (sx - 1) * (sy - 1).
Proof.
  intros Hx Hy. unfold grid_triples. apply vsize_flat_map0; [|lia]. intros. apply cell_row_size. exact Hx.
Qed.

Lemma grid_triples_get sx sy i j r : 1 <= sx -> 1 <= sy -> 0 <= i < sx - 1 -> 0 <= j < sy - 1 -> 0 <= r < 2 ->
  vget (grid_triples sx sy) (2 * (i + (sx - 1) * j) + r) = vget (cell sx i j) r.
Proof.
  intros Hx Hy Hi Hj Hr. unfold grid_triples.
  replace (2 * (i + (sx - 1) * j) + r) with (2 * (sx - 1) * j + (2 * i + r)) by ring.
  rewrite (vget_flat_map (cell_row sx) (2 * (sx - 1)) (sy - 1) j (2 * i + r)); [|intros; apply cell_row_size; exact Hx|lia|lia].
  unfold cell_row. apply (vget_flat_map (fun i => cell sx i j) 2 (sx - 1) i r); [reflexivity|lia|lia].
Qed.

Lemma push_tris_get m ts i a b c : vget ts i = Ok (a, b, c) ->
  get_triangle_vertices (push_tris m ts) (nb_triangles m + i) = Ok (a, b, c) /\
  is_triangle_unlinked (push_tris m ts) (nb_triangles m + i) = Ok false.
Proof.
  intros E.
  assert (vget (ktris (mkern (push_tris m ts))) (nb_triangles m + i) = Ok (lt_new a b c)) as G.
  { pose proof (vget_range _ _ _ E). unfold push_tris, nb_triangles, k_nbt. cbn [mkern ktris]. rewrite vget_app_r by lia.
    replace (_ + i - _) with i by lia. rewrite vget_map, E. reflexivity. }
  rewrite (get_triangle_vertices_ok _ _ _ G), (is_unlinked_ok _ _ _ G). split; reflexivity.
Qed.

Lemma nbt_push_tris m ts : nb_triangles (push_tris m ts) = nb_triangles m + vsize ts.
Proof. unfold nb_triangles, k_nbt, push_tris. cbn. rewrite vsize_app, vsize_map. reflexivity. Qed.
Lemma nbv_push_verts m vs : nb_vertices (push_verts m vs) = nb_vertices m + vsize vs.
Proof. unfold nb_vertices, k_nbv, push_verts. cbn. rewrite vsize_app. reflexivity. Qed.

(** ** create_from_z *)
Definition z_row (vz : list T) (sx y : Z) : list (Point3 T) :=
  flat_map (fun x => match vget vz (x + sx * y) with Ok z => [mkP (nofZ x) (nofZ y) z] | Err _ => [] end) (zrange 0 sx).

Lemma create_from_z_ok vz sx sy m : 1 <= sx -> 1 <= sy -> sx * sy = vsize vz -> vsize vz <= int_max ->
  create_from_z vz sx sy m =
  Ok (push_tris (push_verts (clear m) (flat_map (z_row vz sx) (zrange 0 sy))) (grid_triples sx sy)).
Proof.
  intros Hx Hy Hs HM. unfold create_from_z. rewrite iint_ok by (unfold int_min; nia). cbn [bind]. rewrite bind_massert_true by lia.
  assert (forall x y, 0 <= x < sx -> 0 <= y < sy -> exists z, vget vz (x + sx * y) = Ok z) as G.
  { intros x y Hx' Hy'. apply vget_in_range. nia. }
  edestruct (for_inv (fun y s => s = (sx * y, push_verts (clear m) (flat_map (z_row vz sx) (zrange 0 y))))) as [s [E H]]; [| | |rewrite E, H].
  - lia.
  - cbn. rewrite push_verts_nil, Z.mul_0_r. reflexivity.
  - intros y s Hy' ->. cbn beta.
    edestruct (for_inv (fun x s => s = (sx * y + x, push_verts (clear m) (flat_map (z_row vz sx) (zrange 0 y) ++
        flat_map (fun x => match vget vz (x + sx * y) with Ok z => [mkP (nofZ x) (nofZ y) z] | Err _ => [] end) (zrange 0 x))))) as [s [E H]];
      [| | |exists s; split; [exact E|rewrite H]].
    + lia.
    + cbn. rewrite app_nil_r, Z.add_0_r. reflexivity.
    + intros x s Hx' ->. cbn [fst snd]. destruct (G x y Hx' Hy') as [z Ez].
      rewrite (Z.add_comm (sx * y) x), Ez. cbn [bind]. rewrite add_vertex_spec. cbn [fst]. eexists. split; [reflexivity|].
      f_equal; [lia|]. rewrite push_vert_verts, push_verts_app, <- app_assoc. f_equal. f_equal.
      rewrite zrange_last, flat_map_app by lia. cbn. rewrite Ez. reflexivity.
    + rewrite zrange_last, flat_map_app by lia. cbn [flat_map]. rewrite app_nil_r. f_equal. lia.
  - cbn [bind snd]. apply grid_quads_ok; [exact Hx|exact Hy|]. rewrite nbv_push_verts.
    rewrite (vsize_flat_map0 _ sx); [reflexivity| |lia].
    intros y Hy'. unfold z_row. rewrite (vsize_flat_map0 _ 1); [lia| |lia].
    intros x Hx'. destruct (G x y ltac:(lia) ltac:(lia)) as [z ->]. reflexivity.
Qed.

Lemma z_verts_get vz sx sy x y : 1 <= sx -> 1 <= sy -> sx * sy = vsize vz -> 0 <= x < sx -> 0 <= y < sy ->
  exists z, vget vz (x + sx * y) = Ok z /\ vget (flat_map (z_row vz sx) (zrange 0 sy)) (x + sx * y) = Ok (mkP (nofZ x) (nofZ y) z).
Proof.
  intros Hx Hy Hs Hx' Hy'.
  assert (forall x y, 0 <= x < sx -> 0 <= y < sy -> exists z, vget vz (x + sx * y) = Ok z) as G.
  { intros. apply vget_in_range. nia. }
  assert (forall x y, 0 <= x < sx -> 0 <= y < sy -> vsize (match vget vz (x + sx * y) with Ok z => [mkP (nofZ x) (nofZ y) z] | Err _ => [] end) = 1) as S1.
  { intros u v Hu Hv. destruct (G u v Hu Hv) as [z ->]. reflexivity. }
  destruct (G x y Hx' Hy') as [z Ez]. exists z. split; [exact Ez|].
  rewrite Z.add_comm. rewrite (vget_flat_map (z_row vz sx) sx sy y x); [| |exact Hy'|exact Hx'].
  - unfold z_row. replace x with (1 * x + 0) at 1 by lia. rewrite (vget_flat_map _ 1 sx x 0); [rewrite Ez; reflexivity| |exact Hx'|lia].
    intros. apply S1; lia.
  - intros v Hv. unfold z_row. rewrite (vsize_flat_map0 _ 1); [lia| |lia]. intros; apply S1; lia.
Qed.

Lemma create_from_z_facts vz sx sy m : 1 <= sx -> 1 <= sy -> sx * sy = vsize vz -> vsize vz <= int_max ->
  exists m', create_from_z vz sx sy m = Ok m' /\ (reach m -> reach m') /\
    nb_vertices m' = sx * sy /\
    (forall x y, 0 <= x < sx -> 0 <= y < sy -> exists z, vget vz (x + sx * y) = Ok z /\ get_vertex m' (x + sx * y) = Ok (mkP (nofZ x) (nofZ y) z)) /\
    nb_triangles m' = 2 * (sx - 1) * (sy - 1) /\
    (forall i j, 0 <= i < sx - 1 -> 0 <= j < sy - 1 ->
       let t := 2 * (i + (sx - 1) * j) in
       get_triangle_vertices m' t = Ok (i + sx * j, i + 1 + sx * j, i + 1 + sx * (j + 1)) /\
       get_triangle_vertices m' (t + 1) = Ok (i + 1 + sx * (j + 1), i + sx * (j + 1), i + sx * j) /\
       is_triangle_unlinked m' t = Ok false /\ is_triangle_unlinked m' (t + 1) = Ok false).
Proof.
  intros Hx Hy Hs HM. pose proof (create_from_z_ok vz sx sy m Hx Hy Hs HM) as E. eexists. split; [exact E|].
  split; [intros R; exact (R_from_z m vz sx sy _ R E)|].
  set (vs := flat_map (z_row vz sx) (zrange 0 sy)) in *.
  assert (vsize vs = sx * sy) as SV.
  { assert (forall x y, 0 <= x < sx -> 0 <= y < sy -> exists z, vget vz (x + sx * y) = Ok z) as G by (intros; apply vget_in_range; nia).
    unfold vs. apply vsize_flat_map0; [|lia]. intros y Hy'. unfold z_row.
    rewrite (vsize_flat_map0 _ 1); [lia| |lia].
    intros x Hx'. destruct (G x y ltac:(lia) ltac:(lia)) as [z ->]. reflexivity. }
  split; [|split; [|split]].
  - change (nb_vertices (push_verts (clear m) vs) = sx * sy). rewrite nbv_push_verts, SV. reflexivity.
  - intros x y Hx' Hy'. destruct (z_verts_get vz sx sy x y Hx Hy Hs Hx' Hy') as [z [E1 E2]]. exists z. split; [exact E1|].
    apply get_vertex_ok. exact E2.
  - rewrite nbt_push_tris, grid_triples_size by assumption. reflexivity.
  - intros i j Hi Hj t.
    assert (forall r a b c, 0 <= r < 2 -> vget (cell sx i j) r = Ok (a, b, c) ->
       get_triangle_vertices (push_tris (push_verts (clear m) vs) (grid_triples sx sy)) (t + r) = Ok (a, b, c) /\
       is_triangle_unlinked (push_tris (push_verts (clear m) vs) (grid_triples sx sy)) (t + r) = Ok false) as K.
    { intros r a b c Hr Er. rewrite <- (grid_triples_get sx sy i j r Hx Hy Hi Hj Hr) in Er. apply (push_tris_get (push_verts (clear m) vs)) in Er. exact Er. }
    destruct (K 0 _ _ _ ltac:(lia) eq_refl) as [A1 A2]. destruct (K 1 _ _ _ ltac:(lia) eq_refl) as [B1 B2].
    rewrite Z.add_0_r in A1, A2. auto.
Qed.

(** ** create_from_grid *)
Lemma create_from_grid_ok vp sx sy m : 1 <= sx -> 1 <= sy -> sx * sy = vsize vp -> vsize vp <= int_max ->
  create_from_grid vp sx sy m = Ok (push_tris (push_verts (clear m) vp) (grid_triples sx sy)).
Proof.
  intros Hx Hy Hs HM. unfold create_from_grid. rewrite iint_ok by (unfold int_min; nia). cbn [bind]. rewrite bind_massert_true by lia.
  edestruct (for_inv (fun y s => s = push_verts (clear m) (firstn (Z.to_nat (sx * y)) vp))) as [s [E H]]; [| | |rewrite E, H].
  - lia.
  - cbn beta. rewrite Z.mul_0_r. cbn. rewrite push_verts_nil. reflexivity.
  - intros y s Hy' ->. cbn beta.
    edestruct (for_inv (fun x s => s = push_verts (clear m) (firstn (Z.to_nat (sx * y + x)) vp))) as [s [E H]];
      [| | |exists s; split; [exact E|rewrite H]].
    + lia.
    + cbn beta. rewrite Z.add_0_r. reflexivity.
    + intros x s Hx' ->. destruct (vget_in_range vp (x + sx * y)) as [p Ep]; [nia|]. rewrite Ep. cbn [bind]. rewrite add_vertex_spec. cbn [fst].
      eexists. split; [reflexivity|]. rewrite push_vert_verts, push_verts_app. f_equal. rewrite Z.add_assoc, (Z.add_comm (sx * y) x).
      symmetry. apply firstn_vget. exact Ep.
    + f_equal. f_equal. f_equal. lia.
  - cbn [bind]. rewrite Hs, firstn_vsize. apply grid_quads_ok; [exact Hx|exact Hy|]. rewrite nbv_push_verts. cbn. lia.
Qed.

Lemma create_from_grid_facts vp sx sy m : 1 <= sx -> 1 <= sy -> sx * sy = vsize vp -> vsize vp <= int_max ->
  exists m', create_from_grid vp sx sy m = Ok m' /\ (reach m -> reach m') /\
    nb_vertices m' = sx * sy /\
    (forall i, 0 <= i < sx * sy -> get_vertex m' i = vget vp i) /\
    nb_triangles m' = 2 * (sx - 1) * (sy - 1) /\
    (forall i j, 0 <= i < sx - 1 -> 0 <= j < sy - 1 ->
       let t := 2 * (i + (sx - 1) * j) in
       get_triangle_vertices m' t = Ok (i + sx * j, i + 1 + sx * j, i + 1 + sx * (j + 1)) /\
       get_triangle_vertices m' (t + 1) = Ok (i + 1 + sx * (j + 1), i + sx * (j + 1), i + sx * j) /\
       is_triangle_unlinked m' t = Ok false /\ is_triangle_unlinked m' (t + 1) = Ok false).
Proof.
  intros Hx Hy Hs HM. pose proof (create_from_grid_ok vp sx sy m Hx Hy Hs HM) as E. eexists. split; [exact E|].
  split; [intros R; exact (R_from_grid m vp sx sy _ R E)|].
  split; [|split; [|split]].
  - change (nb_vertices (push_verts (clear m) vp) = sx * sy). rewrite nbv_push_verts, <- Hs. reflexivity.
  - intros i Hi. destruct (vget_in_range vp i) as [p Ep]; [lia|]. rewrite Ep. apply get_vertex_ok. exact Ep.
  - rewrite nbt_push_tris, grid_triples_size by assumption. reflexivity.
  - intros i j Hi Hj t.
    assert (forall r a b c, 0 <= r < 2 -> vget (cell sx i j) r = Ok (a, b, c) ->
       get_triangle_vertices (push_tris (push_verts (clear m) vp) (grid_triples sx sy)) (t + r) = Ok (a, b, c) /\
       is_triangle_unlinked (push_tris (push_verts (clear m) vp) (grid_triples sx sy)) (t + r) = Ok false) as K.
    { intros r a b c Hr Er. rewrite <- (grid_triples_get sx sy i j r Hx Hy Hi Hj Hr) in Er. apply (push_tris_get (push_verts (clear m) vp)) in Er. exact Er. }
    destruct (K 0 _ _ _ ltac:(lia) eq_refl) as [A1 A2]. destruct (K 1 _ _ _ ltac:(lia) eq_refl) as [B1 B2].
    rewrite Z.add_0_r in A1, A2. auto.
Qed.

Lemma grid_size_mismatch vz vp sx sy m :
  int_min <= sx * sy <= int_max ->
  (sx * sy <> vsize vz -> create_from_z vz sx sy m = Err FAssert) /\
  (sx * sy <> vsize vp -> create_from_grid vp sx sy m = Err FAssert).
Proof.
  intros F. split; intros H; [unfold create_from_z|unfold create_from_grid]; rewrite (iint_ok _ F); cbn; replace (sx * sy =? _) with false by lia; reflexivity.
Qed.
Lemma grid_size_overflow vz vp sx sy m : ~ int_min <= sx * sy <= int_max ->
  create_from_z vz sx sy m = Err FOverflow /\ create_from_grid vp sx sy m = Err FOverflow.
Proof. intros F. unfold create_from_z, create_from_grid. rewrite (iint_bad _ F). split; reflexivity. Qed.
End Grid.
