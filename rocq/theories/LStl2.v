(** Writing STL files; round trip. *)
From Coq Require Import ZArith List Bool Lia Psatz.
From Verif Require Import Base Num MGeometry MKernel MMesh MMeshRun MStream MImage MStl SMesh SReach SImage SStl LBase LMesh LReach LImage LImage2 LImage3 LBmp LBmp3 LBmp4 LStl.
Import ListNotations.
Open Scope Z_scope.

(** Concatenation of blocks of the same size. *)
Lemma flat_size {A} (g : A -> list Z) s xs : (forall x, In x xs -> vsize (g x) = s) -> vsize (flat_map g xs) = s * vsize xs.
Proof. induction xs as [|x xs IH]; intros H; [unfold vsize; cbn; lia|]. cbn [flat_map]. rewrite vsize_app, (H x (or_introl eq_refl)), IH by (intros y Hy; apply H; right; exact Hy). unfold vsize. cbn [length]. lia. Qed.
Lemma flat_byte {A} (g : A -> list Z) s d xs i r : (forall x, In x xs -> vsize (g x) = s) -> 0 <= r < s -> (i < length xs)%nat -> byte (flat_map g xs) (s * Z.of_nat i + r) = byte (g (nth i xs d)) r.
Proof.
  revert i. induction xs as [|x xs IH]; intros i H Hr Hi; [cbn in Hi; lia|]. cbn [flat_map]. assert (vsize (g x) = s) as SX by (apply H; cbn; auto). destruct i as [|i].
  - cbn [nth]. rewrite byte_app_l by lia. f_equal. lia.
  - cbn [nth]. rewrite byte_app_r by nia. rewrite SX. replace (s * Z.of_nat (S i) + r - s) with (s * Z.of_nat i + r) by nia. apply IH; [intros; apply H; cbn; auto|exact Hr|cbn in Hi; lia].
Qed.
Lemma flat_ok {A} (g : A -> list Z) xs : (forall x, In x xs -> bytes_ok (g x)) -> bytes_ok (flat_map g xs).
Proof. induction xs as [|x xs IH]; intros H; [constructor|]. cbn. apply bytes_app; [apply H; cbn; auto|apply IH; intros; apply H; cbn; auto]. Qed.

Section Save.
Context {T : Type} {N : Num T} {F : Single T}.

Definition facet_bytes (t : Triangle3 T) : list Z := le 4 0 ++ le 4 0 ++ le 4 0 ++ stl_coords t ++ le 2 0.
Lemma facet_size t : vsize (facet_bytes t) = 50. Proof. unfold facet_bytes, stl_coords. rewrite !vsize_app, !vsize_le. reflexivity. Qed.
Lemma facet_ok t : bytes_ok (facet_bytes t). Proof. unfold facet_bytes, stl_coords. repeat apply bytes_app; apply le_ok. Qed.

(** Coordinate [k] of corner [j]. *)
Definition corner (t : Triangle3 T) (j : Z) : Point3 T := if j =? 0 then t1 t else if j =? 1 then t2 t else t3 t.
Definition coord (p : Point3 T) (k : Z) : T := if k =? 0 then px p else if k =? 1 then py p else pz p.
Lemma facet_coord t j k b : 0 <= j < 3 -> 0 <= k < 3 -> 0 <= b < 4 -> byte (facet_bytes t) (12 + (12 * j + 4 * k + b)) = (f_bits (coord (corner t j) k) / 256 ^ b) mod 256.
Proof.
  intros J K B. rewrite <- (byte_le 4 (f_bits (coord (corner t j) k)) b) by (change (Z.of_nat 4) with 4; lia). unfold facet_bytes, stl_coords.
  assert (b = 0 \/ b = 1 \/ b = 2 \/ b = 3) as DB by lia. assert (j = 0 \/ j = 1 \/ j = 2) as DJ by lia. assert (k = 0 \/ k = 1 \/ k = 2) as DK by lia.
  cbn [le app].
  destruct DJ as [->|[->| ->]]; destruct DK as [->|[->| ->]]; destruct DB as [->|[->|[->| ->]]]; reflexivity.
Qed.

Definition tri_of (a : AMesh T) (d : Point3 T) (t : triple) : Triangle3 T := let '(x, y, z) := t in mkTri (pt a x d) (pt a y d) (pt a z d).

Lemma vget_pt (m : Mesh T) i p d : vget (kverts (mkern m)) i = Ok p -> pt (abs m) i d = p.
Proof. intros E. unfold pt, abs. cbn [averts]. revert E. unfold vget. destruct (i <? 0); [discriminate|]. destruct (nth_error (kverts (mkern m)) (Z.to_nat i)) as [q|] eqn:NE; [|discriminate]. intros [= ->]. apply nth_error_nth. exact NE. Qed.

Lemma stl_save_ok (m : Mesh T) d : wf m ->
  stl_save m = Ok (repeat 0 80 ++ le 4 (len (live (abs m))) ++ flat_map (fun t => facet_bytes (tri_of (abs m) d t)) (live (abs m))).
Proof.
  intros W. unfold stl_save. change (for_ 0 20 (fun _ out => Ok (out ++ le 4 0)) []) with (Ok (repeat 0 80)). cbn [bind].
  edestruct (for_inv (fun i n => n = len (live_lt (firstn (Z.to_nat i) (ktris (mkern m))))) 0 (nb_triangles m)) as [n [En Hn]].
  4: { rewrite En. cbn [bind]. unfold nb_triangles, k_nbt in Hn. rewrite firstn_vsize in Hn. rewrite <- live_abs in Hn. subst n.
    edestruct (for_inv (fun i out => out = (repeat 0 80 ++ le 4 (len (live (abs m)))) ++ flat_map (fun t => facet_bytes (tri_of (abs m) d t)) (live_lt (firstn (Z.to_nat i) (ktris (mkern m))))) 0 (nb_triangles m)) as [out [Eo Ho]].
    4: { rewrite Eo, Ho. unfold nb_triangles, k_nbt. rewrite firstn_vsize, <- live_abs, <- app_assoc. reflexivity. }
    - apply vsize_nonneg.
    - cbn [Z.to_nat firstn]. unfold live_lt. cbn [map filter flat_map]. rewrite app_nil_r. reflexivity.
    - intros i out Hi ->. cbv beta. destruct (wf_tri_get m i W Hi) as [t [E Wt]]. rewrite (is_unlinked_ok _ _ _ E). cbn [bind]. rewrite (firstn_vget _ _ _ E), live_lt_app, flat_map_app.
      destruct (lunl t =? -1) eqn:U.
      + eexists. split; [reflexivity|]. unfold live_lt at 3. cbn [map filter abs_tri snd negb]. rewrite U. cbn. rewrite app_nil_r. reflexivity.
      + destruct (get_triangle_ok m i t W E) as [p [q [r [Ep [Eq [Er G]]]]]]. rewrite G. cbn [bind]. eexists. split; [reflexivity|]. unfold live_lt at 3. cbn [map filter abs_tri snd negb]. rewrite U. cbn [negb map fst flat_map].
        assert (tri_of (abs m) d (fst (abs_tri t)) = mkTri p q r) as -> by (unfold tri_of, abs_tri; cbn [fst]; rewrite (vget_pt m _ p d Ep), (vget_pt m _ q d Eq), (vget_pt m _ r d Er); reflexivity). rewrite app_nil_r, <- !app_assoc. reflexivity. }
  - apply vsize_nonneg.
  - reflexivity.
  - intros i n Hi ->. cbv beta. destruct (wf_tri_get m i W Hi) as [t [E Wt]]. rewrite (is_unlinked_ok _ _ _ E). cbn [bind]. rewrite (firstn_vget _ _ _ E), live_lt_app. unfold len. rewrite app_length. assert (length (live_lt [t]) = if lunl t =? -1 then 0%nat else 1%nat) as -> by (unfold live_lt; cbn; destruct (lunl t =? -1); reflexivity).
    destruct (lunl t =? -1); eexists; (split; [reflexivity|]); lia.
Qed.

Lemma tri_corner a d t j : 0 <= j < 3 -> corner (tri_of a d t) j = nth (Z.to_nat j) (let '(x, y, z) := t in [pt a x d; pt a y d; pt a z d]) d.
Proof. intros H. destruct t as [[x y] z]. assert (j = 0 \/ j = 1 \/ j = 2) as [->|[->| ->]] by lia; reflexivity. Qed.

Lemma stl_round_trip (m m0 : Mesh T) a d : reach m -> shows m a -> reach m0 -> len (live a) < 2147483648 -> (forall x, 0 <= f_bits x < 4294967296) ->
  exists l m', stl_save m = Ok l /\ vsize l = 84 + 50 * len (live a) /\ bytes_ok l /\ stl_load l m0 = Ok (true, m') /\ reach m' /\
    shows m' (mkA (map single (soup d a)) (soup_tris (length (live a))) (get_color m0)).
Proof.
  intros R S R0 L FB. assert (a = abs m) as -> by (apply (shows_unique m); [exact S|apply shows_abs]). pose proof (reach_wf m R) as W.
  pose proof (stl_save_ok m d W) as E. set (ts := live (abs m)) in *. set (g := fun t => facet_bytes (tri_of (abs m) d t)) in *. set (l := repeat 0 80 ++ le 4 (len ts) ++ flat_map g ts) in *.
  assert (vsize (flat_map g ts) = 50 * len ts) as SF. { rewrite (flat_size g 50); [reflexivity|]. intros; apply facet_size. }
  assert (vsize l = 84 + 50 * len ts) as SL. { unfold l. rewrite !vsize_app, vsize_repeat, vsize_le, SF. lia. }
  assert (bytes_ok l) as OK. { unfold l. repeat apply bytes_app; [apply bytes_zero|apply le_ok|apply flat_ok; intros; apply facet_ok]. }
  destruct (stl_load_ok l m0 OK R0) as [m' [EL [R' A']]]. exists l, m'. do 5 (split; [assumption|]).
  assert (stl_count l = len ts) as CNT.
  { unfold stl_count, field4, l. assert (forall i, 0 <= i < 4 -> byte (repeat 0 80 ++ le 4 (len ts) ++ flat_map g ts) (80 + i) = byte (le 4 (len ts)) i) as B.
    { intros i Hi. rewrite byte_app_r by (rewrite vsize_repeat; lia). rewrite vsize_repeat. rewrite byte_app_l by (rewrite vsize_le; lia). f_equal. lia. }
    change 80 with (80 + 0) at 1. rewrite !B by lia. apply four_bytes. split; [unfold len; lia|exact L]. }
  pose proof (shows_abs m') as SH. rewrite A' in SH. rewrite CNT in SH. replace (Z.to_nat (len ts)) with (length ts) in SH by (unfold len; lia).
  enough (soup_verts (last_point l) (length ts) = map single (soup d (abs m))) as EV by (rewrite <- EV; exact SH).
  assert (forall i j, (i < length ts)%nat -> 0 <= j < 3 -> last_point l i j = single (corner (tri_of (abs m) d (nth i ts (0, 0, 0))) j)) as LP.
  { intros i j Hi Hj. unfold last_point. assert (forall k, 0 <= k < 3 -> f_val (word4 (fun b => last_byte l i (12 * j + 4 * k + b))) = f_val (f_bits (coord (corner (tri_of (abs m) d (nth i ts (0, 0, 0))) j) k))) as C.
    { intros k Hk. f_equal. rewrite <- (word4_le (f_bits (coord (corner (tri_of (abs m) d (nth i ts (0, 0, 0))) j) k)) (FB _)). apply word4_ext. intros b Hb.
      rewrite last_complete. 2: { unfold stl_pos. rewrite SL. unfold len. lia. }
      rewrite <- facet_coord by lia. unfold stl_pos, l. rewrite app_assoc. rewrite byte_app_r by (rewrite vsize_app, vsize_repeat, vsize_le; lia). rewrite vsize_app, vsize_repeat, vsize_le.
      replace (84 + 50 * Z.of_nat i + 12 + (12 * j + 4 * k + b) - (Z.of_nat 80 + Z.of_nat 4)) with (50 * Z.of_nat i + (12 + (12 * j + 4 * k + b))) by lia.
      apply (flat_byte g 50 (0, 0, 0)); [intros; apply facet_size|lia|exact Hi]. }
    rewrite (C 0), (C 1), (C 2) by lia. reflexivity. }
  unfold soup_verts, soup. fold ts.
  rewrite !flat_map_concat_map. rewrite concat_map, map_map. f_equal. apply nth_error_ext. intros n.
  rewrite !nth_error_map. destruct (Nat.lt_ge_cases n (length ts)) as [Hn|Hn].
  - rewrite (nth_error_nth' (seq 0 (length ts)) 0%nat) by (rewrite seq_length; exact Hn). rewrite seq_nth by exact Hn. pose proof (nth_error_nth' (A := triple) ts (0, 0, 0) Hn) as QN. unfold triple in *. rewrite QN. cbn [option_map Nat.add]. f_equal.
    rewrite !LP by (try exact Hn; lia). rewrite !tri_corner by lia. destruct (nth n ts (0, 0, 0)) as [[x y] z]. reflexivity.
  - rewrite (proj2 (nth_error_None (seq 0 (length ts)) n)) by (rewrite seq_length; exact Hn). pose proof (proj2 (nth_error_None ts n) Hn) as QN. unfold triple in *. rewrite QN. reflexivity.
Qed.

(** Loading any bytes, as the client sees it. *)
Lemma soup_verts_nth (pf : nat -> Z -> Point3 T) n i j : (i < n)%nat -> 0 <= j < 3 -> nth_error (soup_verts pf n) (Z.to_nat (3 * Z.of_nat i + j)) = Some (pf i j).
Proof.
  intros Hi Hj. induction n as [|n IH]; [lia|]. rewrite soup_verts_S. pose proof (soup_verts_len pf n) as LN. unfold len in LN. destruct (Nat.eq_dec i n) as [->|NE].
  - rewrite nth_error_app2 by lia. replace (Z.to_nat (3 * Z.of_nat n + j) - length (soup_verts pf n))%nat with (Z.to_nat j) by lia. assert (j = 0 \/ j = 1 \/ j = 2) as [->|[->| ->]] by lia; reflexivity.
  - rewrite nth_error_app1 by lia. apply IH. lia.
Qed.
Lemma stl_load_any l (m : Mesh T) : bytes_ok l -> reach m ->
  exists m', stl_load l m = Ok (true, m') /\ reach m' /\ shows m' (mkA (soup_verts (last_point l) (Z.to_nat (stl_count l))) (soup_tris (Z.to_nat (stl_count l))) (get_color m)).
Proof. intros OK R. destruct (stl_load_ok l m OK R) as [m' [E [R' A]]]. exists m'. split; [exact E|]. split; [exact R'|]. rewrite <- A. apply shows_abs. Qed.
Lemma stl_load_complete l (m : Mesh T) : bytes_ok l -> reach m -> 84 + 50 * stl_count l <= vsize l ->
  exists m', stl_load l m = Ok (true, m') /\ reach m' /\ nb_vertices m' = 3 * Z.max 0 (stl_count l) /\ nb_triangles m' = Z.max 0 (stl_count l) /\
    forall i, 0 <= i < stl_count l -> get_triangle_vertices m' i = Ok (3 * i, 3 * i + 1, 3 * i + 2) /\ is_triangle_unlinked m' i = Ok false /\
      forall j, 0 <= j < 3 -> get_vertex m' (3 * i + j) = Ok (stl_point l i j).
Proof.
  intros OK R L. destruct (stl_load_any l m OK R) as [m' [E [R' [S1 [S2 [_ [S4 S5]]]]]]]. exists m'. split; [exact E|]. split; [exact R'|]. cbn [averts atris] in *. rewrite soup_verts_len in S1. unfold soup_tris, len in S2. rewrite map_length, seq_length in S2. split; [lia|]. split; [lia|].
  intros i Hi. specialize (S5 i). unfold soup_tris in S5. rewrite nth_error_map in S5. rewrite (nth_error_nth' (seq 0 (Z.to_nat (stl_count l))) 0%nat) in S5 by (rewrite seq_length; lia). rewrite seq_nth in S5 by lia. cbn [option_map Nat.add] in S5. rewrite Z2Nat.id in S5 by lia.
  destruct (S5 ltac:(lia)) as [K1 K2]. split; [exact K1|]. split; [exact K2|]. intros j Hj. specialize (S4 (3 * i + j)). pose proof (soup_verts_nth (last_point l) (Z.to_nat (stl_count l)) (Z.to_nat i) j ltac:(lia) Hj) as NV. rewrite Z2Nat.id in NV by lia. rewrite NV in S4. rewrite (S4 ltac:(lia)). f_equal.
  unfold last_point, stl_point. f_equal; f_equal; apply word4_ext; intros b Hb; (rewrite last_complete by (unfold stl_pos; lia)); f_equal; unfold stl_pos; lia.
Qed.
End Save.
Lemma stl_shown_count {T} {N : Num T} (m' : Mesh T) vs l c : shows m' (mkA vs (soup_tris (Z.to_nat (stl_count l))) c) -> nb_triangles m' = Z.max 0 (stl_count l).
Proof. intros [_ [S2 _]]. cbn [atris] in S2. unfold soup_tris, len in S2. rewrite map_length, seq_length in S2. lia. Qed.
Lemma stl_truncated {T} {N : Num T} {F : Single T} l (m : Mesh T) : bytes_ok l -> reach m -> vsize l < 84 + 50 * stl_count l ->
  exists m', stl_load l m = Ok (true, m') /\ nb_triangles m' = Z.max 0 (stl_count l).
Proof. intros OK R _. destruct (stl_load_any l m OK R) as [m' [E [_ S]]]. exists m'. split; [exact E|]. eapply stl_shown_count, S. Qed.
