(** STL files. *)
From Coq Require Import ZArith List Bool Lia Psatz.
From Verif Require Import Base Num MGeometry MKernel MMesh MMeshRun MStream MImage MStl SMesh SReach SImage SStl LBase LMesh LReach LImage LImage3 LBmp LBmp3.
Import ListNotations.
Open Scope Z_scope.

(** ** Words *)
Lemma word4_ok b : (forall i, 0 <= i < 4 -> 0 <= b i < 256) -> 0 <= word4 b < 4294967296.
Proof. intros H. unfold word4. pose proof (H 0 ltac:(lia)). pose proof (H 1 ltac:(lia)). pose proof (H 2 ltac:(lia)). pose proof (H 3 ltac:(lia)). lia. Qed.
Lemma word4_ext b b' : (forall i, 0 <= i < 4 -> b i = b' i) -> word4 b = word4 b'.
Proof. intros H. unfold word4. rewrite !H by lia. reflexivity. Qed.
Lemma word4_byte b i : (forall i, 0 <= i < 4 -> 0 <= b i < 256) -> 0 <= i < 4 -> (word4 b / 256 ^ i) mod 256 = b i.
Proof.
  intros H Hi. pose proof (H 0 ltac:(lia)). pose proof (H 1 ltac:(lia)). pose proof (H 2 ltac:(lia)). pose proof (H 3 ltac:(lia)). unfold word4. set (b0 := b 0) in *. set (b1 := b 1) in *. set (b2 := b 2) in *. set (b3 := b 3) in *.
  assert (i = 0 \/ i = 1 \/ i = 2 \/ i = 3) as [->|[->|[->| ->]]] by lia; unfold b0, b1, b2, b3; symmetry.
  - change (256 ^ 0) with 1. rewrite Z.div_1_r. apply (Z.mod_unique _ _ (b1 + 256 * b2 + 65536 * b3)); [left; exact H0|]. unfold b1, b2, b3. lia.
  - change (256 ^ 1) with 256. rewrite <- (Z.div_unique (b 0 + 256 * b 1 + 65536 * b 2 + 16777216 * b 3) 256 (b1 + 256 * b2 + 65536 * b3) b0) by (unfold b0, b1, b2, b3; lia).
    apply (Z.mod_unique _ _ (b2 + 256 * b3)); [left; exact H1|]. unfold b1, b2, b3. lia.
  - change (256 ^ 2) with 65536. rewrite <- (Z.div_unique (b 0 + 256 * b 1 + 65536 * b 2 + 16777216 * b 3) 65536 (b2 + 256 * b3) (b0 + 256 * b1)) by (unfold b0, b1, b2, b3 in *; lia).
    apply (Z.mod_unique _ _ b3); [left; exact H2|]. unfold b2, b3. lia.
  - change (256 ^ 3) with 16777216. rewrite <- (Z.div_unique (b 0 + 256 * b 1 + 65536 * b 2 + 16777216 * b 3) 16777216 b3 (b0 + 256 * b1 + 65536 * b2)) by (unfold b0, b1, b2, b3 in *; lia).
    symmetry. apply Z.mod_small. exact H3.
Qed.
Lemma word4_le v : 0 <= v < 4294967296 -> word4 (fun i => (v / 256 ^ i) mod 256) = v.
Proof.
  intros H. unfold word4. change (256 ^ 0) with 1. change (256 ^ 1) with 256. change (256 ^ 2) with (256 * 256). change (256 ^ 3) with (256 * 256 * 256). rewrite Z.div_1_r. rewrite <- !Z.div_div by lia.
  set (a := v / 256). set (b := a / 256). set (c := b / 256).
  pose proof (Z.div_mod v 256 ltac:(lia)) as E1. pose proof (Z.div_mod a 256 ltac:(lia)) as E2. pose proof (Z.div_mod b 256 ltac:(lia)) as E3. fold a in E1. fold b in E2. fold c in E3.
  pose proof (Z.mod_pos_bound v 256 ltac:(lia)). pose proof (Z.mod_pos_bound a 256 ltac:(lia)). pose proof (Z.mod_pos_bound b 256 ltac:(lia)).
  rewrite (Z.mod_small c 256) by lia. lia.
Qed.

(** A float read at [pos]: bytes of the file as far as there are any, the old bytes after. *)
Lemma read_bits l pos f old (ob : Z -> Z) : 0 <= pos -> posn l pos f -> bytes_ok l -> (forall i, 0 <= i < 4 -> 0 <= ob i < 256) -> old = word4 ob ->
  exists f', is_read_bits old f = (word4 (fun i => if pos + i <? vsize l then byte l (pos + i) else ob i), f') /\ posn l (pos + 4) f'.
Proof.
  intros HP P OK HO ->. destruct (posn_read l pos f 4 HP ltac:(lia) P) as [f' [E P']]. exists f'. split; [|exact P']. unfold is_read_bits. rewrite E. f_equal. set (g := chunk l pos 4).
  assert (vsize g = Z.min 4 (Z.max 0 (vsize l - pos))) as S by (apply chunk_size; lia). assert (length g = Z.to_nat (vsize g)) as EL by (unfold vsize; lia). rewrite EL.
  set (q := g ++ skipn (Z.to_nat (vsize g)) (le 4 (word4 ob))). assert (vsize q = 4) as SQ. { unfold q. rewrite vsize_app, vsize_skipn, vsize_le by lia. change (Z.of_nat 4) with 4. lia. }
  rewrite unle4 by exact SQ. change (word4 (byte q) = word4 (fun i => if pos + i <? vsize l then byte l (pos + i) else ob i)). apply word4_ext. intros i Hi.
  unfold q. destruct (Z.ltb_spec (pos + i) (vsize l)).
  - rewrite byte_app_l by lia. apply chunk_byte; lia.
  - rewrite byte_app_r by lia. rewrite byte_skipn by lia. replace (vsize g + (i - vsize g)) with i by lia. rewrite byte_le by (change (Z.of_nat 4) with 4; lia). apply word4_byte; assumption.
Qed.

Lemma last_byte_ok l i k : bytes_ok l -> 0 <= last_byte l i k < 256.
Proof. intros OK. induction i as [|i IH]; cbn [last_byte]; destruct (_ <? _); try apply byte_ok; try assumption; lia. Qed.
Lemma last_complete l i k : stl_pos (Z.of_nat i) k < vsize l -> last_byte l i k = byte l (stl_pos (Z.of_nat i) k).
Proof. intros H. apply Z.ltb_lt in H. destruct i; cbn [last_byte]; rewrite H; reflexivity. Qed.

Definition prev_byte (l : list Z) (i : nat) (k : Z) : Z := match i with O => 0 | S i' => last_byte l i' k end.
Lemma last_prev l i k : last_byte l i k = if stl_pos (Z.of_nat i) k <? vsize l then byte l (stl_pos (Z.of_nat i) k) else prev_byte l i k.
Proof. destruct i; reflexivity. Qed.
Lemma prev_ok l i k : bytes_ok l -> 0 <= prev_byte l i k < 256.
Proof. intros OK. destruct i; [cbn; lia|]. apply last_byte_ok. exact OK. Qed.

Section Load.
Context {T : Type} {N : Num T} {F : Single T}.

Lemma nine_reads l i f c : bytes_ok l -> posn l (stl_pos (Z.of_nat i) 0) f -> vsize c = 9 -> (forall j, 0 <= j < 9 -> vget c j = Ok (word4 (fun b => prev_byte l i (4 * j + b)))) ->
  exists c' f', for_ 0 9 (fun j s => do old <- vget (fst s) j; let (v, f) := is_read_bits old (snd s) in do c <- vset (fst s) j v; Ok (c, f)) (c, f) = Ok (c', f') /\
    posn l (stl_pos (Z.of_nat i) 36) f' /\ vsize c' = 9 /\ forall j, 0 <= j < 9 -> vget c' j = Ok (word4 (fun b => last_byte l i (4 * j + b))).
Proof.
  intros OK P S C.
  destruct (for_inv (fun j s => posn l (stl_pos (Z.of_nat i) (4 * j)) (snd s) /\ vsize (fst s) = 9 /\ forall k, 0 <= k < 9 -> vget (fst s) k = Ok (word4 (fun b => if k <? j then last_byte l i (4 * k + b) else prev_byte l i (4 * k + b)))) 0 9
    (fun j s => do old <- vget (fst s) j; let (v, f) := is_read_bits old (snd s) in do c <- vset (fst s) j v; Ok (c, f)) (c, f)) as [[c' f'] [E [P' [S' C']]]].
  - lia.
  - cbn [fst snd]. split; [exact P|]. split; [exact S|]. intros k Hk. rewrite (C k Hk). f_equal. apply word4_ext. intros b _. destruct (Z.ltb_spec k 0); [lia|reflexivity].
  - intros j [cj fj] Hj [Pj [Sj Cj]]. cbn [fst snd] in *. rewrite (Cj j Hj). cbn [bind].
    destruct (read_bits l (stl_pos (Z.of_nat i) (4 * j)) fj (word4 (fun b => if j <? j then last_byte l i (4 * j + b) else prev_byte l i (4 * j + b))) (fun b => prev_byte l i (4 * j + b))) as [f' [E P']].
    + unfold stl_pos. lia.
    + exact Pj.
    + exact OK.
    + intros b _. apply prev_ok. exact OK.
    + apply word4_ext. intros b _. rewrite Z.ltb_irrefl. reflexivity.
    + rewrite E. cbn [bind]. destruct (vset_byte cj j (word4 (fun b => if stl_pos (Z.of_nat i) (4 * j) + b <? vsize l then byte l (stl_pos (Z.of_nat i) (4 * j) + b) else prev_byte l i (4 * j + b))) ltac:(lia)) as [c' [E' [S' B']]]. rewrite E'. cbn [bind].
      eexists. split; [reflexivity|]. cbn [fst snd]. split; [|split].
      * replace (stl_pos (Z.of_nat i) (4 * (j + 1))) with (stl_pos (Z.of_nat i) (4 * j) + 4) by (unfold stl_pos; ring). exact P'.
      * lia.
      * intros k Hk. rewrite vget_byte by lia. rewrite B' by lia. f_equal. destruct (Z.eqb_spec k j) as [->|NE].
        { apply word4_ext. intros b Hb. destruct (Z.ltb_spec j (j + 1)); [|lia]. rewrite last_prev. replace (stl_pos (Z.of_nat i) (4 * j + b)) with (stl_pos (Z.of_nat i) (4 * j) + b) by (unfold stl_pos; ring). reflexivity. }
        { specialize (Cj k Hk). rewrite (byte_of _ _ _ Cj). apply word4_ext. intros b _. destruct (Z.ltb_spec k j), (Z.ltb_spec k (j + 1)); try reflexivity; lia. }
  - exists c', f'. split; [exact E|]. cbn [fst snd] in *. split; [exact P'|]. split; [exact S'|]. intros j Hj. rewrite (C' j Hj). f_equal. apply word4_ext. intros b _. destruct (Z.ltb_spec j 9); [reflexivity|lia].
Qed.

Lemma soup_verts_S (pt : nat -> Z -> Point3 T) n : soup_verts pt (S n) = soup_verts pt n ++ [pt n 0; pt n 1; pt n 2].
Proof. unfold soup_verts. rewrite seq_S, flat_map_app. reflexivity. Qed.
Lemma soup_verts_len (pt : nat -> Z -> Point3 T) n : len (soup_verts pt n) = 3 * Z.of_nat n.
Proof. induction n as [|n IH]; [reflexivity|]. rewrite soup_verts_S. unfold len in *. rewrite app_length. cbn [length]. lia. Qed.
Lemma soup_tris_S n : soup_tris (S n) = soup_tris n ++ [((3 * Z.of_nat n, 3 * Z.of_nat n + 1, 3 * Z.of_nat n + 2), true)].
Proof. unfold soup_tris. rewrite seq_S, map_app. reflexivity. Qed.

Lemma reach_clear (m : Mesh T) : reach m -> reach (clear m).
Proof. intros R. apply (R_step m OpClear (clear m) OutUnit R); [intros f [E|E]; discriminate|reflexivity]. Qed.
Lemma reach_push_tri (m : Mesh T) a b c : reach m -> 0 <= a < nb_vertices m -> 0 <= b < nb_vertices m -> 0 <= c < nb_vertices m -> reach (push_tri m a b c).
Proof. intros R A B C. apply (R_step m (OpAddTriangle a b c) _ (OutId (nb_triangles m)) R); [intros f [E|E]; discriminate|]. unfold mstep, id_out. rewrite tadd by assumption. reflexivity. Qed.
Lemma reach_push_vert (m : Mesh T) p : reach m -> reach (push_vert m p).
Proof. intros R. pose proof (reach_add_vertex m p R) as H. rewrite add_vertex_spec in H. exact H. Qed.

Lemma stl_load_ok l (m : Mesh T) : bytes_ok l -> reach m ->
  exists m', stl_load l m = Ok (true, m') /\ reach m' /\ abs m' = mkA (soup_verts (last_point l) (Z.to_nat (stl_count l))) (soup_tris (Z.to_nat (stl_count l))) (get_color m).
Proof.
  intros OK R. unfold stl_load.
  assert (posn l 0 (is_open l)) as P0 by (left; cbn; repeat split; apply vsize_nonneg).
  destruct (for_inv (fun k f => posn l (4 * k) f) 0 20 (fun _ f => Ok (is_skip 4 f)) (is_open l)) as [f1 [E1 P1]].
  { lia. } { exact P0. } { intros k f Hk P. eexists. split; [reflexivity|]. replace (4 * (k + 1)) with (4 * k + 4) by ring. apply posn_skip; [lia|lia|exact P]. }
  rewrite E1. cbn [bind]. destruct (read_int4 l 80 f1 ltac:(lia) P1) as [f2 [E2 P2]]. rewrite E2. fold (stl_count l). cbn in P2.
  set (inv := fun (k : Z) (s : Mesh T * istream * list Z) => let '(mk, f, c) := s in let n := Z.to_nat k in
    reach mk /\ abs mk = mkA (soup_verts (last_point l) n) (soup_tris n) (get_color m) /\ posn l (84 + 50 * k) f /\ vsize c = 9 /\ forall j, 0 <= j < 9 -> vget c j = Ok (word4 (fun b => prev_byte l n (4 * j + b)))).
  destruct (Z_le_dec 0 (stl_count l)) as [HC|HC].
  2: { rewrite for_empty by lia. cbn [bind fst]. exists (clear m). split; [reflexivity|]. split; [apply reach_clear; exact R|]. replace (Z.to_nat (stl_count l)) with 0%nat by lia. reflexivity. }
  match goal with |- context [for_ 0 (stl_count l) ?bd ?i0] => destruct (for_inv inv 0 (stl_count l) bd i0) as [[[m' f'] c'] [E [R' [A' _]]]] end.
  - exact HC.
  - unfold inv. cbn. split; [apply reach_clear; exact R|]. split; [reflexivity|]. split; [exact P2|]. split; [reflexivity|]. intros j Hj. assert (j = 0 \/ j = 1 \/ j = 2 \/ j = 3 \/ j = 4 \/ j = 5 \/ j = 6 \/ j = 7 \/ j = 8) as D by lia. repeat (destruct D as [->|D]; [reflexivity|]). subst j. reflexivity.
  - intros k [[mk f] c] Hk [Rk [Ak [Pk [Sk Ck]]]]. cbv beta iota zeta.
    pose proof (posn_skip l (84 + 50 * k) f 4 ltac:(lia) ltac:(lia) Pk) as Q1. pose proof (posn_skip l (84 + 50 * k + 4) (is_skip 4 f) 4 ltac:(lia) ltac:(lia) Q1) as Q2. pose proof (posn_skip l (84 + 50 * k + 4 + 4) (is_skip 4 (is_skip 4 f)) 4 ltac:(lia) ltac:(lia) Q2) as Q3.
    set (fa := is_skip 4 (is_skip 4 (is_skip 4 f))) in *.
    destruct (nine_reads l (Z.to_nat k) fa c OK) as [c' [f' [E [P' [S' C']]]]].
    + unfold stl_pos. rewrite Z2Nat.id by lia. replace (84 + 50 * k + 12 + 0) with (84 + 50 * k + 4 + 4 + 4) by ring. exact Q3.
    + exact Sk.
    + exact Ck.
    + rewrite E. cbn [bind fst snd].
      assert (forall j, 0 <= j < 3 -> stl_vertex c' j = Ok (last_point l (Z.to_nat k) j)) as V.
      { intros j Hj. unfold stl_vertex. rewrite !C' by lia. cbn [bind]. unfold last_point. do 2 f_equal; f_equal; apply word4_ext; intros b Hb; f_equal; ring. }
      rewrite (V 0), (V 1), (V 2) by lia. cbn [bind]. rewrite !add_vertex_spec. cbn [fst].
      set (m3 := push_vert (push_vert (push_vert mk (last_point l (Z.to_nat k) 0)) (last_point l (Z.to_nat k) 1)) (last_point l (Z.to_nat k) 2)).
      assert (nb_vertices m3 = nb_vertices mk + 3) as NV by (unfold m3; rewrite !nbv_push_vert; lia).
      assert (nb_vertices mk = 3 * k) as NK. { rewrite <- abs_nbv, Ak. cbn [averts]. rewrite soup_verts_len. lia. }
      rewrite tadd by lia. cbn [bind fst]. eexists. split; [reflexivity|]. unfold inv. replace (Z.to_nat (k + 1)) with (S (Z.to_nat k)) by lia.
      split; [|split; [|split; [|split]]].
      * apply reach_push_tri; try lia. unfold m3. repeat apply reach_push_vert. exact Rk.
      * rewrite abs_push_tri. unfold m3. rewrite !abs_push_vert. rewrite !with_verts_app. unfold with_tris, with_verts. rewrite Ak. cbn [averts atris acolor app map]. rewrite soup_verts_S, soup_tris_S. rewrite Z2Nat.id by lia. fold m3. rewrite NV, NK.
        replace (3 * k + 3 - 3) with (3 * k) by ring. replace (3 * k + 3 - 2) with (3 * k + 1) by ring. replace (3 * k + 3 - 1) with (3 * k + 2) by ring. reflexivity.
      * pose proof (posn_skip l (stl_pos (Z.of_nat (Z.to_nat k)) 36) f' 2 ltac:(unfold stl_pos; lia) ltac:(lia) P') as Q. replace (84 + 50 * (k + 1)) with (stl_pos (Z.of_nat (Z.to_nat k)) 36 + 2) by (unfold stl_pos; lia). exact Q.
      * exact S'.
      * exact C'.
  - rewrite E. cbn [bind fst]. exists m'. split; [reflexivity|]. split; [exact R'|exact A'].
Qed.
End Load.
