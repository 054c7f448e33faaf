(** OBJ files: what the loader does with each line, what the writer produces. *)
From Coq Require Import String Ascii ZArith List Bool Lia.
From Verif Require Import Base Num MGeometry MKernel MMesh MMeshRun MUtil MText MObj SMesh SReach SObj LBase LMesh LReach LGrid LStl LText.
Import ListNotations.
Open Scope Z_scope.

Section Obj.
Context {T : Type} {N : Num T} {X : Text T}.

Lemma word1 c r : is_space c = false -> ss_word (ss_open (c :: 32 :: r)) = ([c], mkSS (32 :: r) true).
Proof. intros H. unfold ss_word, ss_open. cbn [ss_ok ss_rest skip_ws]. rewrite H. cbn [take_word]. rewrite H. reflexivity. Qed.
Lemma line_v (m : Mesh T) p q extra : pt_reads_as p q -> ends extra -> obj_line m (obj_v p ++ extra) = Ok (push_vert m q).
Proof.
  intros ([H1 R1] & [H2 R2] & [H3 R3]) E. unfold obj_line, obj_v. change (str "v ") with [118; 32]. change (str " ") with [32]. cbn [app].
  match goal with |- context [vsize ?l =? 0] => destruct (Z.eqb_spec (vsize l) 0) as [Z0|_] end. { rewrite !vsize_cons in Z0. match type of Z0 with context [vsize ?l] => pose proof (vsize_nonneg l) end. lia. }
  rewrite word1 by reflexivity.
  change (text_eqb [118] (str "v")) with true. change (text_eqb [118] (str "f")) with false. cbv iota.
  rewrite <- !app_assoc. cbn [app]. rewrite <- !app_assoc. cbn [app].
  rewrite (ss_get_blank f_scan None (f_show (px p)) _ (px q)); [|exact H1|apply R1; reflexivity].
  cbn [app]. rewrite (ss_get_blank f_scan None (f_show (py p)) _ (py q)); [|exact H2|apply R2; reflexivity].
  rewrite (ss_get_blank f_scan None (f_show (pz p)) _ (pz q)); [|exact H3|apply R3; exact E].
  cbn [bind]. rewrite add_vertex_spec. destruct q; reflexivity.
Qed.

Definition obj_f (k : Z) (t : triple) : list Z := let '(a, b, c) := t in str "f " ++ show_int (a + 1 + k) ++ str " " ++ show_int (b + 1 + k) ++ str " " ++ show_int (c + 1 + k).
Lemma line_f (m : Mesh T) k a b c : 0 <= a + k < int_max -> 0 <= b + k < int_max -> 0 <= c + k < int_max ->
  obj_line m (obj_f k (a, b, c)) = do r <- add_triangle m (a + k) (b + k) (c + k); Ok (fst r).
Proof.
  intros A B C. unfold obj_line, obj_f. change (str "f ") with [102; 32]. change (str " ") with [32]. cbn [app].
  match goal with |- context [vsize ?l =? 0] => destruct (Z.eqb_spec (vsize l) 0) as [Z0|_] end. { rewrite !vsize_cons in Z0. match type of Z0 with context [vsize ?l] => pose proof (vsize_nonneg l) end. lia. }
  rewrite word1 by reflexivity.
  change (text_eqb [102] (str "v")) with false. change (text_eqb [102] (str "f")) with true. cbv iota. cbn [bind].
  rewrite ss_int by (first [lia|reflexivity]). rewrite ss_int by (first [lia|reflexivity]).
  rewrite <- (app_nil_r (show_int (c + 1 + k))). rewrite ss_int by (first [lia|exact I]).
  replace (a + 1 + k - 1) with (a + k) by lia. replace (b + 1 + k - 1) with (b + k) by lia. replace (c + 1 + k - 1) with (c + k) by lia. rewrite !iint_ok by (unfold int_min; lia). reflexivity.
Qed.
Lemma line_l (m : Mesh T) r : obj_line m (108 :: 32 :: r) = Ok m.
Proof.
  unfold obj_line. match goal with |- context [vsize ?l =? 0] => destruct (Z.eqb_spec (vsize l) 0) as [Z0|_] end. { rewrite !vsize_cons in Z0. pose proof (vsize_nonneg r). lia. }
  rewrite word1 by reflexivity.
  change (text_eqb [108] (str "v")) with false. change (text_eqb [108] (str "f")) with false. reflexivity.
Qed.
Lemma line_nil (m : Mesh T) : obj_line m [] = Ok m. Proof. reflexivity. Qed.

Lemma obj_lines_app ls ls' : forall m : Mesh T, obj_lines m (ls ++ ls') = do m <- obj_lines m ls; obj_lines m ls'.
Proof. induction ls as [|l ls IH]; intros m; [reflexivity|]. cbn [app obj_lines]. destruct (obj_line m l) as [m'|f]; [apply IH|reflexivity]. Qed.

Lemma lines_v extra vs qs : Forall2 pt_reads_as vs qs -> ends extra -> forall m : Mesh T, obj_lines m (map (fun p => obj_v p ++ extra) vs) = Ok (push_verts m qs).
Proof.
  intros F E. induction F as [|p q vs qs R F IH]; intros m; cbn [map obj_lines]; [rewrite push_verts_nil; reflexivity|].
  rewrite (line_v m p q extra R E). cbn [bind]. rewrite IH. rewrite push_vert_verts, push_verts_app. reflexivity.
Qed.
Lemma lines_f k ts : (forall a b c, In (a, b, c) ts -> 0 <= a + k < int_max /\ 0 <= b + k < int_max /\ 0 <= c + k < int_max) ->
  forall m : Mesh T, obj_lines m (map (obj_f k) ts) = if forallb (below (nb_vertices m)) (map (shift k) ts) then Ok (push_tris m (map (shift k) ts)) else Err FAssert.
Proof.
  intros H. induction ts as [|[[a b] c] ts IH]; intros m; cbn [map obj_lines forallb]; [rewrite push_tris_nil; reflexivity|].
  destruct (H a b c ltac:(left; reflexivity)) as (A & B & C). rewrite line_f by assumption. rewrite add_triangle_spec. cbn [shift below].
  assert (forall i, 0 <= i -> in_range i (nb_vertices m) = (i <? nb_vertices m)) as IR. { intros i Hi. unfold in_range. rewrite (proj2 (Z.leb_le 0 i) Hi). reflexivity. }
  rewrite !IR by lia. destruct ((a + k <? nb_vertices m) && (b + k <? nb_vertices m) && (c + k <? nb_vertices m)); cbn [andb bind fst]; [|reflexivity].
  rewrite IH by (intros x y z I; apply H; right; exact I). rewrite push_tri_tris. change (nb_vertices (push_tris m [(a + k, b + k, c + k)])) with (nb_vertices m).
  destruct (forallb (below (nb_vertices m)) (map (shift k) ts)); [rewrite push_tris_app|]; reflexivity.
Qed.

(** The writer. *)
Lemma ended_app a b : ended (a ++ b) = ended a ++ ended b. Proof. apply flat_map_app. Qed.
Lemma ended_cons a b : ended (a :: b) = a ++ endl ++ ended b. Proof. unfold ended. cbn [flat_map]. rewrite app_assoc. reflexivity. Qed.
Lemma write_mesh_ok (w : objw) (m : Mesh T) : wf m -> div255 -> one_line ->
  exists extra, ends extra /\ ~ In 10 extra /\ ow_write_mesh w m =
    Ok (mkOW (ow_text w ++ ended (map (fun p => obj_v p ++ extra) (averts (abs m))) ++ endl ++ ended (map (obj_f (ow_count w)) (live (abs m)))) (ow_count w + nb_vertices m)).
Proof.
  intros W D O. unfold ow_write_mesh.
  assert (exists r g b : T, (if negb (get_color m =? -1) then ndiv (nofZ (Z.shiftr (get_color m) 16)) (nofZ 255) else Ok n0) = Ok r /\
    (if negb (get_color m =? -1) then ndiv (nofZ (Z.shiftr (Z.land (get_color m) 65280) 8)) (nofZ 255) else Ok n0) = Ok g /\
    (if negb (get_color m =? -1) then ndiv (nofZ (Z.land (get_color m) 255)) (nofZ 255) else Ok n0) = Ok b) as (r & g & b & Er & Eg & Eb).
  { destruct (negb (get_color m =? -1)).
    - destruct (D (nofZ (Z.shiftr (get_color m) 16))) as [r Er]. destruct (D (nofZ (Z.shiftr (Z.land (get_color m) 65280) 8))) as [g Eg]. destruct (D (nofZ (Z.land (get_color m) 255))) as [b Eb]. exists r, g, b. auto.
    - exists n0, n0, n0. auto. }
  rewrite Er, Eg, Eb. cbn [bind]. clear Er Eg Eb.
  set (extra := if negb (get_color m =? -1) then str " " ++ f_show r ++ str " " ++ f_show g ++ str " " ++ f_show b else []).
  exists extra. split. { unfold extra. destruct (negb _); [reflexivity|exact I]. }
  split. { unfold extra. destruct (negb _); [|intros []]. intros H. repeat (apply in_app_or in H as [H|H]); try (destruct H as [H|[]]; discriminate H); eapply O; exact H. }
  match goal with |- context [for_ 0 (nb_vertices m) ?bd ?s0] => destruct (for_inv (fun i t => t = ow_text w ++ ended (map (fun p => obj_v p ++ extra) (firstn (Z.to_nat i) (averts (abs m))))) 0 (nb_vertices m) bd s0) as [t [Et Ht]] end.
  - apply vsize_nonneg.
  - cbn. rewrite app_nil_r. reflexivity.
  - intros i t Hi ->. cbv beta. destruct (vget_in_range (kverts (mkern m)) i Hi) as [p Ep]. rewrite (get_vertex_ok m i p Ep). cbn [bind].
    change (averts (abs m)) with (kverts (mkern m)). rewrite (firstn_vget _ _ _ Ep), map_app, ended_app. cbn [map ended flat_map]. unfold extra.
    destruct (negb (get_color m =? -1)); eexists; (split; [reflexivity|]); rewrite <- !app_assoc; cbn [app]; reflexivity.
  - rewrite Et. cbn [bind]. rewrite <- abs_nbv in Ht. change (len (averts (abs m))) with (vsize (averts (abs m))) in Ht. rewrite firstn_vsize in Ht. clear Et.
    match goal with |- context [for_ 0 (nb_triangles m) ?bd ?s0] => destruct (for_inv (fun i u => u = t ++ endl ++ ended (map (obj_f (ow_count w)) (live_lt (firstn (Z.to_nat i) (ktris (mkern m)))))) 0 (nb_triangles m) bd s0) as [u [Eu Hu]] end.
    + apply vsize_nonneg.
    + reflexivity.
    + intros i u Hi ->. cbv beta. destruct (wf_tri_get m i W Hi) as [q [E Wt]]. rewrite (is_unlinked_ok _ _ _ E). cbn [bind]. rewrite (firstn_vget _ _ _ E), live_lt_app, map_app, ended_app.
      destruct (lunl q =? -1) eqn:U.
      * eexists. split; [reflexivity|]. unfold live_lt at 3. cbn [map filter abs_tri snd negb]. rewrite U. cbn. rewrite app_nil_r. reflexivity.
      * rewrite (get_triangle_vertices_ok _ _ _ E). cbn [bind]. eexists. split; [reflexivity|]. unfold live_lt at 3. cbn [map filter abs_tri snd negb]. rewrite U. cbn [negb map fst]. cbn [ended flat_map]. unfold abs_tri. cbn [fst obj_f]. rewrite app_nil_r, <- !app_assoc. reflexivity.
    + rewrite Eu. cbn [bind]. rewrite Hu, Ht. unfold nb_triangles, k_nbt. rewrite firstn_vsize, <- live_abs. rewrite <- !app_assoc. reflexivity.
Qed.

Definition obj_l (k : Z) (n : nat) : list Z := str "l " ++ flat_map (fun i => show_int (Z.of_nat i + k) ++ str " ") (seq 0 n).
Lemma write_line_ok (w : objw) (l : list (Point3 T)) :
  ow_write_polyline w l = Ok (mkOW (ow_text w ++ ended (map obj_v l) ++ endl ++ obj_l (ow_count w) (length l)) (ow_count w + vsize l)).
Proof.
  unfold ow_write_polyline.
  match goal with |- context [for_ 0 (vsize l) ?bd (ow_text w)] => destruct (for_inv (fun i t => t = ow_text w ++ ended (map obj_v (firstn (Z.to_nat i) l))) 0 (vsize l) bd (ow_text w)) as [t [Et Ht]] end.
  - apply vsize_nonneg.
  - cbn. rewrite app_nil_r. reflexivity.
  - intros i t Hi ->. cbv beta. destruct (vget_in_range l i Hi) as [p Ep]. rewrite Ep. cbn [bind]. eexists. split; [reflexivity|]. rewrite (firstn_vget _ _ _ Ep), map_app, ended_app. cbn [map ended flat_map]. rewrite <- !app_assoc. cbn [app]. reflexivity.
  - rewrite Et. cbn [bind]. rewrite firstn_vsize in Ht. subst t. clear Et.
    match goal with |- context [for_ 0 (vsize l) ?bd ?s0] => destruct (for_inv (fun i t => t = s0 ++ flat_map (fun i => show_int (Z.of_nat i + ow_count w) ++ str " ") (seq 0 (Z.to_nat i))) 0 (vsize l) bd s0) as [t [Et Ht]] end.
    + apply vsize_nonneg.
    + cbn [Z.to_nat seq flat_map]. rewrite app_nil_r. reflexivity.
    + intros i t Hi ->. cbv beta. eexists. split; [reflexivity|]. replace (Z.to_nat (i + 1)) with (S (Z.to_nat i)) by lia. rewrite seq_S, flat_map_app. cbn [Nat.add flat_map]. rewrite Z2Nat.id by lia. rewrite app_nil_r, <- !app_assoc. reflexivity.
    + rewrite Et. cbn [bind]. rewrite Ht. unfold obj_l, vsize. rewrite Nat2Z.id. rewrite <- !app_assoc. reflexivity.
Qed.
End Obj.
