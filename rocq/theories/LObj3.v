(** OBJ files: polylines, and any text. *)
From Coq Require Import String Ascii ZArith List Bool Lia.
From Verif Require Import Base Num MGeometry MKernel MMesh MMeshRun MUtil MText MObj SMesh SReach SObj LBase LMesh LReach LGrid LStl LText LObj LObj2.
Import ListNotations.
Open Scope Z_scope.

Section Obj.
Context {T : Type} {N : Num T} {X : Text T}.

(** A polyline at the very end. *)
Lemma loaded_last_line (its : list (oitem T)) it : oi_tris it = [] -> forall V F, (forall it, In it its -> oi_line it = false /\ forall a b c, In (a, b, c) (oi_tris it) -> 0 <= a < len (oi_pts it) /\ 0 <= b < len (oi_pts it) /\ 0 <= c < len (oi_pts it)) ->
  loaded false (len V) V F (its ++ [it]) = Some (V ++ flat_map oi_pts (its ++ [it]), F ++ joined_tris (len V) (its ++ [it])).
Proof.
  intros E0. induction its as [|i0 its IH]; intros V F H.
  - cbn [app loaded flat_map joined_tris]. rewrite E0. cbn [map forallb]. rewrite !app_nil_r. reflexivity.
  - cbn [app loaded flat_map joined_tris]. destruct (H i0 ltac:(left; reflexivity)) as [E B]. assert (len (V ++ oi_pts i0) = len V + len (oi_pts i0)) as LV by (unfold len; rewrite app_length; lia).
    assert (forallb (below (len (V ++ oi_pts i0))) (map (shift (len V)) (oi_tris i0)) = true) as ->.
    { apply forallb_forall. intros t I. apply in_map_iff in I as [[[a b] c] [<- I]]. destruct (B _ _ _ I) as (? & ? & ?). cbn [shift below]. rewrite !andb_true_iff, !Z.ltb_lt. lia. }
    rewrite E. rewrite <- LV. rewrite IH by (intros it' I; apply H; right; exact I). rewrite LV, <- !app_assoc. reflexivity.
Qed.
Lemma meshes_items (ms : list (Mesh T)) : forall its, Forall2 item_shows (map WMesh ms) its -> forall it, In it its ->
  oi_line it = false /\ forall a b c, In (a, b, c) (oi_tris it) -> 0 <= a < len (oi_pts it) /\ 0 <= b < len (oi_pts it) /\ 0 <= c < len (oi_pts it).
Proof.
  induction ms as [|m ms IH]; intros its FA it I; inversion FA; subst; [destruct I|]. destruct I as [<-|I]; [apply item_mesh with m; assumption|]. eapply IH; eassumption.
Qed.
Theorem obj_meshes_line (ms : list (Mesh T)) l its it (m0 : Mesh T) : one_line -> div255 -> Forall2 item_shows (map WMesh ms) its -> item_shows (WLine l) it -> total (its ++ [it]) < int_max -> reach m0 ->
  exists w m, ow_writes ow_open (map WMesh ms ++ [WLine l]) = Ok w /\ obj_load (ow_text w) m0 = Ok (true, m) /\ reach m /\ shows m (joined (its ++ [it]) (get_color m0)).
Proof.
  intros O D FA HL CT R0. destruct (obj_any_history (map WMesh ms ++ [WLine l]) (its ++ [it]) m0 O D) as (w & EW & L); [|exact CT|exact R0|].
  - apply Forall2_app; [exact FA|]. constructor; [exact HL|constructor].
  - pose proof (loaded_last_line its it ltac:(apply HL) [] [] (meshes_items ms its FA)) as LM. change (len (@nil (Point3 T))) with 0 in LM. rewrite LM in L. destruct L as (m & E & R & S). exists w, m. auto.
Qed.

(** A mesh written after a polyline. *)
Theorem obj_after_line l (m : Mesh T) il im (m0 : Mesh T) : one_line -> div255 -> item_shows (WLine l) il -> item_shows (WMesh m) im -> 0 < nb_vertices m -> total [il; im] < int_max -> reach m0 ->
  exists w, ow_writes ow_open [WLine l; WMesh m] = Ok w /\
    (obj_load (ow_text w) m0 = Err FAssert \/ exists m', obj_load (ow_text w) m0 = Ok (true, m') /\ nb_vertices m' = len l + nb_vertices m - 1).
Proof.
  intros O D HL HM NV CT R0. destruct (obj_any_history [WLine l; WMesh m] [il; im] m0 O D) as (w & EW & L); [constructor; [exact HL|]; constructor; [exact HM|constructor]|exact CT|exact R0|].
  exists w. split; [exact EW|]. destruct HL as (RV & TL & LL). cbn [loaded] in L. rewrite TL, LL in L. cbn [map forallb app] in L.
  match type of L with context [forallb ?f ?x] => destruct (forallb f x) end; [right|left; exact L].
  destruct L as (m' & E & _ & S & _). exists m'. split; [exact E|]. rewrite S. cbn [averts]. destruct HM as (a & Rm & [Sm _] & RM & _). unfold len in *. rewrite app_length. rewrite (Forall2_length _ _ _ RV). rewrite Sm in *. rewrite (Forall2_length _ _ _ RM) in *. destruct (oi_pts im); cbn [length tl] in *; lia.
Qed.

(** The record of a polyline. *)
Lemma take_word_app w r : (forall c, In c w -> is_space c = false) -> take_word (w ++ 32 :: r) = (w, 32 :: r).
Proof. induction w as [|c w IH]; intros H; cbn [app take_word]; [reflexivity|]. rewrite (H c) by (left; reflexivity). rewrite IH by (intros x I; apply H; right; exact I). reflexivity. Qed.
Lemma words_ints k n : forall s f, 0 <= Z.of_nat s + k -> (n <= f)%nat -> words (S f) (32 :: flat_map (fun i => show_int (Z.of_nat i + k) ++ str " ") (seq s n)) = map (fun i => show_int (Z.of_nat i + k)) (seq s n).
Proof.
  induction n as [|n IH]; intros s f H F.
  - reflexivity.
  - destruct f as [|f]; [lia|]. cbn [seq flat_map map]. change (str " ") with [32]. rewrite <- app_assoc. cbn [app].
    destruct (show_int_head (Z.of_nat s + k) H) as (c & l & EH & HC). rewrite EH. cbn [words skip_ws app]. change (is_space 32) with true. cbv iota. rewrite (digit_not_space c HC).
    assert (take_word (c :: l ++ 32 :: flat_map (fun i => show_int (Z.of_nat i + k) ++ [32]) (seq (S s) n)) = (c :: l, 32 :: flat_map (fun i => show_int (Z.of_nat i + k) ++ [32]) (seq (S s) n))) as ->.
    { apply (take_word_app (c :: l)). intros x I. rewrite <- EH in I. apply digit_not_space, (show_int_chars (Z.of_nat s + k)); [exact H|exact I]. }
    f_equal. apply (IH (S s) f); lia.
Qed.
Theorem polyline_record (w : objw) (l : list (Point3 T)) f : one_line -> 0 <= ow_count w -> (length l <= f)%nat ->
  exists w', ow_write_polyline w l = Ok w' /\ ow_count w' = ow_count w + len l /\
    words (S (S f)) (last (lines (ow_text w')) []) = str "l" :: map (fun i => show_int (ow_count w + Z.of_nat i)) (seq 0 (length l)).
Proof.
  intros O C F. pose proof (write_line_ok w l) as E. eexists. split; [exact E|]. split; [reflexivity|]. cbn [ow_text].
  assert (forall a b, ~ In 10 b -> last (lines (a ++ 10 :: b)) [] = b) as LL.
  { clear. intros a b NB. assert (forall a, exists ls, lines (a ++ 10 :: b) = ls ++ [b]) as H.
    { induction a0 as [|c a0 [ls IH]]. - exists [[]]. cbn [app lines]. rewrite (lines_last b NB). reflexivity.
      - cbn [app lines]. rewrite IH. destruct ls as [|h ls]; cbn [app].
        + destruct (c =? 10); [exists [[]]; reflexivity|]. exfalso.
          assert (forall a : list Z, (2 <= length (lines (a ++ (10%Z :: b))))%nat) as K. { clear. induction a as [|z a IHa]; cbn [app lines]. - destruct (lines b) eqn:Q; [|cbn; lia]. destruct b as [|u b']; cbn in Q; [discriminate|]. destruct (lines b'); [discriminate|]. destruct (u =? 10); discriminate. - destruct (lines (a ++ 10 :: b)); [cbn in IHa; lia|]. destruct (z =? 10); cbn [length] in *; lia. }
          specialize (K a0). rewrite IH in K. cbn in K. lia.
        + destruct (c =? 10); [exists ([] :: h :: ls)|exists ((c :: h) :: ls)]; reflexivity. }
    destruct (H a) as [ls ->]. apply last_last. }
  unfold endl. rewrite app_assoc. cbn [app]. rewrite LL by (apply no_nl_l; exact C).
  unfold obj_l. change (str "l ") with [108; 32]. cbn [app].
  replace (words (S (S f)) (108 :: 32 :: flat_map (fun i => show_int (Z.of_nat i + ow_count w) ++ str " ") (seq 0 (length l)))) with
    (str "l" :: words (S f) (32 :: flat_map (fun i => show_int (Z.of_nat i + ow_count w) ++ str " ") (seq 0 (length l)))).
  - f_equal. rewrite words_ints by lia. apply map_ext. intros i. rewrite Z.add_comm. reflexivity.
  - set (r := flat_map _ _). reflexivity.
Qed.

(** Loading any text: four outcomes. *)
Lemma line_outcome (m : Mesh T) l : reach m -> (exists m', obj_line m l = Ok m' /\ reach m') \/ obj_line m l = Err FUninit \/ obj_line m l = Err FAssert \/ obj_line m l = Err FOverflow.
Proof.
  intros R. unfold obj_line. destruct (vsize l =? 0); [left; exists m; auto|]. destruct (ss_word (ss_open l)) as [ty s].
  assert (exists r, r = (if text_eqb ty (str "v") then
      let (x, s) := ss_get f_scan None s in let (y, s) := ss_get f_scan None s in let (z, _) := ss_get f_scan None s in
      match x, y, z with Some x, Some y, Some z => Ok (fst (add_vertex m (mkP x y z))) | _, _, _ => Err FUninit end else Ok m) /\ ((exists m', r = Ok m' /\ reach m') \/ r = Err FUninit)) as (r & ER & HR).
  { eexists. split; [reflexivity|]. destruct (text_eqb ty (str "v")); [|left; exists m; auto].
    destruct (ss_get f_scan None s) as [[x|] s1]; destruct (ss_get f_scan None s1) as [[y|] s2]; destruct (ss_get f_scan None s2) as [[z|] s3]; auto. left. eexists. split; [reflexivity|]. apply reach_add_vertex, R. }
  rewrite <- ER. destruct HR as [(m' & -> & R')| ->]; [|right; left; reflexivity]. cbn [bind].
  destruct (text_eqb ty (str "f")); [|left; exists m'; auto].
  destruct (ss_get scan_int None s) as [[x|] s1]; destruct (ss_get scan_int None s1) as [[y|] s2]; destruct (ss_get scan_int None s2) as [[z|] s3]; auto.
  unfold iint. destruct ((int_min <=? x - 1) && (x - 1 <=? int_max)); [|auto]. destruct ((int_min <=? y - 1) && (y - 1 <=? int_max)); [|auto]. destruct ((int_min <=? z - 1) && (z - 1 <=? int_max)); [|auto]. cbn [bind].
  rewrite add_triangle_spec. destruct (in_range (x - 1) (nb_vertices m') && in_range (y - 1) (nb_vertices m') && in_range (z - 1) (nb_vertices m')) eqn:E; [|right; right; left; reflexivity]. left. eexists. split; [reflexivity|].
  apply andb_prop in E as [E E3]. apply andb_prop in E as [E1 E2]. apply in_range_true in E1, E2, E3. apply reach_push_tri; assumption.
Qed.
Theorem obj_load_outcome (text : list Z) (m : Mesh T) : reach m -> (exists m', obj_load text m = Ok (true, m') /\ reach m') \/ obj_load text m = Err FUninit \/ obj_load text m = Err FAssert \/ obj_load text m = Err FOverflow.
Proof.
  intros R. unfold obj_load. pose proof (reach_clear m R) as R'. revert R'. generalize (clear m). induction (lines text) as [|l ls IH]; intros m1 R1; cbn [obj_lines bind]; [left; exists m1; auto|].
  destruct (line_outcome m1 l R1) as [(m' & E & R')|[E|[E|E]]]; rewrite E; cbn [bind]; auto.
Qed.
End Obj.

Section Corollaries.
Context {T : Type} {N : Num T} {X : Text T}.
Theorem obj_save_load (m m0 : Mesh T) a qs : one_line -> div255 -> reach m -> shows m a -> Forall2 pt_reads_as (averts a) qs -> len qs < int_max -> reach m0 ->
  exists t m', obj_save m = Ok (true, t) /\ obj_load t m0 = Ok (true, m') /\ reach m' /\ shows m' (mkA qs (map (fun t => (t, true)) (live a)) (get_color m0)).
Proof.
  intros O D R S RV CT R0. destruct (obj_meshes [m] [mkOI qs (live a) false] m0 O D) as (w & m' & EW & EL & R' & S').
  - constructor; [|constructor]. exists a. auto.
  - cbn [total fold_right oi_pts]. lia.
  - exact R0.
  - exists (ow_text w), m'. cbn [map ow_writes] in EW. unfold obj_save. cbn [ow_write] in EW. destruct (ow_write_mesh ow_open m) as [w0|f]; [|discriminate]. cbn [bind] in EW. injection EW as ->. split; [reflexivity|]. split; [exact EL|]. split; [exact R'|].
    unfold joined in S'. cbn [flat_map oi_pts joined_tris oi_tris] in S'. rewrite !app_nil_r in S'. rewrite (map_ext (shift 0) (fun t => t)) in S' by (intros [[x y] z]; cbn; rewrite !Z.add_0_r; reflexivity). rewrite map_id in S'. exact S'.
Qed.
Theorem obj_short_line (m : Mesh T) : obj_load (str "v") m = Err FUninit. Proof. reflexivity. Qed.
Theorem obj_bad_index (m : Mesh T) : obj_load (str "f 1 2 3") m = Err FAssert. Proof. reflexivity. Qed.
Theorem obj_overflow_index (m : Mesh T) : obj_load (str "f -2147483648 1 1") m = Err FOverflow. Proof. reflexivity. Qed.
End Corollaries.
