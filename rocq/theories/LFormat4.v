(** OBJ files of doubles: what comes back; and the numbers of STEP files. *)
From Coq Require Import String Ascii ZArith List Bool Reals Lra Lia.
From Flocq Require Import Core IEEE754.Binary IEEE754.Bits IEEE754.BinarySingleNaN.
From Verif Require Import Base Num MGeometry MKernel MMesh MMeshRun MUtil MText MObj MNurbsSurface MStep MF64 MFormat SMesh SReach SObj SStep SFormat LBase LMesh LReach LGrid LStl LF64 LText LObj LObj2 LObj3 LStep LStep2 LFormat LFormat2 LFormat3.
Import ListNotations.
Open Scope Z_scope.

Lemma show_word (x : f64) : exists c l, f_show (T := f64) x = c :: l /\ is_space c = false.
Proof.
  destruct (Binary.is_finite 53 1024 x) eqn:F; [destruct (reads_finite x F) as (q & [H _] & _); exact H|].
  destruct x as [s|s|s pl Hp|s m e Hb]; try discriminate; destruct s; cbn; eexists _, _; split; reflexivity.
Qed.
Lemma scan_bad (x : f64) rest : fin64 x = false -> exists r, f_scan (T := f64) (f_show (T := f64) x ++ rest) = (Binary.B754_zero 53 1024 false, false, r).
Proof. intros F. destruct x as [s|s|s pl Hp|s m e Hb]; try discriminate; destruct s; cbn; eexists; reflexivity. Qed.
Lemma get_bad (x : f64) rest (old : option f64) : fin64 x = false -> exists s, ss_get (A := f64) (f_scan (T := f64)) old (mkSS (32 :: f_show (T := f64) x ++ rest) true) = (Some (Binary.B754_zero 53 1024 false), s) /\ ss_ok s = false.
Proof.
  intros F. destruct (scan_bad x rest F) as [r E]. destruct (show_word x) as (c & l & EC & SC). exists (mkSS r false). split; [|reflexivity].
  unfold ss_get. cbn [ss_ok ss_rest skip_ws]. change (is_space 32) with true. cbv iota. rewrite EC in E |- *. cbn [app skip_ws]. rewrite SC. cbn [app] in E. rewrite E. reflexivity.
Qed.
Lemma get_failed {A} scan (old : option A) s : ss_ok s = false -> ss_get scan old s = (old, s).
Proof. intros H. unfold ss_get. rewrite H. reflexivity. Qed.

(** One vertex line *)
Lemma line_any (m : Mesh f64) p extra : ends extra ->
  (finite_xy p -> exists q, pt_rounded p q /\ obj_line m (obj_v p ++ extra) = Ok (push_vert m q)) /\ (~ finite_xy p -> obj_line m (obj_v p ++ extra) = Err FUninit).
Proof.
  intros E.
  assert (exists l, obj_v p ++ extra = 118 :: 32 :: f_show (px p) ++ l /\ l = 32 :: f_show (py p) ++ 32 :: f_show (pz p) ++ extra) as (l & EL & EQ).
  { eexists. split; [|reflexivity]. unfold obj_v. change (str "v ") with [118; 32]. change (str " ") with [32]. rewrite <- !app_assoc. cbn [app]. reflexivity. }
  unfold obj_line. rewrite EL.
  destruct (Z.eqb_spec (vsize (118 :: 32 :: f_show (px p) ++ l)) 0) as [Z0|_]. { rewrite !vsize_cons in Z0. pose proof (vsize_nonneg (f_show (px p) ++ l)). lia. }
  rewrite word1 by reflexivity. change (text_eqb [118] (str "v")) with true. change (text_eqb [118] (str "f")) with false. cbv iota.
  destruct (Binary.is_finite 53 1024 (px p)) eqn:FX.
  2:{ destruct (get_bad (px p) l None FX) as (s & G & S). rewrite G, !(get_failed _ _ s S). split; [intros [K _]; unfold finite64 in K; congruence|reflexivity]. }
  destruct (reads_finite (px p) FX) as (qx & [WX RX] & QX). rewrite (ss_get_blank f_scan None (f_show (px p)) l qx WX) by (apply RX; rewrite EQ; reflexivity).
  rewrite EQ.
  destruct (Binary.is_finite 53 1024 (py p)) eqn:FY.
  2:{ destruct (get_bad (py p) (32 :: f_show (pz p) ++ extra) None FY) as (s & G & S). rewrite G, !(get_failed _ _ s S). split; [intros [_ K]; unfold finite64 in K; congruence|reflexivity]. }
  destruct (reads_finite (py p) FY) as (qy & [WY RY] & QY). rewrite (ss_get_blank f_scan None (f_show (py p)) _ qy WY) by (apply RY; reflexivity).
  split; [|intros K; exfalso; apply K; split; assumption]. intros _.
  destruct (Binary.is_finite 53 1024 (pz p)) eqn:FZ.
  - destruct (reads_finite (pz p) FZ) as (qz & [WZ RZ] & QZ). rewrite (ss_get_blank f_scan None (f_show (pz p)) extra qz WZ) by (apply RZ; exact E).
    exists (mkP qx qy qz). split; [|cbn [bind]; rewrite add_vertex_spec; reflexivity]. split; [exact QX|]. split; [exact QY|]. left. split; [exact FZ|exact QZ].
  - destruct (get_bad (pz p) extra None FZ) as (s & G & S). rewrite G. exists (mkP qx qy (Binary.B754_zero 53 1024 false)). split; [|cbn [bind]; rewrite add_vertex_spec; reflexivity].
    split; [exact QX|]. split; [exact QY|]. right. split; [unfold finite64; congruence|reflexivity].
Qed.
Lemma lines_any extra vs : ends extra -> forall m : Mesh f64,
  (Forall finite_xy vs -> exists qs, Forall2 pt_rounded vs qs /\ obj_lines m (map (fun p => obj_v p ++ extra) vs) = Ok (push_verts m qs)) /\
  (~ Forall finite_xy vs -> obj_lines m (map (fun p => obj_v p ++ extra) vs) = Err FUninit).
Proof.
  intros E. induction vs as [|p vs IH]; intros m.
  - split; [intros _; exists []; split; [constructor|rewrite push_verts_nil; reflexivity]|intros K; exfalso; apply K; constructor].
  - cbn [map obj_lines]. destruct (line_any m p extra E) as [A B].
    assert (finite_xy p \/ ~ finite_xy p) as [F|F].
    { unfold finite_xy, finite64. destruct (Binary.is_finite 53 1024 (px p)), (Binary.is_finite 53 1024 (py p)); intuition congruence. }
    + destruct (A F) as (q & Q & EQ). rewrite EQ. cbn [bind]. destruct (IH (push_vert m q)) as [C D]. split.
      * intros H. destruct (C (Forall_inv_tail H)) as (qs & QS & ES). exists (q :: qs). split; [constructor; assumption|]. rewrite ES, push_vert_verts, push_verts_app. reflexivity.
      * intros H. apply D. intros K. apply H. constructor; assumption.
    + rewrite (B F). split; [intros H; exfalso; apply F, (Forall_inv H)|reflexivity].
Qed.

Lemma pt_back_length vs qs : Forall2 pt_rounded vs qs -> length vs = length qs.
Proof. apply Forall2_length. Qed.
Theorem save_load_f64 (m m0 : Mesh f64) a : reach m -> shows m a -> len (averts a) < int_max -> reach m0 ->
  exists t, obj_save m = Ok (true, t) /\
    (Forall finite_xy (averts a) -> exists qs m', Forall2 pt_rounded (averts a) qs /\ obj_load t m0 = Ok (true, m') /\ reach m' /\ shows m' (mkA qs (map (fun t => (t, true)) (live a)) (get_color m0))) /\
    (~ Forall finite_xy (averts a) -> obj_load t m0 = Err FUninit).
Proof.
  intros R S L R0. rewrite (shows_unique m a (abs m) S (shows_abs m)) in *. clear a S. pose proof (reach_wf m R) as W.
  destruct (write_mesh_ok ow_open m W div255_f64 show_one_line) as (extra & E & NE & EW). unfold obj_save. rewrite EW. cbn [bind ow_text ow_open app ow_count].
  set (t := _ ++ _). exists t. split; [reflexivity|].
  assert (forall x y z, In (x, y, z) (live (abs m)) -> 0 <= x < nb_vertices m /\ 0 <= y < nb_vertices m /\ 0 <= z < nb_vertices m) as LV by (intros x y z I; apply (live_in m x y z W I)).
  assert (len (averts (abs m)) = nb_vertices m) as NV by apply abs_nbv.
  assert (lines t = map (fun p => obj_v p ++ extra) (averts (abs m)) ++ [[]] ++ map (obj_f 0) (live (abs m)) ++ [[]]) as LT.
  { unfold t. change (endl ++ ended (map (obj_f 0) (live (abs m)))) with (ended [[]] ++ ended (map (obj_f 0) (live (abs m)))). rewrite <- !ended_app.
    rewrite <- (app_nil_r (ended _)). rewrite lines_ended.
    - rewrite <- !app_assoc. reflexivity.
    - intros l I. apply in_app_or in I as [I|I]; [|apply in_app_or in I as [I|I]].
      + apply in_map_iff in I as (p & <- & _). apply no_nl_app; [apply no_nl_v, show_one_line|exact NE].
      + destruct I as [<-|[]]. intros [].
      + apply in_map_iff in I as ([[x y] z] & <- & I). apply LV in I. apply no_nl_f; lia.
    - intros []. }
  unfold obj_load. rewrite LT, obj_lines_app. destruct (lines_any extra (averts (abs m)) E (clear m0)) as [A B]. split.
  - intros F. destruct (A F) as (qs & Q & EQ). rewrite EQ. cbn [bind]. rewrite obj_lines_app. cbn [obj_lines]. rewrite line_nil. cbn [bind]. rewrite obj_lines_app, lines_f.
    2:{ intros x y z I. apply LV in I. rewrite NV in L. lia. }
    pose proof (pt_back_length _ _ Q) as LQ.
    assert (nb_vertices (push_verts (clear m0) qs) = nb_vertices m) as NB. { rewrite <- NV, <- abs_nbv. unfold len. rewrite abs_push_verts. cbn [averts]. cbn. f_equal. symmetry. exact LQ. }
    assert (map (shift 0) (live (abs m)) = live (abs m)) as SH. { rewrite (map_ext (shift 0) (fun t => t)) by (intros [[x y] z]; cbn; rewrite !Z.add_0_r; reflexivity). apply map_id. }
    rewrite SH, NB. assert (forallb (below (nb_vertices m)) (live (abs m)) = true) as ->. { apply forallb_forall. intros [[x y] z] I. apply LV in I. cbn. rewrite !andb_true_iff, !Z.ltb_lt. lia. }
    cbn [bind obj_lines]. rewrite line_nil. cbn [bind]. exists qs. eexists. split; [exact Q|]. split; [reflexivity|].
    assert (reach (push_verts (clear m0) qs)) as R1 by (apply reach_push_verts, reach_clear, R0). split.
    + apply reach_push_tris; [exact R1|]. intros x y z I. rewrite NB. apply LV, I.
    + match goal with |- shows ?m' ?a' => assert (abs m' = a') as <- end; [|apply shows_abs].
      rewrite abs_push_tris. reflexivity.
  - intros F. rewrite (B F). reflexivity.
Qed.
