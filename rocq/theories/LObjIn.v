(** Loading OBJ files of other programs. *)
From Coq Require Import String Ascii ZArith List Bool Lia.
From Verif Require Import Base Num MGeometry MKernel MMesh MMeshRun MText MObj SMesh SReach SObj SObjIn LBase LMesh LReach LStl LText LObj LObj2.
Import ListNotations.
Open Scope Z_scope.

Lemma blank_space c : blank c -> is_space c = true.
Proof. unfold blank. intros [-> | [-> | [-> | [-> | ->]]]]; reflexivity. Qed.
Lemma nonspace c : c <> 32 /\ ~ (9 <= c <= 13) -> is_space c = false.
Proof. intros [A B]. unfold is_space. apply orb_false_iff. split; [apply Z.eqb_neq, A|]. apply andb_false_iff. rewrite !Z.leb_gt. lia. Qed.
Lemma blank_nl c : blank c -> c <> 10.
Proof. unfold blank. lia. Qed.
Lemma blanks_nl w : blanks w -> ~ In 10 w.
Proof. intros B I. rewrite (Forall_forall blank w) in B. apply (blank_nl 10 (B 10 I)). reflexivity. Qed.
Lemma word_nl w : word w -> ~ In 10 w.
Proof. intros [_ F] I. rewrite Forall_forall in F. apply F in I. lia. Qed.
Lemma skip_blanks w l : blanks w -> skip_ws (w ++ l) = skip_ws l.
Proof. induction 1 as [|c w B _ IH]; [reflexivity|]. cbn [app skip_ws]. rewrite (blank_space c B). exact IH. Qed.
Lemma skip_word w l : word w -> skip_ws (w ++ l) = w ++ l.
Proof. intros [NE F]. destruct w as [|c w]; [contradiction|]. cbn [app skip_ws]. inversion F as [|c' w' H _]; subst. rewrite (nonspace c H). reflexivity. Qed.
Lemma take_word_rest w l : Forall (fun c => c <> 32 /\ ~ (9 <= c <= 13)) w -> match l with [] => True | c :: _ => blank c end -> take_word (w ++ l) = (w, l).
Proof.
  intros F HL. induction F as [|c w H _ IH]; cbn [app take_word].
  - destruct l as [|c l]; [reflexivity|]. cbn [take_word]. rewrite (blank_space c HL). reflexivity.
  - rewrite (nonspace c H), IH. reflexivity.
Qed.
Lemma read_word w0 w rest : blanks w0 -> word w -> match rest with [] => True | c :: _ => blank c end ->
  ss_word (ss_open (w0 ++ w ++ rest)) = (w, mkSS rest true).
Proof.
  intros B W R. unfold ss_word, ss_open. cbn [ss_ok ss_rest]. rewrite skip_blanks by exact B. rewrite skip_word by exact W.
  destruct W as [NE F]. pose proof (take_word_rest w rest F R) as E. destruct w as [|c w]; [contradiction|]. cbn [app] in E |- *. rewrite E. reflexivity.
Qed.
Lemma read_blank w0 : blanks w0 -> ss_word (ss_open w0) = ([], mkSS [] false).
Proof. intros B. unfold ss_word, ss_open. cbn [ss_ok ss_rest]. rewrite <- (app_nil_r w0), skip_blanks by exact B. reflexivity. Qed.
Lemma read_item {A} scan (old : option A) g w rest (x : A) : gap g -> word w -> scan (w ++ rest) = (x, true, rest) ->
  ss_get scan old (mkSS (g ++ w ++ rest) true) = (Some x, mkSS rest true).
Proof.
  intros [_ B] W E. unfold ss_get. cbn [ss_ok ss_rest]. rewrite skip_blanks by exact B. rewrite skip_word by exact W.
  destruct W as [NE _]. destruct w as [|c w]; [contradiction|]. cbn [app] in E |- *. rewrite E. reflexivity.
Qed.
Lemma gap_app_rest g l : gap g -> match g ++ l with [] => True | c :: _ => blank c end.
Proof. intros [NE B]. destruct g as [|c g]; [contradiction|]. cbn. inversion B; assumption. Qed.
Lemma int_word i : 0 <= i -> word (show_int i).
Proof.
  intros H. split.
  - destruct (show_int_head i H) as (c & l & -> & _). discriminate.
  - apply Forall_forall. intros c I. apply (show_int_chars i c H) in I. lia.
Qed.
Lemma ends_of (l : list Z) : match l with [] => True | c :: _ => blank c end -> ends l.
Proof. destruct l as [|c l]; [auto|]. cbn. apply blank_space. Qed.

Section In.
Context {T : Type} {N : Num T} {X : Text T}.

Lemma line_nl (l : list Z) (r : record T) : line_of l r -> ~ In 10 l.
Proof.
  assert (forall (w : list Z) (x : T), num_text w x -> ~ In 10 w) as NW by (intros w x [W _]; apply word_nl, W).
  assert (forall w, gap w -> ~ In 10 w) as GW by (intros w [_ W]; apply blanks_nl, W).
  destruct 1 as [w0 w1 w2 w3 sx sy sz rest x y z B0 G1 G2 G3 [R _] S1 S2 S3|w0 w1 w2 w3 i j k rest B0 G1 G2 G3 [R _] Hi Hj Hk|w0 w rest B0 W [R _] _ _|w0 B0];
    rewrite ?in_app_iff; intros I.
  - apply blanks_nl in B0. apply GW in G1, G2, G3. apply NW in S1, S2, S3. cbn in I. intuition discriminate.
  - apply blanks_nl in B0. apply GW in G1, G2, G3. pose proof (word_nl _ (int_word i ltac:(lia))). pose proof (word_nl _ (int_word j ltac:(lia))). pose proof (word_nl _ (int_word k ltac:(lia))).
    cbn in I. intuition discriminate.
  - apply blanks_nl in B0. apply word_nl in W. tauto.
  - apply blanks_nl in B0. contradiction.
Qed.

Lemma vsize_pos_ne (l : list Z) : l <> [] -> (vsize l =? 0) = false.
Proof. intros H. apply Z.eqb_neq. destruct l as [|c l]; [contradiction|]. rewrite vsize_cons. pose proof (vsize_nonneg l). lia. Qed.
Lemma word_v : word (str "v"). Proof. split; [discriminate|]. repeat constructor; cbn; lia. Qed.
Lemma word_f : word (str "f"). Proof. split; [discriminate|]. repeat constructor; cbn; lia. Qed.

Definition record_step (m : Mesh T) (r : record T) : res (Mesh T) :=
  match r with
  | RVertex p => Ok (push_vert m p)
  | RFace i j k => do x <- add_triangle m (i - 1) (j - 1) (k - 1); Ok (fst x)
  | ROther => Ok m
  end.
Lemma obj_line_of (m : Mesh T) l r : line_of l r -> obj_line m l = record_step m r.
Proof.
  destruct 1 as [w0 w1 w2 w3 sx sy sz rest x y z B0 G1 G2 G3 R S1 S2 S3|w0 w1 w2 w3 i j k rest B0 G1 G2 G3 [R1 R] Hi Hj Hk|w0 w rest B0 W [R1 R] N1 N2|w0 B0]; unfold obj_line.
  - rewrite vsize_pos_ne by (destruct w0; discriminate). rewrite read_word by first [exact B0|exact word_v|exact (gap_app_rest _ _ G1)].
    change (text_eqb (str "v") (str "v")) with true. change (text_eqb (str "v") (str "f")) with false. cbv iota.
    assert (LR : forall g w l, gap g -> ~ In 10 w -> ~ In 10 l -> line_rest (g ++ w ++ l)).
    { intros g w l G HW HL. split; [|apply gap_app_rest, G]. destruct G as [_ G]. apply blanks_nl in G. rewrite !in_app_iff. tauto. }
    destruct R as [R1 R]. destruct S1 as [W1 S1], S2 as [W2 S2], S3 as [W3 S3].
    pose proof (word_nl _ W1). pose proof (word_nl _ W2). pose proof (word_nl _ W3).
    assert (line_rest (w3 ++ sz ++ rest)) as L3 by (apply LR; assumption).
    assert (line_rest (w2 ++ sy ++ w3 ++ sz ++ rest)) as L2 by (apply LR; [assumption|assumption|apply L3]).
    rewrite (read_item f_scan None w1 sx _ x G1 W1 (S1 _ L2)).
    rewrite (read_item f_scan None w2 sy _ y G2 W2 (S2 _ L3)).
    rewrite (read_item f_scan None w3 sz _ z G3 W3 (S3 _ (conj R1 R))). cbn [bind record_step]. rewrite add_vertex_spec. reflexivity.
  - rewrite vsize_pos_ne by (destruct w0; discriminate). rewrite read_word by first [exact B0|exact word_f|exact (gap_app_rest _ _ G1)].
    change (text_eqb (str "f") (str "v")) with false. change (text_eqb (str "f") (str "f")) with true. cbv iota. cbn [bind].
    rewrite (read_item scan_int None w1 (show_int i) _ i G1 (int_word i ltac:(lia))) by (apply scan_show; [lia|apply ends_of, gap_app_rest, G2]).
    rewrite (read_item scan_int None w2 (show_int j) _ j G2 (int_word j ltac:(lia))) by (apply scan_show; [lia|apply ends_of, gap_app_rest, G3]).
    rewrite (read_item scan_int None w3 (show_int k) _ k G3 (int_word k ltac:(lia))) by (apply scan_show; [lia|apply ends_of, R]).
    cbn [record_step]. rewrite !iint_ok by (unfold int_min, int_max in *; lia). reflexivity.
  - rewrite vsize_pos_ne by (destruct W as [W _]; destruct w0, w; try discriminate; contradiction). rewrite read_word by assumption.
    unfold text_eqb. destruct (list_eq_dec Z.eq_dec w (str "v")); [contradiction|]. destruct (list_eq_dec Z.eq_dec w (str "f")); [contradiction|]. reflexivity.
  - destruct (vsize w0 =? 0); [reflexivity|]. rewrite read_blank by exact B0. reflexivity.
Qed.

Lemma records_ok (ls : list (list Z)) (rs : list (record T)) : Forall2 line_of ls rs -> forall (m : Mesh T) V F c, reach m -> abs m = mkA V (map (fun t => (t, true)) F) c ->
  match read_records V F rs with
  | Some (V', F') => exists m', obj_lines m ls = Ok m' /\ reach m' /\ abs m' = mkA V' (map (fun t => (t, true)) F') c
  | None => obj_lines m ls = Err FAssert
  end.
Proof.
  induction 1 as [|l r ls rs L _ IH]; intros m V F c Rm A; cbn [read_records obj_lines].
  - exists m. auto.
  - rewrite (obj_line_of m l r L). destruct r as [p|i j k|]; cbn [record_step].
    + cbn [bind]. apply IH.
      * apply (R_step m (OpAddVertex p) _ (OutId (nb_vertices m)) Rm); [intros f [D|D]; discriminate|]. cbn [mstep]. rewrite add_vertex_spec. reflexivity.
      * rewrite abs_push_vert, A. reflexivity.
    + rewrite add_triangle_spec. assert (nb_vertices m = len V) as NV by (rewrite <- abs_nbv, A; reflexivity). rewrite NV.
      assert (forall i, in_range (i - 1) (len V) = named (len V) i) as IR.
      { intros x. unfold in_range, named. f_equal; apply eq_true_iff_eq; rewrite ?Z.leb_le, ?Z.ltb_lt; lia. }
      rewrite !IR. destruct (named (len V) i && named (len V) j && named (len V) k) eqn:E; [|reflexivity]. cbn [bind fst]. apply IH.
      * apply (R_step m (OpAddTriangle (i - 1) (j - 1) (k - 1)) _ (OutId (nb_triangles m)) Rm); [intros f [D|D]; discriminate|].
        cbn [mstep]. rewrite add_triangle_spec, NV, !IR, E. reflexivity.
      * rewrite abs_push_tri, A. unfold with_tris. cbn [averts atris acolor map]. rewrite map_app. reflexivity.
    + cbn [bind]. apply IH; assumption.
Qed.

Lemma obj_load_records (ls : list (list Z)) (tail : list Z) (rs : list (record T)) (m0 : Mesh T) : Forall2 line_of (ls ++ [tail]) rs -> reach m0 ->
  match read_records [] [] rs with
  | Some (V, F) => exists m, obj_load (file_text ls tail) m0 = Ok (true, m) /\ reach m /\ shows m (mkA V (map (fun t => (t, true)) F) (get_color m0))
  | None => obj_load (file_text ls tail) m0 = Err FAssert
  end.
Proof.
  intros F R0. assert (forall l, In l (ls ++ [tail]) -> ~ In 10 l) as NL.
  { clear R0. induction F as [|l0 r0 l1 r1 L _ IH]; [intros l []|]. intros l [<-|I]; [exact (line_nl _ _ L)|exact (IH l I)]. }
  unfold obj_load, file_text. change (flat_map (fun l => l ++ [10]) ls) with (ended ls). rewrite lines_ended.
  - pose proof (records_ok _ _ F (clear m0) [] [] (get_color m0) (reach_clear m0 R0) eq_refl) as H. destruct (read_records [] [] rs) as [[V G]|].
    + destruct H as (m' & E & R & A). rewrite E. cbn [bind]. exists m'. split; [reflexivity|]. split; [exact R|]. rewrite <- A. apply shows_abs.
    + rewrite H. reflexivity.
  - intros l I. apply NL, in_or_app. left. exact I.
  - apply NL, in_or_app. right. left. reflexivity.
Qed.

(** A face given as position/texture/normal: the second read stops at the slash. *)
Lemma scan_show_slash n rest : 0 <= n <= int_max -> scan_int (show_int n ++ 47 :: rest) = (n, true, 47 :: rest).
Proof.
  intros Hn. destruct (show_int_head n ltac:(lia)) as (c & l & EH & HC). unfold scan_int. rewrite EH. cbn [app].
  destruct (Z.eqb_spec c 45); [lia|]. destruct (Z.eqb_spec c 43); [lia|]. assert (is_digit c = true) as D. { unfold is_digit. apply andb_true_intro. split; apply Z.leb_le; lia. } rewrite D.
  assert (scan_digits 0 ((c :: l) ++ 47 :: rest) = (n, 47 :: rest)) as S.
  { rewrite <- EH. unfold show_int. rewrite (proj2 (Z.ltb_ge n 0)) by lia. unfold show_nat. rewrite digits_scan; [reflexivity|lia|apply show_nat_fuel; lia]. }
  cbn [app] in S. rewrite S. unfold int_min, int_max in *. destruct (Z.ltb_spec n (-2147483648)); [lia|]. destruct (Z.ltb_spec 2147483647 n); [lia|]. reflexivity.
Qed.
Lemma obj_line_slash (m : Mesh T) w0 w1 i rest : blanks w0 -> gap w1 -> 0 <= i <= int_max -> obj_line m (w0 ++ str "f" ++ w1 ++ show_int i ++ 47 :: rest) = Err FUninit.
Proof.
  intros B0 G1 Hi. unfold obj_line. rewrite vsize_pos_ne by (destruct w0; discriminate). rewrite read_word by first [exact B0|exact word_f|exact (gap_app_rest _ _ G1)].
  change (text_eqb (str "f") (str "v")) with false. change (text_eqb (str "f") (str "f")) with true. cbv iota. cbn [bind].
  rewrite (read_item scan_int None w1 (show_int i) _ i G1 (int_word i ltac:(lia))) by (apply scan_show_slash; lia). reflexivity.
Qed.
Lemma obj_load_slash (ls : list (list Z)) (rs : list (record T)) V F w0 w1 i rest more tail (m0 : Mesh T) : Forall2 line_of ls rs -> read_records [] [] rs = Some (V, F) -> reach m0 ->
  blanks w0 -> gap w1 -> 0 <= i <= int_max -> ~ In 10 rest -> (forall l, In l (more ++ [tail]) -> ~ In 10 l) ->
  obj_load (file_text (ls ++ (w0 ++ str "f" ++ w1 ++ show_int i ++ 47 :: rest) :: more) tail) m0 = Err FUninit.
Proof.
  intros L E R0 B0 G1 Hi HR HM. unfold obj_load, file_text. set (bad := w0 ++ str "f" ++ w1 ++ show_int i ++ 47 :: rest).
  change (flat_map (fun l => l ++ [10]) (ls ++ bad :: more)) with (ended (ls ++ bad :: more)). rewrite lines_ended.
  - rewrite <- app_assoc. cbn [app]. rewrite obj_lines_app.
    pose proof (records_ok _ _ L (clear m0) [] [] (get_color m0) (reach_clear m0 R0) eq_refl) as H. rewrite E in H. destruct H as (m' & -> & _ & _). cbn [bind obj_lines].
    unfold bad. rewrite obj_line_slash by assumption. reflexivity.
  - intros l I. apply in_app_or in I as [I|[<-|I]].
    + clear E R0. induction L as [|l0 r0 l1 r1 L0 _ IH]; [destruct I|]. destruct I as [<-|I]; [exact (line_nl _ _ L0)|exact (IH I)].
    + unfold bad. pose proof (blanks_nl _ B0). destruct G1 as [_ G1]. apply blanks_nl in G1. pose proof (word_nl _ (int_word i ltac:(lia))). rewrite !in_app_iff. cbn. intuition discriminate.
    + apply HM, in_or_app. left. exact I.
  - apply HM, in_or_app. right. left. reflexivity.
Qed.
(** A face of four corners: the fourth is not read. *)
Lemma quad_line : line_of (str "f 1 2 3 4") (@RFace T 1 2 3).
Proof.
  change (str "f 1 2 3 4") with ([] ++ str "f" ++ [32] ++ show_int 1 ++ [32] ++ show_int 2 ++ [32] ++ show_int 3 ++ str " 4").
  assert (gap [32]) as G by (split; [discriminate|constructor; [left; reflexivity|constructor]]).
  apply L_face; try exact G; try (unfold int_max; lia); [constructor|]. split; [|left; reflexivity]. intros [H|[H|[]]]; discriminate.
Qed.
Lemma obj_quad (ls : list (list Z)) (p q r s : Point3 T) (m0 : Mesh T) : Forall2 line_of ls (map RVertex [p; q; r; s]) -> reach m0 ->
  exists m, obj_load (file_text ls (str "f 1 2 3 4")) m0 = Ok (true, m) /\ reach m /\ shows m (mkA [p; q; r; s] [((0, 1, 2), true)] (get_color m0)).
Proof.
  intros F R0. assert (Forall2 line_of (ls ++ [str "f 1 2 3 4"]) (map RVertex [p; q; r; s] ++ [RFace 1 2 3])) as F' by (apply Forall2_app; [exact F|constructor; [exact quad_line|constructor]]).
  exact (obj_load_records ls (str "f 1 2 3 4") _ m0 F' R0).
Qed.
End In.
