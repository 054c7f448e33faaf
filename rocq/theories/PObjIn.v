(** Property C107: OBJ files written by other programs. *)
From Coq Require Import String Ascii ZArith List Bool Lia.
From Flocq Require Import IEEE754.Binary IEEE754.Bits.
From Verif Require Import Base Num MGeometry MKernel MMesh MText MObj MF64 SMesh SReach SObjIn LText LObjIn.
Import ListNotations.
Open Scope Z_scope.

(** C107. Vertex lines, faces of three plain indices and other lines, fields separated by any blanks and tabs, lines ended by
    LF or CR LF, the last line with or without its end: the mesh has the points and faces of the file, in order.  A face that
    names a point the file has not given yet stops the program. *)
Theorem C107_records : forall (T : Type) (N : Num T) (X : Text T) (ls : list (list Z)) (tail : list Z) (rs : list (record T)) (m0 : Mesh T),
  Forall2 line_of (ls ++ [tail]) rs -> reach m0 ->
  match read_records [] [] rs with
  | Some (V, F) => exists m, obj_load (file_text ls tail) m0 = Ok (true, m) /\ reach m /\ shows m (mkA V (map (fun t => (t, true)) F) (get_color m0))
  | None => obj_load (file_text ls tail) m0 = Err FAssert
  end.
Proof. exact @obj_load_records. Qed.
Print Assumptions C107_records.

(** C107 is false for faces with texture or normal indices (f 1/1/1 2/2/2 3/3/3): the third corner is read uninitialised. *)
Theorem C107_slashes_refuted : forall (T : Type) (N : Num T) (X : Text T) (ls : list (list Z)) (rs : list (record T)) V F w0 w1 i rest more tail (m0 : Mesh T),
  Forall2 line_of ls rs -> read_records [] [] rs = Some (V, F) -> reach m0 ->
  blanks w0 -> gap w1 -> 0 <= i <= int_max -> ~ In 10 rest -> (forall l, In l (more ++ [tail]) -> ~ In 10 l) ->
  obj_load (file_text (ls ++ (w0 ++ str "f" ++ w1 ++ show_int i ++ 47 :: rest) :: more) tail) m0 = Err FUninit.
Proof. exact @obj_load_slash. Qed.
Print Assumptions C107_slashes_refuted.

(** C107 is false for faces of more than three corners: a square is loaded as one triangle. *)
Theorem C107_polygon_refuted : forall (T : Type) (N : Num T) (X : Text T) (ls : list (list Z)) (p q r s : Point3 T) (m0 : Mesh T),
  Forall2 line_of ls (map RVertex [p; q; r; s]) -> reach m0 ->
  exists m, obj_load (file_text ls (str "f 1 2 3 4")) m0 = Ok (true, m) /\ reach m /\ shows m (mkA [p; q; r; s] [((0, 1, 2), true)] (get_color m0)).
Proof. exact @obj_quad. Qed.
Print Assumptions C107_polygon_refuted.

(** A file with a comment, tabs, a CR LF line end, a fourth coordinate, a normal and a blank line; numbers are natural numbers. *)
#[local] Instance IntText : Text f64 := { f_show x := show_int (Z.abs (Btrunc 53 1024 x)); f_scan l := let '(v, ok, r) := scan_int l in (nofZ v, ok, r) }.
Example C107_numbers n : 0 <= n <= int_max -> num_text (show_int n) (nofZ n : f64).
Proof.
  intros H. split; [apply int_word; lia|]. intros rest [_ R]. cbn [f_scan IntText]. rewrite scan_show by (try apply ends_of; assumption). reflexivity.
Qed.
Definition ex_lines : list (list Z) :=
  [str "# made by hand"; str "v" ++ [9] ++ str "0 0 0" ++ [13]; str "  v 1 0  0 1"; str "v 0" ++ [9; 32] ++ str "2 30"; str "vn 0 0 1"; []].
Definition ex_records : list (record f64) :=
  [ROther; RVertex (mkP (nofZ 0) (nofZ 0) (nofZ 0)); RVertex (mkP (nofZ 1) (nofZ 0) (nofZ 0)); RVertex (mkP (nofZ 0) (nofZ 2) (nofZ 30)); ROther; ROther; RFace 1 2 3].
Example C107_case : Forall2 line_of (ex_lines ++ [str "f 1 2 3"]) ex_records /\ read_records [] [] ex_records =
  Some ([mkP (nofZ 0) (nofZ 0) (nofZ 0); mkP (nofZ 1) (nofZ 0) (nofZ 0); mkP (nofZ 0) (nofZ 2) (nofZ 30)], [(0, 1, 2)]).
Proof.
  assert (forall w, forallb (fun c => (c =? 32) || (c =? 9) || (c =? 13)) w = true -> blanks w) as B.
  { intros w H. apply Forall_forall. intros c I. rewrite forallb_forall in H. apply H in I. rewrite !orb_true_iff, !Z.eqb_eq in I. unfold blank. lia. }
  assert (forall w, w <> [] -> forallb (fun c => (c =? 32) || (c =? 9) || (c =? 13)) w = true -> gap w) as G by (intros w H1 H2; split; auto).
  assert (forall w, w <> [] -> forallb (fun c => 33 <=? c) w = true -> word w) as W.
  { intros w H1 H. split; [exact H1|]. apply Forall_forall. intros c I. rewrite forallb_forall in H. apply H, Z.leb_le in I. lia. }
  assert (forall c l, forallb (fun c => negb (c =? 10)) (c :: l) = true -> blank c -> line_rest (c :: l)) as R.
  { intros c l H H2. split; [|exact H2]. intros I. rewrite forallb_forall in H. apply H in I. discriminate. }
  assert (line_rest []) as R0 by (split; [intros []|exact I]).
  assert (forall n, 0 <= n <= 100 -> num_text (show_int n) (nofZ n : f64)) as NT by (intros n H; apply C107_numbers; unfold int_max; lia).
  split; [|reflexivity]. unfold ex_lines, ex_records. cbn [app].
  constructor. { apply (L_other [] (str "#") (str " made by hand")); [apply B; reflexivity|apply W; [discriminate|reflexivity]|apply R; [reflexivity|left; reflexivity]|discriminate|discriminate]. }
  constructor. { apply (L_vertex [] [9] [32] [32] (show_int 0) (show_int 0) (show_int 0) [13]); first [apply B; reflexivity|apply G; [discriminate|reflexivity]|apply NT; lia|apply R; [reflexivity|unfold blank; auto]]. }
  constructor. { apply (L_vertex [32; 32] [32] [32] [32; 32] (show_int 1) (show_int 0) (show_int 0) (str " 1")); first [apply B; reflexivity|apply G; [discriminate|reflexivity]|apply NT; lia|apply R; [reflexivity|unfold blank; auto]]. }
  constructor. { apply (L_vertex [] [32] [9; 32] [32] (show_int 0) (show_int 2) (show_int 30) []); first [apply B; reflexivity|apply G; [discriminate|reflexivity]|apply NT; lia|exact R0]. }
  constructor. { apply (L_other [] (str "vn") (str " 0 0 1")); [apply B; reflexivity|apply W; [discriminate|reflexivity]|apply R; [reflexivity|left; reflexivity]|discriminate|discriminate]. }
  constructor. { apply L_blank, B. reflexivity. }
  constructor; [|constructor]. apply (L_face [] [32] [32] [32] 1 2 3 []); first [apply B; reflexivity|apply G; [discriminate|reflexivity]|unfold int_max; lia|exact R0].
Qed.
Example C107_run : (do r <- obj_load (file_text ex_lines (str "f 1 2 3")) mesh_new; do t <- get_triangle_vertices (snd r) 0; Ok (nb_vertices (snd r), nb_triangles (snd r), t)) = Ok (3, 1, (0, 1, 2)).
Proof. vm_compute. reflexivity. Qed.
