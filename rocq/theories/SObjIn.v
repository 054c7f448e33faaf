(** OBJ files as other programs write them: records separated by line ends, fields separated by blanks and tabs. *)
From Coq Require Import ZArith List Bool String.
From Verif Require Import Base Num MGeometry MText SMesh.
Import ListNotations.
Open Scope Z_scope.

(** Blank, tab, vertical tab, form feed, carriage return (the end of a line of a DOS file); not the line feed. *)
Definition blank (c : Z) : Prop := c = 32 \/ c = 9 \/ c = 11 \/ c = 12 \/ c = 13.
Definition blanks (w : list Z) : Prop := Forall blank w.
Definition gap (w : list Z) : Prop := w <> [] /\ blanks w.
(** A word: no white space at all. *)
Definition word (w : list Z) : Prop := w <> [] /\ Forall (fun c => c <> 32 /\ ~ (9 <= c <= 13)) w.
(** The rest of a line after a field. *)
Definition line_rest (l : list Z) : Prop := ~ In 10 l /\ match l with [] => True | c :: _ => blank c end.

Section Spec.
Context {T : Type} {X : Text T}.
(** The word [w] is read as the number [x], whatever white space follows. *)
Definition num_text (w : list Z) (x : T) : Prop := word w /\ forall rest, line_rest rest -> f_scan (w ++ rest) = (x, true, rest).

Inductive record := RVertex (p : Point3 T) | RFace (i j k : Z) | ROther.
Inductive line_of : list Z -> record -> Prop :=
| L_vertex w0 w1 w2 w3 sx sy sz rest x y z : blanks w0 -> gap w1 -> gap w2 -> gap w3 -> line_rest rest ->
    num_text sx x -> num_text sy y -> num_text sz z ->
    line_of (w0 ++ str "v" ++ w1 ++ sx ++ w2 ++ sy ++ w3 ++ sz ++ rest) (RVertex (mkP x y z))
| L_face w0 w1 w2 w3 i j k rest : blanks w0 -> gap w1 -> gap w2 -> gap w3 -> line_rest rest ->
    0 <= i <= int_max -> 0 <= j <= int_max -> 0 <= k <= int_max ->
    line_of (w0 ++ str "f" ++ w1 ++ show_int i ++ w2 ++ show_int j ++ w3 ++ show_int k ++ rest) (RFace i j k)
| L_other w0 w rest : blanks w0 -> word w -> line_rest rest -> w <> str "v" -> w <> str "f" -> line_of (w0 ++ w ++ rest) ROther
| L_blank w0 : blanks w0 -> line_of w0 ROther.

(** Records in order: points are numbered from 1, a face may only name points that precede it. *)
Definition named (n i : Z) : bool := (1 <=? i) && (i <=? n).
Fixpoint read_records (V : list (Point3 T)) (F : list triple) (rs : list record) : option (list (Point3 T) * list triple) :=
  match rs with
  | [] => Some (V, F)
  | RVertex p :: rs' => read_records (V ++ [p]) F rs'
  | RFace i j k :: rs' =>
      if named (len V) i && named (len V) j && named (len V) k then read_records V (F ++ [(i - 1, j - 1, k - 1)]) rs' else None
  | ROther :: rs' => read_records V F rs'
  end.
(** The file: every line ended by a line feed, except perhaps the last one. *)
Definition file_text (ls : list (list Z)) (tail : list Z) : list Z := flat_map (fun l => l ++ [10]) ls ++ tail.
End Spec.
Arguments record : clear implicits.
