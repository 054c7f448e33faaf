(** Further theorems for C15, C100 and C107: the vertices of the half-edge kernel, numbers that are not finite, printed integers. *)
From Coq Require Import String ZArith List Bool Reals.
From Flocq Require Import IEEE754.Binary IEEE754.Bits.
From Verif Require Import Base Num MGeometry MKernel MKernelRun MText MF64 MFormat SKernel SObj LNew2.
Import ListNotations.
Open Scope string_scope. Open Scope list_scope. Open Scope Z_scope.

(** C15: as a store of vertices the half-edge kernel answers like the linked one ... *)
Theorem C15_half_edge_vertices : forall (T : Type) (cs : list (kcall T)), Forall vertex_call cs -> trace he_call kh_empty cs = trace lt_call k_empty cs.
Proof. exact @he_vertices. Qed.
Print Assumptions C15_half_edge_vertices.
Example C15_vertices_case : trace he_call kh_empty [KAddVertex (mkP 0%R 0%R 0%R); KAddVertex (mkP 1%R 0%R 0%R); KSetVertex 0 (mkP 2%R 0%R 0%R); KGetVertex 0; KNbVertices; KGetVertex 2]
  = ([ANum 0; ANum 1; AUnit; APoint (mkP 2%R 0%R 0%R); ANum 2], Some FAssert).
Proof. reflexivity. Qed.
(** ... except that a negative index reads or writes outside the array where the linked kernel stops at an assertion. *)
Theorem C15_negative_index_refuted : forall (T : Type) (k : KernelHE T) (i : Z) (p : Point3 T), i < 0 ->
  he_call k (KGetVertex i) = Err FOob /\ he_call k (KSetVertex i p) = Err FOob /\
  forall q : Kernel T, lt_call q (KGetVertex i) = Err FAssert /\ lt_call q (KSetVertex i p) = Err FAssert.
Proof. exact @he_negative. Qed.
Print Assumptions C15_negative_index_refuted.

(** C100: infinities and undefined numbers are written as words, with a minus sign when the sign bit is set. *)
Theorem C100_words : forall x : f64, is_finite 53 1024 x = false ->
  f_show x = (if Bsign 53 1024 x then str "-" else []) ++ (if is_nan 53 1024 x then str "nan" else str "inf").
Proof. exact words_not_finite. Qed.
Print Assumptions C100_words.
Example C100_words_case : is_finite 53 1024 (B754_infinity 53 1024 true) = false /\ f_show (B754_infinity 53 1024 true) = str "-inf".
Proof. split; reflexivity. Qed.

(** C107: every int that is written is read back as itself, at the end of the text or before a blank. *)
Theorem C107_integers : forall (n : Z) (rest : list Z), int_min <= n <= int_max -> ends rest -> scan_int (show_int n ++ rest) = (n, true, rest).
Proof. exact int_trip. Qed.
Print Assumptions C107_integers.
Example C107_integers_case : int_min <= -2147483648 <= int_max /\ ends (str " 7") /\ show_int (-2147483648) = str "-2147483648".
Proof. split; [split; discriminate|]. split; [reflexivity|reflexivity]. Qed.
