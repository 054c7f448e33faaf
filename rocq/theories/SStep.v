(** Specification of STEP files as text. *)
From Coq Require Import String ZArith List Bool Sorted.
From Verif Require Import Base MGeometry MNurbsSurface MText.
Import ListNotations.
Open Scope Z_scope.

(** All numbers that follow a '#'; true: at the beginning of a line, so that it is the name of an entity, false: a reference. *)
Fixpoint hashes (bol : bool) (l : list Z) : list (bool * Z) :=
  match l with
  | [] => []
  | c :: l' => if c =? 35 then (bol, fst (scan_digits 0 l')) :: hashes false l' else hashes (c =? 10) l'
  end.
Definition names (t : list Z) : list Z := map snd (filter fst (hashes true t)).
Definition refs (t : list Z) : list Z := map snd (filter (fun h => negb (fst h)) (hashes true t)).
(** Names are increasing, and every reference is the name of an entity of the file. *)
Definition well_formed (t : list Z) : Prop := StronglySorted Z.lt (names t) /\ incl (refs t) (names t).

(** Items separated by [s]. *)
Fixpoint sep (s : list Z) (l : list (list Z)) : list Z :=
  match l with [] => [] | x :: [] => x | x :: l' => x ++ s ++ sep s l' end.
(** A list of lists of entity references, as in (#20,#21),(#22,#23). *)
Definition net (rows : list (list Z)) : list Z :=
  sep (str "," ++ endl) (map (fun row => str "(" ++ sep (str ",") (map (fun i => str "#" ++ show_int i) row) ++ str ")") rows).

Section Spec.
Context {T : Type} {X : Text T}.
Definition no_hash : Prop := forall x : T, ~ In 35 (f_show x).
(** The sizes of a complete surface. *)
Definition full (s : NurbsSurface T) : Prop :=
  0 <= ns_degU s /\ 0 <= ns_degV s /\ 0 <= ns_nbU s /\ 0 <= ns_nbV s /\
  vsize (ns_points s) = ns_nbU s * ns_nbV s /\ vsize (ns_weights s) = ns_nbU s * ns_nbV s /\
  2 * ns_degU s + 2 <= vsize (ns_knotsU s) /\ 2 * ns_degV s + 2 <= vsize (ns_knotsV s).
(** Items separated by commas, in parentheses. *)
Fixpoint commas (l : list (list Z)) : list Z :=
  match l with [] => [] | x :: [] => x | x :: l' => x ++ str "," ++ commas l' end.
Definition group (l : list (list Z)) : list Z := str "(" ++ commas l ++ str "),".
(** Knots written with multiplicities. *)
Definition expand (ms : list nat) (ks : list T) : list T := concat (map (fun p => repeat (snd p) (fst p)) (combine ms ks)).
(** The first deg+1 and the last deg+1 knots are equal. *)
Definition clamped_ends (deg : Z) (k : list T) : Prop :=
  (forall i, 0 <= i <= deg -> vget k i = vget k deg) /\ (forall i, vsize k - 1 - deg <= i < vsize k -> vget k i = vget k (vsize k - 1 - deg)).
(** The multiplicities and knots in both directions, as written. *)
Definition mult_text (mu mv : list nat) (ku kv : list T) : list Z := str "B_SPLINE_SURFACE_WITH_KNOTS(" ++ endl ++
  group (map (fun m => show_int (Z.of_nat m)) mu) ++ endl ++ group (map (fun m => show_int (Z.of_nat m)) mv) ++ endl ++ group (map f_show ku) ++ endl ++ group (map f_show kv) ++ endl.
End Spec.
