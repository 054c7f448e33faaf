(** Text files: std::ofstream << and std::stringstream >> on lists of character codes. *)
From Coq Require Import ZArith List Bool String Ascii.
From Verif Require Import Base Num.
Import ListNotations.
Open Scope Z_scope.

(** A string literal *)
Fixpoint str (s : string) : list Z :=
  match s with EmptyString => [] | String c s' => Z.of_N (N_of_ascii c) :: str s' end.
Definition endl : list Z := [10].
(** isspace in the "C" locale *)
Definition is_space (c : Z) : bool := (c =? 32) || ((9 <=? c) && (c <=? 13)).
Definition is_digit (c : Z) : bool := (48 <=? c) && (c <=? 57).

(** [f << n] for an int: decimal digits. *)
Fixpoint digits (fuel : nat) (n : Z) : list Z :=
  match fuel with
  | O => []
  | S fuel' => if n <? 10 then [48 + n] else digits fuel' (n / 10) ++ [48 + n mod 10]
  end.
Definition show_nat (n : Z) : list Z := digits (S (Z.to_nat (Z.log2 n))) n.
Definition show_int (n : Z) : list Z := if n <? 0 then 45 :: show_nat (- n) else show_nat n.

(** [f << x] and [ss >> x] for a double.  [f_scan s] starts at a character that is not a space: the value
    stored, whether the conversion succeeded, and the characters left. *)
Class Text (T : Type) := { f_show : T -> list Z; f_scan : list Z -> T * bool * list Z }.

(** A stringstream being read: the characters left and !fail().
    Simplified: eofbit is not kept, since extraction at the end sets failbit and stores nothing in either case. *)
Record ss := mkSS { ss_rest : list Z; ss_ok : bool }.
Definition ss_open (l : list Z) : ss := mkSS l true.
Fixpoint skip_ws (l : list Z) : list Z :=
  match l with c :: l' => if is_space c then skip_ws l' else l | [] => [] end.
Fixpoint take_word (l : list Z) : list Z * list Z :=
  match l with
  | [] => ([], [])
  | c :: l' => if is_space c then ([], l) else let (w, r) := take_word l' in (c :: w, r)
  end.
(** [ss >> s] for a string that was empty *)
Definition ss_word (s : ss) : list Z * ss :=
  if ss_ok s then
    match skip_ws (ss_rest s) with
    | [] => ([], mkSS [] false)
    | l => let (w, r) := take_word l in (w, mkSS r true)
    end
  else ([], s).

Fixpoint scan_digits (acc : Z) (l : list Z) : Z * list Z :=
  match l with
  | c :: l' => if is_digit c then scan_digits (10 * acc + (c - 48)) l' else (acc, l)
  | [] => (acc, [])
  end.
(** num_get for int: optional sign, digits.  No digit: 0 and failbit.  Out of range: the nearest int and failbit. *)
Definition scan_int (l : list Z) : Z * bool * list Z :=
  let '(neg, l1) := match l with c :: l' => if c =? 45 then (true, l') else if c =? 43 then (false, l') else (false, l) | [] => (false, l) end in
  match l1 with
  | c :: _ => if is_digit c then
      let (v, r) := scan_digits 0 l1 in
      let v := if neg then - v else v in
      if v <? int_min then (int_min, false, r) else if int_max <? v then (int_max, false, r) else (v, true, r)
    else (0, false, l1)
  | [] => (0, false, [])
  end.
(** [ss >> x] for a variable holding [old] (None: not initialised): when the stream has failed or is at its end nothing is stored. *)
Definition ss_get {A} (scan : list Z -> A * bool * list Z) (old : option A) (s : ss) : option A * ss :=
  if ss_ok s then
    match skip_ws (ss_rest s) with
    | [] => (old, mkSS [] false)
    | l => let '(v, ok, r) := scan l in (Some v, mkSS r ok)
    end
  else (old, s).

(** The strings that [while (!f.eof()) getline(f, s)] goes through. *)
Fixpoint lines (l : list Z) : list (list Z) :=
  match l with
  | [] => [[]]
  | c :: l' => match lines l' with
               | h :: t => if c =? 10 then [] :: h :: t else (c :: h) :: t
               | [] => [[]]
               end
  end.
Definition text_eqb (a b : list Z) : bool := if list_eq_dec Z.eq_dec a b then true else false.
