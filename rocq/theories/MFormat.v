(** How the streams of the C++ library print and read a double: [f << x] with the default precision of six
    digits (OBJFile.cpp:107-109, 136; StepFile.cpp:72, 131, 140, 154) and [ss >> x] (OBJFile.cpp:45).
    The code is the library's (printf %.6g; num_get and strtod of libstdc++), so what is modelled is its documented
    result: correct rounding both ways, ties to even. *)
From Coq Require Import ZArith List Bool.
From Flocq Require Import IEEE754.Binary IEEE754.Bits IEEE754.BinarySingleNaN.
From Verif Require Import Base Num MText MF64.
Import ListNotations.
Open Scope Z_scope.

(** b^z for z >= 0, else 1 *)
Definition up (b z : Z) : Z := b ^ Z.max 0 z.
(** The integer nearest to n/d, the even one of two *)
Definition half_even (n d : Z) : Z :=
  let q := n / d in let r := n mod d in
  if 2 * r <? d then q else if d <? 2 * r then q + 1 else if Z.even q then q else q + 1.

(** ** Printing (OBJFile.cpp:107-109: %.6g) *)
(** The largest of X, X-1, ... with 10^X <= m * 2^e *)
Fixpoint dec_exp (fuel : nat) (m e X : Z) : Z :=
  match fuel with
  | O => X
  | S f => if up 10 X * up 2 (- e) <=? m * up 2 e * up 10 (- X) then X else dec_exp f m e (X - 1)
  end.
(** The six digits and the decimal exponent of m * 2^e *)
Definition six (m e : Z) : Z * Z :=
  let X := dec_exp 632 m e 308 in
  let d := half_even (m * up 2 e * up 10 (5 - X)) (up 2 (- e) * up 10 (X - 5)) in
  if d =? 1000000 then (100000, X + 1) else (d, X).
Definition dig6 (d : Z) : list Z :=
  map (fun z => 48 + z mod 10) [d / 100000; d / 10000; d / 1000; d / 100; d / 10; d].
(** Without the zeros at the end *)
Fixpoint strip (l : list Z) : list Z :=
  match l with
  | [] => []
  | c :: l' => match strip l' with [] => if c =? 48 then [] else [c] | s => c :: s end
  end.
Definition dot (f : list Z) : list Z := match f with [] => [] | _ => 46 :: f end.
(** At least two digits *)
Definition show_exp (X : Z) : list Z :=
  (if X <? 0 then [45] else [43]) ++ map (fun z => 48 + z mod 10) (let a := Z.abs X in if a <? 100 then [a / 10; a] else [a / 100; a / 10; a]).
Definition show_six (d X : Z) : list Z :=
  let ds := dig6 d in
  if (-4 <=? X) && (X <? 6) then
    if 0 <=? X then firstn (Z.to_nat (X + 1)) ds ++ dot (strip (skipn (Z.to_nat (X + 1)) ds))
    else 48 :: 46 :: repeat 48 (Z.to_nat (- X - 1)) ++ strip ds
  else firstn 1 ds ++ dot (strip (skipn 1 ds)) ++ [101] ++ show_exp X.
Definition sgn (s : bool) : list Z := if s then [45] else [].
Definition f64_show (x : f64) : list Z :=
  match x with
  | Binary.B754_zero _ _ s => sgn s ++ [48]
  | Binary.B754_infinity _ _ s => sgn s ++ [105; 110; 102]
  | Binary.B754_nan _ _ s _ _ => sgn s ++ [110; 97; 110]
  | Binary.B754_finite _ _ s m e _ => let (d, X) := six (Zpos m) e in sgn s ++ show_six d X
  end.

(** ** Reading (OBJFile.cpp:45: num_get, then strtod on the characters it collected) *)
Definition f64_norm (s : bool) (m e : Z) : f64 := Binary.binary_normalize 53 1024 eq_refl eq_refl mode_NE (SpecFloat.cond_Zopp s m) e s.
(** DBL_MAX *)
Definition f64_max (s : bool) : f64 := f64_norm s 9007199254740991 971.
(** The double nearest to D * 10^E; a value that is too large gives DBL_MAX and failbit *)
Definition dec_to_f64 (s : bool) (D E : Z) : f64 * bool :=
  if D =? 0 then (Binary.B754_zero 53 1024 s, true) else
  let n := D * up 10 E in let d := up 10 (- E) in
  let k := Z.log2 n - Z.log2 d in
  let g := if d * up 2 k <=? n * up 2 (- k) then k else k - 1 in
  let e := Z.max (g - 52) (-1074) in
  let x := f64_norm s (half_even (n * up 2 (- e)) (d * up 2 e)) e in
  if Binary.is_finite 53 1024 x then (x, true) else (f64_max s, false).
Fixpoint take_digits (l : list Z) : list Z * list Z :=
  match l with
  | c :: l' => if is_digit c then let (w, r) := take_digits l' in (c :: w, r) else ([], l)
  | [] => ([], [])
  end.
Definition digval (l : list Z) : Z := fold_left (fun a c => 10 * a + (c - 48)) l 0.
Definition take_sign (l : list Z) : bool * list Z :=
  match l with c :: l' => if c =? 45 then (true, l') else if c =? 43 then (false, l') else (false, l) | [] => (false, l) end.
(** Sign, digits with at most one point, exponent.  What strtod does not accept entirely gives 0 and failbit. *)
Definition f64_scan (l : list Z) : f64 * bool * list Z :=
  let (s, l) := take_sign l in
  let (ip, l) := take_digits l in
  let (fp, l) := match l with c :: l' => if c =? 46 then take_digits l' else ([], l) | [] => ([], l) end in
  let num E l := let (x, ok) := dec_to_f64 s (digval (ip ++ fp)) (E - vsize fp) in (x, ok, l) in
  let bad (l : list Z) := (Binary.B754_zero 53 1024 false, false, l) in
  match ip ++ fp with
  | [] => bad l
  | _ =>
    match l with
    | c :: l' => if (c =? 101) || (c =? 69) then
        let (es, l) := take_sign l' in
        let (ep, l) := take_digits l in
        match ep with [] => bad l | _ => num (if es then - digval ep else digval ep) l end
      else num 0 l
    | [] => num 0 l
    end
  end.

#[global] Instance F64Text : Text f64 := { f_show := f64_show; f_scan := f64_scan }.
