(** Binary files: std::fstream::read / write on a byte string (list of values 0..255), little-endian integers. *)
From Coq Require Import ZArith List Bool.
From Verif Require Import Base.
Import ListNotations.
Open Scope Z_scope.

(** An open input file: the bytes not read yet and the state good().
    Simplified: eofbit, failbit and badbit are one flag; read() tests and sets it in the same way. *)
Record istream := mkIn { is_rest : list Z; is_good : bool }.
Definition is_open (bytes : list Z) : istream := mkIn bytes true.

(** [f.read(buf,n)]: the bytes stored into [buf] (gcount() of them) and the new state.  Nothing is
    read when the stream is not good; a short read stores what there is and sets eofbit|failbit.
    For n<0 libstdc++ stores nothing and sets failbit since gcount() <> n. *)
Definition is_read (n : Z) (f : istream) : list Z * istream :=
  if negb (is_good f) then ([], f)
  else if n <? 0 then ([], mkIn (is_rest f) false)
  else if vsize (is_rest f) <? n then (is_rest f, mkIn [] false)
  else (firstn (Z.to_nat n) (is_rest f), mkIn (skipn (Z.to_nat n) (is_rest f)) true).

(** [n] bytes of [v] (two's complement, x86: least significant byte first), and back. *)
Fixpoint le (n : nat) (v : Z) : list Z :=
  match n with O => [] | S n' => v mod 256 :: le n' (v / 256) end.
Fixpoint unle (l : list Z) : Z :=
  match l with [] => 0 | b :: l' => b + 256 * unle l' end.
Definition signed (n : nat) (v : Z) : Z :=
  if v <? 2 ^ (8 * Z.of_nat n - 1) then v else v - 2 ^ (8 * Z.of_nat n).

(** [f.read(&x, n)] for an n-byte integer holding [old]: a short read changes only the first bytes. *)
Definition is_read_int (n : nat) (old : Z) (f : istream) : Z * istream :=
  let (got, f') := is_read (Z.of_nat n) f in
  (signed n (unle (got ++ skipn (length got) (le n old))), f').

(** A read whose value is not used. *)
Definition is_skip (n : Z) (f : istream) : istream := snd (is_read n f).

(** Store bytes at offset [a] of a memory block: [memcpy(&buf[a], bytes, n)]. *)
Definition put_bytes (buf : list Z) (a : Z) (bytes : list Z) : list Z :=
  firstn (Z.to_nat a) buf ++ bytes ++ skipn (Z.to_nat a + length bytes) buf.
(** [f.read(&buf[a], n)]; stricter than C++: the whole range a..a+n must be inside the buffer, even if the file is shorter. *)
Definition is_read_into (buf : list Z) (a n : Z) (f : istream) : res (list Z * istream) :=
  if (a <? 0) || (vsize buf <? a + n) then Err FOob
  else let (got, f') := is_read n f in Ok (put_bytes buf a got, f').
(** The bytes passed to [f.write(&buf[a], n)]. *)
Definition bytes_at (buf : list Z) (a n : Z) : res (list Z) :=
  if (a <? 0) || (n <? 0) || (vsize buf <? a + n) then Err FOob
  else Ok (firstn (Z.to_nat n) (skipn (Z.to_nat a) buf)).
