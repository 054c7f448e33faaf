(** ImageIoBmp.cpp. *)
From Coq Require Import ZArith List Bool.
From Verif Require Import Base MStream MImage.
Import ListNotations.
Open Scope Z_scope.

Definition with_data (im : Image) (d : list Z) : Image := mkImg (im_w im) (im_h im) (im_p im) d.

(** Exchange of bytes [a] and [a+2] of a row. *)
Definition swap_rb (d : list Z) (a : Z) : res (list Z) :=
  do r <- vget d (a + 2); do b <- vget d a; do d <- vset d (a + 2) b; vset d a r.

(** ImageIoBmp.cpp:52-72; [n] bytes per pixel, 4 *)
Definition read32 (im : Image) (w h n : Z) (f : istream) : res Image :=
  do perfect <- iint (w * n);
  do r <- for_ 0 h (fun y s =>
    do a <- im_addr (fst s) 0 (h - y - 1) 0;
    do r <- is_read_into (im_data (fst s)) a perfect (snd s);
    do d <- for_ 0 w (fun c d => swap_rb d (a + 4 * c)) (fst r);
    Ok (with_data (fst s) d, snd r)) (im, f);
  Ok (fst r).
(** ImageIoBmp.cpp:74-98; the pad bytes go to cTmp[3]: more than 3 would overflow it *)
Definition read24 (im : Image) (w h n : Z) (f : istream) : res Image :=
  do perfect <- iint (w * n);
  do q <- iint (perfect + 3);
  let iPack := Z.rem q 4 - perfect in
  do r <- for_ 0 h (fun y s =>
    do a <- im_addr (fst s) 0 (h - y - 1) 0;
    do r <- is_read_into (im_data (fst s)) a perfect (snd s);
    do d <- for_ 0 w (fun c d => swap_rb d (a + 3 * c)) (fst r);
    do t <- is_read_into [0; 0; 0] 0 iPack (snd r);
    Ok (with_data (fst s) d, snd t)) (im, f);
  Ok (fst r).
(** ImageIoBmp.cpp:100-117; iY runs down from iHeight-1 *)
Definition read8 (im : Image) (w h : Z) (f : istream) : res Image :=
  do line <- iint (w + Z.rem w 4);
  let iPack := line - w in
  do f <- for_ 0 (256 * 4) (fun _ f => Ok (is_skip 1 f)) f;
  do r <- for_ 0 h (fun k s =>
    do a <- im_addr (fst s) 0 (h - 1 - k) 0;
    do r <- is_read_into (im_data (fst s)) a w (snd s);
    do t <- is_read_into [0; 0; 0] 0 iPack (snd r);
    Ok (with_data (fst s) (fst r), snd t)) (im, f);
  Ok (fst r).

(** ImageIoBmp.cpp:8-121 on the content of the file.  A file that cannot be opened gives false; that branch is not modelled. *)
Definition bmp_read (bytes : list Z) (im : Image) : res (bool * Image) :=
  let f := is_open bytes in
  let (magic, f) := is_read_int 2 0 f in
  if negb (magic =? 0x4D42) then Ok (false, im) else
  let f := is_skip 4 (is_skip 2 (is_skip 2 (is_skip 4 f))) in
  let f := is_skip 4 f in
  let (w, f) := is_read_int 4 0 f in
  let (h, f) := is_read_int 4 0 f in
  let f := is_skip 2 f in
  let (bpp, f) := is_read_int 2 0 f in
  let f := is_skip 4 (is_skip 4 (is_skip 4 (is_skip 4 (is_skip 4 (is_skip 4 f))))) in
  let n := Z.shiftr bpp 3 in
  do im <- im_resize im w h n;
  if bpp =? 32 then (do im <- read32 im w h n f; Ok (true, im))
  else if bpp =? 24 then (do im <- read24 im w h n f; Ok (true, im))
  else if bpp =? 8 then (do im <- read8 im w h f; Ok (true, im))
  else Ok (false, im).

(** ImageIoBmp.cpp:211-216 and 230-236: one line of [n] bytes at [a], [p] bytes per pixel, red and blue exchanged, alpha zeroed.
    [pLineOut] is an uninitialised buffer of n+3 bytes; every byte is stored before the line is written. *)
Definition line_out (d : list Z) (a n p : Z) : res (list Z) :=
  for_ 0 ((n + p - 1) / p) (fun k out =>
    let c := p * k in
    do b2 <- vget d (a + c + 2); do out <- vset out c b2;
    do b1 <- vget d (a + c + 1); do out <- vset out (c + 1) b1;
    do b0 <- vget d (a + c); do out <- vset out (c + 2) b0;
    if p =? 4 then vset out (c + 3) 0 else Ok out) (repeat 0 (Z.to_nat (n + 3))).

(** ImageIoBmp.cpp:123-256: the bytes of the file *)
Definition bmp_write (im : Image) : res (list Z) :=
  let w := im_w im in let h := im_h im in let p := im_p im in
  do n <- iint (w * p);
  do n3 <- iint (n + 3);
  let pad := n3 - Z.rem n3 4 in
  let iPack := pad - n in
  let palette := if p =? 1 then 256 * 4 else 0 in
  do bufsize <- iint (pad * h);
  do size <- iint (14 + 40 + palette + bufsize);
  let channels := if p =? 4 then 32 else if p =? 1 then 8 else 24 in
  let header := le 2 0x4D42 ++ le 4 size ++ le 2 0 ++ le 2 0 ++ le 4 (14 + 40 + palette)
    ++ le 4 40 ++ le 4 w ++ le 4 h ++ le 2 1 ++ le 2 channels
    ++ le 4 0 ++ le 4 bufsize ++ le 4 0xb12 ++ le 4 0xb12 ++ le 4 0 ++ le 4 0 in
  do out <- (if p =? 1 then for_ 0 256 (fun i out => Ok (out ++ [i; i; i; 0])) header else Ok header);
  let padding := repeat 0 (Z.to_nat iPack) in
  do out <- (if (p =? 3) || (p =? 4) then
      for_ 0 h (fun y out =>
        do a <- im_addr im 0 (h - y - 1) 0;
        do line <- line_out (im_data im) a n p;
        do l <- bytes_at line 0 n;
        Ok (out ++ l ++ padding)) out
    else Ok out);
  if p =? 1 then
    for_ 0 h (fun y out =>
      do a <- im_addr im 0 (h - y - 1) 0;
      do l <- bytes_at (im_data im) a n;
      Ok (out ++ l ++ padding)) out
  else Ok out.
