(** Image.h, ImageUtil.cpp, ImageGenerator.cpp. *)
From Coq Require Import ZArith List Bool.
From Verif Require Import Base Num MNurbs MStream.
Import ListNotations.
Open Scope Z_scope.

(** Image.h:115-116.  Bytes are values 0..255. *)
Record Image := mkImg { im_w : Z; im_h : Z; im_p : Z; im_data : list Z }.

(** Image.h:36-39 *)
Definition im_size (im : Image) : res Z := do a <- iint (im_h im * im_w im); iint (a * im_p im).
(** Image.h:41-51; vector::resize keeps the bytes that are there and appends zeros; the product of three size_t is taken modulo 2^64.
    Memory is unlimited: no exception *)
Definition im_resize (im : Image) (w h p : Z) : res Image :=
  do _ <- massert (0 <=? w); do _ <- massert (0 <=? h); do _ <- massert (0 <=? p);
  do d <- vresize (im_data im) ((w * h * p) mod 2 ^ 64) 0;
  Ok (mkImg w h p d).
(** Image.h:13-16 *)
Definition im_new (w h p : Z) : res Image := im_resize (mkImg 0 0 0 []) w h p.
(** Image.h:58-80: the offset of pixel(iX,iY,iP) in _data; the products are of ints, the sums of a pointer and an int *)
Definition im_addr (im : Image) (x y p : Z) : res Z :=
  do _ <- massert (0 <=? x); do _ <- massert (0 <=? y); do _ <- massert (0 <=? p);
  do _ <- massert (x <? im_w im); do _ <- massert (y <? im_h im); do _ <- massert (p <? im_p im);
  do a <- iint (im_p im * im_w im); do a <- iint (a * y); do c <- iint (x * im_p im);
  Ok (p + a + c).
(** Image.h:94-104 operator() const *)
Definition im_get (im : Image) (x y p : Z) : res Z := do a <- im_addr im x y p; vget (im_data im) a.
(** Image.h:82-92 operator() used as the target of an assignment *)
Definition im_put (im : Image) (x y p v : Z) : res Image :=
  do a <- im_addr im x y p; do d <- vset (im_data im) a v; Ok (mkImg (im_w im) (im_h im) (im_p im) d).

(** Image.h:106-112; the doubles written are the integers 0..255, kept as Z.  [img] is the vector given by the caller. *)
Definition im_to_double (im : Image) (img : list Z) : res (list Z) :=
  do n <- im_size im;
  do img <- vresize img n 0;
  for_ 0 (im_w im) (fun ligne img =>
    for_ 0 (im_h im) (fun colonne img =>
      do v <- im_get im ligne colonne 0;
      vset img (colonne + ligne * im_w im) v) img) img.

(** ImageUtil.cpp:12-23.  [im] and [imBW] are different objects. *)
Definition convert_to_bw (im imBW : Image) : res Image :=
  do imBW <- im_resize imBW (im_w im) (im_h im) 1;
  for_ 0 (im_w im) (fun i imBW =>
    for_ 0 (im_h im) (fun j imBW =>
      do a <- im_get im i j 0; do b <- im_get im i j 1; do c <- im_get im i j 2;
      im_put imBW i j 0 ((a + b + c) / 3)) imBW) imBW.
(** convert_to_bw(im,im): the resize happens before the pixels are read *)
Definition convert_to_bw_self (im : Image) : res Image :=
  do im' <- im_resize im (im_w im) (im_h im) 1;
  for_ 0 (im_w im') (fun i im =>
    for_ 0 (im_h im') (fun j im =>
      do a <- im_get im i j 0; do b <- im_get im i j 1; do c <- im_get im i j 2;
      im_put im i j 0 ((a + b + c) / 3)) im) im'.

Section Numbers.
Context {T : Type} {N : Num T}.
(** conversion double -> unsigned char; undefined when the truncated value does not fit *)
Definition to_uchar (v : T) : res Z :=
  do k <- ntrunc v; if (0 <=? k) && (k <? 256) then Ok k else Err FBadConv.
(** ImageUtil.cpp:25-31; the size of the image does not change in the loops *)
Definition im_scale (im : Image) (d : T) : res Image :=
  let h := im_h im in let np := im_p im in
  for_ 0 (im_w im) (fun i im =>
    for_ 0 h (fun j im =>
      for_ 0 np (fun p im =>
        do a <- im_get im i j p;
        do b <- to_uchar (nadd (nmul (nofZ a) d) (nlit 1 2));
        im_put im i j p b) im) im) im.
End Numbers.

(** the int [v] is stored at the address img.pixel(w,h) *)
Definition im_put_int (im : Image) (x y v : Z) : res Image :=
  do a <- im_addr im x y 0;
  do _ <- (if vsize (im_data im) <? a + 4 then Err FOob else Ok tt);
  Ok (mkImg (im_w im) (im_h im) (im_p im) (put_bytes (im_data im) a (le 4 v))).
(** ImageGenerator.cpp:7-14 *)
Definition shierpinsky (im : Image) (w h : Z) : res Image :=
  do im <- im_resize im w h 4;
  for_ 0 w (fun x im => for_ 0 h (fun y im =>
    im_put_int im x y ((if Z.land x y =? 0 then 1 else 0) * (2 ^ 25 - 1))) im) im.

Section Mandelbrot.
Context {T : Type} {N : Num T}.
(** ImageGenerator.cpp:35-46: the loop of one pixel, [n] = iterMax; returns the final iterMax.
    Simplified: iNbIteration >= 0 (a negative count runs down to INT_MIN). *)
Fixpoint mandel (n : nat) (cx cy fx fy : T) : nat :=
  if nltb (nadd (nmul fx fx) (nmul fy fy)) (nofZ 4) then
    let fxy := nmul fx fy in
    let fx' := nadd (nmul (nadd fx fy) (nsub fx fy)) cx in
    let fy' := nadd (nadd fxy fxy) cy in
    match n with O => O | S n' => mandel n' cx cy fx' fy' end
  else n.
(** ImageGenerator.cpp:16-50 (float arithmetic modelled by T) *)
Definition mandelbrot (im : Image) (w h iter : Z) : res Image :=
  let xmin := nneg (nlit 21 10) in let xmax := nlit 9 10 in
  let ymin := nneg (nlit 3 2) in let ymax := nlit 3 2 in
  do im <- im_resize im w h 4;
  for_ 0 w (fun x im => for_ 0 h (fun y im =>
    do qx <- ndiv (nofZ (w - x)) (nofZ w);
    do qy <- ndiv (nofZ (h - y)) (nofZ h);
    let cx := nadd xmin (nmul qx (nsub xmax xmin)) in
    let cy := nadd ymin (nmul qy (nsub ymax ymin)) in
    let left := Z.of_nat (mandel (Z.to_nat iter) cx cy cx cy) in
    do c <- iint ((iter - left) * (65536 + 256 + 1));
    im_put_int im x y c) im) im.
End Mandelbrot.
