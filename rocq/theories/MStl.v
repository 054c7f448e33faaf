(** STLFile.cpp. *)
From Coq Require Import ZArith List Bool.
From Verif Require Import Base Num MGeometry MKernel MMesh MStream.
Import ListNotations.
Open Scope Z_scope.

(** Conversions double -> float -> 4 bytes and back: [f_bits x] is the 32-bit pattern of (float)x, [f_val b] the double value of the float with pattern b. *)
Class Single (T : Type) := { f_bits : T -> Z; f_val : Z -> T }.

Section Stl.
Context {T : Type} {F : Single T}.

(** STLFile.cpp:43-56: the 9 floats of a triangle *)
Definition stl_coords (t : Triangle3 T) : list Z :=
  le 4 (f_bits (px (t1 t))) ++ le 4 (f_bits (py (t1 t))) ++ le 4 (f_bits (pz (t1 t))) ++
  le 4 (f_bits (px (t2 t))) ++ le 4 (f_bits (py (t2 t))) ++ le 4 (f_bits (pz (t2 t))) ++
  le 4 (f_bits (px (t3 t))) ++ le 4 (f_bits (py (t3 t))) ++ le 4 (f_bits (pz (t3 t))).
(** STLFile.cpp:10-61: the bytes of the file *)
Definition stl_save (m : Mesh T) : res (list Z) :=
  do out <- for_ 0 20 (fun _ out => Ok (out ++ le 4 0)) [];
  do n <- for_ 0 (nb_triangles m) (fun i n => do u <- is_triangle_unlinked m i; if u then Ok n else Ok (n + 1)) 0;
  for_ 0 (nb_triangles m) (fun i out =>
    do u <- is_triangle_unlinked m i;
    if u then Ok out else
    do t <- get_triangle m i;
    Ok (out ++ le 4 0 ++ le 4 0 ++ le 4 0 ++ stl_coords t ++ le 2 0)) (out ++ le 4 n).

(** [f.read(&x, 4)] on a float whose pattern was [old] *)
Definition is_read_bits (old : Z) (f : istream) : Z * istream :=
  let (got, f') := is_read 4 f in (unle (got ++ skipn (length got) (le 4 old)), f').
(** p1x .. p3z are kept in one list, in the order they are read. *)
Definition stl_vertex (c : list Z) (j : Z) : res (Point3 T) :=
  do x <- vget c (3 * j); do y <- vget c (3 * j + 1); do z <- vget c (3 * j + 2); Ok (mkP (f_val x) (f_val y) (f_val z)).
(** STLFile.cpp:63-111 on the content of the file.  A file that cannot be opened clears the mesh and gives false; that branch is not modelled. *)
Definition stl_load (bytes : list Z) (m : Mesh T) : res (bool * Mesh T) :=
  let m := clear m in
  do f <- for_ 0 20 (fun _ f => Ok (is_skip 4 f)) (is_open bytes);
  let (nb, f) := is_read_int 4 0 f in
  do r <- for_ 0 nb (fun _ s =>
    let '(m, f, c) := s in
    let f := is_skip 4 (is_skip 4 (is_skip 4 f)) in
    do r <- for_ 0 9 (fun j s =>
      do old <- vget (fst s) j;
      let (v, f) := is_read_bits old (snd s) in
      do c <- vset (fst s) j v; Ok (c, f)) (c, f);
    let c := fst r in
    let f := is_skip 2 (snd r) in
    do p1 <- stl_vertex c 0; let m := fst (add_vertex m p1) in
    do p2 <- stl_vertex c 1; let m := fst (add_vertex m p2) in
    do p3 <- stl_vertex c 2; let m := fst (add_vertex m p3) in
    do x <- add_triangle m (nb_vertices m - 3) (nb_vertices m - 2) (nb_vertices m - 1);
    Ok (fst x, f, c)) (m, f, repeat 0 9%nat);
  Ok (true, fst (fst r)).
End Stl.
