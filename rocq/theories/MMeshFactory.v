(** Model of src/MeshFactory.cpp. *)
From Coq Require Import ZArith List Bool.
From Verif Require Import Base Num MGeometry MKernel MMesh SMesh MMeshRun MUtil.
Import ListNotations.
Open Scope Z_scope.

Section Factory.
Context {T : Type} {N : Num T} {TR : Trig T}.
Implicit Types m : Mesh T.

(** A sequence of calls on [m], with all results ignored. *)
Definition run_ops m (os : list (op T (Mesh T))) : res (Mesh T) := do r <- mrun m os; Ok (fst r).
Definition av (x y z : T) : op T (Mesh T) := OpAddVertex (mkP x y z).

(** MeshFactory.cpp:13-26 *)
Definition create_tetrahedron (d : T) m : res (Mesh T) :=
  run_ops (clear m)
    [av d d d; av (- d)%num (- d)%num d; av d (- d)%num (- d)%num; av (- d)%num d (- d)%num;
     OpAddTriangle 0 1 2; OpAddTriangle 1 3 2; OpAddTriangle 0 3 1; OpAddTriangle 0 2 3].

(** MeshFactory.cpp:28-51 *)
Definition create_box (xSize ySize zSize : T) m : res (Mesh T) :=
  do x <- ndiv xSize n2; do y <- ndiv ySize n2; do z <- ndiv zSize n2;
  run_ops (clear m)
    [av x y z; av (- x)%num y z; av (- x)%num (- y)%num z; av x (- y)%num z;
     av x y (- z)%num; av (- x)%num y (- z)%num; av (- x)%num (- y)%num (- z)%num; av x (- y)%num (- z)%num;
     OpAddQuad 0 1 2 3; OpAddQuad 7 6 5 4; OpAddQuad 4 5 1 0; OpAddQuad 3 2 6 7; OpAddQuad 5 6 2 1; OpAddQuad 0 3 7 4].

(** MeshFactory.cpp:53-72 *)
Definition create_octahedron (d : T) m : res (Mesh T) :=
  run_ops (clear m)
    [av d n0 n0; av n0 d n0; av n0 n0 d; av (- d)%num n0 n0; av n0 (- d)%num n0; av n0 n0 (- d)%num;
     OpAddTriangle 0 1 2; OpAddTriangle 1 0 5; OpAddTriangle 2 1 3; OpAddTriangle 0 2 4;
     OpAddTriangle 4 3 5; OpAddTriangle 3 4 2; OpAddTriangle 5 3 1; OpAddTriangle 4 5 0].

(** MeshFactory.cpp:74-126 *)
Definition create_dodecahedron (d : T) m : res (Mesh T) :=
  do s5 <- nsqrt (nofZ 5);
  do t1 <- ndiv (s5 + n1)%num n2;
  do t2 <- ndiv n1 t1;
  let u := d in
  let t1 := (t1 * d)%num in let t2 := (t2 * d)%num in
  run_ops (clear m)
    [av u u u; av u u (- u)%num; av u (- u)%num u; av u (- u)%num (- u)%num;
     av (- u)%num u u; av (- u)%num u (- u)%num; av (- u)%num (- u)%num u; av (- u)%num (- u)%num (- u)%num;
     av n0 t1 t2; av n0 t1 (- t2)%num; av n0 (- t1)%num t2; av n0 (- t1)%num (- t2)%num;
     av t2 n0 t1; av t2 n0 (- t1)%num; av (- t2)%num n0 t1; av (- t2)%num n0 (- t1)%num;
     av t1 t2 n0; av t1 (- t2)%num n0; av (- t1)%num t2 n0; av (- t1)%num (- t2)%num n0;
     OpAddPentagon 0 12 2 17 16; OpAddPentagon 19 18 5 15 7;
     OpAddPentagon 12 0 8 4 14; OpAddPentagon 13 3 11 7 15;
     OpAddPentagon 2 12 14 6 10; OpAddPentagon 9 1 13 15 5;
     OpAddPentagon 18 19 6 14 4; OpAddPentagon 3 13 1 16 17;
     OpAddPentagon 1 9 8 0 16; OpAddPentagon 19 7 11 10 6;
     OpAddPentagon 18 4 8 9 5; OpAddPentagon 2 10 11 3 17].

(** MeshFactory.cpp:128-177 *)
Definition create_icosahedron (d : T) m : res (Mesh T) :=
  do s5 <- nsqrt (nofZ 5);
  do t <- ndiv (s5 - n1)%num n2;
  let u := d in let t := (t * d)%num in
  run_ops (clear m)
    [av u n0 t; av u n0 (- t)%num; av (- u)%num n0 t; av (- u)%num n0 (- t)%num;
     av n0 t u; av n0 (- t)%num u; av n0 t (- u)%num; av n0 (- t)%num (- u)%num;
     av t u n0; av (- t)%num u n0; av t (- u)%num n0; av (- t)%num (- u)%num n0;
     OpAddTriangle 0 1 8; OpAddTriangle 0 10 1; OpAddTriangle 2 3 11; OpAddTriangle 2 9 3;
     OpAddTriangle 4 5 0; OpAddTriangle 4 2 5; OpAddTriangle 6 7 3; OpAddTriangle 6 1 7;
     OpAddTriangle 8 9 4; OpAddTriangle 8 6 9; OpAddTriangle 10 11 7; OpAddTriangle 10 5 11;
     OpAddTriangle 0 8 4; OpAddTriangle 3 7 11;
     OpAddTriangle 10 0 5; OpAddTriangle 9 6 3;
     OpAddTriangle 1 6 8; OpAddTriangle 2 11 5;
     OpAddTriangle 2 4 9; OpAddTriangle 1 10 7].

(** MeshFactory.cpp:183, 247, 310 *)
Definition pi_lit : T := nlit 314159265358979323846264338 100000000000000000000000000.
(** [(double)i / n * 2. * PI] *)
Definition turn (i n : Z) : res T := do q <- ndiv (nofZ i) (nofZ n); Ok (q * n2 * pi_lit)%num.

(** MeshFactory.cpp:179-219 *)
Definition create_cylinder (h r : T) (n : Z) m : res (Mesh T) :=
  let m := clear m in
  do z <- ndiv h n2;
  let L := 2 + 4 * n in
  do m <- for_ 0 L (fun i m =>
    do a <- turn i L;
    let x := (ncos a * r)%num in let y := (nsin a * r)%num in
    run_ops m [av x y z; av x y (- z)%num]) m;
  do m <- run_ops m [av n0 n0 z; av n0 n0 (- z)%num];
  do m <- for_ 0 (L - 1) (fun i m => add_quad m (2 * i) (2 * i + 1) (2 * i + 3) (2 * i + 2)) m;
  do m <- add_quad m (2 * L - 2) (2 * L - 1) 1 0;
  do m <- for_ 0 L (fun i m => run_ops m [OpAddTriangle (L * 2) (2 * i) (2 * i + 2)]) m;
  do m <- run_ops m [OpAddTriangle (L * 2) (2 * L - 2) 0];
  do m <- for_ 0 L (fun i m => run_ops m [OpAddTriangle (L * 2 + 1) (2 * i + 3) (2 * i + 1)]) m;
  run_ops m [OpAddTriangle (L * 2 + 1) 1 (2 * L - 1)].

(** MeshFactory.cpp:231-236: put all vertices at distance [r] *)
Definition to_radius (r : T) m : res (Mesh T) :=
  for_ 0 (nb_vertices m) (fun i m =>
    do v <- get_vertex m i; do v <- normalized v; set_vertex m i (pmul v r)) m.
(** MeshFactory.cpp:221-241 *)
Definition create_sphere_geodesic (r : T) (n : Z) m : res (Mesh T) :=
  let m := clear m in
  do mi <- create_icosahedron n1 mesh_new;
  do m <- tessellate mi n m;
  do m <- to_radius r m;
  do e <- ndiv r (nlit 951 1000);
  do e <- ndiv e (nofZ n);
  do e <- ndiv e (nofZ 20);
  merge_vertices m e.

(** MeshFactory.cpp:243-301 *)
Definition create_sphere_uv (r : T) (n : Z) m : res (Mesh T) :=
  let m := clear m in
  let NL := 2 + 4 * n in
  let NLa := 2 + Z.quot (4 * n) 2 in
  do m <- for_ 0 NL (fun longitude m =>
    do upi <- turn longitude NL;
    for_ 1 NLa (fun latitude m =>
      do q <- ndiv (nofZ latitude) (nofZ NLa);
      let vpi := (q * pi_lit)%num in
      run_ops m [av (r * nsin vpi * ncos upi)%num (r * nsin vpi * nsin upi)%num (r * ncos vpi)%num]) m) m;
  do m <- run_ops m [av n0 n0 r; av n0 n0 (- r)%num];
  let nla := NLa - 1 in
  let iPoleNorth := nb_vertices m - 2 in
  let iPoleSouth := nb_vertices m - 1 in
  for_ 0 NL (fun longitude m =>
    let l1 := longitude in
    let l2 := Z.rem (longitude + 1) NL in
    do m <- run_ops m [OpAddTriangle iPoleNorth (l1 * nla) (l2 * nla)];
    do m <- for_ 1 nla (fun latitude m =>
      add_quad m (l1 * nla + latitude - 1) (l1 * nla + latitude) (l2 * nla + latitude) (l2 * nla + latitude - 1)) m;
    run_ops m [OpAddTriangle (l1 * nla + nla - 1) iPoleSouth (l2 * nla + nla - 1)]) m.

(** MeshFactory.cpp:303-348 *)
Definition create_torus (rM rm : T) (n : Z) m : res (Mesh T) :=
  let m := clear m in
  if negb (mesh_is_empty m) then Ok m else
  let NL := 2 + 4 * n in
  let NLa := 2 + 4 + Z.quot (4 * n) 2 in
  do m <- for_ 0 NL (fun longitude m =>
    do upi <- turn longitude NL;
    for_ 0 NLa (fun latitude m =>
      do vpi <- turn latitude NLa;
      run_ops m [av ((rM + rm * ncos vpi) * ncos upi)%num ((rM + rm * ncos vpi) * nsin upi)%num (rm * nsin vpi)%num]) m) m;
  for_ 0 NL (fun longitude m =>
    for_ 0 NLa (fun latitude m =>
      let longitude2 := Z.rem (longitude + 1) NL in
      let latitude2 := Z.rem (latitude + 1) NLa in
      add_quad m (longitude2 * NLa + latitude) (longitude2 * NLa + latitude2) (longitude * NLa + latitude2) (longitude * NLa + latitude)) m) m.

End Factory.
