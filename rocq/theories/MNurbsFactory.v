(** Models of src/NurbsFactory.cpp, NurbsRevolve.cpp, NurbsExtrude.cpp, NurbsRuled.cpp and NurbsUtil.cpp:41-54. *)
From Coq Require Import ZArith List Bool.
From Verif Require Import Base Num MGeometry MKernel MMesh MNurbs MNurbsSurface.
Import ListNotations.
Open Scope Z_scope.

Section Factory.
Context {T : Type} {N : Num T}.

(** NurbsFactory.cpp:21 and NurbsRevolve.cpp:86 *)
Definition circle_knots : list T :=
  [n0; n0; n0; nlit 1 4; nlit 1 4; nlit 1 2; nlit 1 2; nlit 3 4; nlit 3 4; n1; n1; n1].
(** [1. / sqrt(2.)] *)
Definition inv_sqrt2 : res T := do s <- nsqrt n2; ndiv n1 s.
(** [Point3(x,y,z) * d] with integer literals *)
Definition lpt (x y z : Z) (d : T) : Point3 T := pmul (mkP (nofZ x) (nofZ y) (nofZ z)) d.

(** NurbsFactory.cpp:15-33 *)
Definition nf_create_circle (r : T) (nc : NurbsCurve T) : res (NurbsCurve T) :=
  let nc := nc_clear nc in
  do h <- inv_sqrt2;
  do nc <- nc_set_degree nc 2;
  do nc <- nc_set_knots nc circle_knots;
  Ok (nc_set_points (nc_set_weights nc [n1; h; n1; h; n1; h; n1; h; n1])
    [lpt 1 0 0 r; lpt 1 1 0 r; lpt 0 1 0 r; lpt (-1) 1 0 r; lpt (-1) 0 0 r;
     lpt (-1) (-1) 0 r; lpt 0 (-1) 0 r; lpt 1 (-1) 0 r; lpt 1 0 0 r]).

(** NurbsFactory.cpp:55-63 *)
Definition nf_curve_from_points (p : list (Point3 T)) (deg : Z) (nc : NurbsCurve T) : res (NurbsCurve T) :=
  do nc <- nc_set_degree (nc_clear nc) deg;
  do nc <- nc_set_uniform (nc_set_points nc p);
  Ok (nc_set_equals_weights nc).

(** NurbsRevolve.cpp:42-47 (and 52-57, 62-67, 72-77): a quarter turn, and the corner between *)
Definition quarter (p : Point3 T) : Point3 T := mkP (py p) (nneg (px p)) (pz p).
Definition diag (p q : Point3 T) : Point3 T := mkP (px (padd q p)) (py (padd q p)) (pz p).
(** NurbsRevolve.cpp:36-80: the nine control points and weights of the circle through [p] *)
Definition revolve_ring (p1 : Point3 T) (w wd : T) : list (Point3 T) * list T :=
  let p3 := quarter p1 in let p5 := quarter p3 in let p7 := quarter p5 in let p9 := quarter p7 in
  ([p1; diag p1 p3; p3; diag p3 p5; p5; diag p5 p7; p7; diag p7 p9; p9],
   [w; wd; w; wd; w; wd; w; wd; w]).
(** NurbsRevolve.cpp:19-94 *)
Definition nr_revolve (nc : NurbsCurve T) (ns : NurbsSurface T) : res (NurbsSurface T) :=
  let ns := ns_clear ns in
  do pw <- for_ 0 (vsize (nc_points nc)) (fun i pw =>
    do w <- vget (nc_weights nc) i;
    do p1 <- vget (nc_points nc) i;
    do s2 <- nsqrt n2;
    do wd <- ndiv w s2;
    let ring := revolve_ring p1 w wd in
    Ok (fst pw ++ fst ring, snd pw ++ snd ring)) ([], []);
  do ns <- ns_set_degree ns 2 (nc_degree nc);
  do ns <- ns_set_knots_u (ns_set_points ns (fst pw) 9 (nc_nb_points nc)) circle_knots;
  do ns <- ns_set_knots_v ns (nc_knots nc);
  do cl <- nc_is_closed nc default_tol;
  Ok (ns_set_closed_v (ns_set_closed_u (ns_set_weights ns (snd pw)) true) cl).

(** NurbsFactory.cpp:35-53 *)
Definition nf_create_disk (r : T) (ns : NurbsSurface T) : res (NurbsSurface T) :=
  let ns := ns_clear ns in
  do nc <- nc_set_degree nc_new 1;
  do nc <- nc_set_uniform (nc_set_points nc [mkP n0 n0 n0; mkP r n0 n0]);
  nr_revolve (nc_set_equals_weights nc) ns.

(** [p.y() = -p.y()] over all control points (NurbsFactory.cpp:89-92, 148-151, 164-167) *)
Definition flip_y (p : Point3 T) : Point3 T := mkP (px p) (nneg (py p)) (pz p).

(** NurbsFactory.cpp:65-94 *)
Definition nf_create_sphere (r : T) (ns : NurbsSurface T) : res (NurbsSurface T) :=
  let ns := ns_clear ns in
  do h <- inv_sqrt2;
  do nc <- nc_set_degree nc_new 2;
  let nc := nc_set_weights (nc_set_points nc [lpt 0 0 (-1) r; lpt 0 1 (-1) r; lpt 0 1 0 r; lpt 0 1 1 r; lpt 0 0 1 r])
              [n1; h; n1; h; n1] in
  do nc <- nc_set_knots nc [n0; n0; n0; nlit 1 2; nlit 1 2; n1; n1; n1];
  do ns <- nr_revolve nc ns;
  Ok (ns_points_ref ns (map flip_y (ns_points ns))).

(** NurbsFactory.cpp:96-117 *)
Definition nf_create_torus (rM rm : T) (ns : NurbsSurface T) : res (NurbsSurface T) :=
  let ns := ns_clear ns in
  do nc <- nf_create_circle rm nc_new;
  let nc := nc_points_ref nc (map (fun p => mkP (nadd (px p) rM) (nneg (pz p)) (py p)) (nc_points nc)) in
  nr_revolve nc ns.

(** NurbsFactory.cpp:119-156 *)
Definition nf_create_cylinder (r h : T) : res (list (NurbsSurface T)) :=
  do h2 <- ndiv h n2;
  do s1 <- nf_create_disk r ns_new;
  let s1 := ns_points_ref s1 (map (fun p => mkP (px p) (nneg (py p)) (nsub (pz p) h2)) (ns_points s1)) in
  do s3 <- nf_create_disk r ns_new;
  let s3 := ns_points_ref s3 (map (fun p => mkP (px p) (py p) (nadd (pz p) h2)) (ns_points s3)) in
  do mh2 <- ndiv (nneg h) n2;
  do nc <- nf_curve_from_points [mkP r n0 mh2; mkP r n0 h2] 1 nc_new;
  do s2 <- nr_revolve nc ns_new;
  let s2 := ns_points_ref s2 (map flip_y (ns_points s2)) in
  Ok [s1; s2; s3].

(** NurbsFactory.cpp:158-170 *)
Definition nf_create_torus_solid (rM rm : T) : res (list (NurbsSurface T)) :=
  do ns <- nf_create_torus rM rm ns_new; Ok [ns_points_ref ns (map flip_y (ns_points ns))].
(** NurbsFactory.cpp:172-178 *)
Definition nf_create_sphere_solid (r : T) : res (list (NurbsSurface T)) :=
  do ns <- nf_create_sphere r ns_new; Ok [ns].

(** NurbsRuled.cpp:17-46 *)
Definition nr_create_ruled (c1 c2 : NurbsCurve T) (ns : NurbsSurface T) : res (NurbsSurface T) :=
  do ns <- ns_set_degree (ns_clear ns) (nc_degree c1) 1;
  do ns <- ns_set_knots_u ns (nc_knots c1);
  do ns <- ns_set_knots_v ns [n0; n0; n1; n1];
  let ns := ns_set_points (ns_set_weights ns (nc_weights c1 ++ nc_weights c2))
              (nc_points c1 ++ nc_points c2) (vsize (nc_points c1)) 2 in
  do b1 <- nc_is_closed c1 default_tol;
  do b2 <- (if b1 then nc_is_closed c2 default_tol else Ok false);
  Ok (ns_set_closed_u ns b2).

(** NurbsExtrude.cpp:17-49 *)
Definition ne_extrude (nc : NurbsCurve T) (dir : Point3 T) (ns : NurbsSurface T) : res (NurbsSurface T) :=
  let ns := ns_clear ns in
  let old := vsize (nc_points nc) in
  do w <- for_ 0 old (fun i w => do x <- vget w i; Ok (vpush w x)) (nc_weights nc);
  do p <- for_ 0 old (fun i p => do x <- vget p i; Ok (vpush p (padd x dir))) (nc_points nc);
  do ns <- ns_set_degree ns (nc_degree nc) 1;
  do ns <- ns_set_knots_u ns (nc_knots nc);
  do ns <- ns_set_knots_v ns [n0; n0; n1; n1];
  do cl <- nc_is_closed nc default_tol;
  Ok (ns_set_closed_u (ns_set_points (ns_set_weights ns w) p old 2) cl).

(** NurbsFactory.cpp:185-193 *)
Definition nf_create_quad (p1 p2 p3 p4 : Point3 T) (ns : NurbsSurface T) : res (NurbsSurface T) :=
  do n1 <- nf_curve_from_points [p1; p2] 1 nc_new;
  do n2 <- nf_curve_from_points [p4; p3] 1 nc_new;
  nr_create_ruled n1 n2 ns.
(** NurbsFactory.cpp:180-183 *)
Definition nf_create_triangle (p1 p2 p3 : Point3 T) (ns : NurbsSurface T) : res (NurbsSurface T) :=
  nf_create_quad p1 p2 p3 p3 ns.

(** NurbsFactory.cpp:195-230; [ns] is reused from call to call *)
Definition nf_create_box (sx sy sz : T) : res (list (NurbsSurface T)) :=
  do x <- ndiv sx n2; do y <- ndiv sy n2; do z <- ndiv sz n2;
  do mx <- ndiv (nneg sx) n2; do my <- ndiv (nneg sy) n2; do mz <- ndiv (nneg sz) n2;
  let p1 := mkP x y z in let p2 := mkP x my z in let p3 := mkP mx my z in let p4 := mkP mx y z in
  let p5 := mkP x y mz in let p6 := mkP x my mz in let p7 := mkP mx my mz in let p8 := mkP mx y mz in
  do a <- nf_create_quad p1 p4 p3 p2 ns_new;
  do b <- nf_create_quad p5 p6 p7 p8 a;
  do c <- nf_create_quad p1 p2 p6 p5 b;
  do d <- nf_create_quad p3 p4 p8 p7 c;
  do e <- nf_create_quad p3 p7 p6 p2 d;
  do f <- nf_create_quad p1 p5 p8 p4 e;
  Ok [a; b; c; d; e; f].

(** NurbsUtil.cpp:41-54 *)
Definition nu_create_from_mesh (m : Mesh T) : res (list (NurbsSurface T)) :=
  for_ 0 (nb_triangles m) (fun i n =>
    do t <- get_triangle m i;
    do s <- nf_create_triangle (t1 t) (t2 t) (t3 t) ns_new;
    Ok (vpush n s)) [].

End Factory.
