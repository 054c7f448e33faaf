(** Model of src/NurbsSurface.h/.cpp, src/NurbsSolid.cpp and src/NurbsUtil.cpp. *)
From Coq Require Import ZArith List Bool.
From Verif Require Import Base Num MGeometry MKernel MMesh MNurbs.
Import ListNotations.
Open Scope Z_scope.

(** NurbsSurface.h:68-79.  The four temporaries are [mutable] members: [evaluate] writes them. *)
Record NurbsSurface (T : Type) := mkNS {
  ns_degU : Z; ns_degV : Z;
  ns_nbU : Z; ns_nbV : Z;
  ns_closedU : bool; ns_closedV : bool;
  ns_knotsU : list T; ns_knotsV : list T;
  ns_weights : list T;
  ns_points : list (Point3 T);
  ns_tpU : list (Point3 T); ns_tpV : list (Point3 T);
  ns_twU : list T; ns_twV : list T }.
Arguments mkNS {T}. Arguments ns_degU {T}. Arguments ns_degV {T}. Arguments ns_nbU {T}. Arguments ns_nbV {T}.
Arguments ns_closedU {T}. Arguments ns_closedV {T}. Arguments ns_knotsU {T}. Arguments ns_knotsV {T}.
Arguments ns_weights {T}. Arguments ns_points {T}. Arguments ns_tpU {T}. Arguments ns_tpV {T}.
Arguments ns_twU {T}. Arguments ns_twV {T}.

Section Surface.
Context {T : Type} {N : Num T}.
Implicit Types s : NurbsSurface T.

(** NurbsSurface.cpp:12-15 *)
Definition ns_new : NurbsSurface T := mkNS 0 0 0 0 false false [] [] [] [] [] [] [] [].
(** NurbsSurface.cpp:21-31 (the closed flags and the temporaries are not touched) *)
Definition ns_clear s : NurbsSurface T :=
  mkNS 0 0 0 0 (ns_closedU s) (ns_closedV s) [] [] [] [] (ns_tpU s) (ns_tpV s) (ns_twU s) (ns_twV s).
(** NurbsSurface.cpp:33-42 *)
Definition ns_set_degree s (du dv : Z) : res (NurbsSurface T) :=
  do tpU <- vresize (ns_tpU s) (du + 1) P0;
  do tpV <- vresize (ns_tpV s) (dv + 1) P0;
  do twU <- vresize (ns_twU s) (du + 1) n0;
  do twV <- vresize (ns_twV s) (dv + 1) n0;
  Ok (mkNS du dv (ns_nbU s) (ns_nbV s) (ns_closedU s) (ns_closedV s) (ns_knotsU s) (ns_knotsV s)
        (ns_weights s) (ns_points s) tpU tpV twU twV).
(** NurbsSurface.cpp:54-58 *)
Definition ns_set_knots_u s (ks : list T) : res (NurbsSurface T) :=
  do k <- scale_knots ks;
  Ok (mkNS (ns_degU s) (ns_degV s) (ns_nbU s) (ns_nbV s) (ns_closedU s) (ns_closedV s) k (ns_knotsV s)
        (ns_weights s) (ns_points s) (ns_tpU s) (ns_tpV s) (ns_twU s) (ns_twV s)).
(** NurbsSurface.cpp:78-82 *)
Definition ns_set_knots_v s (ks : list T) : res (NurbsSurface T) :=
  do k <- scale_knots ks;
  Ok (mkNS (ns_degU s) (ns_degV s) (ns_nbU s) (ns_nbV s) (ns_closedU s) (ns_closedV s) (ns_knotsU s) k
        (ns_weights s) (ns_points s) (ns_tpU s) (ns_tpV s) (ns_twU s) (ns_twV s)).
(** NurbsSurface.cpp:60-76 *)
Definition ns_set_uniform_u s : res (NurbsSurface T) :=
  do ks <- uniform_knots (ns_degU s) (ns_nbU s); ns_set_knots_u s ks.
(** NurbsSurface.cpp:84-98 *)
Definition ns_set_uniform_v s : res (NurbsSurface T) :=
  do ks <- uniform_knots (ns_degV s) (ns_nbV s); ns_set_knots_v s ks.
(** NurbsSurface.cpp:126-129 *)
Definition ns_set_weights s (w : list T) : NurbsSurface T :=
  mkNS (ns_degU s) (ns_degV s) (ns_nbU s) (ns_nbV s) (ns_closedU s) (ns_closedV s) (ns_knotsU s) (ns_knotsV s)
    w (ns_points s) (ns_tpU s) (ns_tpV s) (ns_twU s) (ns_twV s).
(** NurbsSurface.cpp:131-134 ([resize] keeps the weights that are already there) *)
Definition ns_set_equals_weights s : res (NurbsSurface T) :=
  do w <- vresize (ns_weights s) (vsize (ns_points s)) n1; Ok (ns_set_weights s w).
(** NurbsSurface.cpp:146-151 *)
Definition ns_set_points s (p : list (Point3 T)) (nu nv : Z) : NurbsSurface T :=
  mkNS (ns_degU s) (ns_degV s) nu nv (ns_closedU s) (ns_closedV s) (ns_knotsU s) (ns_knotsV s)
    (ns_weights s) p (ns_tpU s) (ns_tpV s) (ns_twU s) (ns_twV s).
(** NurbsSurface.cpp:202-205: the client writes through the returned reference *)
Definition ns_points_ref s (p : list (Point3 T)) : NurbsSurface T := ns_set_points s p (ns_nbU s) (ns_nbV s).
(** NurbsSurface.cpp:163-171 *)
Definition ns_apply_transform s (f : Point3 T -> Point3 T) : NurbsSurface T :=
  ns_points_ref s (map f (ns_points s)).
(** NurbsSurface.cpp:177-185 *)
Definition ns_set_closed_u s (b : bool) : NurbsSurface T :=
  mkNS (ns_degU s) (ns_degV s) (ns_nbU s) (ns_nbV s) b (ns_closedV s) (ns_knotsU s) (ns_knotsV s)
    (ns_weights s) (ns_points s) (ns_tpU s) (ns_tpV s) (ns_twU s) (ns_twV s).
Definition ns_set_closed_v s (b : bool) : NurbsSurface T :=
  mkNS (ns_degU s) (ns_degV s) (ns_nbU s) (ns_nbV s) (ns_closedU s) b (ns_knotsU s) (ns_knotsV s)
    (ns_weights s) (ns_points s) (ns_tpU s) (ns_tpV s) (ns_twU s) (ns_twV s).

(** NurbsSurface.cpp:405-415 *)
Definition ns_load_row s (kiU idxV : Z) (t : list (Point3 T) * list T) : res (list (Point3 T) * list T) :=
  for_ 0 (ns_degU s + 1) (fun ui t =>
    let idxU := ui + kiU - ns_degU s in
    do _ <- massert (0 <=? idxU);
    do _ <- massert (idxU <? ns_nbU s);
    do w <- vget (ns_weights s) (idxU + ns_nbU s * idxV);
    do tw <- vset (snd t) ui w;
    do p <- vget (ns_points s) (idxU + ns_nbU s * idxV);
    do tp <- vset (fst t) ui (pmul p w);
    Ok (tp, tw)) t.

(** NurbsSurface.cpp:384-439: the point and the surface with its temporaries overwritten *)
Definition ns_evaluate s (u v : T) : res (Point3 T * NurbsSurface T) :=
  do _ <- massert (vsize (ns_points s) =? vsize (ns_weights s));
  do kiU <- find_knot_span (ns_knotsU s) u;
  do kiV <- find_knot_span (ns_knotsV s) v;
  do _ <- massert (ns_nbU s =? vsize (ns_knotsU s) - ns_degU s - 1);
  do _ <- massert (ns_nbV s =? vsize (ns_knotsV s) - ns_degV s - 1);
  do _ <- massert (ns_nbU s * ns_nbV s =? vsize (ns_points s));
  do t <- for_ 0 (ns_degV s + 1) (fun vi t =>
    let '(tU, tV) := t in
    let idxV := vi + kiV - ns_degV s in
    do _ <- massert (0 <=? idxV);
    do _ <- massert (idxV <? ns_nbV s);
    do tU <- ns_load_row s kiU idxV tU;
    do tU <- deboor (ns_knotsU s) (ns_degU s) kiU u tU;
    do pw <- vget (fst tU) (ns_degU s);
    do tp <- vset (fst tV) vi pw;
    do w <- vget (snd tU) (ns_degU s);
    do tw <- vset (snd tV) vi w;
    Ok (tU, (tp, tw))) ((ns_tpU s, ns_twU s), (ns_tpV s, ns_twV s));
  let '(tU, tV) := t in
  do tV <- deboor (ns_knotsV s) (ns_degV s) kiV v tV;
  do pw <- vget (fst tV) (ns_degV s);
  do w <- vget (snd tV) (ns_degV s);
  do p <- pdiv pw w;
  Ok (p, mkNS (ns_degU s) (ns_degV s) (ns_nbU s) (ns_nbV s) (ns_closedU s) (ns_closedV s) (ns_knotsU s) (ns_knotsV s)
       (ns_weights s) (ns_points s) (fst tU) (fst tV) (snd tU) (snd tV)).

(** NurbsSurface.cpp:288-310: one curve of create_u_curves *)
Definition u_curve s (v : Z) : res (NurbsCurve T) :=
  do n <- nc_set_degree nc_new (ns_degU s);
  do n <- nc_set_knots n (ns_knotsU s);
  do pw <- for_ 0 (ns_nbU s) (fun u pw =>
    do p <- vget (ns_points s) (u + ns_nbU s * v);
    do w <- vget (ns_weights s) (u + ns_nbU s * v);
    Ok (vpush (fst pw) p, vpush (snd pw) w)) ([], []);
  Ok (nc_set_weights (nc_set_points n (fst pw)) (snd pw)).
Definition create_u_curves s : res (list (NurbsCurve T)) :=
  for_ 0 (ns_nbV s) (fun v vu => do n <- u_curve s v; Ok (vpush vu n)) [].
(** NurbsSurface.cpp:312-334 *)
Definition v_curve s (u : Z) : res (NurbsCurve T) :=
  do n <- nc_set_degree nc_new (ns_degV s);
  do n <- nc_set_knots n (ns_knotsV s);
  do pw <- for_ 0 (ns_nbV s) (fun v pw =>
    do p <- vget (ns_points s) (u + ns_nbU s * v);
    do w <- vget (ns_weights s) (u + ns_nbU s * v);
    Ok (vpush (fst pw) p, vpush (snd pw) w)) ([], []);
  Ok (nc_set_weights (nc_set_points n (fst pw)) (snd pw)).
Definition create_v_curves s : res (list (NurbsCurve T)) :=
  for_ 0 (ns_nbU s) (fun u vv => do n <- v_curve s u; Ok (vpush vv n)) [].

(** NurbsSurface.cpp:336-355 *)
Definition from_u_curves s (vu : list (NurbsCurve T)) : res (NurbsSurface T) :=
  match vu with
  | [] => Ok s
  | n0 :: _ =>
    do s <- ns_set_knots_u s (nc_knots n0);
    do pw <- for_ 0 (vsize vu) (fun v pw =>
      do n <- vget vu v;
      Ok (fst pw ++ nc_points n, snd pw ++ nc_weights n)) ([], []);
    ns_set_degree (ns_set_weights (ns_set_points s (fst pw) (nc_nb_points n0) (ns_nbV s)) (snd pw))
      (nc_degree n0) (ns_degV s)
  end.
(** NurbsSurface.cpp:357-382; a negative size of the two fresh vectors throws, recorded as [FOob] *)
Definition from_v_curves s (vv : list (NurbsCurve T)) : res (NurbsSurface T) :=
  match vv with
  | [] => Ok s
  | c0 :: _ =>
    do s <- ns_set_knots_v s (nc_knots c0);
    let nbV := nc_nb_points c0 in
    do vp <- vresize [] (ns_nbU s * nbV) P0;
    do vw <- vresize [] (ns_nbU s * nbV) n0;
    do pw <- for_ 0 (ns_nbU s) (fun u pw =>
      do nv <- vget vv u;
      for_ 0 nbV (fun v pw =>
        do p <- vget (nc_points nv) v;
        do vp <- vset (fst pw) (u + v * ns_nbU s) p;
        do w <- vget (nc_weights nv) v;
        do vw <- vset (snd pw) (u + v * ns_nbU s) w;
        Ok (vp, vw)) pw) (vp, vw);
    ns_set_degree (ns_set_weights (ns_set_points s (fst pw) (ns_nbU s) (nc_nb_points c0)) (snd pw))
      (ns_degU s) (nc_degree c0)
  end.

(** Call a member function on every element of a vector of curves. *)
Definition each_curve (f : NurbsCurve T -> res (NurbsCurve T)) (vc : list (NurbsCurve T)) : res (list (NurbsCurve T)) :=
  for_ 0 (vsize vc) (fun i vc => do c <- vget vc i; do c <- f c; vset vc i c) vc.

(** NurbsSurface.cpp:236-256 *)
Definition ns_insert_knot_u s (u : T) : res (NurbsSurface T) :=
  do vu <- create_u_curves s; do vu <- each_curve (fun c => nc_insert_knot c u) vu; from_u_curves s vu.
Definition ns_insert_knot_v s (v : T) : res (NurbsSurface T) :=
  do vv <- create_v_curves s; do vv <- each_curve (fun c => nc_insert_knot c v) vv; from_v_curves s vv.
(** NurbsSurface.cpp:258-286 (the result of degree_elevation is ignored) *)
Definition ns_degree_elevation_u s : res (bool * NurbsSurface T) :=
  if 3 <=? ns_degU s then Ok (false, s) else
  do vu <- create_u_curves s;
  do vu <- each_curve (fun c => do r <- nc_degree_elevation c; Ok (snd r)) vu;
  do s <- from_u_curves s vu; Ok (true, s).
Definition ns_degree_elevation_v s : res (bool * NurbsSurface T) :=
  if 3 <=? ns_degV s then Ok (false, s) else
  do vv <- create_v_curves s;
  do vv <- each_curve (fun c => do r <- nc_degree_elevation c; Ok (snd r)) vv;
  do s <- from_v_curves s vv; Ok (true, s).

(** NurbsUtil.cpp:15-39 *)
Definition nu_create_from_z (z : list T) (sx sy deg : Z) (n : NurbsSurface T) : res (NurbsSurface T) :=
  let n := ns_clear n in
  do ip <- for_ 0 sx (fun x ip =>
    for_ 0 sy (fun y ip =>
      do v <- vget z (fst ip);
      Ok (fst ip + 1, vpush (snd ip) (mkP (nofZ x) (nofZ y) v))) ip) (0, []);
  do n <- ns_set_degree n deg deg;
  do n <- ns_set_uniform_u (ns_set_points n (snd ip) sx sy);
  do n <- ns_set_uniform_v n;
  ns_set_equals_weights n.

(** NurbsUtil.cpp:56-75; add_quad(p1..p4) has bOptimSurface defaulted to true (Mesh.h:46) *)
Definition to_controlpoints_mesh s (m : Mesh T) : res (Mesh T) :=
  for_ 0 (ns_nbU s - 1) (fun u m =>
    for_ 0 (ns_nbV s - 1) (fun v m =>
      do p1 <- vget (ns_points s) (v * ns_nbU s + u);
      do p2 <- vget (ns_points s) (v * ns_nbU s + (u + 1));
      do p3 <- vget (ns_points s) ((v + 1) * ns_nbU s + (u + 1));
      do p4 <- vget (ns_points s) ((v + 1) * ns_nbU s + u);
      add_quad_points m p1 p2 p3 p4 true) m) (clear m).

(** NurbsUtil.cpp:93-102.  The surface is [const] in C++; its temporaries are threaded through. *)
Definition to_mesh_vertices (nU nV : Z) (sm : NurbsSurface T * Mesh T) : res (NurbsSurface T * Mesh T) :=
  for_ 0 (nV + 1) (fun v sm =>
    for_ 0 (nU + 1) (fun u sm =>
      do du <- ndiv (nofZ u) (nofZ nU);
      do dv <- ndiv (nofZ v) (nofZ nV);
      do e <- ns_evaluate (fst sm) du dv;
      Ok (snd e, fst (add_vertex (snd sm) (fst e)))) sm) sm.
(** NurbsUtil.cpp:104-123 *)
Definition to_mesh_quads (start nU nV : Z) (cu cv : bool) (m : Mesh T) : res (Mesh T) :=
  for_ 0 nV (fun v m =>
    for_ 0 nU (fun u m =>
      let iEndU := if cu && (u =? nU - 1) then 0 else u + 1 in
      let iEndV := if cv && (v =? nV - 1) then 0 else v + 1 in
      add_quad m (start + u + (nU + 1) * v) (start + iEndU + (nU + 1) * v)
        (start + iEndU + (nU + 1) * iEndV) (start + u + (nU + 1) * iEndV)) m) m.
(** NurbsUtil.cpp:77-124.  The square in the test of line 89 is an int. *)
Definition nu_to_mesh s (m : Mesh T) (seg : Z) (bClear : bool) : res (Mesh T) :=
  let m := if bClear then clear m else m in
  let start := nb_vertices m in
  do nU <- iint (seg * ns_nbU s);
  do nV <- iint (seg * ns_nbV s);
  do sq <- iint (nU * nU);
  if sq =? 0 then Ok m else
  do sm <- to_mesh_vertices nU nV (s, m);
  to_mesh_quads start nU nV (ns_closedU s) (ns_closedV s) (snd sm).

(** NurbsSolid.cpp: a vector of surfaces.  NurbsUtil.cpp:126-133 *)
Definition nu_solid_to_mesh (ss : list (NurbsSurface T)) (m : Mesh T) (seg : Z) : res (Mesh T) :=
  for_ 0 (vsize ss) (fun i m => do s <- vget ss i; nu_to_mesh s m seg false) (clear m).
(** NurbsSolid.cpp:34-40 *)
Definition solid_apply_transform (ss : list (NurbsSurface T)) (f : Point3 T -> Point3 T) : list (NurbsSurface T) :=
  map (fun s => ns_apply_transform s f) ss.

End Surface.
