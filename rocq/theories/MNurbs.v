(** Model of src/NurbsCurve.h and src/NurbsCurve.cpp. *)
From Coq Require Import ZArith List Bool.
From Verif Require Import Base Num MGeometry.
Import ListNotations.
Open Scope Z_scope.

(** NurbsCurve.h:48-55.  The two temporaries are [mutable] members: [evaluate] writes them. *)
Record NurbsCurve (T : Type) := mkNC {
  nc_degree : Z;
  nc_knots : list T;
  nc_weights : list T;
  nc_points : list (Point3 T);
  nc_nb : Z;
  nc_tp : list (Point3 T);
  nc_tw : list T }.
Arguments mkNC {T}. Arguments nc_degree {T}. Arguments nc_knots {T}. Arguments nc_weights {T}.
Arguments nc_points {T}. Arguments nc_nb {T}. Arguments nc_tp {T}. Arguments nc_tw {T}.

(** [v.resize(n, d)]: a negative int becomes a huge size and throws; recorded as [FOob]. *)
Definition vresize {A} (v : list A) (n : Z) (d : A) : res (list A) :=
  if n <? 0 then Err FOob
  else Ok (firstn (Z.to_nat n) v ++ repeat d (Z.to_nat n - length v)).

(** [v.insert(v.begin() + i, x)] *)
Definition vinsert {A} (v : list A) (i : Z) (x : A) : res (list A) :=
  if (i <? 0) || (vsize v <? i) then Err FOob
  else Ok (firstn (Z.to_nat i) v ++ x :: skipn (Z.to_nat i) v).

Section Curve.
Context {T : Type} {N : Num T}.
Implicit Types c : NurbsCurve T.

(** NurbsCurve.cpp:8-11 *)
Definition nc_new : NurbsCurve T := mkNC 0 [] [] [] 0 [] [].
(** NurbsCurve.cpp:17-24 (the temporaries are not touched) *)
Definition nc_clear c : NurbsCurve T := mkNC 0 [] [] [] 0 (nc_tp c) (nc_tw c).
(** NurbsCurve.cpp:26-31 *)
Definition nc_set_degree c (d : Z) : res (NurbsCurve T) :=
  do tp <- vresize (nc_tp c) (d + 1) P0;
  do tw <- vresize (nc_tw c) (d + 1) n0;
  Ok (mkNC d (nc_knots c) (nc_weights c) (nc_points c) (nc_nb c) tp tw).

(** NurbsCurve.cpp:44-59 and NurbsSurface.cpp:109-124 (same code).  [min]/[max] are std::min/std::max. *)
Definition nmin (a b : T) : T := if nltb b a then b else a.
Definition nmax (a b : T) : T := if nltb a b then b else a.
Definition scale_knots (knots : list T) : res (list T) :=
  do k0 <- vget knots 0;
  do mm <- for_ 1 (vsize knots) (fun i mm =>
             do v <- vget knots i; Ok (nmin (fst mm) v, nmax (snd mm) v)) (k0, k0);
  let '(dMin, dMax) := mm in
  for_ 0 (vsize knots) (fun i ks =>
    do v <- vget ks i;
    do q <- ndiv (nsub v dMin) (nsub dMax dMin);
    vset ks i q) knots.

(** NurbsCurve.cpp:38-42 *)
Definition nc_set_knots c (knots : list T) : res (NurbsCurve T) :=
  do ks <- scale_knots knots;
  Ok (mkNC (nc_degree c) ks (nc_weights c) (nc_points c) (nc_nb c) (nc_tp c) (nc_tw c)).

(** NurbsCurve.cpp:63-72 and NurbsSurface.cpp:62-73, 86-95: the uniform knots before scaling *)
Definition uniform_knots (degree nb : Z) : res (list T) :=
  do ks <- for_ 0 (degree + 1) (fun _ ks => Ok (vpush ks n0)) [];
  do ks <- for_ 1 (nb - degree) (fun i ks => Ok (vpush ks (nofZ i))) ks;
  for_ 0 (degree + 1) (fun _ ks => Ok (vpush ks (nofZ (nb - degree)))) ks.

(** NurbsCurve.cpp:61-75 *)
Definition nc_set_uniform c : res (NurbsCurve T) :=
  do ks <- uniform_knots (nc_degree c) (nc_nb c); nc_set_knots c ks.

(** NurbsCurve.cpp:82-85 *)
Definition nc_set_weights c (w : list T) : NurbsCurve T :=
  mkNC (nc_degree c) (nc_knots c) w (nc_points c) (nc_nb c) (nc_tp c) (nc_tw c).
(** NurbsCurve.cpp:92-95 *)
Definition nc_set_equals_weights c : NurbsCurve T :=
  nc_set_weights c (repeat n1 (Z.to_nat (nc_nb c))).
(** NurbsCurve.cpp:97-101 *)
Definition nc_set_points c (p : list (Point3 T)) : NurbsCurve T :=
  mkNC (nc_degree c) (nc_knots c) (nc_weights c) p (vsize p) (nc_tp c) (nc_tw c).
(** NurbsCurve.cpp:103-106 *)
Definition nc_nb_points c : Z := vsize (nc_points c).
(** NurbsCurve.cpp:113-116: the client writes through the returned reference; [_iNbPoints] is not updated *)
Definition nc_points_ref c (p : list (Point3 T)) : NurbsCurve T :=
  mkNC (nc_degree c) (nc_knots c) (nc_weights c) p (nc_nb c) (nc_tp c) (nc_tw c).

(** NurbsCurve.cpp:118-123; the default tolerance is 1.e-6 (NurbsCurve.h:32) *)
Definition default_tol : T := nlit 1 1000000.
Definition nc_is_closed c (dTol : T) : res bool :=
  if vsize (nc_points c) <=? 1 then Ok false
  else do p0 <- vget (nc_points c) 0;
       do pl <- vget (nc_points c) (vsize (nc_points c) - 1);
       Ok (nltb (norm_square (psub p0 pl)) (nmul dTol dTol)).

(** NurbsCurve.cpp:136-151: the linear search from index [i], [n] indices left *)
Fixpoint find_span_loop (knots : list T) (t : T) (n : nat) (i : Z) : res Z :=
  match n with
  | O => Ok (-1)
  | S n' =>
      do a <- vget knots i;
      do b <- vget knots (i + 1);
      if (if nltb t n1 then nleb a t && nltb t b else nltb a t && nleb t b)
      then Ok i else find_span_loop knots t n' (i + 1)
  end.
(** NurbsCurve.cpp:125-190 and NurbsSurface.cpp:207-234 (same code) *)
Definition find_knot_span (knots : list T) (t : T) : res Z :=
  if vsize knots <? 2 then Ok 0 else
  let t := if nltb t n0 then n0 else t in
  let t := if nltb n1 t then n1 else t in
  find_span_loop knots t (Z.to_nat (vsize knots - 1)) 0.

(** NurbsCurve.cpp:255-257, and NurbsSurface.cpp:420-422, 433-435: one step of the de Boor triangle *)
Definition deboor_step (knots : list T) (deg ki : Z) (u : T) (r j : Z)
  (s : list (Point3 T) * list T) : res (list (Point3 T) * list T) :=
  let '(tp, tw) := s in
  do k0 <- vget knots (j + ki - deg);
  do k1 <- vget knots (j + 1 + ki - r);
  do alpha <- ndiv (nsub u k0) (nsub k1 k0);
  do a <- vget tp (j - 1);
  do b <- vget tp j;
  do tp <- vset tp j (padd (pmul a (nsub n1 alpha)) (pmul b alpha));
  do wa <- vget tw (j - 1);
  do wb <- vget tw j;
  do tw <- vset tw j (nadd (nmul wa (nsub n1 alpha)) (nmul wb alpha));
  Ok (tp, tw).
(** NurbsCurve.cpp:252-258, and NurbsSurface.cpp:417-423, 430-436; the inner loop counts [j] down
    from [deg] to [r]. *)
Definition deboor (knots : list T) (deg ki : Z) (u : T) (s : list (Point3 T) * list T)
  : res (list (Point3 T) * list T) :=
  for_ 1 (deg + 1) (fun r s =>
    for_ 0 (deg - r + 1) (fun m s => deboor_step knots deg ki u r (deg - m) s) s) s.

(** NurbsCurve.cpp:241-250 *)
Definition nc_load c (ki : Z) (s : list (Point3 T) * list T) : res (list (Point3 T) * list T) :=
  for_ 0 (nc_degree c + 1) (fun j s =>
    let idx := j + ki - nc_degree c in
    do _ <- massert (0 <=? idx);
    do _ <- massert (idx <? nc_nb c);
    do w <- vget (nc_weights c) idx;
    do tw <- vset (snd s) j w;
    do p <- vget (nc_points c) idx;
    do tp <- vset (fst s) j (pmul p w);
    Ok (tp, tw)) s.

(** NurbsCurve.cpp:233-261: the point and the curve with its temporaries overwritten. *)
Definition nc_evaluate c (u : T) : res (Point3 T * NurbsCurve T) :=
  do _ <- massert (nc_nb c =? vsize (nc_weights c));
  do _ <- massert (nc_nb c =? vsize (nc_knots c) - nc_degree c - 1);
  do ki <- find_knot_span (nc_knots c) u;
  do s <- nc_load c ki (nc_tp c, nc_tw c);
  do s <- deboor (nc_knots c) (nc_degree c) ki u s;
  do pw <- vget (fst s) (nc_degree c);
  do w <- vget (snd s) (nc_degree c);
  do p <- pdiv pw w;
  Ok (p, mkNC (nc_degree c) (nc_knots c) (nc_weights c) (nc_points c) (nc_nb c) (fst s) (snd s)).

(** NurbsCurve.cpp:202-221: the refined control points (homogeneous) and weights *)
Definition insert_point c (u : T) (ki i : Z) (s : list (Point3 T) * list T) : res (list (Point3 T) * list T) :=
  let hp i := (do p <- vget (nc_points c) i; do w <- vget (nc_weights c) i; Ok (pmul p w, w)) in
  if i <=? ki - nc_degree c then
    do h <- hp i; Ok (vpush (fst s) (fst h), vpush (snd s) (snd h))
  else if ki + 1 <=? i then
    do h <- hp (i - 1); Ok (vpush (fst s) (fst h), vpush (snd s) (snd h))
  else
    do ka <- vget (nc_knots c) i;
    do kb <- vget (nc_knots c) (i + nc_degree c);
    do alpha <- ndiv (nsub u ka) (nsub kb ka);
    do h1 <- hp i;
    do h0 <- hp (i - 1);
    Ok (vpush (fst s) (padd (pmul (fst h1) alpha) (pmul (fst h0) (nsub n1 alpha))),
        vpush (snd s) (nadd (nmul (snd h1) alpha) (nmul (snd h0) (nsub n1 alpha)))).

(** NurbsCurve.cpp:223-225 and 369-371 *)
Definition unhomogenize (p : list (Point3 T)) (w : list T) : res (list (Point3 T)) :=
  for_ 0 (vsize p) (fun i p =>
    do x <- vget p i; do v <- vget w i; do q <- pdiv x v; vset p i q) p.

(** NurbsCurve.cpp:192-231 *)
Definition nc_insert_knot c (u : T) : res (NurbsCurve T) :=
  do ki <- find_knot_span (nc_knots c) u;
  do s <- for_ 0 (vsize (nc_points c) + 1) (fun i s => insert_point c u ki i s) ([], []);
  do p <- unhomogenize (fst s) (snd s);
  do k <- vinsert (nc_knots c) (ki + 1) u;
  do c <- nc_set_knots c k;
  Ok (nc_set_points (nc_set_weights c (snd s)) p).

(** NurbsCurve.cpp:264-277.  The loop runs over a double; the model gives it 20 n + 20 turns
    (10 n + 1 are expected) and reports [FDiverge] beyond. *)
Definition nc_to_polyline c : res (list (Point3 T) * NurbsCurve T) :=
  match nc_points c with
  | [] => Ok ([], c)
  | _ :: _ =>
    do deltaT <- ndiv n1 (nmul (nofZ (vsize (nc_points c))) (nofZ 10));
    do s <- while_ (Z.to_nat (20 * vsize (nc_points c) + 20))
      (fun s => let '(t, _, _) := s in Ok (nleb t n1))
      (fun s => let '(t, poly, c) := s in
         do e <- nc_evaluate c t;
         Ok (nadd t deltaT, vpush poly (fst e), snd e))
      (n0, [], c);
    let '(_, poly, c) := s in Ok (poly, c)
  end.

(** NurbsCurve.cpp:287-304, the procedure ElevateKnots: elevated knots and multiplicities.
    The C++ keeps the multiplicities as doubles; they are small integers and are kept as [Z] here. *)
Definition elevate_knots (knots : list T) : res (list T * list Z) :=
  let nbKnots := vsize knots in
  do s <- for_ 0 (nbKnots - 1) (fun k s =>
    let '(ek, km, l) := s in
    do a <- vget knots k;
    do b <- vget knots (k + 1);
    let ek := vpush ek a in
    if negb (neqb a b) then Ok (vpush ek a, vpush km l, 0 + 1) else Ok (ek, km, l + 1)) ([], [], 1);
  let '(ek, km, l) := s in
  do z <- vget knots (nbKnots - 1);
  Ok (vpush (vpush ek z) z, vpush km l).

(** NurbsCurve.cpp:309-321 *)
Definition elevate1 c : res (list (Point3 T) * list T) :=
  let hp i := (do p <- vget (nc_points c) i; do w <- vget (nc_weights c) i; Ok (pmul p w, w)) in
  do s <- for_ 0 (nc_nb c - 1) (fun i s =>
    do h0 <- hp i;
    do h1 <- hp (i + 1);
    do mp <- pdiv (padd (fst h0) (fst h1)) n2;
    do mw <- ndiv (nadd (snd h0) (snd h1)) n2;
    Ok (vpush (vpush (fst s) (fst h0)) mp, vpush (vpush (snd s) (snd h0)) mw)) ([], []);
  do h <- hp (nc_nb c - 1);
  Ok (vpush (fst s) (fst h), vpush (snd s) (snd h)).

(** NurbsCurve.cpp:322-363, the procedure DDEQuadratic.  [pmul (pmul P w) b] is [_points[k]*_weights[k]*b]. *)
Definition elevate2 c (km : list Z) : res (list (Point3 T) * list T) :=
  let hp i := (do p <- vget (nc_points c) i; do w <- vget (nc_weights c) i; Ok (pmul p w, w)) in
  let mix h x h' y := (padd (pmul (fst h) x) (pmul (fst h') y), nadd (nmul (snd h) x) (nmul (snd h') y)) in
  let push (s : list (Point3 T) * list T) h := (vpush (fst s) (fst h), vpush (snd s) (snd h)) in
  do b1 <- ndiv n1 (nofZ 3);
  do b2 <- ndiv n2 (nofZ 3);
  do h0 <- hp 0;
  do s <- for_ 1 (vsize km) (fun l sk =>
    let '(s, k) := sk in
    do m0 <- vget km (l - 1);
    do s <- (if 1 <? m0 then do ha <- hp (k - 1); do hb <- hp (k - 2); Ok (push s (mix ha b2 hb b1)) else Ok s);
    do m1 <- vget km l;
    do s <- (if 1 <? m1 then
        do hk <- hp k; do ha <- hp (k - 1);
        Ok (push (push s (mix hk b1 ha b2)) hk)
      else
        do ka <- vget (nc_knots c) (k + 1);
        do kb <- vget (nc_knots c) k;
        do kc <- vget (nc_knots c) (k + 2);
        do B <- ndiv (nsub ka kb) (nmul (nofZ 3) (nsub kc kb));
        do hk <- hp k; do ha <- hp (k - 1);
        Ok (push (push s (mix hk B ha (nsub n1 B))) (mix hk (nadd B b2) ha (nsub b1 B))));
    Ok (s, k + m1)) (push ([], []) h0, 2);
  Ok (fst s).

(** NurbsCurve.cpp:279-378 *)
Definition nc_degree_elevation c : res (bool * NurbsCurve T) :=
  if 3 <=? nc_degree c then Ok (false, c) else
  do e <- elevate_knots (nc_knots c);
  let '(ek, km) := e in
  do s <- (if nc_degree c =? 1 then elevate1 c
           else if nc_degree c =? 2 then elevate2 c km else Ok ([], []));
  do p <- unhomogenize (fst s) (snd s);
  do c' <- nc_set_knots c ek;
  do c' <- nc_set_degree (nc_set_weights (nc_set_points c' p) (snd s)) (nc_degree c + 1);
  Ok (true, c').

End Curve.
