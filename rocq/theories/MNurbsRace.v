(** Model of two [NurbsCurve::evaluate] calls running at the same time on one object
    (NurbsCurve.h:54-55, NurbsCurve.cpp:233-261): [evaluate] is [const], but it works in the
    [mutable] members [_tempPoints] and [_tempWeights].

    The granularity is one loop turn: a turn is executed atomically.  Real threads interleave at a
    finer grain, so every schedule of this model is also a schedule of the program. *)
From Coq Require Import ZArith List Bool.
From Verif Require Import Base Num MGeometry MNurbs.
Import ListNotations.
Open Scope Z_scope.

Section Race.
Context {T : Type} {N : Num T}.
Definition Temps := (list (Point3 T) * list T)%type.

(** Integer interval [a, ..., b-1]. *)
Definition turns (a b : Z) : list Z := map (fun k => a + Z.of_nat k) (seq 0 (Z.to_nat (b - a))).

(** NurbsCurve.cpp:241-250, one turn of the loading loop *)
Definition load_turn (c : NurbsCurve T) (ki j : Z) (s : Temps) : res Temps :=
  let idx := j + ki - nc_degree c in
  do _ <- massert (0 <=? idx);
  do _ <- massert (idx <? nc_nb c);
  do w <- vget (nc_weights c) idx;
  do tw <- vset (snd s) j w;
  do p <- vget (nc_points c) idx;
  do tp <- vset (fst s) j (pmul p w);
  Ok (tp, tw).

(** NurbsCurve.cpp:241-258: the turns executed by [evaluate(u)] once its span [ki] is found *)
Definition eval_turns (c : NurbsCurve T) (u : T) (ki : Z) : list (Temps -> res Temps) :=
  map (load_turn c ki) (turns 0 (nc_degree c + 1)) ++
  concat (map (fun r => map (fun m => deboor_step (nc_knots c) (nc_degree c) ki u r (nc_degree c - m))
                            (turns 0 (nc_degree c - r + 1)))
              (turns 1 (nc_degree c + 1))).

(** NurbsCurve.cpp:260: the result is read from the temporaries *)
Definition eval_read (c : NurbsCurve T) (s : Temps) : res (Point3 T) :=
  do pw <- vget (fst s) (nc_degree c); do w <- vget (snd s) (nc_degree c); pdiv pw w.

Fixpoint run_turns (l : list (Temps -> res Temps)) (s : Temps) : res Temps :=
  match l with [] => Ok s | f :: l => do s <- f s; run_turns l s end.

(** Two threads A and B on the same temporaries.  A schedule says whose turn it is; a thread that
    has finished its turns reads its result at its next turn. *)
Record Threads := mkTh {
  th_temps : Temps;
  th_a : list (Temps -> res Temps); th_ra : option (res (Point3 T));
  th_b : list (Temps -> res Temps); th_rb : option (res (Point3 T)) }.
Definition th_step (c : NurbsCurve T) (x : Threads) (who : bool) : res Threads :=
  if who then
    match th_a x with
    | f :: l => do s <- f (th_temps x); Ok (mkTh s l (th_ra x) (th_b x) (th_rb x))
    | [] => match th_ra x with
            | None => Ok (mkTh (th_temps x) [] (Some (eval_read c (th_temps x))) (th_b x) (th_rb x))
            | Some _ => Ok x end
    end
  else
    match th_b x with
    | f :: l => do s <- f (th_temps x); Ok (mkTh s (th_a x) (th_ra x) l (th_rb x))
    | [] => match th_rb x with
            | None => Ok (mkTh (th_temps x) (th_a x) (th_ra x) [] (Some (eval_read c (th_temps x))))
            | Some _ => Ok x end
    end.
Fixpoint th_run (c : NurbsCurve T) (sched : list bool) (x : Threads) : res Threads :=
  match sched with [] => Ok x | w :: l => do x <- th_step c x w; th_run c l x end.
(** The start of [evaluate(ua)] and [evaluate(ub)] on the shared curve [c]. *)
Definition th_start (c : NurbsCurve T) (ua ub : T) : res Threads :=
  do ka <- find_knot_span (nc_knots c) ua;
  do kb <- find_knot_span (nc_knots c) ub;
  Ok (mkTh (nc_tp c, nc_tw c) (eval_turns c ua ka) None (eval_turns c ub kb) None).
End Race.
