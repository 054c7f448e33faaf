(** Properties C100, C101: the numbers in OBJ and STEP files. *)
From Coq Require Import String Ascii ZArith List Bool Reals Lra Lia.
From Flocq Require Import Core IEEE754.Binary IEEE754.Bits.
From Verif Require Import Base Num MGeometry MMesh MMeshRun MText MObj MNurbsSurface MStep MF64 MFormat SMesh SReach SObj SStep SFormat LReach LF64 LFormat3 LFormat4 LFormat5 LFormat6.
Import ListNotations.
Open Scope Z_scope.

(** C100: what save then load does to any mesh: the linked triangles and, for each vertex, every coordinate rounded to six digits.
    An infinite or undefined z is read as 0; with an infinite or undefined x or y the loaded point is uninitialised. *)
Theorem C100_mesh : forall (m m0 : Mesh f64) a, reach m -> shows m a -> len (averts a) < int_max -> reach m0 ->
  exists t, obj_save m = Ok (true, t) /\
    (Forall finite_xy (averts a) -> exists qs m', Forall2 pt_rounded (averts a) qs /\ obj_load t m0 = Ok (true, m') /\ reach m' /\ shows m' (mkA qs (map (fun t => (t, true)) (live a)) (get_color m0))) /\
    (~ Forall finite_xy (averts a) -> obj_load t m0 = Err FUninit).
Proof. exact save_load_f64. Qed.
Print Assumptions C100_mesh.
(** C100: one number, exactly: it is read back as the double nearest to its six digits. *)
Theorem C100_number : forall x q : f64, finite64 x -> (reads_as x q <-> rounded_to x q).
Proof. exact reads_iff. Qed.
Print Assumptions C100_number.
(** C100: six digits are enough for a relative error of 6/1000000 (and half of the smallest double). *)
Theorem C100_close : forall x q : f64, rounded_to x q -> (Rabs (B2R 53 1024 q - B2R 53 1024 x) <= 6 / 1000000 * Rabs (B2R 53 1024 x) + bpow radix2 (-1075))%R.
Proof. exact rounded_close. Qed.
Print Assumptions C100_close.
(** C100: coordinates keep their order. *)
Theorem C100_order : forall x y q r : f64, rounded_to x q -> rounded_to y r -> (B2R 53 1024 x <= B2R 53 1024 y)%R -> (B2R 53 1024 q <= B2R 53 1024 r)%R.
Proof. exact rounded_order. Qed.
Print Assumptions C100_order.
(** C100: the double nearest to a number of six digits is kept, if that number is zero or at least 2^-1022. *)
Theorem C100_six_digits_kept : forall (x : f64) t, finite64 x -> six_digit t -> (t = 0 \/ bpow radix2 (-1022) <= Rabs t)%R -> B2R 53 1024 x = to_double t -> rounded_to x x.
Proof. exact decimal_kept. Qed.
Print Assumptions C100_six_digits_kept.
(** C100: only the first trip loses anything: saving the loaded mesh and loading it again gives the same mesh. *)
Theorem C100_second_trip : forall (m m0 m0' : Mesh f64) a t m1, reach m -> shows m a -> len (averts a) < int_max -> Forall finite_xy (averts a) -> reach m0 -> reach m0' ->
  obj_save m = Ok (true, t) -> obj_load t m0 = Ok (true, m1) -> exists t2 m2 b, obj_save m1 = Ok (true, t2) /\ obj_load t2 m0' = Ok (true, m2) /\
    shows m1 b /\ shows m2 (mkA (averts b) (atris b) (get_color m0')).
Proof. exact saved_twice. Qed.
Print Assumptions C100_second_trip.
(** C100: numbers that are not below 2^-1021 are printed in the same way the second time, *)
Theorem C100_text_partial : forall x q : f64, finite64 x -> not_tiny x -> rounded_to x q -> f_show q = f_show x.
Proof. exact text_kept. Qed.
Print Assumptions C100_text_partial.
(** but not all numbers: 1e-318 comes back as 9.99999e-319. *)
Theorem C100_text_refuted : exists x q : f64, finite64 x /\ rounded_to x q /\ f_show x = str "1e-318" /\ f_show q = str "9.99999e-319".
Proof. exact text_lost. Qed.
Print Assumptions C100_text_refuted.
(** C100: different coordinates become equal: 1 and the next double. *)
Theorem C100_distinct_refuted : exists x y q : f64, finite64 x /\ finite64 y /\ (B2R 53 1024 x < B2R 53 1024 y)%R /\ rounded_to x q /\ rounded_to y q.
Proof. exact merged. Qed.
Print Assumptions C100_distinct_refuted.

(** C101: which doubles are written as a REAL of ISO 10303-21: those whose six digits are between 0.0001 and 1000000 and not an integer. *)
Theorem C101_real_partial : forall x : f64, step_real (f_show x) = true <-> finite64 x /\ a_step_value (six_digits (B2R 53 1024 x)).
Proof. exact step_real_iff. Qed.
Print Assumptions C101_real_partial.
(** C101 is false: every surface whose knots start at 0 (all that set_knots accepts) is written with a knot that is not a REAL. *)
Theorem C101_knots_refuted : forall (xs : list (list (NurbsSurface f64))) n, Forall (Forall full) xs -> In n (concat xs) -> clamped_ends (ns_degU n) (ns_knotsU n) ->
  (exists k, vget (ns_knotsU n) 0 = Ok k /\ B2R 53 1024 k = 0%R /\ finite64 k) ->
  exists t pre post mu mv ku kv k, step_file xs = Ok t /\ t = pre ++ mult_text mu mv ku kv ++ post /\ expand mu ku = ns_knotsU n /\ In k ku /\ step_real (f_show k) = false.
Proof. exact step_zero_knot. Qed.
Print Assumptions C101_knots_refuted.
(** C79 for the numbers that are really printed. *)
Theorem C79_doubles : forall xs : list (list (NurbsSurface f64)), Forall (Forall full) xs -> exists t, step_file xs = Ok t /\ well_formed t.
Proof. exact step_doubles. Qed.
Print Assumptions C79_doubles.

(** The double nearest to 1/3 *)
Definition third : f64 := Binary.B754_finite 53 1024 false 6004799503160661 (-54) eq_refl.
Definition ex_p (a b : Z) (c : f64) : Point3 f64 := mkP (nofZ a) (nofZ b) c.
Definition inf64 : f64 := Binary.B754_infinity 53 1024 true.
(** Three vertices, the first one at height z. *)
Definition ex_fmt (z : f64) : Mesh f64 := fst (add_vertex (fst (add_vertex (fst (add_vertex mesh_new (ex_p 0 0 z))) (ex_p 1 0 (nofZ 0)))) (ex_p 0 2000000 (nofZ (-5)))).
Example C100_ex_reach z : reach (ex_fmt z). Proof. unfold ex_fmt. repeat apply reach_add_vertex. apply R_new. Qed.
Example C100_ex_text : obj_save (ex_fmt third) = Ok (true, str "v 0 0 0.333333" ++ endl ++ str "v 1 0 0" ++ endl ++ str "v 0 2e+06 -5" ++ endl ++ endl).
Proof. vm_compute. reflexivity. Qed.
Example C100_ex_load : (do t <- obj_save (ex_fmt third); do r <- obj_load (snd t) mesh_new; do v <- get_vertex (snd r) 0; Ok (bits_of_b64 (pz v))) = Ok 4599676413416267078.
Proof. vm_compute. reflexivity. Qed.
Example C100_ex_third : bits_of_b64 third = 4599676419421066581. Proof. vm_compute. reflexivity. Qed.
(** Minus infinity: as z it is read as 0, as x it leaves y and z uninitialised. *)
Example C100_ex_inf_z : (do t <- obj_save (ex_fmt inf64); do r <- obj_load (snd t) mesh_new; do v <- get_vertex (snd r) 0; Ok (bits_of_b64 (pz v))) = Ok 0.
Proof. vm_compute. reflexivity. Qed.
Example C100_ex_inf_x : obj_load (T := f64) (str "v -inf 0 0") mesh_new = Err FUninit.
Proof. vm_compute. reflexivity. Qed.
Example C100_ex_not_tiny : not_tiny third /\ finite64 third.
Proof.
  split; [|reflexivity]. apply not_tiny_intro. lia.
Qed.
Example C101_ex : step_real (f_show third) = true /\ step_real (f_show (nofZ 1 : f64)) = false /\ step_real (str "1.5E-7") = true /\ step_real (str "1.5e-7") = false /\ step_real (str "2.") = true.
Proof. vm_compute. repeat split; reflexivity. Qed.
Definition ex_step : NurbsSurface f64 :=
  mkNS 1 1 3 2 false true (map nofZ [0; 0; 1; 2; 2]) (map nofZ [0; 0; 1; 1]) (map nofZ [1; 1; 1; 1; 1; 1]) [ex_p 0 0 third; ex_p 1 0 third; ex_p 2 0 third; ex_p 0 1 third; ex_p 1 1 third; ex_p 2 1 third] [] [] [] [].
Example C101_ex_full : full ex_step /\ clamped_ends (ns_degU ex_step) (ns_knotsU ex_step) /\ (exists k, vget (ns_knotsU ex_step) 0 = Ok k /\ B2R 53 1024 k = 0%R /\ finite64 k).
Proof.
  split; [cbv -[third]; intuition discriminate|]. split.
  - split; cbn [ns_degU ns_knotsU ex_step]; intros i Hi.
    + assert (i = 0 \/ i = 1) as [-> | ->] by lia; reflexivity.
    + cbn in Hi. assert (i = 3 \/ i = 4) as [-> | ->] by lia; reflexivity.
  - eexists. split; [reflexivity|]. split; reflexivity.
Qed.
