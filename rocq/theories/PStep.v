(** Properties C79, C87: STEP files. *)
From Coq Require Import String Ascii ZArith List Bool Lia Sorted Reals Lra.
From Flocq Require Import IEEE754.Binary IEEE754.Bits.
From Verif Require Import Base Num MGeometry MNurbs MNurbsSurface MText MStep MF64 SNurbs SSurface SStep LBase LMesh LText LStep LStep2 LStep3 LStep4.
Import ListNotations.
Open Scope Z_scope.

(** C79: names increase (so they are unique) and references are to entities of the file, whatever is written. *)
Theorem C79_well_formed : forall {T} {X : Text T} (xs : list (list (NurbsSurface T))), no_hash -> Forall (Forall full) xs -> exists t, step_file xs = Ok t /\ well_formed t.
Proof. exact @step_file_ok. Qed.
Print Assumptions C79_well_formed.
(** C79: multiplicities sum to the number of knots; they are as many as the knots that are written, and with clamped ends together they are the knot vector. *)
Theorem C79_multiplicities : forall {T} {X : Text T} (xs : list (list (NurbsSurface T))) n, no_hash -> Forall (Forall full) xs -> In n (concat xs) ->
  exists t pre post mu mv ku kv, step_file xs = Ok t /\ t = pre ++ mult_text mu mv ku kv ++ post /\
    list_sum mu = length (ns_knotsU n) /\ list_sum mv = length (ns_knotsV n) /\ length mu = length ku /\ length mv = length kv /\
    (clamped_ends (ns_degU n) (ns_knotsU n) -> expand mu ku = ns_knotsU n) /\ (clamped_ends (ns_degV n) (ns_knotsV n) -> expand mv kv = ns_knotsV n).
Proof. exact @step_file_mults. Qed.
Print Assumptions C79_multiplicities.
(** C79: in particular for all surfaces that can be evaluated. *)
Theorem C79_valid : forall {X : Text R} (xs : list (list (NurbsSurface R))), no_hash -> Forall (Forall svalid) xs -> exists t, step_file xs = Ok t /\ well_formed t /\
  forall n, In n (concat xs) -> exists pre post mu mv ku kv, t = pre ++ mult_text mu mv ku kv ++ post /\
    list_sum mu = length (ns_knotsU n) /\ list_sum mv = length (ns_knotsV n) /\ expand mu ku = ns_knotsU n /\ expand mv kv = ns_knotsV n.
Proof. exact @step_file_valid. Qed.
Print Assumptions C79_valid.
(** C79: a surface with fewer than 2 deg + 2 knots, such as a new one, is never written: the loop counts up to an unsigned number near 2^64. *)
Theorem C79_few_knots_never_written : forall {T} {X : Text T} (w : stepw) (n : NurbsSurface T), 0 <= ns_nbU n -> 0 <= ns_nbV n -> no_hash -> 0 <= sw_id w -> vsize (ns_knotsU n) < 2 * ns_degU n + 2 -> sw_write w n = Err FDiverge.
Proof. exact @step_few_knots. Qed.
Print Assumptions C79_few_knots_never_written.

(** C87: the control points in the file, exactly: one row for each v, in the order of the entities. *)
Theorem C87_rows_partial : forall {T} {X : Text T} (w : stepw) (n : NurbsSurface T), no_hash -> full n -> 0 <= sw_id w ->
  exists w' pre post rows, sw_write w n = Ok w' /\
    sw_text w' = pre ++ str "B_SPLINE_SURFACE(" ++ show_int (ns_degU n) ++ str "," ++ show_int (ns_degV n) ++ str ",(" ++ endl ++ net rows ++ endl ++ str "),.UNSPECIFIED.," ++ post /\
    vsize rows = ns_nbV n /\ (forall row, In row rows -> vsize row = ns_nbU n) /\ concat rows = ids (sw_id w) (length (ns_points n)).
Proof. exact @step_net. Qed.
Print Assumptions C87_rows_partial.
(** C87 is false: the number of rows is not what the degree and the multiplicities of the direction u require. *)
Theorem C87_transposed_refuted : forall {T} {X : Text T} (w : stepw) (n : NurbsSurface T), no_hash -> full n -> 0 <= sw_id w -> vsize (ns_knotsU n) = ns_nbU n + ns_degU n + 1 -> ns_nbU n <> ns_nbV n ->
  exists w' pre post rows mu mv ku kv, sw_write w n = Ok w' /\
    sw_text w' = pre ++ str "B_SPLINE_SURFACE(" ++ show_int (ns_degU n) ++ str "," ++ show_int (ns_degV n) ++ str ",(" ++ endl ++ net rows ++ endl ++ str "),.UNSPECIFIED.," ++
      sw_bool (ns_closedU n) ++ str "," ++ sw_bool (ns_closedV n) ++ str ",.F.)" ++ endl ++ mult_text mu mv ku kv ++ post /\
    vsize rows <> Z.of_nat (list_sum mu) - ns_degU n - 1.
Proof. exact @step_net_transposed. Qed.
Print Assumptions C87_transposed_refuted.

#[local] Instance IntText : Text f64 := { f_show x := show_int (Z.abs (Btrunc 53 1024 x)); f_scan l := let '(v, ok, r) := scan_int l in (nofZ v, ok, r) }.
Definition ex_p (a b c : Z) : Point3 f64 := mkP (nofZ a) (nofZ b) (nofZ c).
Definition ex_step : NurbsSurface f64 :=
  mkNS 1 1 3 2 false true (map nofZ [0; 0; 1; 2; 2]) (map nofZ [0; 0; 1; 1]) (map nofZ [1; 1; 1; 1; 1; 1]) [ex_p 0 0 0; ex_p 1 0 0; ex_p 2 0 0; ex_p 0 1 0; ex_p 1 1 0; ex_p 2 1 5] [] [] [] [].
Example C79_ex_no_hash : no_hash (X := IntText).
Proof. intros x I. apply show_int_chars in I; lia. Qed.
Example C79_ex_full : full ex_step. Proof. cbv. intuition discriminate. Qed.
Example C79_ex_file : (do t <- step_file [[ex_step]; [ex_step]]; Ok (names t, refs t)) =
  Ok ([10; 11; 12; 13; 14] ++ [20; 21; 22; 23; 24; 25; 26; 27; 28; 29; 30; 31] ++ [32; 33; 34; 35; 36; 37; 38; 39; 40; 41; 42; 43],
      [11; 12; 14; 13] ++ [20; 21; 22; 23; 24; 25; 26; 27; 28; 29; 12; 30] ++ [32; 33; 34; 35; 36; 37; 38; 39; 40; 41; 12; 42]).
Proof. vm_compute. reflexivity. Qed.
Example C79_ex_knots : (do w <- sw_write sw_open ex_step; Ok (firstn 76 (skipn 663 (sw_text w)))) = Ok (
  str "B_SPLINE_SURFACE_WITH_KNOTS(" ++ endl ++ str "(2,1,2)," ++ endl ++ str "(2,2)," ++ endl ++ str "(0,1,2)," ++ endl ++ str "(0,1)," ++ endl ++ str ".UNSPECIFIED.)" ++ endl).
Proof. vm_compute. reflexivity. Qed.
Example C79_ex_new : vsize (ns_knotsU (@ns_new f64)) < 2 * ns_degU (@ns_new f64) + 2. Proof. reflexivity. Qed.
Example C87_ex : vsize (ns_knotsU ex_step) = ns_nbU ex_step + ns_degU ex_step + 1 /\ ns_nbU ex_step <> ns_nbV ex_step. Proof. split; [reflexivity|discriminate]. Qed.
Example C87_ex_net : net [[20; 21; 22]; [23; 24; 25]] = str "(#20,#21,#22)," ++ endl ++ str "(#23,#24,#25)". Proof. reflexivity. Qed.
