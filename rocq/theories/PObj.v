(** Properties C77, C78, C86: OBJ files. *)
From Coq Require Import String Ascii ZArith List Bool Lia Reals.
From Flocq Require Import IEEE754.Binary IEEE754.Bits.
From Verif Require Import Base Num MGeometry MKernel MMesh MMeshRun MUtil MText MObj MF64 SMesh SReach SObj LBase LMesh LReach LText LObj LObj2 LObj3.
Import ListNotations.
Open Scope Z_scope.

(** C77: several meshes in one file. *)
Theorem C77_round_trip : forall {T} {N : Num T} {X : Text T} (ms : list (Mesh T)) its (m0 : Mesh T), one_line -> div255 -> Forall2 item_shows (map WMesh ms) its -> total its < int_max -> reach m0 ->
  exists w m, ow_writes ow_open (map WMesh ms) = Ok w /\ obj_load (ow_text w) m0 = Ok (true, m) /\ reach m /\ shows m (joined its (get_color m0)).
Proof. exact @obj_meshes. Qed.
Print Assumptions C77_round_trip.
(** C77: one mesh, OBJFile::save. *)
Theorem C77_save_load : forall {T} {N : Num T} {X : Text T} (m m0 : Mesh T) a qs, one_line -> div255 -> reach m -> shows m a -> Forall2 pt_reads_as (averts a) qs -> len qs < int_max -> reach m0 ->
  exists t m', obj_save m = Ok (true, t) /\ obj_load t m0 = Ok (true, m') /\ reach m' /\ shows m' (mkA qs (map (fun t => (t, true)) (live a)) (get_color m0)).
Proof. exact @obj_save_load. Qed.
Print Assumptions C77_save_load.

(** C78: a polyline written last: everything is loaded. *)
Theorem C78_polyline_last_partial : forall {T} {N : Num T} {X : Text T} (ms : list (Mesh T)) l its it (m0 : Mesh T), one_line -> div255 -> Forall2 item_shows (map WMesh ms) its -> item_shows (WLine l) it -> total (its ++ [it]) < int_max -> reach m0 ->
  exists w m, ow_writes ow_open (map WMesh ms ++ [WLine l]) = Ok w /\ obj_load (ow_text w) m0 = Ok (true, m) /\ reach m /\ shows m (joined (its ++ [it]) (get_color m0)).
Proof. exact @obj_meshes_line. Qed.
Print Assumptions C78_polyline_last_partial.
(** C78: any history of writes, exactly: the first point written after a polyline is lost, and if a triangle then has no vertex the load asserts. *)
Theorem C78_any_history : forall {T} {N : Num T} {X : Text T} (xs : list obj_item) its (m0 : Mesh T), one_line -> div255 -> Forall2 item_shows xs its -> total its < int_max -> reach m0 ->
  exists w, ow_writes ow_open xs = Ok w /\
    match loaded false 0 [] [] its with
    | Some (V, F) => exists m, obj_load (ow_text w) m0 = Ok (true, m) /\ reach m /\ shows m (mkA V (map (fun t => (t, true)) F) (get_color m0))
    | None => obj_load (ow_text w) m0 = Err FAssert
    end.
Proof. exact @obj_any_history. Qed.
Print Assumptions C78_any_history.
(** C78 is false: every mesh with vertices written after a polyline loses one, or the load asserts. *)
Theorem C78_after_polyline_refuted : forall {T} {N : Num T} {X : Text T} l (m : Mesh T) il im (m0 : Mesh T), one_line -> div255 -> item_shows (WLine l) il -> item_shows (WMesh m) im -> 0 < nb_vertices m -> total [il; im] < int_max -> reach m0 ->
  exists w, ow_writes ow_open [WLine l; WMesh m] = Ok w /\
    (obj_load (ow_text w) m0 = Err FAssert \/ exists m', obj_load (ow_text w) m0 = Ok (true, m') /\ nb_vertices m' = len l + nb_vertices m - 1).
Proof. exact @obj_after_line. Qed.
Print Assumptions C78_after_polyline_refuted.
(** C78 is false: after [k] vertices a polyline of n points refers to k .. k+n-1 instead of k+1 .. k+n (OBJ counts from 1). *)
Theorem C78_indices_refuted : forall {T} {X : Text T} (w : objw) (l : list (Point3 T)) f, one_line -> 0 <= ow_count w -> (List.length l <= f)%nat ->
  exists w', ow_write_polyline w l = Ok w' /\ ow_count w' = ow_count w + len l /\
    words (S (S f)) (last (lines (ow_text w')) []) = str "l" :: map (fun i => show_int (ow_count w + Z.of_nat i)) (seq 0 (List.length l)).
Proof. exact @polyline_record. Qed.
Print Assumptions C78_indices_refuted.

(** C86: the outcomes of loading any text: no access out of bounds, no endless loop. *)
Theorem C86_outcomes_partial : forall {T} {N : Num T} {X : Text T} (text : list Z) (m : Mesh T), reach m ->
  (exists m', obj_load text m = Ok (true, m') /\ reach m') \/ obj_load text m = Err FUninit \/ obj_load text m = Err FAssert \/ obj_load text m = Err FOverflow.
Proof. exact @obj_load_outcome. Qed.
Print Assumptions C86_outcomes_partial.
(** C86 is false: a vertex line without numbers makes a point of uninitialised coordinates, *)
Theorem C86_short_line_refuted : forall {T} {X : Text T} (m : Mesh T), obj_load (str "v") m = Err FUninit.
Proof. exact @obj_short_line. Qed.
Print Assumptions C86_short_line_refuted.
(** and a triangle that refers to a vertex the file does not have stops the program. *)
Theorem C86_bad_index_refuted : forall {T} {X : Text T} (m : Mesh T), obj_load (str "f 1 2 3") m = Err FAssert.
Proof. exact @obj_bad_index. Qed.
Print Assumptions C86_bad_index_refuted.
(** The smallest int minus one is not an int. *)
Theorem C86_overflow_index_refuted : forall {T} {X : Text T} (m : Mesh T), obj_load (str "f -2147483648 1 1") m = Err FOverflow.
Proof. exact @obj_overflow_index. Qed.
Print Assumptions C86_overflow_index_refuted.

(** Doubles that are non-negative integers below 10^6, as << prints them and >> reads them. *)
#[local] Instance IntText : Text f64 := { f_show x := show_int (Z.abs (Btrunc 53 1024 x)); f_scan l := let '(v, ok, r) := scan_int l in (nofZ v, ok, r) }.
Example ex_one_line : one_line.
Proof. intros x. apply no_nl_show_int. lia. Qed.
Example ex_div255 : div255. Proof. intros x. eexists. reflexivity. Qed.
Example ex_reads n : In n [0; 1; 2; 30] -> reads_as (nofZ n : f64) (nofZ n).
Proof.
  intros I. assert (Z.abs (Btrunc 53 1024 (nofZ n)) = n) as E by (destruct I as [<-|[<-|[<-|[<-|[]]]]]; vm_compute; reflexivity). assert (0 <= n <= 30) as B by (destruct I as [<-|[<-|[<-|[<-|[]]]]]; lia).
  split; change (f_show (nofZ n)) with (show_int (Z.abs (Btrunc 53 1024 (nofZ n)))); rewrite E.
  - destruct (show_int_head n ltac:(lia)) as (c & l & EH & HC). exists c, l. split; [exact EH|apply digit_not_space, HC].
  - intros rest HR. cbn [f_scan IntText]. rewrite scan_show by (try exact HR; unfold int_max; lia). reflexivity.
Qed.
Definition ex_p (a b c : Z) : Point3 f64 := mkP (nofZ a) (nofZ b) (nofZ c).
(** Two triangles, the first one unlinked, no colour. *)
Definition ex_obj : Mesh f64 := mkMesh (mkK [ex_p 0 0 0; ex_p 1 0 0; ex_p 0 2 30] [mkLT 0 1 2 (-1) (-1) (-1) (-1); mkLT 2 1 0 (-1) (-1) (-1) 0]) (-1).
Example ex_obj_text : (do w <- ow_writes ow_open [WMesh ex_obj; WMesh ex_obj]; Ok (ow_text w)) = Ok (
  str "v 0 0 0" ++ endl ++ str "v 1 0 0" ++ endl ++ str "v 0 2 30" ++ endl ++ endl ++ str "f 3 2 1" ++ endl ++
  str "v 0 0 0" ++ endl ++ str "v 1 0 0" ++ endl ++ str "v 0 2 30" ++ endl ++ endl ++ str "f 6 5 4" ++ endl).
Proof. vm_compute. reflexivity. Qed.
Definition ex_obj_ops : list (op f64 (Mesh f64)) :=
  [OpAddVertex (ex_p 0 0 0); OpAddVertex (ex_p 1 0 0); OpAddVertex (ex_p 0 2 30); OpAddTriangle 0 1 2; OpAddTriangle 2 1 0; OpUnlink 0].
Example ex_obj_reach : reach ex_obj.
Proof.
  pose proof (shows_run ex_obj_ops (map abs_op ex_obj_ops) (@mesh_new f64) a_new (R_new) (shows_abs mesh_new)) as H.
  specialize (H ltac:(repeat constructor)).
  assert (srun a_new (map abs_op ex_obj_ops) = Some (abs ex_obj, [OutId 0; OutId 1; OutId 2; OutId 0; OutId 1; OutUnit])) as EQ by reflexivity.
  rewrite EQ in H. clear EQ. destruct H as [m' [E [R _]]].
  assert (mrun mesh_new ex_obj_ops = Ok (ex_obj, [OutId 0; OutId 1; OutId 2; OutId 0; OutId 1; OutUnit])) as E2 by reflexivity.
  rewrite E2 in E. injection E as <-. exact R.
Qed.
Example C77_ex_item : item_shows (WMesh ex_obj) (mkOI [ex_p 0 0 0; ex_p 1 0 0; ex_p 0 2 30] [(2, 1, 0)] false).
Proof.
  exists (abs ex_obj). split; [exact ex_obj_reach|]. split; [apply shows_abs|]. split; [|split; reflexivity].
  assert (forall a b c, In a [0; 1; 2; 30] -> In b [0; 1; 2; 30] -> In c [0; 1; 2; 30] -> pt_reads_as (ex_p a b c) (ex_p a b c)) as P by (intros a b c A B C; split; [|split]; apply ex_reads; assumption).
  repeat (constructor; [apply P; cbn; auto|]). constructor.
Qed.
Example C78_ex_item : item_shows (WLine [ex_p 1 0 0; ex_p 0 2 30]) (mkOI [ex_p 1 0 0; ex_p 0 2 30] [] true).
Proof.
  split; [|split; reflexivity].
  assert (forall a b c, In a [0; 1; 2; 30] -> In b [0; 1; 2; 30] -> In c [0; 1; 2; 30] -> pt_reads_as (ex_p a b c) (ex_p a b c)) as P by (intros a b c A B C; split; [|split]; apply ex_reads; assumption).
  repeat (constructor; [apply P; cbn; auto|]). constructor.
Qed.
(** The file of a polyline followed by the mesh: the first vertex of the mesh sits on the line of the polyline, indices start at 0; loading asserts. *)
Example C78_ex_glued : (do w <- ow_writes ow_open [WLine [ex_p 1 0 0; ex_p 0 2 30]; WMesh ex_obj]; Ok (ow_text w)) = Ok (
  str "v 1 0 0" ++ endl ++ str "v 0 2 30" ++ endl ++ endl ++ str "l 0 1 v 0 0 0" ++ endl ++ str "v 1 0 0" ++ endl ++ str "v 0 2 30" ++ endl ++ endl ++ str "f 5 4 3" ++ endl).
Proof. vm_compute. reflexivity. Qed.
Example C78_ex_glued_load : (do w <- ow_writes ow_open [WLine [ex_p 1 0 0; ex_p 0 2 30]; WMesh ex_obj]; obj_load (ow_text w) mesh_new) = Err FAssert.
Proof. vm_compute. reflexivity. Qed.
(** C86 is false: indices counted backwards from the last vertex, which the format allows, stop the program; the same triangle counted forwards is read. *)
Definition ex_tri (f : list Z) : res (bool * Mesh f64) := obj_load (str "v 0 0 0" ++ endl ++ str "v 1 0 0" ++ endl ++ str "v 0 2 30" ++ endl ++ f ++ endl) mesh_new.
Theorem C86_relative_index_refuted : ex_tri (str "f -3 -2 -1") = Err FAssert /\ (do r <- ex_tri (str "f 1 2 3"); get_triangle_vertices (snd r) 0) = Ok (0, 1, 2).
Proof. vm_compute. split; reflexivity. Qed.
Print Assumptions C86_relative_index_refuted.
