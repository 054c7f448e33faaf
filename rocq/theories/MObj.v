(** OBJFile.cpp. *)
From Coq Require Import ZArith List Bool String.
From Verif Require Import Base Num MGeometry MKernel MMesh MText.
Import ListNotations.
Open Scope Z_scope.

Section Obj.
Context {T : Type} {N : Num T} {X : Text T}.

(** OBJFile.cpp:31-58, one turn of the loop *)
Definition obj_line (m : Mesh T) (sLine : list Z) : res (Mesh T) :=
  if vsize sLine =? 0 then Ok m else
  let (sType, s) := ss_word (ss_open sLine) in
  do m <- (if text_eqb sType (str "v") then
             let (x, s) := ss_get f_scan None s in
             let (y, s) := ss_get f_scan None s in
             let (z, _) := ss_get f_scan None s in
             match x, y, z with
             | Some x, Some y, Some z => Ok (fst (add_vertex m (mkP x y z)))
             | _, _, _ => Err FUninit
             end
           else Ok m);
  if text_eqb sType (str "f") then
    let (i1, s) := ss_get scan_int None s in
    let (i2, s) := ss_get scan_int None s in
    let (i3, _) := ss_get scan_int None s in
    match i1, i2, i3 with
    | Some i1, Some i2, Some i3 => do j1 <- iint (i1 - 1); do j2 <- iint (i2 - 1); do j3 <- iint (i3 - 1);
      do r <- add_triangle m j1 j2 j3; Ok (fst r)
    | _, _, _ => Err FUninit
    end
  else Ok m.
Fixpoint obj_lines (m : Mesh T) (ls : list (list Z)) : res (Mesh T) :=
  match ls with [] => Ok m | l :: ls' => do m <- obj_line m l; obj_lines m ls' end.
(** OBJFile.cpp:24-61 on the characters of the file.  A file that cannot be opened gives false and leaves the mesh; that branch is not modelled. *)
Definition obj_load (text : list Z) (m : Mesh T) : res (bool * Mesh T) :=
  do m <- obj_lines (clear m) (lines text); Ok (true, m).

(** class OBJWriter: what is in the file so far, and _verticesCount.  The file is taken to be open. *)
Record objw := mkOW { ow_text : list Z; ow_count : Z }.
(** OBJFile.cpp:65-79 *)
Definition ow_open : objw := mkOW [] 0.

Definition obj_v (p : Point3 T) : list Z := str "v " ++ f_show (px p) ++ str " " ++ f_show (py p) ++ str " " ++ f_show (pz p).
(** OBJFile.cpp:91-128 *)
Definition ow_write_mesh (w : objw) (m : Mesh T) : res objw :=
  let bHasColor := negb (get_color m =? -1) in
  do r <- (if bHasColor then ndiv (nofZ (Z.shiftr (get_color m) 16)) (nofZ 255) else Ok n0);
  do g <- (if bHasColor then ndiv (nofZ (Z.shiftr (Z.land (get_color m) 65280) 8)) (nofZ 255) else Ok n0);
  do b <- (if bHasColor then ndiv (nofZ (Z.land (get_color m) 255)) (nofZ 255) else Ok n0);
  do t <- for_ 0 (nb_vertices m) (fun i t =>
    do v <- get_vertex m i;
    if bHasColor then Ok (t ++ obj_v v ++ str " " ++ f_show r ++ str " " ++ f_show g ++ str " " ++ f_show b ++ endl)
    else Ok (t ++ obj_v v ++ endl)) (ow_text w);
  let t := t ++ endl in
  do t <- for_ 0 (nb_triangles m) (fun i t =>
    do u <- is_triangle_unlinked m i;
    if u then Ok t else
    do x <- get_triangle_vertices m i;
    let '(i1, i2, i3) := x in
    Ok (t ++ str "f " ++ show_int (i1 + 1 + ow_count w) ++ str " " ++ show_int (i2 + 1 + ow_count w) ++ str " " ++ show_int (i3 + 1 + ow_count w) ++ endl)) t;
  Ok (mkOW t (ow_count w + nb_vertices m)).
(** OBJFile.cpp:130-148 *)
Definition ow_write_polyline (w : objw) (l : list (Point3 T)) : res objw :=
  do t <- for_ 0 (vsize l) (fun i t => do p <- vget l i; Ok (t ++ obj_v p ++ endl)) (ow_text w);
  let t := t ++ endl ++ str "l " in
  do t <- for_ 0 (vsize l) (fun i t => Ok (t ++ show_int (i + ow_count w) ++ str " ")) t;
  Ok (mkOW t (ow_count w + vsize l)).
(** OBJFile.cpp:11-21 *)
Definition obj_save (m : Mesh T) : res (bool * list Z) := do w <- ow_write_mesh ow_open m; Ok (true, ow_text w).

(** A program that writes several things in one file. *)
Inductive obj_item := WMesh (m : Mesh T) | WLine (l : list (Point3 T)).
Definition ow_write (w : objw) (x : obj_item) : res objw := match x with WMesh m => ow_write_mesh w m | WLine l => ow_write_polyline w l end.
Fixpoint ow_writes (w : objw) (xs : list obj_item) : res objw :=
  match xs with [] => Ok w | x :: xs' => do w <- ow_write w x; ow_writes w xs' end.
End Obj.
Arguments objw : clear implicits.
