(** StepFile.cpp. *)
From Coq Require Import String ZArith List Bool.
From Verif Require Import Base Num MGeometry MNurbs MNurbsSurface MText.
Import ListNotations.
Open Scope Z_scope.

Section Step.
Context {T : Type} {X : Text T}.

(** class StepWriter: what is in the file so far, and _iItemIndent.  The file is taken to be open. *)
Record stepw := mkSW { sw_text : list Z; sw_id : Z }.

(** StepFile.cpp:20-36 *)
Definition sw_header : list Z :=
  str "ISO-10303-21;" ++ endl ++
  str "HEADER;" ++ endl ++
  str "FILE_SCHEMA(('AUTOMOTIVE_DESIGN { 1 0 10303 214 3 1 1 }'));" ++ endl ++
  str "ENDSEC;" ++ endl ++ endl ++
  str "DATA;" ++ endl ++
  str "#10 = SHAPE_DEFINITION_REPRESENTATION(#11, #12);" ++ endl ++
  str "#11 = PRODUCT_DEFINITION_SHAPE('', $, #14);" ++ endl ++
  str "#12 = SHAPE_REPRESENTATION('', (), '');" ++ endl ++
  str "#13 = PRODUCT_DEFINITION_CONTEXT('part definition', '', 'design');" ++ endl ++
  str "#14 = PRODUCT_DEFINITION('(Unsaved)', '(Unsaved)', '', #13);" ++ endl ++ endl.
(** StepFile.cpp:50-56 *)
Definition sw_open : stepw := mkSW sw_header 20.
(** StepFile.cpp:38-42, 63-70 *)
Definition sw_close (w : stepw) : list Z := sw_text w ++ str "ENDSEC;" ++ endl ++ str "END-ISO-10303-21;".

(** StepFile.cpp:72-76 *)
Definition sw_point (w : stepw) (p : Point3 T) : stepw :=
  mkSW (sw_text w ++ str "#" ++ show_int (sw_id w) ++ str "=CARTESIAN_POINT('',(" ++ f_show (px p) ++ str "," ++ f_show (py p) ++ str "," ++ f_show (pz p) ++ str "));" ++ endl)
       (sw_id w + 1).

(** StepFile.cpp:91-104: the rows of control points; also returns iPointIndex *)
Definition sw_rows (nu nv : Z) (t : list Z) (iPointIndex : Z) : res (list Z * Z) :=
  for_ 0 nv (fun j s =>
    do s <- for_ 0 nu (fun i s =>
      Ok (fst s ++ str "#" ++ show_int (snd s) ++ (if i + 1 =? nu then [] else str ","), snd s + 1)) (fst s ++ str "(", snd s);
    Ok (fst s ++ str ")" ++ (if j + 1 =? nv then [] else str "," ++ endl), snd s)) (t, iPointIndex).
(** StepFile.cpp:117-120, 122-125.  The bound is an unsigned number: when size < 2 deg + 2 it is huge and the int counter overflows. *)
Definition sw_mults (deg size : Z) (t : list Z) : res (list Z) :=
  let t := t ++ str "(" ++ show_int (deg + 1) ++ str "," in
  if size - deg * 2 - 2 <? 0 then Err FDiverge else
  do t <- for_ 0 (size - deg * 2 - 2) (fun _ t => Ok (t ++ str "1,")) t;
  Ok (t ++ show_int (deg + 1) ++ str ")," ++ endl).
(** StepFile.cpp:129-135, 137-143.  Unsigned comparison: a negative degree gives no turn, a degree above the size reads out of bounds at once. *)
Definition sw_knots (deg : Z) (k : list T) (t : list Z) : res (list Z) :=
  if deg <? 0 then Ok t else
  if vsize k - deg <? 0 then Err FOob else
  for_ deg (vsize k - deg) (fun i t =>
    do x <- vget k i; Ok (t ++ f_show x ++ (if i =? vsize k - deg - 1 then [] else str ","))) t.
(** StepFile.cpp:151-163 *)
Definition sw_weights (nu nv : Z) (w : list T) (t : list Z) : res (list Z) :=
  for_ 0 nv (fun j t =>
    do t <- for_ 0 nu (fun i t =>
      do x <- vget w (nu * j + i); Ok (t ++ f_show x ++ (if i + 1 =? nu then [] else str ","))) (t ++ str "(");
    Ok (t ++ str ")" ++ (if j + 1 =? nv then [] else str "," ++ endl))) t.

Definition sw_bool (b : bool) : list Z := if b then str ".T." else str ".F.".
(** StepFile.cpp:78-179 *)
Definition sw_write (w : stepw) (n : NurbsSurface T) : res stepw :=
  let iPointIndex := sw_id w in
  let w := fold_left sw_point (ns_points n) w in
  let itemFace := sw_id w in
  let id := itemFace + 1 in
  let t := sw_text w ++ endl ++ str "#" ++ show_int itemFace ++ str "=(" ++ endl ++ str "BOUNDED_SURFACE()" ++ endl in
  let t := t ++ str "B_SPLINE_SURFACE(" ++ show_int (ns_degU n) ++ str "," ++ show_int (ns_degV n) ++ str ",(" ++ endl in
  do r <- sw_rows (ns_nbU n) (ns_nbV n) t iPointIndex;
  let t := fst r ++ endl ++ str "),.UNSPECIFIED.," ++ sw_bool (ns_closedU n) ++ str "," ++ sw_bool (ns_closedV n) ++ str ",.F." ++ str ")" ++ endl in
  let t := t ++ str "B_SPLINE_SURFACE_WITH_KNOTS(" ++ endl in
  do t <- sw_mults (ns_degU n) (vsize (ns_knotsU n)) t;
  do t <- sw_mults (ns_degV n) (vsize (ns_knotsV n)) t;
  do t <- sw_knots (ns_degU n) (ns_knotsU n) (t ++ str "(");
  do t <- sw_knots (ns_degV n) (ns_knotsV n) (t ++ str ")," ++ endl ++ str "(");
  let t := t ++ str ")," ++ endl ++ str ".UNSPECIFIED.)" ++ endl ++ str "GEOMETRIC_REPRESENTATION_ITEM()" ++ endl ++ str "RATIONAL_B_SPLINE_SURFACE((" ++ endl in
  do t <- sw_weights (ns_nbU n) (ns_nbV n) (ns_weights n) t;
  let t := t ++ endl ++ str "))" ++ endl ++ str "REPRESENTATION_ITEM('')" ++ endl ++ str "SURFACE()" ++ endl ++ str ");" ++ endl ++ endl in
  let t := t ++ str "#" ++ show_int id ++ str "=ADVANCED_FACE('', (), #" ++ show_int itemFace ++ str ", .T.);" ++ endl in
  let id := id + 1 in
  let t := t ++ str "#" ++ show_int id ++ str "=CLOSED_SHELL('',(#" ++ show_int (id - 1) ++ str "));" ++ endl in
  let id := id + 1 in
  let t := t ++ str "#" ++ show_int id ++ str "=MANIFOLD_SOLID_BREP('',#" ++ show_int (id - 1) ++ str ");" ++ endl in
  let id := id + 1 in
  let t := t ++ str "#" ++ show_int id ++ str "=ADVANCED_BREP_SHAPE_REPRESENTATION('',(#" ++ show_int (id - 1) ++ str "),'');" ++ endl in
  let id := id + 1 in
  let t := t ++ str "#" ++ show_int id ++ str "=SHAPE_REPRESENTATION_RELATIONSHIP('','None',#12,#" ++ show_int (id - 1) ++ str ");" ++ endl ++ endl in
  Ok (mkSW t (id + 1)).
(** StepFile.cpp:181-185 *)
Fixpoint sw_solid (w : stepw) (fs : list (NurbsSurface T)) : res stepw :=
  match fs with [] => Ok w | f :: fs' => do w <- sw_write w f; sw_solid w fs' end.

(** A program that opens a file, writes solids (a single surface is a solid of one face) and closes it. *)
Fixpoint sw_all (w : stepw) (xs : list (list (NurbsSurface T))) : res (list Z) :=
  match xs with [] => Ok (sw_close w) | x :: xs' => do w <- sw_solid w x; sw_all w xs' end.
Definition step_file (xs : list (list (NurbsSurface T))) : res (list Z) := sw_all sw_open xs.
End Step.
