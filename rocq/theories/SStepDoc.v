(** Specification: a STEP file as a list of named entities, and the document that describes a list of surfaces. *)
From Coq Require Import String ZArith List Bool.
From Verif Require Import Base MGeometry MNurbsSurface MText SStep.
Import ListNotations.
Open Scope Z_scope.

Section Doc.
Context {T : Type} {X : Text T}.
Inductive entity :=
| EPoint (p : Point3 T)
| ESurface (du dv : Z) (net : list (list Z)) (closed_u closed_v : bool) (mu mv : list Z) (ku kv : list T) (weights : list (list T))
| EFace (surface : Z)
| EShell (face : Z)
| ESolid (shell : Z)
| EShape (solid : Z)
| ERelated (shape : Z).

Definition is_solid (e : Z * entity) : bool := match snd e with ESolid _ => true | _ => false end.
Definition ref (i : Z) : list Z := str "#" ++ show_int i.
Definition paren (l : list Z) : list Z := str "(" ++ l ++ str ")".
Definition logical (b : bool) : list Z := if b then str ".T." else str ".F.".
Definition table {A} (show : A -> list Z) (rows : list (list A)) : list Z := sep (str "," ++ endl) (map (fun r => paren (sep (str ",") (map show r))) rows).

Definition entity_text (e : Z * entity) : list Z :=
  let (id, e) := e in
  match e with
  | EPoint p => ref id ++ str "=CARTESIAN_POINT('',(" ++ f_show (px p) ++ str "," ++ f_show (py p) ++ str "," ++ f_show (pz p) ++ str "));" ++ endl
  | ESurface du dv net cu cv mu mv ku kv ws =>
      endl ++ ref id ++ str "=(" ++ endl ++
      str "BOUNDED_SURFACE()" ++ endl ++
      str "B_SPLINE_SURFACE(" ++ show_int du ++ str "," ++ show_int dv ++ str ",(" ++ endl ++ table ref net ++ endl ++ str "),.UNSPECIFIED.," ++ logical cu ++ str "," ++ logical cv ++ str ",.F.)" ++ endl ++
      str "B_SPLINE_SURFACE_WITH_KNOTS(" ++ endl ++ paren (sep (str ",") (map show_int mu)) ++ str "," ++ endl ++ paren (sep (str ",") (map show_int mv)) ++ str "," ++ endl ++
        paren (sep (str ",") (map f_show ku)) ++ str "," ++ endl ++ paren (sep (str ",") (map f_show kv)) ++ str "," ++ endl ++ str ".UNSPECIFIED.)" ++ endl ++
      str "GEOMETRIC_REPRESENTATION_ITEM()" ++ endl ++
      str "RATIONAL_B_SPLINE_SURFACE((" ++ endl ++ table f_show ws ++ endl ++ str "))" ++ endl ++
      str "REPRESENTATION_ITEM('')" ++ endl ++ str "SURFACE()" ++ endl ++ str ");" ++ endl ++ endl
  | EFace s => ref id ++ str "=ADVANCED_FACE('', (), " ++ ref s ++ str ", .T.);" ++ endl
  | EShell f => ref id ++ str "=CLOSED_SHELL('',(" ++ ref f ++ str "));" ++ endl
  | ESolid s => ref id ++ str "=MANIFOLD_SOLID_BREP(''," ++ ref s ++ str ");" ++ endl
  | EShape s => ref id ++ str "=ADVANCED_BREP_SHAPE_REPRESENTATION('',(" ++ ref s ++ str "),'');" ++ endl
  | ERelated s => ref id ++ str "=SHAPE_REPRESENTATION_RELATIONSHIP('','None',#12," ++ ref s ++ str ");" ++ endl ++ endl
  end.

(** Rows of [nu] items, [nv] of them. *)
Fixpoint chunks {A} (nu nv : nat) (l : list A) : list (list A) :=
  match nv with O => [] | S v => firstn nu l :: chunks nu v (skipn nu l) end.
Definition numbers (a : Z) (n : nat) : list Z := map (fun i => a + Z.of_nat i) (seq 0 n).
(** deg+1, 1, ..., 1, deg+1 and the knots without the first and the last deg of them. *)
Definition ends (deg : Z) (k : list T) : list Z := [deg + 1] ++ repeat 1 (length k - 2 * Z.to_nat deg - 2) ++ [deg + 1].
Definition inner (deg : Z) (k : list T) : list T := firstn (length k - 2 * Z.to_nat deg) (skipn (Z.to_nat deg) k).

(** The entities of one surface, named from [a] on: its points in order, the surface, and a solid of that one face. *)
Definition describe (a : Z) (n : NurbsSurface T) : list (Z * entity) :=
  let np := length (ns_points n) in
  let s := a + Z.of_nat np in
  let rows {A} (l : list A) := chunks (Z.to_nat (ns_nbU n)) (Z.to_nat (ns_nbV n)) l in
  combine (numbers a np) (map EPoint (ns_points n)) ++
  [(s, ESurface (ns_degU n) (ns_degV n) (rows (numbers a np)) (ns_closedU n) (ns_closedV n) (ends (ns_degU n) (ns_knotsU n)) (ends (ns_degV n) (ns_knotsV n))
         (inner (ns_degU n) (ns_knotsU n)) (inner (ns_degV n) (ns_knotsV n)) (rows (ns_weights n)));
   (s + 1, EFace s); (s + 2, EShell (s + 1)); (s + 3, ESolid (s + 2)); (s + 4, EShape (s + 3)); (s + 5, ERelated (s + 4))].
Fixpoint describe_all (a : Z) (ns : list (NurbsSurface T)) : list (Z * entity) :=
  match ns with [] => [] | n :: ns' => describe a n ++ describe_all (a + Z.of_nat (length (describe a n))) ns' end.

Definition lines (l : list string) : list Z := flat_map (fun s => str s ++ endl) l.
Definition opening : list Z := lines [
  "ISO-10303-21;"; "HEADER;"; "FILE_SCHEMA(('AUTOMOTIVE_DESIGN { 1 0 10303 214 3 1 1 }'));"; "ENDSEC;"; "";
  "DATA;"; "#10 = SHAPE_DEFINITION_REPRESENTATION(#11, #12);"; "#11 = PRODUCT_DEFINITION_SHAPE('', $, #14);"; "#12 = SHAPE_REPRESENTATION('', (), '');";
  "#13 = PRODUCT_DEFINITION_CONTEXT('part definition', '', 'design');"; "#14 = PRODUCT_DEFINITION('(Unsaved)', '(Unsaved)', '', #13);"; ""]%string.
Definition closing : list Z := lines ["ENDSEC;"]%string ++ str "END-ISO-10303-21;".
Definition document (es : list (Z * entity)) : list Z := opening ++ flat_map entity_text es ++ closing.
End Doc.
Arguments entity : clear implicits.
