(** Property C108: the whole text of a STEP file. *)
From Coq Require Import String Ascii ZArith List Bool Lia.
From Flocq Require Import IEEE754.Binary IEEE754.Bits.
From Verif Require Import Base Num MGeometry MNurbs MNurbsSurface MText MStep MF64 SStep SStepDoc LStep5.
Import ListNotations.
Open Scope Z_scope.

(** C108: the header of an AP214 file, then for every surface in turn its points, the surface and a solid of that one face, named from 20 on; then the end. *)
Theorem C108_document : forall (T : Type) (X : Text T) (xs : list (list (NurbsSurface T))), Forall (Forall full) xs ->
  step_file xs = Ok (document (describe_all 20 (concat xs))).
Proof. exact @step_document. Qed.
Print Assumptions C108_document.

(** C108 is false of solids: a solid of n faces is written as n solids, each of them a shell of one face. *)
Theorem C108_one_solid_refuted : forall (T : Type) (X : Text T) (fs : list (NurbsSurface T)), Forall full fs ->
  exists es, step_file [fs] = Ok (document es) /\ length (filter is_solid es) = length fs.
Proof. exact @step_solids. Qed.
Print Assumptions C108_one_solid_refuted.

#[local] Instance IntText : Text f64 := { f_show x := show_int (Z.abs (Btrunc 53 1024 x)); f_scan l := let '(v, ok, r) := scan_int l in (nofZ v, ok, r) }.
Definition ex_p (a b c : Z) : Point3 f64 := mkP (nofZ a) (nofZ b) (nofZ c).
Definition ex_step : NurbsSurface f64 :=
  mkNS 1 1 3 2 false true (map nofZ [0; 0; 1; 2; 2]) (map nofZ [0; 0; 1; 1]) (map nofZ [1; 2; 3; 4; 5; 6]) [ex_p 0 0 0; ex_p 1 0 0; ex_p 2 0 0; ex_p 0 1 0; ex_p 1 1 0; ex_p 2 1 5] [] [] [] [].
Example C108_full : Forall (Forall full) [[ex_step; ex_step]; []; [ex_step]]. Proof. repeat constructor; cbv; discriminate. Qed.
Example C108_text : flat_map entity_text (describe 20 ex_step) = lines [
  "#20=CARTESIAN_POINT('',(0,0,0));"; "#21=CARTESIAN_POINT('',(1,0,0));"; "#22=CARTESIAN_POINT('',(2,0,0));"; "#23=CARTESIAN_POINT('',(0,1,0));"; "#24=CARTESIAN_POINT('',(1,1,0));"; "#25=CARTESIAN_POINT('',(2,1,5));"; "";
  "#26=("; "BOUNDED_SURFACE()"; "B_SPLINE_SURFACE(1,1,("; "(#20,#21,#22),"; "(#23,#24,#25)"; "),.UNSPECIFIED.,.F.,.T.,.F.)";
  "B_SPLINE_SURFACE_WITH_KNOTS("; "(2,1,2),"; "(2,2),"; "(0,1,2),"; "(0,1),"; ".UNSPECIFIED.)"; "GEOMETRIC_REPRESENTATION_ITEM()"; "RATIONAL_B_SPLINE_SURFACE(("; "(1,2,3),"; "(4,5,6)"; "))"; "REPRESENTATION_ITEM('')"; "SURFACE()"; ");"; "";
  "#27=ADVANCED_FACE('', (), #26, .T.);"; "#28=CLOSED_SHELL('',(#27));"; "#29=MANIFOLD_SOLID_BREP('',#28);"; "#30=ADVANCED_BREP_SHAPE_REPRESENTATION('',(#29),'');"; "#31=SHAPE_REPRESENTATION_RELATIONSHIP('','None',#12,#30);"; ""]%string.
Proof. vm_compute. reflexivity. Qed.
