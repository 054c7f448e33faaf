(** Specification of OBJ files as a client sees them. *)
From Coq Require Import ZArith List Bool.
From Verif Require Import Base MGeometry MMesh MText MObj SMesh SReach Num.
Import ListNotations.
Open Scope Z_scope.

Section Spec.
Context {T : Type} {N : Num T} {X : Text T}.

Definition ends (l : list Z) : Prop := match l with [] => True | c :: _ => is_space c = true end.
(** [x] is printed as a word that is read back as [y] (for instance [y] is [x] rounded to six digits). *)
Definition reads_as (x y : T) : Prop :=
  (exists c l, f_show x = c :: l /\ is_space c = false) /\ forall rest, ends rest -> f_scan (f_show x ++ rest) = (y, true, rest).
Definition pt_reads_as (p q : Point3 T) : Prop := reads_as (px p) (px q) /\ reads_as (py p) (py q) /\ reads_as (pz p) (pz q).
(** A printed number never contains a newline, a '#' or a letter l or v: only the newline matters here. *)
Definition one_line : Prop := forall x : T, ~ In 10 (f_show x).
(** Dividing by 255. succeeds. *)
Definition div255 : Prop := forall x : T, exists q, ndiv x (nofZ 255) = Ok q.

(** One thing written to the file: the points as they will be read, the linked triangles, and whether it is a polyline. *)
Record oitem := mkOI { oi_pts : list (Point3 T); oi_tris : list triple; oi_line : bool }.
Definition item_shows (x : obj_item) (it : oitem) : Prop :=
  match x with
  | WMesh m => exists a, reach m /\ shows m a /\ Forall2 pt_reads_as (averts a) (oi_pts it) /\ oi_tris it = live a /\ oi_line it = false
  | WLine l => Forall2 pt_reads_as l (oi_pts it) /\ oi_tris it = [] /\ oi_line it = true
  end.
Definition shift (k : Z) (t : triple) : triple := let '(a, b, c) := t in (a + k, b + k, c + k).
Definition total (its : list oitem) : Z := fold_right (fun it n => len (oi_pts it) + n) 0 its.

(** Everything in one mesh: points in order, every triangle with the indices of its own points. *)
Fixpoint joined_tris (k : Z) (its : list oitem) : list triple :=
  match its with [] => [] | it :: its' => map (shift k) (oi_tris it) ++ joined_tris (k + len (oi_pts it)) its' end.
Definition joined (its : list oitem) (c : Z) : AMesh T := mkA (flat_map oi_pts its) (map (fun t => (t, true)) (joined_tris 0 its)) c.

(** What loading really gives: the first point written after a polyline is lost. *)
Definition below (n : Z) (t : triple) : bool := let '(a, b, c) := t in (a <? n) && (b <? n) && (c <? n).
Fixpoint loaded (glued : bool) (k : Z) (V : list (Point3 T)) (F : list triple) (its : list oitem) : option (list (Point3 T) * list triple) :=
  match its with
  | [] => Some (V, F)
  | it :: its' =>
    let V := V ++ (if glued then tl (oi_pts it) else oi_pts it) in
    let ts := map (shift k) (oi_tris it) in
    if forallb (below (len V)) ts then loaded (oi_line it) (k + len (oi_pts it)) V (F ++ ts) its' else None
  end.

(** The numbers after the letter l of a polyline record. *)
Fixpoint words (fuel : nat) (l : list Z) : list (list Z) :=
  match fuel with
  | O => []
  | S fuel' => match skip_ws l with [] => [] | l' => let (w, r) := take_word l' in w :: words fuel' r end
  end.
End Spec.
Arguments oitem : clear implicits.
