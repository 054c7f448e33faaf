(** Mesh factories: the fixed solids. *)
From Coq Require Import ZArith List Bool Lia.
From Verif Require Import Base Num MGeometry MKernel MMesh MMeshRun MUtil MMeshFactory SMesh SReach SMeasure SMeshFac LBase LMesh LReach LMeasure LMeasure2 LMeshFac LMeshFac2.
Import ListNotations.
Open Scope Z_scope.

Section Fact.
Context {T : Type} {N : Num T} {TR : Trig T}.
Implicit Types m : Mesh T.

(** Calls without mesh arguments are the same on both sides. *)
Definition lower (o : op T (Mesh T)) : op T (AMesh T) :=
  match o with
  | OpAddVertex p => OpAddVertex p
  | OpSetVertex i p => OpSetVertex i p
  | OpAddTriangle a b c => OpAddTriangle a b c
  | OpAddQuad a b c d => OpAddQuad a b c d
  | OpAddPentagon a b c d e => OpAddPentagon a b c d e
  | _ => OpClear
  end.
Definition plain (o : op T (Mesh T)) : Prop :=
  match o with OpAddVertex _ | OpSetVertex _ _ | OpAddTriangle _ _ _ | OpAddQuad _ _ _ _ | OpAddPentagon _ _ _ _ _ => True | _ => False end.
Lemma lower_shows os : Forall plain os -> Forall2 op_shows os (map lower os).
Proof. induction 1 as [|o os P F IH]; constructor; [|exact IH]. destruct o; try contradiction P; cbn; auto. Qed.
Lemma is_ops_lower m vs ts c os vs' ts' xs : is m vs ts c -> Forall plain os -> srun (mkA vs (alive ts) c) (map lower os) = Some (mkA vs' (alive ts') c, xs) ->
  exists m', run_ops m os = Ok m' /\ is m' vs' ts' c.
Proof. intros I F E. eapply is_ops; [exact I|apply lower_shows; exact F|exact E]. Qed.

Definition pentagon_ts (x y z w v : Z) : list triple := [(x, y, z); (z, w, v); (x, z, v)].

Definition tetra_vs (d : T) : list (Point3 T) := [mkP d d d; mkP (- d) (- d) d; mkP d (- d) (- d); mkP (- d) d (- d)]%num.
Definition tetra_ts : list triple := [(0, 1, 2); (1, 3, 2); (0, 3, 1); (0, 2, 3)].
Definition box_vs (x y z : T) : list (Point3 T) :=
  [mkP x y z; mkP (- x) y z; mkP (- x) (- y) z; mkP x (- y) z; mkP x y (- z); mkP (- x) y (- z); mkP (- x) (- y) (- z); mkP x (- y) (- z)]%num.
Definition box_ts : list triple := quad_ts 0 1 2 3 ++ quad_ts 7 6 5 4 ++ quad_ts 4 5 1 0 ++ quad_ts 3 2 6 7 ++ quad_ts 5 6 2 1 ++ quad_ts 0 3 7 4.
Definition octa_vs (d : T) : list (Point3 T) := [mkP d n0 n0; mkP n0 d n0; mkP n0 n0 d; mkP (- d) n0 n0; mkP n0 (- d) n0; mkP n0 n0 (- d)]%num.
Definition octa_ts : list triple := [(0, 1, 2); (1, 0, 5); (2, 1, 3); (0, 2, 4); (4, 3, 5); (3, 4, 2); (5, 3, 1); (4, 5, 0)].
Definition dodeca_vs (u t1 t2 : T) : list (Point3 T) :=
  [mkP u u u; mkP u u (- u); mkP u (- u) u; mkP u (- u) (- u);
   mkP (- u) u u; mkP (- u) u (- u); mkP (- u) (- u) u; mkP (- u) (- u) (- u);
   mkP n0 t1 t2; mkP n0 t1 (- t2); mkP n0 (- t1) t2; mkP n0 (- t1) (- t2);
   mkP t2 n0 t1; mkP t2 n0 (- t1); mkP (- t2) n0 t1; mkP (- t2) n0 (- t1);
   mkP t1 t2 n0; mkP t1 (- t2) n0; mkP (- t1) t2 n0; mkP (- t1) (- t2) n0]%num.
Definition dodeca_faces : list (list Z) :=
  [[0; 12; 2; 17; 16]; [19; 18; 5; 15; 7]; [12; 0; 8; 4; 14]; [13; 3; 11; 7; 15]; [2; 12; 14; 6; 10]; [9; 1; 13; 15; 5];
   [18; 19; 6; 14; 4]; [3; 13; 1; 16; 17]; [1; 9; 8; 0; 16]; [19; 7; 11; 10; 6]; [18; 4; 8; 9; 5]; [2; 10; 11; 3; 17]].
Definition dodeca_ts : list triple := flat_map (fun f => match f with [a; b; c; d; e] => pentagon_ts a b c d e | _ => [] end) dodeca_faces.
Definition ico_vs (u t : T) : list (Point3 T) :=
  [mkP u n0 t; mkP u n0 (- t); mkP (- u) n0 t; mkP (- u) n0 (- t); mkP n0 t u; mkP n0 (- t) u; mkP n0 t (- u); mkP n0 (- t) (- u);
   mkP t u n0; mkP (- t) u n0; mkP t (- u) n0; mkP (- t) (- u) n0]%num.
Definition ico_ts : list triple :=
  [(0, 1, 8); (0, 10, 1); (2, 3, 11); (2, 9, 3); (4, 5, 0); (4, 2, 5); (6, 7, 3); (6, 1, 7); (8, 9, 4); (8, 6, 9); (10, 11, 7); (10, 5, 11);
   (0, 8, 4); (3, 7, 11); (10, 0, 5); (9, 6, 3); (1, 6, 8); (2, 11, 5); (2, 4, 9); (1, 10, 7)].

Ltac solid R := eapply is_ops_lower; [apply is_clear; exact R|repeat constructor|vm_compute; reflexivity].
Lemma tetra_is d m : reach m -> exists m', create_tetrahedron d m = Ok m' /\ is m' (tetra_vs d) tetra_ts (get_color m).
Proof. intros R. unfold create_tetrahedron. solid R. Qed.
Lemma box_is x y z m : divides T -> reach m -> exists m', create_box x y z m = Ok m' /\ is m' (box_vs (dv x 2) (dv y 2) (dv z 2)) box_ts (get_color m).
Proof. intros D R. unfold create_box, n2. rewrite !ndiv_dv by (try assumption; lia). cbn [bind]. solid R. Qed.
Lemma octa_is d m : reach m -> exists m', create_octahedron d m = Ok m' /\ is m' (octa_vs d) octa_ts (get_color m).
Proof. intros R. unfold create_octahedron. solid R. Qed.
Lemma dodeca_is d s t u m : nsqrt (nofZ 5) = Ok s -> ndiv (s + n1)%num n2 = Ok t -> ndiv n1 t = Ok u -> reach m ->
  exists m', create_dodecahedron d m = Ok m' /\ is m' (dodeca_vs d (t * d)%num (u * d)%num) dodeca_ts (get_color m).
Proof. intros E1 E2 E3 R. unfold create_dodecahedron. rewrite E1. cbn [bind]. rewrite E2. cbn [bind]. rewrite E3. cbn [bind]. solid R. Qed.
Lemma ico_is d s t m : nsqrt (nofZ 5) = Ok s -> ndiv (s - n1)%num n2 = Ok t -> reach m ->
  exists m', create_icosahedron d m = Ok m' /\ is m' (ico_vs d (t * d)%num) ico_ts (get_color m).
Proof. intros E1 E2 R. unfold create_icosahedron. rewrite E1. cbn [bind]. rewrite E2. cbn [bind]. solid R. Qed.
End Fact.

Lemma tetra_closed : index_closed tetra_ts. Proof. apply closedb_ok. vm_compute. reflexivity. Qed.
Lemma box_closed : index_closed box_ts. Proof. apply closedb_ok. vm_compute. reflexivity. Qed.
Lemma octa_closed : index_closed octa_ts. Proof. apply closedb_ok. vm_compute. reflexivity. Qed.
Lemma dodeca_closed : index_closed dodeca_ts. Proof. apply closedb_ok. vm_compute. reflexivity. Qed.
Lemma ico_closed : index_closed ico_ts. Proof. apply closedb_ok. vm_compute. reflexivity. Qed.
