(** Specification of binary STL files by byte positions: 80 bytes of header, a 4-byte count, then 50 bytes per triangle,
    of which bytes 12..47 are nine 4-byte floats. *)
From Coq Require Import ZArith List Bool.
From Verif Require Import Base MGeometry MStl SMesh SImage.
Import ListNotations.
Open Scope Z_scope.

Definition word4 (b : Z -> Z) : Z := b 0 + 256 * b 1 + 65536 * b 2 + 16777216 * b 3.
Definition stl_count (l : list Z) : Z := field4 l 80.
(** The bytes of the coordinates of triangle [i] (k = 0..35). *)
Definition stl_pos (i k : Z) : Z := 84 + 50 * i + 12 + k.
(** Byte [k] of triangle [i], or where the file has ended the byte of the last triangle that had one. *)
Fixpoint last_byte (l : list Z) (i : nat) (k : Z) : Z :=
  if stl_pos (Z.of_nat i) k <? vsize l then byte l (stl_pos (Z.of_nat i) k)
  else match i with O => 0 | S i' => last_byte l i' k end.

(** Triangles 0,1,2 / 3,4,5 / ... *)
Definition soup_tris (n : nat) : list (triple * bool) := map (fun i => let k := 3 * Z.of_nat i in ((k, k + 1, k + 2), true)) (seq 0 n).

Section Values.
Context {T : Type} {F : Single T}.
(** Vertex [j] (0..2) of triangle [i] as stored in the file. *)
Definition stl_point (l : list Z) (i j : Z) : Point3 T :=
  let c k := f_val (word4 (fun b => byte l (stl_pos i (12 * j + 4 * k + b)))) in mkP (c 0) (c 1) (c 2).
Definition last_point (l : list Z) (i : nat) (j : Z) : Point3 T :=
  let c k := f_val (word4 (fun b => last_byte l i (12 * j + 4 * k + b))) in mkP (c 0) (c 1) (c 2).
(** A point through single precision. *)
Definition single (p : Point3 T) : Point3 T := mkP (f_val (f_bits (px p))) (f_val (f_bits (py p))) (f_val (f_bits (pz p))).
(** The corners of the linked triangles, in order, three per triangle. *)
Definition soup (d : Point3 T) (a : AMesh T) : list (Point3 T) :=
  flat_map (fun t => let '(x, y, z) := t in [pt a x d; pt a y d; pt a z d]) (live a).
(** Three vertices per triangle, triangle by triangle. *)
Definition soup_verts (pt : nat -> Z -> Point3 T) (n : nat) : list (Point3 T) := flat_map (fun i => [pt i 0; pt i 1; pt i 2]) (seq 0 n).
End Values.
