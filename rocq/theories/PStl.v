(** Properties C75-C76: binary STL files. *)
From Coq Require Import ZArith List Bool Reals Lra Lia.
From Flocq Require Import Core IEEE754.Binary IEEE754.Bits.
From Verif Require Import Base Num MGeometry MKernel MMesh MMeshRun MUtil MStream MStl MF64 SMesh SReach SImage SStl LBase LMesh LReach LStl LStl2 LF64.
Import ListNotations.
Open Scope Z_scope.

(** C75: any way [f_bits], [f_val] of writing a coordinate on 32 bits and reading it back. *)
Theorem C75_round_trip : forall {T} {N : Num T} {F : Single T} (m m0 : Mesh T) a d, reach m -> shows m a -> reach m0 -> len (live a) < 2147483648 -> (forall x, 0 <= f_bits x < 4294967296) ->
  exists l m', stl_save m = Ok l /\ vsize l = 84 + 50 * len (live a) /\ bytes_ok l /\ stl_load l m0 = Ok (true, m') /\ reach m' /\
    shows m' (mkA (map single (soup d a)) (soup_tris (length (live a))) (get_color m0)).
Proof. exact @stl_round_trip. Qed.
Print Assumptions C75_round_trip.
(** C75 for IEEE doubles and floats. *)
Theorem C75_round_trip_ieee : forall (m m0 : Mesh f64) a d, reach m -> shows m a -> reach m0 -> len (live a) < 2147483648 ->
  exists l m', stl_save m = Ok l /\ vsize l = 84 + 50 * len (live a) /\ bytes_ok l /\ stl_load l m0 = Ok (true, m') /\ reach m' /\
    shows m' (mkA (map single (soup d a)) (soup_tris (length (live a))) (get_color m0)).
Proof. exact (fun m m0 a d R S R0 L => stl_round_trip m m0 a d R S R0 L f_bits_range). Qed.
Print Assumptions C75_round_trip_ieee.
(** The coordinate read back is the nearest single-precision number (ties to even), *)
Theorem C75_nearest_single : forall x : f64, is_finite 53 1024 x = true ->
  (Rabs (round radix2 (FLT_exp (-149) 24) ZnearestE (B2R 53 1024 x)) < bpow radix2 128)%R ->
  is_finite 53 1024 (f_val (f_bits x)) = true /\ B2R 53 1024 (f_val (f_bits x)) = round radix2 (FLT_exp (-149) 24) ZnearestE (B2R 53 1024 x).
Proof. exact single_value. Qed.
Print Assumptions C75_nearest_single.
(** the same number, sign of zero included, if it was representable, *)
Theorem C75_exact : forall x : f64, is_finite 53 1024 x = true -> generic_format radix2 (FLT_exp (-149) 24) (B2R 53 1024 x) -> (Rabs (B2R 53 1024 x) < bpow radix2 128)%R ->
  f_val (f_bits x) = x.
Proof. exact single_exact. Qed.
Print Assumptions C75_exact.
(** and saving again loses nothing more. *)
Theorem C75_second_trip : forall x : f64, f_val (f_bits (f_val (f_bits x))) = f_val (f_bits x).
Proof. exact single_idem. Qed.
Print Assumptions C75_second_trip.

(** C76: what loading does on any bytes.  The loader never fails; where the file has ended it repeats the bytes of the last triangle that had them. *)
Theorem C76_any_bytes_partial : forall {T} {N : Num T} {F : Single T} l (m : Mesh T), bytes_ok l -> reach m ->
  exists m', stl_load l m = Ok (true, m') /\ reach m' /\ shows m' (mkA (soup_verts (last_point l) (Z.to_nat (stl_count l))) (soup_tris (Z.to_nat (stl_count l))) (get_color m)).
Proof. exact @stl_load_any. Qed.
Print Assumptions C76_any_bytes_partial.
(** A file that is long enough for its count: exactly the stored triangles. *)
Theorem C76_complete_file : forall {T} {N : Num T} {F : Single T} l (m : Mesh T), bytes_ok l -> reach m -> 84 + 50 * stl_count l <= vsize l ->
  exists m', stl_load l m = Ok (true, m') /\ reach m' /\ nb_vertices m' = 3 * Z.max 0 (stl_count l) /\ nb_triangles m' = Z.max 0 (stl_count l) /\
    forall i, 0 <= i < stl_count l -> get_triangle_vertices m' i = Ok (3 * i, 3 * i + 1, 3 * i + 2) /\ is_triangle_unlinked m' i = Ok false /\
      forall j, 0 <= j < 3 -> get_vertex m' (3 * i + j) = Ok (stl_point l i j).
Proof. exact @stl_load_complete. Qed.
Print Assumptions C76_complete_file.
(** The claim fails for every truncated file: announced triangles that were not read are made up and the loader still answers true. *)
Theorem C76_truncated_refuted : forall {T} {N : Num T} {F : Single T} l (m : Mesh T), bytes_ok l -> reach m -> vsize l < 84 + 50 * stl_count l ->
  exists m', stl_load l m = Ok (true, m') /\ nb_triangles m' = Z.max 0 (stl_count l).
Proof. exact @stl_truncated. Qed.
Print Assumptions C76_truncated_refuted.

(** A mesh of doubles: the point (0.1, 1, -2), two others, two triangles of which the second one is unlinked. *)
Definition ex_pt : Point3 f64 := mkP (nlit 1 10) (nofZ 1) (nofZ (-2)).
Definition ex_stl : Mesh f64 :=
  mkMesh (mkK [ex_pt; mkP (nofZ 0) (nofZ 0) (nofZ 0); mkP (nofZ 3) (nlit 1 2) (nofZ 0)] [mkLT 0 1 2 (-1) (-1) (-1) 0; mkLT 2 1 0 (-1) (-1) (-1) (-1)]) 7.
Definition ex_stl_ops : list (op f64 (Mesh f64)) :=
  [OpAddVertex ex_pt; OpAddVertex (mkP (nofZ 0) (nofZ 0) (nofZ 0)); OpAddVertex (mkP (nofZ 3) (nlit 1 2) (nofZ 0)); OpAddTriangle 0 1 2; OpAddTriangle 2 1 0; OpUnlink 1; OpSetColor 7].
Example ex_stl_reach : reach ex_stl.
Proof.
  pose proof (shows_run ex_stl_ops (map abs_op ex_stl_ops) (@mesh_new f64) a_new (R_new) (shows_abs mesh_new)) as H.
  specialize (H ltac:(repeat constructor)).
  assert (srun a_new (map abs_op ex_stl_ops) = Some (abs ex_stl, [OutId 0; OutId 1; OutId 2; OutId 0; OutId 1; OutUnit; OutUnit])) as EQ by reflexivity.
  rewrite EQ in H. clear EQ. destruct H as [m' [E [R _]]].
  assert (mrun mesh_new ex_stl_ops = Ok (ex_stl, [OutId 0; OutId 1; OutId 2; OutId 0; OutId 1; OutUnit; OutUnit])) as E2 by reflexivity.
  rewrite E2 in E. injection E as <-. exact R.
Qed.
Example ex_stl_bytes : stl_save ex_stl = Ok (repeat 0 80 ++ [1; 0; 0; 0] ++ repeat 0 12 ++
  [205; 204; 204; 61;  0; 0; 128; 63;  0; 0; 0; 192;  0; 0; 0; 0;  0; 0; 0; 0;  0; 0; 0; 0;  0; 0; 64; 64;  0; 0; 0; 63;  0; 0; 0; 0;  0; 0]).
Proof. vm_compute. reflexivity. Qed.
Example C75_ex_tenth_rounds : bits_of_b64 (f_val (f_bits (nlit 1 10 : f64))) = 4591870180174331904 /\ bits_of_b64 (nlit 1 10) = 4591870180066957722.
Proof. vm_compute. split; reflexivity. Qed.
Example C75_ex_exact : f_val (f_bits (nofZ 3 : f64)) = nofZ 3.
Proof. destruct (ofZ_ok 3 ltac:(lia)) as [V FI]. apply C75_exact; [exact FI| |]; cbn [nofZ F64Num]; rewrite V.
  - apply generic_format_FLT. exists (Float radix2 3 0); [|reflexivity|simpl; lia]. unfold F2R. simpl. lra.
  - rewrite <- abs_IZR. change (bpow radix2 128) with (IZR (2 ^ 128)). apply IZR_lt. reflexivity.
Qed.
(** The mesh read back: one triangle, the unlinked one is gone. *)
Example C75_ex_trip : (do l <- stl_save ex_stl; do r <- stl_load l ex_stl; Ok (vsize l, fst r, nb_triangles (snd r), nb_vertices (snd r), get_color (snd r))) = Ok (134, true, 1, 3, 7).
Proof. vm_compute. reflexivity. Qed.
Example C75_ex_hyps : reach ex_stl /\ shows ex_stl (abs ex_stl) /\ len (live (abs ex_stl)) < 2147483648.
Proof. split; [exact ex_stl_reach|]. split; [apply shows_abs|reflexivity]. Qed.
(** 84 bytes that announce five triangles: loading makes five triangles at the origin and answers true. *)
Definition ex_short : list Z := repeat 0 80 ++ [5; 0; 0; 0].
Example C76_ex_truncated : bytes_ok ex_short /\ vsize ex_short < 84 + 50 * stl_count ex_short /\
  (do r <- stl_load ex_short ex_stl; Ok (fst r, nb_triangles (snd r))) = Ok (true, 5).
Proof. split; [unfold bytes_ok, ex_short; repeat constructor; lia|]. split; [reflexivity|]. vm_compute. reflexivity. Qed.
(** A complete file followed by other bytes. *)
Example C76_ex_complete : (do l <- stl_save ex_stl; do r <- stl_load (l ++ [1; 2; 3]) ex_stl;
    Ok (84 + 50 * stl_count (l ++ [1; 2; 3]) <=? vsize (l ++ [1; 2; 3]), fst r, nb_triangles (snd r))) = Ok (true, true, 1).
Proof. vm_compute. reflexivity. Qed.
