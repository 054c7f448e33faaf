(** Properties C14, C15: the interchangeable mesh kernels. *)
From Coq Require Import ZArith List Bool Reals.
From Verif Require Import Base Num MGeometry MKernel MKernelRun SKernel LBase LKernel.
Import ListNotations.
Open Scope Z_scope.

(** C14. Every program of calls (nearness queries excluded) gets the same answers from both kernels, and
    stops at the same call with the same fault if it stops. *)
Theorem C14_kernels_agree : forall (T : Type) (cs : list (kcall T)), trace lt_call k_empty cs = trace tin_call kt_empty cs.
Proof. exact @kernels_agree. Qed.
Print Assumptions C14_kernels_agree.
Example C14_case : trace lt_call k_empty
  [KAddVertex (mkP 0%R 0%R 0%R); KAddTriangle 0 0 0; KUnlink 0; KIsUnlinked 0; KGetTriangle 0; KGetVertex 7]
  = ([ANum 0; ANum 0; AUnit; ABool true; ATri (0, 0, 0)], Some FAssert).
Proof. reflexivity. Qed.
(** C14. The excluded query: the linked kernel answers -1 three times, the TIN kernel leaves the caller's
    variables untouched, so the two differ whenever the caller did not preset them to -1. *)
Theorem C14_nearness_refuted : exists (cs : list (kcall R)) (k : Kernel R) (q : KernelTIN R) (out : Z * Z * Z),
  final lt_call k_empty cs = Ok k /\ final tin_call kt_empty cs = Ok q /\
  k_get_near k 0 = Ok (-1, -1, -1) /\ kt_get_near q 0 out = Ok out /\ out <> (-1, -1, -1).
Proof.
  exists [KAddVertex (mkP 0%R 0%R 0%R); KAddTriangle 0 0 0].
  eexists. eexists. exists (0, 0, 0). split; [reflexivity|]. split; [reflexivity|]. split; [reflexivity|]. split; [reflexivity|discriminate].
Qed.
Print Assumptions C14_nearness_refuted.

(** C15. True of the linked-triangles and TIN kernels ... *)
Theorem C15_linked_kernel_stores : forall (T : Type) (k : Kernel T) (a b c : Z),
  0 <= a < k_nbv k -> 0 <= b < k_nbv k -> 0 <= c < k_nbv k -> stores lt_call k a b c.
Proof. exact @lt_stores. Qed.
Print Assumptions C15_linked_kernel_stores.
Theorem C15_tin_kernel_stores : forall (T : Type) (k : KernelTIN T) (a b c : Z),
  0 <= a < kt_nbv k -> 0 <= b < kt_nbv k -> 0 <= c < kt_nbv k -> stores tin_call k a b c.
Proof. exact @tin_stores. Qed.
Print Assumptions C15_tin_kernel_stores.
(** ... false of the half-edge kernel, after every history. *)
Theorem C15_half_edge_refuted : forall (T : Type) (cs : list (kcall T)) (k : KernelHE T) (a b c : Z), final he_call kh_empty cs = Ok k ->
  he_call k (KAddTriangle a b c) = Ok (k, ANum (-1)) /\ he_call k KNbTriangles = Ok (k, ANum 0) /\
  forall i, he_call k (KGetTriangle i) = Err FAssert.
Proof. exact @he_add_is_lost. Qed.
Print Assumptions C15_half_edge_refuted.
Example C15_case : exists k, final he_call kh_empty [KAddVertex (mkP 0%R 0%R 0%R); KAddTriangle 0 0 0] = Ok k /\ kh_nbv k = 1.
Proof. eexists. split; reflexivity. Qed.
