(** The closing test in doubles. *)
From Coq Require Import ZArith List Bool Reals Lra Lia.
From Flocq Require Import Core IEEE754.BinarySingleNaN IEEE754.Binary IEEE754.Bits.
From Verif Require Import Base Num MF64 MGeometry MNurbs SF64 LBase LF64 LF64Arith LF64Ord LClosed.
Import ListNotations.
Open Scope Z_scope.

Definition zero64 (x : f64) : Prop := fin64 x = true /\ V64 x = 0%R.
Lemma small0 : (Rabs (round64 0) < bpow radix2 1024)%R.
Proof. rewrite round64_0, Rabs_R0. apply bpow_gt_0. Qed.
Lemma zero_sub (x : f64) : fin64 x = true -> zero64 (b64_minus mode_NE x x).
Proof.
  intros F. destruct (sub64 x x F F) as [A B]; [replace (V64 x - V64 x)%R with 0%R by lra; exact small0|]. split; [exact B|]. rewrite A. replace (V64 x - V64 x)%R with 0%R by lra. apply round64_0.
Qed.
Lemma zero_mul (x y : f64) : zero64 x -> zero64 y -> zero64 (b64_mult mode_NE x y).
Proof.
  intros [F1 V1] [F2 V2]. destruct (mul64 x y F1 F2) as [A B]; [rewrite V1, Rmult_0_l; exact small0|]. split; [exact B|]. rewrite A, V1, Rmult_0_l. apply round64_0.
Qed.
Lemma zero_add (x y : f64) : zero64 x -> zero64 y -> zero64 (b64_plus mode_NE x y).
Proof.
  intros [F1 V1] [F2 V2]. destruct (add64 x y F1 F2) as [A B]; [rewrite V1, V2, Rplus_0_l; exact small0|]. split; [exact B|]. rewrite A, V1, V2, Rplus_0_l. apply round64_0.
Qed.
Lemma fin_nan (x : f64) : fin64 x = true -> nan64 x = false.
Proof. destruct x; intros H; first [reflexivity|discriminate H]. Qed.
Lemma closed_doubles (c : NurbsCurve f64) (p : Point3 f64) tol : 2 <= vsize (nc_points c) -> vget (nc_points c) 0 = Ok p -> vget (nc_points c) (vsize (nc_points c) - 1) = Ok p ->
  fin64 (px p) = true -> fin64 (py p) = true -> fin64 (pz p) = true -> nc_is_closed c tol = Ok (f64_ltb (f64_ofZ 0) (b64_mult mode_NE tol tol)).
Proof.
  intros S E0 E1 X Y Z. rewrite (is_closed_gen c tol p p S E0 E1). f_equal. unfold norm_square, psub. cbn [px py pz nadd nmul nsub F64Num nltb].
  match goal with |- f64_ltb ?d _ = _ => assert (zero64 d) as [F V] by (repeat first [apply zero_add|apply zero_mul|apply zero_sub; assumption]) end.
  match goal with |- f64_ltb ?d ?y = f64_ltb ?z _ => set (a := d) in *; set (b := y) in *; destruct (f64_ltb a b) eqn:L; symmetry end.
  - apply ltb64 in L. destruct L as (_ & N & L). apply ltb64. split; [reflexivity|]. split; [exact N|]. rewrite ext_fin in L by exact F. rewrite V in L. exact L.
  - apply not_true_iff_false. intros K. apply (proj2 (not_true_iff_false _) L). apply ltb64 in K. destruct K as (_ & N & K). apply ltb64. split; [apply fin_nan; exact F|]. split; [exact N|]. rewrite ext_fin by exact F. rewrite V. exact K.
Qed.
Lemma closed_default (c : NurbsCurve f64) (p : Point3 f64) : 2 <= vsize (nc_points c) -> vget (nc_points c) 0 = Ok p -> vget (nc_points c) (vsize (nc_points c) - 1) = Ok p ->
  fin64 (px p) = true -> fin64 (py p) = true -> fin64 (pz p) = true -> nc_is_closed c default_tol = Ok true.
Proof. intros S E0 E1 X Y Z. rewrite (closed_doubles c p default_tol S E0 E1 X Y Z). vm_compute. reflexivity. Qed.
(** 2^-600: its square is too small for a double *)
Definition tiny : f64 := b64_of_bits (423 * 2 ^ 52).
Lemma tiny_pos : f64_ltb (f64_ofZ 0) tiny = true.
Proof. vm_compute. reflexivity. Qed.
Lemma tiny_open (c : NurbsCurve f64) (p : Point3 f64) : 2 <= vsize (nc_points c) -> vget (nc_points c) 0 = Ok p -> vget (nc_points c) (vsize (nc_points c) - 1) = Ok p ->
  fin64 (px p) = true -> fin64 (py p) = true -> fin64 (pz p) = true -> nc_is_closed c tiny = Ok false.
Proof. intros S E0 E1 X Y Z. rewrite (closed_doubles c p tiny S E0 E1 X Y Z). vm_compute. reflexivity. Qed.
