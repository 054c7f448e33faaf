(** Model of src/Transform.h and src/Transform.cpp. *)
From Coq Require Import ZArith List Bool.
From Verif Require Import Base Num MGeometry.
Import ListNotations.
Open Scope num_scope.

Section Transform.
Context {T : Type} {N : Num T} {TR : Trig T}.

(** A [Transform] is modelled by the function computed by its virtual [apply] (Transform.h:13);
    the C++ method updates the point in place. *)

(** Transform.cpp:10-14 *)
Definition apply_all (f : Point3 T -> Point3 T) (vp : list (Point3 T)) : list (Point3 T) := map f vp.

(** Transform.cpp:16-23 *)
Definition translation (t : Point3 T) (p : Point3 T) : Point3 T := padd p t.

(** Transform.cpp:25-36 *)
Definition scale (sx sy sz : T) (p : Point3 T) : Point3 T :=
  mkP (px p * sx) (py p * sy) (pz p * sz).

(** Transform.cpp:44, 94, 166: [2. * 3.14159265359 / 360.] *)
Definition deg_to_rad : res T := ndiv (n2 * nlit 314159265359 100000000000) (nofZ 360).

(** Transform.h:46-47 *)
Record Euler := mkEuler { eyc : T; eys : T; epc : T; eps : T; erc : T; ers : T }.
(** Transform.cpp:38-56 (set_angles) *)
Definition euler_set (yaw pitch roll : T) : res Euler :=
  do d <- deg_to_rad;
  Ok (mkEuler (ncos (yaw * d)) (nsin (yaw * d)) (ncos (pitch * d)) (nsin (pitch * d))
        (ncos (roll * d)) (nsin (roll * d))).
(** Transform.cpp:57-75 *)
Definition euler_apply (e : Euler) (p : Point3 T) : Point3 T :=
  let x := px p in let y := py p in let z := pz p in
  let tmp := x in
  let x := x * eyc e + z * eys e in
  let z := z * eyc e - tmp * eys e in
  let tmp := y in
  let y := z * eps e - y * epc e in
  let z := z * epc e + tmp * eps e in
  let tmp := x in
  let x := x * erc e + y * ers e in
  let y := y * erc e - tmp * ers e in
  mkP x y z.

(** Transform.h:59 *)
Record Quat := mkQuat { qa : T; qb : T; qc : T; qd : T }.
(** Transform.cpp:77-83 *)
Definition quat_id : Quat := mkQuat n1 n0 n0 n0.
(** Transform.cpp:92-102 *)
Definition quat_from_angle_axis (angle : T) (axis : Point3 T) : res Quat :=
  do d <- deg_to_rad;
  let s := nsin (angle * d * nlit 1 2) in
  let c := ncos (angle * d * nlit 1 2) in
  Ok (mkQuat c (px axis * s) (py axis * s) (pz axis * s)).
(** Transform.cpp:104-130 *)
Definition quat_apply (q : Quat) (p : Point3 T) : Point3 T :=
  let a := qa q in let b := qb q in let c := qc q in let d := qd q in
  let t2 := a * b in
  let t3 := a * c in
  let t4 := a * d in
  let t5 := (- b) * b in
  let t6 := b * c in
  let t7 := b * d in
  let t8 := (- c) * c in
  let t9 := c * d in
  let t10 := (- d) * d in
  let v1 := px p in let v2 := py p in let v3 := pz p in
  mkP (n2 * ((t8 + t10) * v1 + (t6 - t4) * v2 + (t3 + t7) * v3) + v1)
      (n2 * ((t4 + t6) * v1 + (t5 + t10) * v2 + (t9 - t2) * v3) + v2)
      (n2 * ((t7 - t3) * v1 + (t2 + t9) * v2 + (t5 + t8) * v3) + v3).

(** Transform.h:72, [double _m[9]] *)
Record Mat := mkMat { m0 : T; m1 : T; m2 : T; m3 : T; m4 : T; m5 : T; m6 : T; m7 : T; m8 : T }.
(** Transform.cpp:132-143 *)
Definition mat_id : Mat := mkMat n1 n0 n0 n0 n1 n0 n0 n0 n1.
(** Transform.cpp:158-190 *)
Definition mat_from_angle_axis (angle : T) (axis : Point3 T) : res Mat :=
  let v1 := px axis in let v2 := py axis in let v3 := pz axis in
  do d <- deg_to_rad;
  let t1 := ncos (angle * d) in
  let t2 := n1 - t1 in
  let t3 := v1 * v1 in
  let t6 := t2 * v1 in
  let t7 := t6 * v2 in
  let t8 := nsin (angle * d) in
  let t9 := t8 * v3 in
  let t11 := t6 * v3 in
  let t12 := t8 * v2 in
  let t15 := v2 * v2 in
  let t19 := t2 * v2 * v3 in
  let t20 := t8 * v1 in
  let t24 := v3 * v3 in
  Ok (mkMat (t1 + t2 * t3) (t7 - t9) (t11 + t12)
            (t7 + t9) (t1 + t2 * t15) (t19 - t20)
            (t11 - t12) (t19 + t20) (t1 + t2 * t24)).
(** Transform.cpp:191-201 *)
Definition mat_apply (m : Mat) (p : Point3 T) : Point3 T :=
  let x := px p in let y := py p in let z := pz p in
  mkP (x * m0 m + y * m1 m + z * m2 m)
      (x * m3 m + y * m4 m + z * m5 m)
      (x * m6 m + y * m7 m + z * m8 m).

(** Transform.cpp:203-221: RotationAngleAxis forwards to a RotationMatrix. *)
Definition angle_axis_apply := mat_apply.

End Transform.
Arguments Euler T : clear implicits.
Arguments Quat T : clear implicits.
Arguments Mat T : clear implicits.
