(** Specification vocabulary for C100 and C101: angles, and features in two frames. Nothing here is used by the model. *)
From Coq Require Import ZArith Reals List Bool.
From Verif Require Import Fp Scalar Base LinAlg.
Local Open Scope R_scope.

(** The rotation by the angle [a] about the axis [n]. *)
Definition turn (n : v3 R) (a : R) : quat R := Quat (cos (a / 2)) (sin (a / 2) * v3x n) (sin (a / 2) * v3y n) (sin (a / 2) * v3z n).
Definition ex_ : v3 R := V3 1 0 0.
Definition ey_ : v3 R := V3 0 1 0.
Definition ez_ : v3 R := V3 0 0 1.
(** Turn by [a] about x first, then by [b] about y, then by [c] about z, all axes fixed. *)
Definition attitude (a b c : R) (v : v3 R) : v3 R :=
  let v1 := V3 (v3x v) (cos a * v3y v - sin a * v3z v) (sin a * v3y v + cos a * v3z v) in
  let v2 := V3 (cos b * v3x v1 + sin b * v3z v1) (v3y v1) (cos b * v3z v1 - sin b * v3x v1) in
  V3 (cos c * v3x v2 - sin c * v3y v2) (sin c * v3x v2 + cos c * v3y v2) (v3z v2).
