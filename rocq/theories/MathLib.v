(** Utility: include/utility/math_lib.hpp. *)
From Coq Require Import ZArith List Bool Arith.
From Verif Require Import Fp Scalar Base LinAlg.

Section MathLib.
Context {T : Type} {S : SOps T}.
Local Open Scope sc_scope.

(** SkewSymmetricMatrix (math_lib.hpp 10-16; the template overload 17-24 has the same entries). *)
Definition skew (v : v3 T) : m33 T :=
  M33 s0 (- v3z v) (v3y v) (v3z v) s0 (- v3x v) (- v3y v) (v3x v) s0.

(** DeltaQ (math_lib.hpp 33-44): the result is not normalized. *)
Definition delta_q (theta : v3 T) : quat T :=
  let h := v3div theta s2 in Quat s1 (v3x h) (v3y h) (v3z h).

(** Qleft, first overload (math_lib.hpp 48-57): the diagonal is overwritten last. *)
Definition qleft_a (q : quat T) : mat T :=
  Mat 4 4 (fun i j =>
    if Nat.eqb i j then qw q
    else match i, j with
         | O, Datatypes.S k => - v3get (qvec q) k
         | Datatypes.S k, O => v3get (qvec q) k
         | Datatypes.S a, Datatypes.S b => m33get (skew (qvec q)) a b
         | _, _ => qw q
         end).
(** Qleft, template overload (math_lib.hpp 58-67). *)
Definition qleft_b (q : quat T) : mat T :=
  Mat 4 4 (fun i j =>
    match i, j with
    | O, O => qw q
    | O, Datatypes.S k => - v3get (qvec q) k
    | Datatypes.S k, O => v3get (qvec q) k
    | Datatypes.S a, Datatypes.S b => m33get (m33add (m33scale (qw q) m33id) (skew (qvec q))) a b
    end).
(** Qright, first overload (math_lib.hpp 71-80). *)
Definition qright_a (q : quat T) : mat T :=
  Mat 4 4 (fun i j =>
    if Nat.eqb i j then qw q
    else match i, j with
         | O, Datatypes.S k => - v3get (qvec q) k
         | Datatypes.S k, O => v3get (qvec q) k
         | Datatypes.S a, Datatypes.S b => m33get (m33opp (skew (qvec q))) a b
         | _, _ => qw q
         end).
(** Qright, template overload (math_lib.hpp 81-90). *)
Definition qright_b (q : quat T) : mat T :=
  Mat 4 4 (fun i j =>
    match i, j with
    | O, O => qw q
    | O, Datatypes.S k => - v3get (qvec q) k
    | Datatypes.S k, O => v3get (qvec q) k
    | Datatypes.S a, Datatypes.S b => m33get (m33sub (m33scale (qw q) m33id) (skew (qvec q))) a b
    end).

(** ComputeRotationMagnitude of a rotation matrix and of a quaternion (math_lib.hpp 94-103). Eigen's
    unrolled trace of three entries adds the last two first. *)
Definition rot_magnitude (r : m33 T) : T := sabs (sacos ((m00 r + (m11 r + m22 r) - s1) / s2)).
Definition rot_magnitude_q (q : quat T) : T := rot_magnitude (qmat q).
(** ComputeRotationMagnitude of a rotation vector (math_lib.hpp 104-111). *)
Definition rot_magnitude_v (d : v3 T) : T :=
  rot_magnitude_q (Quat s1 (shalf * v3x d) (shalf * v3y d) (shalf * v3z d)).
(** ComputeTranslationMagnitude (math_lib.hpp 115-117). *)
Definition trans_magnitude (d : v3 T) : T := v3norm d.

(** static_cast<Scalar>(57.295779579) (math_lib.hpp 124-126): the float 0x1.ca5dc2p+5. *)
Definition rad2deg : T := sof32 (f32_lit 0xe52ee1 (-18)).
(** QuaternionToEuler (math_lib.hpp 121-128). *)
Definition quat_to_euler (q : quat T) : v3 T :=
  let r := qmat (qinv q) in
  V3 (satan2 (m12 r) (m22 r) * rad2deg) (sasin (- m02 r) * rad2deg) (satan2 (m01 r) (m00 r) * rad2deg).

(** ZERO (typedef.hpp 66): the float nearest to 1e-10, 0x1.b7cdfep-34. *)
Definition szero : T := sof32 (f32_lit 0xdbe6ff (-57)).

(** Result of Eigen::SelfAdjointEigenSolver: eigenvalues and eigenvectors (columns); an oracle. *)
Record eigen_dec := EigenDec { ed_val : nat -> T; ed_vec : mat T }.

(** Inverse (math_lib.hpp 131-138): V * diag(1/l if l > ZERO else 0) * V^T; [saes] is the eigen-solver. *)
Definition sym_inverse (saes : mat T -> eigen_dec) (a : mat T) : mat T :=
  let e := saes a in
  let n := mr a in
  let d := Mat n n (fun i j => if Nat.eqb i j then (if szero <? ed_val e i then s1 / ed_val e i else s0) else s0) in
  mmul (mmul (ed_vec e) d) (mtr (ed_vec e)).

(** TransformMatrix (math_lib.hpp 141-147). *)
Definition transform_matrix (q : quat T) (t : v3 T) : mat T :=
  set_block (set_block (midn 4) 0 0 (mat_of_m33 (qmat q))) 0 3 (mat_of_v3 t).

End MathLib.
Arguments EigenDec {T}. Arguments ed_val {T}. Arguments ed_vec {T}.
Arguments eigen_dec : clear implicits.
