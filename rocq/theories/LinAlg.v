(** Eigen vectors, quaternions and matrices over a generic scalar.
    Models the Eigen 3.3/3.4 operations used in /repo/eskf_vio_backend (Eigen itself is not in /repo). *)
From Coq Require Import ZArith List Bool Arith.
From Verif Require Import Fp Scalar Base.
Import ListNotations.

(** typedef.hpp 37-38, 31: Vector2, Vector3, Quaternion. *)
Record v2 (T : Type) := V2 { v2x : T; v2y : T }.
Record v3 (T : Type) := V3 { v3x : T; v3y : T; v3z : T }.
Record quat (T : Type) := Quat { qw : T; qx : T; qy : T; qz : T }.
(** typedef.hpp 34: Matrix33 as its nine entries. *)
Record m33 (T : Type) := M33 { m00 : T; m01 : T; m02 : T; m10 : T; m11 : T; m12 : T; m20 : T; m21 : T; m22 : T }.
(** typedef.hpp 29-30, 35-36 and fixed-size matrices: rows, columns, entries. *)
Record mat (T : Type) := Mat { mr : nat; mc : nat; me : nat -> nat -> T }.
Arguments V2 {T}. Arguments v2x {T}. Arguments v2y {T}.
Arguments V3 {T}. Arguments v3x {T}. Arguments v3y {T}. Arguments v3z {T}.
Arguments Quat {T}. Arguments qw {T}. Arguments qx {T}. Arguments qy {T}. Arguments qz {T}.
Arguments M33 {T}.
Arguments m00 {T}. Arguments m01 {T}. Arguments m02 {T}.
Arguments m10 {T}. Arguments m11 {T}. Arguments m12 {T}.
Arguments m20 {T}. Arguments m21 {T}. Arguments m22 {T}.
Arguments Mat {T}. Arguments mr {T}. Arguments mc {T}. Arguments me {T}.

Section LinAlg.
Context {T : Type} {S : SOps T}.
Local Open Scope sc_scope.

(** ** 2- and 3-vectors (Eigen::Matrix<Scalar,2/3,1>) *)
Definition v2sub (a b : v2 T) : v2 T := V2 (v2x a - v2x b) (v2y a - v2y b).
Definition v2dot (a b : v2 T) : T := v2x a * v2x b + v2y a * v2y b.
Definition v2norm (a : v2 T) : T := ssqrt (v2dot a a).

Definition v3zero : v3 T := V3 s0 s0 s0.
Definition v3add (a b : v3 T) : v3 T := V3 (v3x a + v3x b) (v3y a + v3y b) (v3z a + v3z b).
Definition v3sub (a b : v3 T) : v3 T := V3 (v3x a - v3x b) (v3y a - v3y b) (v3z a - v3z b).
Definition v3opp (a : v3 T) : v3 T := V3 (- v3x a) (- v3y a) (- v3z a).
Definition v3scale (a : v3 T) (k : T) : v3 T := V3 (v3x a * k) (v3y a * k) (v3z a * k).
Definition v3div (a : v3 T) (k : T) : v3 T := V3 (v3x a / k) (v3y a / k) (v3z a / k).
(** Eigen's unrolled reduction of three terms adds the last two first. *)
Definition v3dot (a b : v3 T) : T := v3x a * v3x b + (v3y a * v3y b + v3z a * v3z b).
Definition v3norm (a : v3 T) : T := ssqrt (v3dot a a).
Definition v3cross (a b : v3 T) : v3 T :=
  V3 (v3y a * v3z b - v3z a * v3y b) (v3z a * v3x b - v3x a * v3z b) (v3x a * v3y b - v3y a * v3x b).

(** ** Quaternions (Eigen::Quaternion<Scalar>) *)
Definition qid : quat T := Quat s1 s0 s0 s0.
Definition qvec (q : quat T) : v3 T := V3 (qx q) (qy q) (qz q).
(** Hamilton product, Eigen [quat_product]. *)
Definition qmul (a b : quat T) : quat T :=
  Quat (qw a * qw b - qx a * qx b - qy a * qy b - qz a * qz b)
       (qw a * qx b + qx a * qw b + qy a * qz b - qz a * qy b)
       (qw a * qy b + qy a * qw b + qz a * qx b - qx a * qz b)
       (qw a * qz b + qz a * qw b + qx a * qy b - qy a * qx b).
(** Coefficients are stored x,y,z,w; the unrolled reduction is (x+y)+(z+w). *)
Definition qnorm2 (q : quat T) : T := (qx q * qx q + qy q * qy q) + (qz q * qz q + qw q * qw q).
Definition qconj (q : quat T) : quat T := Quat (qw q) (- qx q) (- qy q) (- qz q).
Definition qdivs (q : quat T) (k : T) : quat T := Quat (qw q / k) (qx q / k) (qy q / k) (qz q / k).
(** [inverse()]: conjugate divided by the squared norm, the zero quaternion if this is not positive. *)
Definition qinv (q : quat T) : quat T :=
  let n2 := qnorm2 q in if s0 <? n2 then qdivs (qconj q) n2 else Quat s0 s0 s0 s0.
(** [normalize()] / [normalized()]: divides by the norm only when the squared norm is positive. *)
Definition qnormalize (q : quat T) : quat T :=
  let n2 := qnorm2 q in if s0 <? n2 then qdivs q (ssqrt n2) else q.
(** [q * v]: Eigen [_transformVector]: uv = 2 (vec x v); v + w uv + vec x uv. *)
Definition qrot (q : quat T) (v : v3 T) : v3 T :=
  let uv0 := v3cross (qvec q) v in
  let uv := v3add uv0 uv0 in
  v3add (v3add v (v3scale uv (qw q))) (v3cross (qvec q) uv).
(** [toRotationMatrix()], also [Matrix33 R(q)]. *)
Definition qmat (q : quat T) : m33 T :=
  let tx := s2 * qx q in let ty := s2 * qy q in let tz := s2 * qz q in
  let twx := tx * qw q in let twy := ty * qw q in let twz := tz * qw q in
  let txx := tx * qx q in let txy := ty * qx q in let txz := tz * qx q in
  let tyy := ty * qy q in let tyz := tz * qy q in let tzz := tz * qz q in
  M33 (s1 - (tyy + tzz)) (txy - twz) (txz + twy)
      (txy + twz) (s1 - (txx + tzz)) (tyz - twx)
      (txz - twy) (tyz + twx) (s1 - (txx + tyy)).

(** ** 3x3 matrices *)
Definition m33id : m33 T := M33 s1 s0 s0 s0 s1 s0 s0 s0 s1.
Definition m33map (f : T -> T) (a : m33 T) : m33 T :=
  M33 (f (m00 a)) (f (m01 a)) (f (m02 a)) (f (m10 a)) (f (m11 a)) (f (m12 a)) (f (m20 a)) (f (m21 a)) (f (m22 a)).
Definition m33opp (a : m33 T) : m33 T := m33map sopp a.
Definition m33scale (k : T) (a : m33 T) : m33 T := m33map (fun x => k * x) a.
Definition m33zip (f : T -> T -> T) (a b : m33 T) : m33 T :=
  M33 (f (m00 a) (m00 b)) (f (m01 a) (m01 b)) (f (m02 a) (m02 b))
      (f (m10 a) (m10 b)) (f (m11 a) (m11 b)) (f (m12 a) (m12 b))
      (f (m20 a) (m20 b)) (f (m21 a) (m21 b)) (f (m22 a) (m22 b)).
Definition m33add := m33zip sadd.
Definition m33sub := m33zip ssub.
Definition m33row0 (a : m33 T) := V3 (m00 a) (m01 a) (m02 a).
Definition m33row1 (a : m33 T) := V3 (m10 a) (m11 a) (m12 a).
Definition m33row2 (a : m33 T) := V3 (m20 a) (m21 a) (m22 a).
Definition m33t (a : m33 T) : m33 T :=
  M33 (m00 a) (m10 a) (m20 a) (m01 a) (m11 a) (m21 a) (m02 a) (m12 a) (m22 a).
Definition m33mulv (a : m33 T) (v : v3 T) : v3 T :=
  V3 (v3dot (m33row0 a) v) (v3dot (m33row1 a) v) (v3dot (m33row2 a) v).
Definition m33mul (a b : m33 T) : m33 T :=
  let bt := m33t b in
  let c0 := m33row0 bt in let c1 := m33row1 bt in let c2 := m33row2 bt in
  let r0 := m33row0 a in let r1 := m33row1 a in let r2 := m33row2 a in
  M33 (v3dot r0 c0) (v3dot r0 c1) (v3dot r0 c2)
      (v3dot r1 c0) (v3dot r1 c1) (v3dot r1 c2)
      (v3dot r2 c0) (v3dot r2 c1) (v3dot r2 c2).
Definition m33get (a : m33 T) (i j : nat) : T :=
  match i, j with
  | 0, 0 => m00 a | 0, 1 => m01 a | 0, _ => m02 a
  | 1, 0 => m10 a | 1, 1 => m11 a | 1, _ => m12 a
  | _, 0 => m20 a | _, 1 => m21 a | _, _ => m22 a
  end%nat.
Definition v3get (a : v3 T) (i : nat) : T := match i with 0%nat => v3x a | 1%nat => v3y a | _ => v3z a end.

(** ** General matrices *)
Fixpoint ssum (n : nat) (f : nat -> T) : T := match n with O => s0 | Datatypes.S k => ssum k f + f k end.
Definition mzero (r c : nat) : mat T := Mat r c (fun _ _ => s0).
Definition midn (n : nat) : mat T := Mat n n (fun i j => if Nat.eqb i j then s1 else s0).
Definition mtr (a : mat T) : mat T := Mat (mc a) (mr a) (fun i j => me a j i).
Definition madd (a b : mat T) : mat T := Mat (mr a) (mc a) (fun i j => me a i j + me b i j).
Definition msub (a b : mat T) : mat T := Mat (mr a) (mc a) (fun i j => me a i j - me b i j).
Definition mmul (a b : mat T) : mat T :=
  Mat (mr a) (mc b) (fun i j => ssum (mc a) (fun k => me a i k * me b k j)).
Definition mscale (k : T) (a : mat T) : mat T := Mat (mr a) (mc a) (fun i j => k * me a i j).
Definition mopp (a : mat T) : mat T := Mat (mr a) (mc a) (fun i j => - me a i j).
(** matrix of a 3x3 block, column vector *)
Definition mat_of_m33 (a : m33 T) : mat T := Mat 3 3 (m33get a).
Definition mat_of_v3 (a : v3 T) : mat T := Mat 3 1 (fun i _ => v3get a i).

(** Writing a block without bounds check: used for compile-time positions in fixed-size matrices. *)
Definition set_block (a : mat T) (i0 j0 : nat) (b : mat T) : mat T :=
  Mat (mr a) (mc a) (fun i j =>
    if (Nat.leb i0 i && Nat.ltb i (i0 + mr b) && Nat.leb j0 j && Nat.ltb j (j0 + mc b))%bool
    then me b (i - i0) (j - j0) else me a i j).
Definition get_block (a : mat T) (i0 j0 r c : nat) : mat T := Mat r c (fun i j => me a (i0 + i) (j0 + j)).

(** Bounds- and dimension-checked versions for dynamic sizes ([UB] otherwise). *)
Definition in_block (a : mat T) (i0 j0 r c : nat) : bool :=
  (Nat.leb (i0 + r) (mr a) && Nat.leb (j0 + c) (mc a))%bool.
Definition block (a : mat T) (i0 j0 r c : nat) : out (mat T) :=
  if in_block a i0 j0 r c then Ok (get_block a i0 j0 r c) else Ub UbBlock.
Definition setb (a : mat T) (i0 j0 : nat) (b : mat T) : out (mat T) :=
  if in_block a i0 j0 (mr b) (mc b) then Ok (set_block a i0 j0 b) else Ub UbBlock.
(** assignment [a.block(i0,j0,r,c) = b] with run-time sizes r, c (dimension assertion of Eigen) *)
Definition setbn (a : mat T) (i0 j0 r c : nat) (b : mat T) : out (mat T) :=
  if (Nat.eqb (mr b) r && Nat.eqb (mc b) c)%bool then setb a i0 j0 b else Ub UbDim.
Definition mmulc (a b : mat T) : out (mat T) := if Nat.eqb (mc a) (mr b) then Ok (mmul a b) else Ub UbDim.
Definition maddc (a b : mat T) : out (mat T) :=
  if (Nat.eqb (mr a) (mr b) && Nat.eqb (mc a) (mc b))%bool then Ok (madd a b) else Ub UbDim.
Definition msubc (a b : mat T) : out (mat T) :=
  if (Nat.eqb (mr a) (mr b) && Nat.eqb (mc a) (mc b))%bool then Ok (msub a b) else Ub UbDim.
(** [conservativeResize(r, c)]: old entries kept where they fit, new ones unspecified ([junk]). *)
Definition cresize (junk : nat -> nat -> T) (a : mat T) (r c : nat) : mat T :=
  Mat r c (fun i j => if (Nat.ltb i (mr a) && Nat.ltb j (mc a))%bool then me a i j else junk i j).
(** [resize] / construction [Matrix M(r, c)]: all entries unspecified. *)
Definition mraw (junk : nat -> nat -> T) (r c : nat) : mat T := Mat r c junk.

End LinAlg.
