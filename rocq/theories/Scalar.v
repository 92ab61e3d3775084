(** Scalar operations. [Scalar] is [float] in /repo (include/utility/typedef.hpp line 28); every numerical
    function of the model is written once over this interface and instantiated at binary32, at the
    reals and at the one-point type. No law is attached to the interface. *)
From Coq Require Import ZArith Reals Bool.
From Flocq Require Import Core BinarySingleNaN.
From Verif Require Import Fp.

(** The operations on [Scalar] used in /repo/eskf_vio_backend (typedef.hpp 28; std::sqrt, std::atan2,
    std::log, std::fabs, std::isnan, std::isinf at their call sites). *)
Class SOps (T : Type) := {
  s0 : T;
  s1 : T;
  sadd : T -> T -> T;
  ssub : T -> T -> T;
  smul : T -> T -> T;
  sdiv : T -> T -> T;
  sopp : T -> T;
  sabs : T -> T;
  ssqrt : T -> T;
  satan2 : T -> T -> T;
  slog : T -> T;
  sasin : T -> T;
  sacos : T -> T;
  sltb : T -> T -> bool;
  sleb : T -> T -> bool;
  sisnan : T -> bool;
  sisinf : T -> bool;
  (** a float literal, or a float obtained by [static_cast<Scalar>] from a time difference *)
  sof32 : f32 -> T;
  (** [x > c] for a double constant c (the float x is promoted): attitude_estimate.cpp 16 *)
  sgt64 : T -> f64 -> bool;
  (** [x < c] for a double constant c: trianglation.cpp 38, 124; perspective_n_point.cpp 33, 191 *)
  slt64 : T -> f64 -> bool;
  (** [std::sqrt(double(x) / y)] narrowed to [Scalar]: trianglation.cpp 173 *)
  ssqrtq64 : T -> T -> T
}.

Declare Scope sc_scope.
Delimit Scope sc_scope with sc.
Infix "+" := sadd : sc_scope.
Infix "-" := ssub : sc_scope.
Infix "*" := smul : sc_scope.
Infix "/" := sdiv : sc_scope.
Notation "- x" := (sopp x) : sc_scope.
Infix "<?" := sltb : sc_scope.
Infix "<=?" := sleb : sc_scope.

(** Literals 2.0f and 0.5f (math_lib.hpp 38; sequence_propagator.cpp 92); both computations are exact. *)
Definition s2 {T} `{SOps T} : T := (s1 + s1)%sc.
Definition shalf {T} `{SOps T} : T := (s1 / s2)%sc.

(** libm functions on float: not IEEE-specified, hence parameters of the binary32 instance. *)
Record libm32 := {
  lm_atan2 : f32 -> f32 -> f32;
  lm_log : f32 -> f32;
  lm_asin : f32 -> f32;
  lm_acos : f32 -> f32
}.

(** [Scalar = float] exactly as typedef.hpp line 28. *)
Definition ops_f32 (lm : libm32) : SOps f32 := {|
  s0 := B754_zero false;
  s1 := f32_of_Z 1;
  sadd := f32_add; ssub := f32_sub; smul := f32_mul; sdiv := f32_div;
  sopp := f32_opp; sabs := f32_abs; ssqrt := f32_sqrt;
  satan2 := lm_atan2 lm; slog := lm_log lm; sasin := lm_asin lm; sacos := lm_acos lm;
  sltb := f32_ltb; sleb := f32_leb;
  sisnan := f32_isnan; sisinf := f32_isinf;
  sof32 := fun x => x;
  sgt64 := fun x c => f64_ltb c (f32_to_f64 x);
  slt64 := fun x c => f64_ltb (f32_to_f64 x) c;
  ssqrtq64 := fun x y => f64_to_f32 (Bsqrt mode_NE (f64_div (f32_to_f64 x) (f32_to_f64 y)))
|}.

(** Exact real arithmetic: the idealisation of [Scalar] used by the "in exact arithmetic" properties. *)
Definition Rltb (x y : R) : bool := if Rlt_dec x y then true else false.
Definition Rleb (x y : R) : bool := if Rle_dec x y then true else false.

(** std::atan2 over the reals (call site attitude_estimate.cpp 25). *)
Definition Ratan2 (y x : R) : R :=
  if Rlt_dec 0 x then atan (y / x)
  else if Rlt_dec x 0 then (if Rle_dec 0 y then atan (y / x) + PI else atan (y / x) - PI)%R
  else if Rlt_dec 0 y then (PI / 2)%R
  else if Rlt_dec y 0 then (- (PI / 2))%R
  else 0%R.

(** Real instance. Conversion of a float is its exact value [B2R]; theorems that use converted time
    differences are stated for finite ones where this matters. *)
#[global] Instance ops_R : SOps R := {|
  s0 := 0%R; s1 := 1%R;
  sadd := Rplus; ssub := Rminus; smul := Rmult; sdiv := Rdiv;
  sopp := Ropp; sabs := Rabs; ssqrt := R_sqrt.sqrt;
  satan2 := Ratan2; slog := ln; sasin := asin; sacos := acos;
  sltb := Rltb; sleb := Rleb;
  sisnan := fun _ => false; sisinf := fun _ => false;
  sof32 := fun x => B2R x;
  sgt64 := fun x c => Rltb (B2R c) x;
  slt64 := fun x c => Rltb x (B2R c);
  ssqrtq64 := fun x y => R_sqrt.sqrt (x / y)
|}.

(** One-point instance: numerical values are irrelevant, every comparison answers [b]. Used only for
    concrete control-flow witnesses. *)
Definition ops_unit (b : bool) : SOps unit := {|
  s0 := tt; s1 := tt;
  sadd := fun _ _ => tt; ssub := fun _ _ => tt; smul := fun _ _ => tt; sdiv := fun _ _ => tt;
  sopp := fun _ => tt; sabs := fun _ => tt; ssqrt := fun _ => tt;
  satan2 := fun _ _ => tt; slog := fun _ => tt; sasin := fun _ => tt; sacos := fun _ => tt;
  sltb := fun _ _ => b; sleb := fun _ _ => b;
  sisnan := fun _ => b; sisinf := fun _ => b;
  sof32 := fun _ => tt;
  sgt64 := fun _ _ => b;
  slt64 := fun _ _ => b;
  ssqrtq64 := fun _ _ => tt
|}.
