(** IEEE-754 arithmetic used by the code: fp64 (double) and fp32 (float).
    Models include/utility/typedef.hpp lines 24-28 (fp32, fp64, Scalar). *)
From Coq Require Import ZArith Reals.
From Flocq Require Import Core BinarySingleNaN.

Open Scope Z_scope.

(** Format parameters of binary64 / binary32; include/utility/typedef.hpp 24-28. *)
Definition prec64 : Z := 53.
Definition emax64 : Z := 1024.
Definition prec32 : Z := 24.
Definition emax32 : Z := 128.

#[global] Instance prec64_gt_0 : Prec_gt_0 prec64 := eq_refl.
#[global] Instance prec64_lt_emax : Prec_lt_emax prec64 emax64 := eq_refl.
#[global] Instance prec32_gt_0 : Prec_gt_0 prec32 := eq_refl.
#[global] Instance prec32_lt_emax : Prec_lt_emax prec32 emax32 := eq_refl.

(** C++ [double] / [float] values (typedef.hpp 24-28). One NaN: payloads are never inspected. *)
Definition f64 := binary_float prec64 emax64.
Definition f32 := binary_float prec32 emax32.

(** Double arithmetic, round to nearest even (the default rounding mode, never changed in /repo);
    used on time stamps in data_loader.cpp, attitude_estimate.cpp, sequence_propagator.cpp. *)
Definition f64_add (x y : f64) : f64 := Bplus mode_NE x y.
Definition f64_sub (x y : f64) : f64 := Bminus mode_NE x y.
Definition f64_mul (x y : f64) : f64 := Bmult mode_NE x y.
Definition f64_div (x y : f64) : f64 := Bdiv mode_NE x y.
Definition f64_opp (x : f64) : f64 := Bopp x.
(** [std::fabs] on double (data_loader.cpp 67, 117). *)
Definition f64_abs (x : f64) : f64 := Babs x.
(** [<], [<=] on double: false when an operand is NaN. [a > b] is [b < a], [a >= b] is [b <= a]. *)
Definition f64_ltb (x y : f64) : bool := Bltb x y.
Definition f64_leb (x y : f64) : bool := Bleb x y.
(** [std::isnan] (data_loader.cpp 22, 39). *)
Definition f64_isnan (x : f64) : bool := is_nan x.

(** The double nearest to [m * 2^e]; all uses below are exact. *)
Definition f64_lit (m e : Z) : f64 := binary_normalize prec64 emax64 prec64_gt_0 prec64_lt_emax mode_NE m e false.
Definition f32_lit (m e : Z) : f32 := binary_normalize prec32 emax32 prec32_gt_0 prec32_lt_emax mode_NE m e false.

(** Integer literals converted to double: [static_cast<fp64>(-1)] (data_loader.cpp 11), [- 1] (27, 43). *)
Definition f64_of_Z (z : Z) : f64 := f64_lit z 0.
Definition f32_of_Z (z : Z) : f32 := f32_lit z 0.

(** 0.005 (data_loader.hpp 18): the double 0x1.47ae147ae147bp-8. *)
Definition f64_0_005 : f64 := f64_lit 0x147ae147ae147b (-60).
(** 1e-6 (data_loader.cpp 117): the double 0x1.0c6f7a0b5ed8dp-20. *)
Definition f64_1e_6 : f64 := f64_lit 0x10c6f7a0b5ed8d (-72).

(** Narrowing conversion double -> float ([static_cast<Scalar>(dt)], and [float vector * double] in Eigen,
    data_loader.cpp 124-125): round to nearest even, overflow to infinity. *)
Definition f64_to_f32 (x : f64) : f32 :=
  match x with
  | B754_zero s => B754_zero s
  | B754_infinity s => B754_infinity s
  | B754_nan => B754_nan
  | B754_finite s m e _ =>
      binary_normalize prec32 emax32 prec32_gt_0 prec32_lt_emax mode_NE (cond_Zopp s (Zpos m)) e s
  end.

(** Widening conversion float -> double (exact): implicit promotion in mixed comparisons. *)
Definition f32_to_f64 (x : f32) : f64 :=
  match x with
  | B754_zero s => B754_zero s
  | B754_infinity s => B754_infinity s
  | B754_nan => B754_nan
  | B754_finite s m e _ =>
      binary_normalize prec64 emax64 prec64_gt_0 prec64_lt_emax mode_NE (cond_Zopp s (Zpos m)) e s
  end.

(** Float arithmetic ([Scalar = float]); no fused operations or extended precision are modelled. *)
Definition f32_add (x y : f32) : f32 := Bplus mode_NE x y.
Definition f32_sub (x y : f32) : f32 := Bminus mode_NE x y.
Definition f32_mul (x y : f32) : f32 := Bmult mode_NE x y.
Definition f32_div (x y : f32) : f32 := Bdiv mode_NE x y.
Definition f32_opp (x : f32) : f32 := Bopp x.
Definition f32_abs (x : f32) : f32 := Babs x.
Definition f32_sqrt (x : f32) : f32 := Bsqrt mode_NE x.
Definition f32_ltb (x y : f32) : bool := Bltb x y.
Definition f32_leb (x y : f32) : bool := Bleb x y.
Definition f32_isnan (x : f32) : bool := is_nan x.
Definition f32_isinf (x : f32) : bool := match x with B754_infinity _ => true | _ => false end.
(** [NAN] (data_loader.hpp 15). *)
Definition f64_nan : f64 := B754_nan.

#[global] Arguments f64_of_Z : simpl never.
#[global] Arguments f32_of_Z : simpl never.
#[global] Arguments f64_lit : simpl never.
#[global] Arguments f32_lit : simpl never.
#[global] Arguments f64_add : simpl never.
#[global] Arguments f64_sub : simpl never.
#[global] Arguments f64_abs : simpl never.
#[global] Arguments f64_ltb : simpl never.
#[global] Arguments f64_leb : simpl never.
#[global] Arguments f64_isnan : simpl never.
