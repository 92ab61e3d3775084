(** Specification vocabulary for C97: float attitudes and the range of the measurements. Nothing here is used by the model. *)
From Coq Require Import ZArith Reals List Bool.
From Flocq Require Import Core BinarySingleNaN.
From Verif Require Import Fp Scalar Base LinAlg Propagator Attitude.
Import ListNotations.
Local Open Scope R_scope.

(** Every component is a finite float of size at most [b]. *)
Definition f_within (b : R) (x : f32) : Prop := is_finite x = true /\ Rabs (B2R x) <= b.
Definition v3_within (b : R) (v : v3 f32) : Prop := f_within b (v3x v) /\ f_within b (v3y v) /\ f_within b (v3z v).
(** The squared length of the quaternion that the four floats denote, without any rounding. *)
Definition q_len2 (q : quat f32) : R := B2R (qw q) * B2R (qw q) + B2R (qx q) * B2R (qx q) + B2R (qy q) * B2R (qy q) + B2R (qz q) * B2R (qz q).
Definition q_finite (q : quat f32) : Prop :=
  is_finite (qw q) = true /\ is_finite (qx q) = true /\ is_finite (qy q) = true /\ is_finite (qz q) = true.
(** A float quaternion of length one up to rounding: its squared length is within 2^-20 of one. *)
Definition near_unit (q : quat f32) : Prop := q_finite q /\ Rabs (q_len2 q - 1) <= / 1048576.
(** Two time stamps at most one second apart. *)
Definition within_second (t0 t1 : f64) : Prop := is_finite t0 = true /\ is_finite t1 = true /\ Rabs (B2R t1 - B2R t0) <= 1.
(** Measurements within range: rates of at most [b] rad/s per axis, at most a second between neighbours. *)
Fixpoint paced (b : R) (l : list (v3 f32 * f64)) : Prop :=
  match l with
  | [] => True
  | (g, t) :: r => v3_within b g /\ match r with [] => True | (_, t') :: _ => within_second t t' end /\ paced b r
  end.
(** The squared length of a vector of floats, without rounding. *)
Definition v3_len2 (v : v3 f32) : R := B2R (v3x v) * B2R (v3x v) + B2R (v3y v) * B2R (v3y v) + B2R (v3z v) * B2R (v3z v).
(** Every entry of a correction vector is a finite float of size at most 2048. *)
Definition dx_within (dx : mat f32) : Prop := forall i, f_within 2048 (me dx i 0%nat).
(** The quaternion with four zeros. *)
Definition f_zero (x : f32) : Prop := x = B754_zero false \/ x = B754_zero true.
Definition q_zero (q : quat f32) : Prop := f_zero (qw q) /\ f_zero (qx q) /\ f_zero (qy q) /\ f_zero (qz q).
(** 2^100, a limit far above any measurement and below the overflow of binary32 (2^128). *)
Definition huge : R := 1267650600228229401496703205376.
Definition item_rate (it : pitem f32) : v3 f32 * f64 := (pi_g it, pi_ts it).
Definition item_att (it : pitem f32) : quat f32 := mo_q (pi_mo it).
(** Samples handed to Propagate one after the other. *)
Definition feed (S : SOps f32) (grav : v3 f32) (n_ext : nat) (q : pqueue f32) (l : list (v3 f32 * v3 f32 * f64)) : pqueue f32 :=
  fold_left (fun q s => pq_propagate (S := S) grav n_ext q (fst (fst s)) (snd (fst s)) (snd s)) l q.
