(** Specification vocabulary for C98: the values of float states, and closeness. Nothing here is used by the model. *)
From Coq Require Import ZArith Reals List Bool.
From Flocq Require Import Core BinarySingleNaN.
From Verif Require Import Fp Scalar Base LinAlg MathLib Propagator FloatSpec.
Import ListNotations.
Local Open Scope R_scope.

(** The real numbers that the floats denote. *)
Definition v3_val (v : v3 f32) : v3 R := V3 (B2R (v3x v)) (B2R (v3y v)) (B2R (v3z v)).
Definition q_val (q : quat f32) : quat R := Quat (B2R (qw q)) (B2R (qx q)) (B2R (qy q)) (B2R (qz q)).
Definition mo_val (m : motion f32) : motion R := Motion (v3_val (mo_p m)) (v3_val (mo_v m)) (q_val (mo_q m)).
(** A finite float at most [e] away from a real number. *)
Definition close (e : R) (x : f32) (r : R) : Prop := is_finite x = true /\ Rabs (B2R x - r) <= e.
Definition v3_close (e : R) (x : v3 f32) (r : v3 R) : Prop := close e (v3x x) (v3x r) /\ close e (v3y x) (v3y r) /\ close e (v3z x) (v3z r).
Definition q_close (e : R) (x : quat f32) (r : quat R) : Prop :=
  close e (qw x) (qw r) /\ close e (qx x) (qx r) /\ close e (qy x) (qy r) /\ close e (qz x) (qz r).
(** The distance of a float attitude from a real one, as vectors of four numbers. *)
Definition q_dist2 (x : quat f32) (r : quat R) : R :=
  (B2R (qw x) - qw r) * (B2R (qw x) - qw r) + (B2R (qx x) - qx r) * (B2R (qx x) - qx r) +
  (B2R (qy x) - qy r) * (B2R (qy x) - qy r) + (B2R (qz x) - qz r) * (B2R (qz x) - qz r).
(** The ranges of C98: rates and gyroscope biases of at most 64 rad/s, accelerations of at most 32 m/s^2, accelerometer biases of at most 4 m/s^2,
    gravity of at most 16 m/s^2, speeds of at most 64 m/s, positions of at most 2048 m per axis. *)
Definition step_range (grav ba bg : v3 f32) (m : motion f32) (a0 g0 a1 g1 : v3 f32) : Prop :=
  v3_within 16 grav /\ v3_within 4 ba /\ v3_within 64 bg /\ v3_within 32 a0 /\ v3_within 64 g0 /\ v3_within 32 a1 /\ v3_within 64 g1 /\
  near_unit (mo_q m) /\ v3_within 64 (mo_v m) /\ v3_within 2048 (mo_p m).
(** Two time stamps at most 1/64 s apart. *)
Definition within_64th (t0 t1 : f64) : Prop := is_finite t0 = true /\ is_finite t1 = true /\ Rabs (B2R t1 - B2R t0) <= / 64.
(** Rates of at most 64 rad/s per axis, neighbours at most 1/64 s apart. *)
Fixpoint brisk (l : list (v3 f32 * f64)) : Prop :=
  match l with
  | [] => True
  | (g, t) :: r => v3_within 64 g /\ match r with [] => True | (_, t') :: _ => within_64th t t' end /\ brisk r
  end.
(** The same samples, with the values of the floats, handed to Propagate in exact arithmetic. *)
Definition feed_exact (grav : v3 R) (n_ext : nat) (q : pqueue R) (l : list (v3 f32 * v3 f32 * f64)) : pqueue R :=
  fold_left (fun q s => pq_propagate (S := ops_R) grav n_ext q (v3_val (fst (fst s))) (v3_val (snd (fst s))) (snd s)) l q.
(** A float item and an exact item of the same sample, the exact attitude being of unit length. *)
Definition same_sample (it : pitem f32) (ir : pitem R) : Prop :=
  pi_g ir = v3_val (pi_g it) /\ pi_ts ir = pi_ts it /\
  qw (mo_q (pi_mo ir)) * qw (mo_q (pi_mo ir)) + qx (mo_q (pi_mo ir)) * qx (mo_q (pi_mo ir)) + qy (mo_q (pi_mo ir)) * qy (mo_q (pi_mo ir)) + qz (mo_q (pi_mo ir)) * qz (mo_q (pi_mo ir)) = 1.
(** The same sample over and over, with steps of exactly 1/256 s. *)
Fixpoint even_pace (a g : v3 f32) (t : f64) (l : list (v3 f32 * v3 f32 * f64)) : Prop :=
  match l with
  | [] => True
  | s :: r => fst s = (a, g) /\ f64_to_f32 (f64_sub (snd s) t) = f32_lit 1 (-8) /\ even_pace a g (snd s) r
  end.
