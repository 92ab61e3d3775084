(** Specification vocabulary for C102: a float run beside the exact run on the same samples. Nothing here is used by the model. *)
From Coq Require Import ZArith Reals List Bool.
From Flocq Require Import Core BinarySingleNaN.
From Verif Require Import Fp Scalar Base LinAlg MathLib Propagator FloatSpec FloatStepSpec.
Import ListNotations.
Local Open Scope R_scope.

Definition v3_in (b : R) (v : v3 R) : Prop := Rabs (v3x v) <= b /\ Rabs (v3y v) <= b /\ Rabs (v3z v) <= b.
(** The exact run on the samples [l] keeps within [vm] m/s and [pm] m per axis, from its first state to its last. *)
Fixpoint cruises (vm pm : R) (grav : v3 R) (n_ext : nat) (q : pqueue R) (l : list (v3 f32 * v3 f32 * f64)) : Prop :=
  match back (pq_items q) with
  | Ub _ => False
  | Ok it => v3_in vm (mo_v (pi_mo it)) /\ v3_in pm (mo_p (pi_mo it)) /\
      match l with
      | [] => True
      | s :: r => cruises vm pm grav n_ext (pq_propagate (S := ops_R) grav n_ext q (v3_val (fst (fst s))) (v3_val (snd (fst s))) (snd s)) r
      end
  end.
(** Samples in range: accelerations of at most 32 m/s^2 and rates of at most 64 rad/s per axis, neighbours at most 1/64 s apart, starting after [t]. *)
Fixpoint steady (t : f64) (l : list (v3 f32 * v3 f32 * f64)) : Prop :=
  match l with
  | [] => True
  | (a, g, t') :: r => v3_within 32 a /\ v3_within 64 g /\ within_64th t t' /\ steady t' r
  end.
(** The bounds on the velocity and the position errors after [n] samples, from the attitude error [d] and the velocity error [ev] at the start. *)
Definition v_bound (d ev : R) (n : nat) : R := ev + INR n / 8192 + 7 * INR n * (d + INR n / 65536).
Definition p_bound (d ev ep : R) (n : nat) : R := ep + INR n * (v_bound d ev n / 64 + / 4096).
(** A float queue and an exact queue whose last items come from the same sample, with the same biases, all in range. *)
Definition beside (qf : pqueue f32) (qr : pqueue R) (itf : pitem f32) (itr : pitem R) : Prop :=
  back (pq_items qf) = Ok itf /\ back (pq_items qr) = Ok itr /\ same_sample itf itr /\ pi_a itr = v3_val (pi_a itf) /\
  pq_ba qr = v3_val (pq_ba qf) /\ pq_bg qr = v3_val (pq_bg qf) /\ v3_within 4 (pq_ba qf) /\ v3_within 64 (pq_bg qf) /\
  near_unit (item_att itf) /\ v3_within 32 (pi_a itf) /\ v3_within 64 (pi_g itf).
(** The errors of the motion of a float item against that of an exact item: attitude, velocity, position. *)
Definition apart (d ev ep : R) (itf : pitem f32) (itr : pitem R) : Prop :=
  sqrt (q_dist2 (item_att itf) (mo_q (pi_mo itr))) <= d /\ v3_close ev (mo_v (pi_mo itf)) (mo_v (pi_mo itr)) /\ v3_close ep (mo_p (pi_mo itf)) (mo_p (pi_mo itr)).
