(** Specification vocabulary for the exact-arithmetic (real number) properties. *)
From Coq Require Import Reals List Arith.
From Flocq Require Import IEEE754.BinarySingleNaN.
From Verif Require Import Fp Scalar Base LinAlg MathLib Propagator MatFacts.
Import ListNotations.
Local Open Scope R_scope.

(** The real value of the (float) time step between two double times. *)
Definition real_step (t0 t1 : f64) : R := B2R (f64_to_f32 (f64_sub t1 t0)).
(** Total duration of a sequence of samples starting at [t0]: the sum of the rounded steps. *)
Fixpoint duration (t0 : f64) (ts : list f64) : R :=
  match ts with [] => 0 | t :: r => real_step t0 t + duration t r end.

(** Full covariance of the 15 IMU states and [n] extrinsic and camera states from its three stored parts. *)
Definition full_cov (cov ecov ecc : mat R) : fmat := fun i j =>
  if Nat.ltb i 15 then (if Nat.ltb j 15 then me cov i j else me ecov i (j - 15))
  else (if Nat.ltb j 15 then me ecov j (i - 15) else me ecc (i - 15) (j - 15)).

(** The sizes of the stored parts for [n] extrinsic and camera states. *)
Definition cov_sizes (n : nat) (it : pitem R) : Prop :=
  mr (pi_cov it) = 15%nat /\ mc (pi_cov it) = 15%nat /\ mr (pi_ecov it) = 15%nat /\ mc (pi_ecov it) = n.
(** Every item of the queue yields a symmetric positive semidefinite full covariance. *)
Definition psd_queue (n : nat) (q : pqueue R) : Prop :=
  mr (pq_ecc q) = n /\ mc (pq_ecc q) = n /\
  Forall (fun it => cov_sizes n it /\ fpsd (15 + n) (full_cov (pi_cov it) (pi_ecov it) (pq_ecc q))) (pq_items q).
(** Sizes of the process matrices. *)
Definition process_sizes (q : pqueue R) : Prop :=
  mr (pq_F q) = 15%nat /\ mc (pq_F q) = 15%nat /\ mr (pq_G q) = 15%nat /\ mc (pq_G q) = 12%nat /\
  mr (pq_Q q) = 12%nat /\ mc (pq_Q q) = 12%nat.
