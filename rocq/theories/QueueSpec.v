(** Specification vocabulary for the attitude queue and the propagation queue (C23-C29). *)
From Coq Require Import ZArith List Bool.
From Verif Require Import Fp Scalar Base LinAlg MathLib Attitude Propagator.
Import ListNotations.

(** Rounded distance of two times. *)
Definition tdist (t x : f64) : f64 := f64_abs (f64_sub t x).

(** Times in non-decreasing order, none of them NaN. *)
Fixpoint time_sorted (l : list f64) : Prop :=
  match l with
  | [] => True
  | x :: r => f64_isnan x = false /\ (forall y, In y r -> f64_leb x y = true) /\ time_sorted r
  end.

(** An item is older than [thr] at time [t]: the double difference exceeds the threshold. *)
Definition older (thr t x : f64) : Prop := f64_ltb thr (f64_sub t x) = true.
(** The same test after narrowing the difference to float. *)
Definition older32 (thr : f32) (t x : f64) : Prop := f32_ltb thr (f64_to_f32 (f64_sub t x)) = true.

(** [l'] is [l] without its longest prefix of elements satisfying [P]. *)
Definition drops {A} (P : A -> Prop) (l l' : list A) : Prop :=
  exists pre, l = pre ++ l' /\ Forall P pre /\ match l' with [] => True | x :: _ => ~ P x end.

Section QueueSpec.
Context {T : Type} {S : SOps T}.

(** Samples fed to the attitude estimator: acceleration, rate, time. *)
Fixpoint att_feed (grav : v3 T) (st : att T) (l : list (v3 T * v3 T * f64)) : att T :=
  match l with [] => st | (a, g, t) :: r => att_feed grav (fst (att_propagate grav st a g t)) r end.

(** Feeding measurements to the propagator. *)
Fixpoint pq_feed (grav : v3 T) (n_ext : nat) (q : pqueue T) (l : list (v3 T * v3 T * f64)) : pqueue T :=
  match l with [] => q | (a, g, t) :: r => pq_feed grav n_ext (pq_propagate grav n_ext q a g t) r end.

(** The measurement stored in an item. *)
Definition meas (i : pitem T) : v3 T * v3 T * f64 := (pi_a i, pi_g i, pi_ts i).

End QueueSpec.
