(** Property C102: dead reckoning in float arithmetic against exact dead reckoning from the same samples. *)
From Coq Require Import ZArith Reals List Bool.
From Flocq Require Import Core BinarySingleNaN.
From Verif Require Import Fp Scalar Base LinAlg MathLib Propagator FloatSpec FloatStepSpec FloatWitness FloatStepWitness DriftSpec DriftFacts DriftWitness.
Import ListNotations.
Local Open Scope R_scope.

(** C102: after n samples the float motion is within d + n/65536 (attitude), v_bound (velocity) and p_bound (position) of the exact one,
    as long as the exact run stays far enough inside the ranges of C98. *)
Theorem C102_reckoning : forall (lm : libm32) grav n n' vm pm l (qf : pqueue f32) (qr : pqueue R) itf itr d ev ep, v3_within 16 grav -> beside qf qr itf itr -> apart d ev ep itf itr ->
  steady (pi_ts itf) l -> cruises vm pm (v3_val grav) n' qr l -> vm + v_bound d ev (length l) <= 64 -> pm + p_bound d ev ep (length l) <= 2048 ->
  exists itf' itr', back (pq_items (feed (ops_f32 lm) grav n qf l)) = Ok itf' /\ back (pq_items (feed_exact (v3_val grav) n' qr l)) = Ok itr' /\
    apart (d + INR (length l) / 65536) (v_bound d ev (length l)) (p_bound d ev ep (length l)) itf' itr'.
Proof. exact apart_run. Qed.
Print Assumptions C102_reckoning.
Example C102_reckoning_example : v3_within 16 gr10 /\ beside far_q far_r far_it far_ir /\ apart 0 0 0 far_it far_ir /\ steady (pi_ts far_it) far_l /\
  cruises 1 1025 (v3_val gr10) 1 far_r far_l /\ 1 + v_bound 0 0 (length far_l) <= 64 /\ 1025 + p_bound 0 0 0 (length far_l) <= 2048.
Proof. exact reckon_example. Qed.
(** The bounds in numbers: twenty samples from equal states cost at most 5 cm/s and 2.5 cm per axis. *)
Example C102_between_images : v_bound 0 0 20 <= / 20 /\ p_bound 0 0 0 20 <= / 40.
Proof. exact between_images. Qed.
