(** Property C98: the float motion step against the exact one. *)
From Coq Require Import ZArith Reals List Bool.
From Flocq Require Import Core BinarySingleNaN.
From Verif Require Import Fp Scalar Base LinAlg MathLib Propagator FloatSpec FloatStepSpec FloatStepFacts FloatDriftFacts FloatWitness FloatStepWitness.
Import ListNotations.
Local Open Scope R_scope.

(** C98: one motion step in binary32 differs from the exact step by at most 2^-17 per attitude component, 2^-14 m/s and 2^-12 m per axis,
    for measurements in range and steps of at most 1/64 s. *)
Theorem C98_step : forall (lm : libm32) grav ba bg m a0 g0 a1 g1 dt, step_range grav ba bg m a0 g0 a1 g1 -> f_within (/ 64) dt ->
  let f := fst (fst (nominal_step (S := ops_f32 lm) grav ba bg m a0 g0 a1 g1 dt)) in
  let r := fst (fst (nominal_step (S := ops_R) (v3_val grav) (v3_val ba) (v3_val bg) (mo_val m) (v3_val a0) (v3_val g0) (v3_val a1) (v3_val g1) (B2R dt))) in
  q_close (/ 131072) (mo_q f) (mo_q r) /\ v3_close (/ 16384) (mo_v f) (mo_v r) /\ v3_close (/ 4096) (mo_p f) (mo_p r).
Proof. exact step_near. Qed.
Print Assumptions C98_step.
Example C98_step_example : step_range gr10 zv zv (Motion gr10 av q68) av zv gr10 gv /\ f_within (/ 64) (f32_lit 1 (-8)) /\
  B2SF (qz (mo_q (fst (fst (nominal_step (S := ops_f32 lmz) gr10 zv zv (Motion gr10 av q68) av zv gr10 gv (f32_lit 1 (-8))))))) <> B2SF z0.
Proof. exact step_example. Qed.

(** Over any number of samples the float attitude moves away from the attitude computed exactly from the same samples by at most 2^-16 per sample. *)
Theorem C98_drift : forall (lm : libm32) grav grav' n n' l (qf : pqueue f32) (qr : pqueue R) itf itr d, back (pq_items qf) = Ok itf -> back (pq_items qr) = Ok itr ->
  same_sample itf itr -> near_unit (item_att itf) -> pq_bg qr = v3_val (pq_bg qf) -> v3_within 64 (pq_bg qf) -> brisk (item_rate itf :: map (fun s => (snd (fst s), snd s)) l) ->
  sqrt (q_dist2 (item_att itf) (mo_q (pi_mo itr))) <= d ->
  exists itf' itr', back (pq_items (feed (ops_f32 lm) grav n qf l)) = Ok itf' /\ back (pq_items (feed_exact grav' n' qr l)) = Ok itr' /\
    sqrt (q_dist2 (item_att itf') (mo_q (pi_mo itr'))) <= d + INR (length l) / 65536.
Proof. exact drift. Qed.
Print Assumptions C98_drift.
Example C98_drift_example : exists itf itr, back (pq_items fq) = Ok itf /\ back (pq_items qr68) = Ok itr /\ same_sample itf itr /\ near_unit (item_att itf) /\
  pq_bg qr68 = v3_val (pq_bg fq) /\ v3_within 64 (pq_bg fq) /\ brisk (item_rate itf :: map (fun s => (snd (fst s), snd s)) fl) /\
  sqrt (q_dist2 (item_att itf) (mo_q (pi_mo itr))) <= / 1000000.
Proof. exact drift_example. Qed.

(** False for the position: 1 km from the origin, at 1/128 m/s and 256 samples per second, the float position does not move at all,
    while the exact one moves by 1/32768 m with every sample. *)
Theorem C98_moves_refuted : exists (lm : libm32) grav (qf : pqueue f32) (qr : pqueue R) itf itr a g, back (pq_items qf) = Ok itf /\ back (pq_items qr) = Ok itr /\
  pi_mo itr = mo_val (pi_mo itf) /\ step_range grav (pq_ba qf) (pq_bg qf) (pi_mo itf) a g a g /\ B2R (v3x (mo_v (pi_mo itf))) = / 128 /\
  forall l, even_pace a g (pi_ts itf) l -> exists itf' itr', back (pq_items (feed (ops_f32 lm) grav 1 qf l)) = Ok itf' /\ back (pq_items (feed_exact (v3_val grav) 1 qr l)) = Ok itr' /\
    mo_p (pi_mo itf') = mo_p (pi_mo itf) /\ v3x (mo_p (pi_mo itr')) = B2R (v3x (mo_p (pi_mo itf))) + INR (length l) / 32768.
Proof. exact far_stalls. Qed.
Print Assumptions C98_moves_refuted.
Example C98_moves_example : even_pace gr10 zv t0 [(gr10, zv, t1); (gr10, zv, t2)].
Proof. exact far_example. Qed.
