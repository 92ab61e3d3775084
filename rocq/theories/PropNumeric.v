(** Properties C41, C42, C59-C63 and C68: propagation and attitude estimation in exact and in IEEE arithmetic. *)
From Coq Require Import ZArith Reals Bool List.
From Flocq Require Import IEEE754.BinarySingleNaN.
From Verif Require Import Fp Scalar Base LinAlg MathLib Propagator Attitude QueueSpec MatFacts NumSpec QuatFacts
  MotionFacts CovFacts AttNumFacts AttNanFacts ProcSpec ProcFacts NumWitness.
Import ListNotations.
Local Open Scope R_scope.

(** C41: uniformly accelerated motion at constant attitude is integrated exactly, for any number of steps ... *)
Theorem C41_uniform_motion : forall grav n a ts (q : pqueue R) pre it0, pq_items q = pre ++ [it0] ->
  qunit (mo_q (pi_mo it0)) -> pi_a it0 = a -> pi_g it0 = pq_bg q ->
  let A := v3sub (qrot (mo_q (pi_mo it0)) (v3sub a (pq_ba q))) grav in
  let d := duration (pi_ts it0) ts in
  exists pre' it', pq_items (pq_feed grav n q (map (fun t => (a, pq_bg q, t)) ts)) = pre' ++ [it'] /\
    mo_q (pi_mo it') = mo_q (pi_mo it0) /\
    mo_v (pi_mo it') = v3add (mo_v (pi_mo it0)) (v3scale A d) /\
    mo_p (pi_mo it') = v3add (mo_p (pi_mo it0)) (v3add (v3scale (mo_v (pi_mo it0)) d) (v3scale A (d * d / 2))).
Proof. exact uniform_motion. Qed.
Print Assumptions C41_uniform_motion.
(** ... and a sensor measuring exactly gravity and its biases stays at rest (or in uniform motion). *)
Theorem C41_rest : forall grav n a ts (q : pqueue R) pre it0, pq_items q = pre ++ [it0] ->
  qunit (mo_q (pi_mo it0)) -> pi_a it0 = a -> pi_g it0 = pq_bg q -> qrot (mo_q (pi_mo it0)) (v3sub a (pq_ba q)) = grav ->
  exists pre' it', pq_items (pq_feed grav n q (map (fun t => (a, pq_bg q, t)) ts)) = pre' ++ [it'] /\
    mo_q (pi_mo it') = mo_q (pi_mo it0) /\ mo_v (pi_mo it') = mo_v (pi_mo it0) /\
    mo_p (pi_mo it') = v3add (mo_p (pi_mo it0)) (v3scale (mo_v (pi_mo it0)) (duration (pi_ts it0) ts)).
Proof. exact stays_at_rest. Qed.
Print Assumptions C41_rest.
Example C41_example : exists it0, pq_items rest_q = [] ++ [it0] /\ qunit (mo_q (pi_mo it0)) /\ pi_a it0 = V3 0 0 10 /\ pi_g it0 = pq_bg rest_q /\
  qrot (mo_q (pi_mo it0)) (v3sub (V3 0 0 10) (pq_ba rest_q)) = V3 0 0 10 /\ duration (pi_ts it0) [f64_of_Z 1] = 1.
Proof. exact rest_q_ok. Qed.

(** C42: the full covariance stays symmetric positive semidefinite. *)
Theorem C42_covariance_psd : forall grav n_ext n (q : pqueue R) na ng nwa nwg l,
  0 <= na -> 0 <= ng -> 0 <= nwa -> 0 <= nwg -> pq_Q q = noise_Q na ng nwa nwg -> process_sizes q -> psd_queue n q ->
  psd_queue (match l, pq_items q with _ :: _, [] => n_ext * 6 + 6 | _, _ => n end) (pq_feed grav n_ext q l) /\
  psd_queue (match l, pq_items q with _ :: _, [] => n_ext * 6 + 6 | _, _ => n end) (pq_repropagate grav (pq_feed grav n_ext q l)).
Proof. exact covariance_psd. Qed.
Print Assumptions C42_covariance_psd.
Example C42_example : process_sizes rest_q /\ psd_queue 6 rest_q /\ pq_Q rest_q = noise_Q 1 1 1 1.
Proof. exact rest_q_psd. Qed.

(** C59: a level sensor makes the attitude NaN (in float arithmetic, for every libm), for good. *)
Theorem C59_level_start_refuted : forall (lm : libm32) (n : f32) (a g ba bg e : v3 f32) t, is_finite n = true ->
  let grav := V3 (B754_zero false) (B754_zero false) n in
  @v3sub f32 (ops_f32 lm) a ba = grav ->
  exists st, @att_propagate f32 (ops_f32 lm) grav (Att [] ba bg e) a g t = (st, true) /\
    forall ops st', att_run lm grav st ops = Ok st' -> at_items st' <> [] /\ forall it, In it (at_items st') -> q_nan (ai_q it).
Proof. exact level_sensor_nan. Qed.
Print Assumptions C59_level_start_refuted.
Example C59_example : exists (n : f32) (a ba : v3 f32), is_finite n = true /\ v3x ba = f32_of_Z 1 /\ n = f32_of_Z 10 /\
  forall lm, @v3sub f32 (ops_f32 lm) a ba = V3 (B754_zero false) (B754_zero false) n.
Proof. exact level_hyp. Qed.

(** C60: with tilt angle th the initial attitude turns the measured gravity by 2 atan (th / 2), in the right plane. *)
Theorem C60_initial_angle : forall grav a : v3 R, v3cross a grav <> v3zero ->
  let q := att_init_q grav a in
  exists th, 0 < th < PI /\ v3dot a grav = v3norm a * v3norm grav * cos th /\
    let ph := 2 * atan (th / 2) in
    0 < ph < th /\ th - ph <= th * th * th / 12 /\ qunit q /\
    v3dot (qrot q a) grav = v3norm a * v3norm grav * cos (th - ph) /\
    v3dot (qrot q a) (v3cross a grav) = 0.
Proof. exact init_attitude_angle. Qed.
Print Assumptions C60_initial_angle.
Theorem C60_never_aligned : forall grav a : v3 R, v3cross a grav <> v3zero -> forall k, 0 <= k ->
  qrot (att_init_q grav a) a <> v3scale grav k.
Proof. exact never_aligned. Qed.
Print Assumptions C60_never_aligned.
Theorem C60_alignment_refuted : exists grav a : v3 R, v3norm a = v3norm grav /\ att_gate grav a = false /\
  forall k, 0 <= k -> qrot (att_init_q grav a) a <> v3scale grav k.
Proof. exact init_misaligned. Qed.
Print Assumptions C60_alignment_refuted.
Example C60_example : v3cross (V3 10 0 0) (V3 0 0 10) <> v3zero (T := R).
Proof. exact init_hyp. Qed.

(** C61: the estimator turns by the conjugate of the propagator's increment; they agree only without rotation. *)
Theorem C61_conjugate_steps : forall grav (st : att R) pre it0 g0 a g t m0 a0 ba,
  at_items st = pre ++ [it0] -> ai_g it0 = v3sub g0 (at_bg st) -> at_err st = v3zero -> f64_ltb t (ai_ts it0) = false ->
  v3cross a (qrot (qinv (ai_q it0)) grav) = v3zero -> qunit (ai_q it0) -> mo_q m0 = ai_q it0 ->
  let dt := real_step (ai_ts it0) t in
  let w := turn g0 g (at_bg st) dt in
  exists it1, at_items (fst (att_propagate grav st a g t)) = (pre ++ [it0]) ++ [it1] /\
    ai_q it1 = qmul (ai_q it0) (qconj (qnormalize (delta_q w))) /\
    mo_q (fst (fst (nominal_step grav ba (at_bg st) m0 a0 g0 a g dt))) = qmul (ai_q it0) (qnormalize (delta_q w)) /\
    (ai_q it1 = mo_q (fst (fst (nominal_step grav ba (at_bg st) m0 a0 g0 a g dt))) -> w = v3zero).
Proof. exact attitude_step_conjugate. Qed.
Print Assumptions C61_conjugate_steps.
Theorem C61_same_rotation_refuted : exists grav (st : att R) it0 it1 a g t m0 ba,
  at_items st = [it0] /\ at_err st = v3zero /\ ai_q it0 = mo_q m0 /\ qunit (ai_q it0) /\
  v3cross a (qrot (qinv (ai_q it0)) grav) = v3zero /\
  at_items (fst (att_propagate grav st a g t)) = [it0; it1] /\
  ai_q it1 <> mo_q (fst (fst (nominal_step grav ba (at_bg st) m0 a g a g (real_step (ai_ts it0) t)))).
Proof. exact same_rotation_refuted. Qed.
Print Assumptions C61_same_rotation_refuted.
Example C61_example : exists it0, at_items spin_st = [] ++ [it0] /\ ai_g it0 = v3sub (V3 0 0 1) (at_bg spin_st) /\ at_err spin_st = v3zero /\
  f64_ltb (f64_of_Z 1) (ai_ts it0) = false /\ v3cross (V3 0 0 10) (qrot (qinv (ai_q it0)) (V3 0 0 10)) = v3zero /\ qunit (ai_q it0) /\
  turn (V3 0 0 1) (V3 0 0 1) (at_bg spin_st) (real_step (ai_ts it0) (f64_of_Z 1)) = V3 0 0 1.
Proof. exact spin_hyp. Qed.

(** C62: the accelerometer correction moves the predicted gravity direction away from the measured one. *)
Theorem C62_correction_moves_away : forall grav (st : att R) pre it0 a t,
  at_items st = pre ++ [it0] -> ai_g it0 = v3zero -> at_err st = v3zero -> f64_ltb t (ai_ts it0) = false ->
  qunit (ai_q it0) -> grav <> v3zero -> a <> v3zero ->
  let dt := real_step (ai_ts it0) t in
  0 < dt -> 0 < (att_kp + att_ki) * dt <= 2 ->
  let predicted q := dir (qrot (qinv q) grav) in
  v3cross a (qrot (qinv (ai_q it0)) grav) <> v3zero ->
  exists it1, at_items (fst (att_propagate grav st a (at_bg st) t)) = (pre ++ [it0]) ++ [it1] /\
    v3dot (dir a) (predicted (ai_q it1)) < v3dot (dir a) (predicted (ai_q it0)).
Proof. exact correction_moves_away. Qed.
Print Assumptions C62_correction_moves_away.
Theorem C62_correction_refuted : exists grav (st : att R) it0 it1 a t,
  at_items st = [it0] /\ ai_g it0 = v3zero /\ at_err st = v3zero /\ qunit (ai_q it0) /\ 0 < real_step (ai_ts it0) t /\
  at_items (fst (att_propagate grav st a (at_bg st) t)) = [it0; it1] /\
  v3dot (dir a) (dir (qrot (qinv (ai_q it1)) grav)) < v3dot (dir a) (dir (qrot (qinv (ai_q it0)) grav)).
Proof. exact correction_refuted. Qed.
Print Assumptions C62_correction_refuted.
Example C62_example : exists it0, at_items tilt_st = [] ++ [it0] /\ ai_g it0 = v3zero /\ at_err tilt_st = v3zero /\
  f64_ltb (f64_of_Z 1) (ai_ts it0) = false /\ qunit (ai_q it0) /\ V3 0 0 10 <> v3zero (T := R) /\ V3 10 0 0 <> v3zero (T := R) /\
  0 < real_step (ai_ts it0) (f64_of_Z 1) /\ 0 < (att_kp + att_ki) * real_step (ai_ts it0) (f64_of_Z 1) <= 2 /\
  v3cross (V3 10 0 0) (qrot (qinv (ai_q it0)) (V3 0 0 10)) <> v3zero.
Proof. exact tilt_hyp. Qed.

(** C63: helper identities. *)
Theorem C63_helper_identities :
  (forall a b : v3 R, m33mulv (skew a) b = v3cross a b) /\
  (forall (a b : quat R) i, (i < 4)%nat ->
     mat_vec4 (qleft_a a) (q4 b) i = q4 (qmul a b) i /\ mat_vec4 (qleft_b a) (q4 b) i = q4 (qmul a b) i /\
     mat_vec4 (qright_a b) (q4 a) i = q4 (qmul a b) i /\ mat_vec4 (qright_b b) (q4 a) i = q4 (qmul a b) i) /\
  (forall (q : quat R) (t v : v3 R) i, (i < 4)%nat ->
     mat_vec4 (transform_matrix q t) (fun k => if Nat.ltb k 3 then v3get v k else 1) i =
     if Nat.ltb i 3 then v3get (v3add (qrot q v) t) i else 1) /\
  (forall (q : quat R) (v : v3 R), qrot q v = m33mulv (qmat q) v) /\
  (forall (q : quat R) (v : v3 R), qunit q -> v3norm (qrot q v) = v3norm v /\
     qrot (qinv q) (qrot q v) = v /\ qrot q (qrot (qinv q) v) = v /\ qmul (qinv q) q = qid) /\
  (forall (a b : quat R) (v : v3 R), qunit a -> qunit b -> qunit (qmul a b) /\ qrot (qmul a b) v = qrot a (qrot b v)).
Proof. exact helper_identities. Qed.
Print Assumptions C63_helper_identities.
Example C63_example : qunit (qid (T := R)).
Proof. exact qid_unit. Qed.

(** C68: the covariance follows the process model, for a new item and for every pair after a repropagation. *)
Theorem C68_new_item : forall grav na ng nwa nwg (q : pqueue R) pre it0 n_ext a g t n,
  queue_history grav (noise_Q na ng nwa nwg) q -> square_items q -> pq_items q = pre ++ [it0] ->
  exists it1, pq_items (pq_propagate grav n_ext q a g t) = pre ++ [it0; it1] /\ meas it1 = (a, g, t) /\
    carried (noise_cov na ng nwa nwg) (pq_ba q) (pq_bg q) n it0 it1.
Proof. exact new_item_carried. Qed.
Print Assumptions C68_new_item.
Theorem C68_repropagated : forall grav na ng nwa nwg (q : pqueue R) pre it0 it1 post n,
  queue_history grav (noise_Q na ng nwa nwg) q -> square_items q -> pq_items (pq_repropagate grav q) = pre ++ it0 :: it1 :: post ->
  carried (noise_cov na ng nwa nwg) (pq_ba q) (pq_bg q) n it0 it1.
Proof. exact repropagated_carried. Qed.
Print Assumptions C68_repropagated.
(** The matrices in [carried] act as the maps they are taken from. *)
Theorem C68_flow_linear : forall q a w dt x i, (i < 15)%nat -> fvec 15 (matrix_of (flow q a w dt)) x i = flow q a w dt x i.
Proof. exact flow_linear. Qed.
Print Assumptions C68_flow_linear.
Theorem C68_drive_linear : forall q dt x i, (i < 15)%nat -> fvec 12 (matrix_of (drive q dt)) x i = drive q dt x i.
Proof. exact drive_linear. Qed.
Print Assumptions C68_drive_linear.
Example C68_example : queue_history (V3 0 0 10) (noise_Q 1 1 1 1) moving_q /\ square_items moving_q /\ length (pq_items moving_q) = 2%nat /\
  exists it, List.last (map Some (pq_items moving_q)) None = Some it /\ me (pi_cov it) 3%nat 3%nat = 1 /\ me (pi_cov it) 0%nat 3%nat = 1 / 2.
Proof. exact moving_q_ok. Qed.
