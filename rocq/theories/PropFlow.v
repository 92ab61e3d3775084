(** Property C85: the flow of the IMU samples through the back end. *)
From Coq Require Import ZArith Bool List.
From Verif Require Import Fp Scalar Base LinAlg Msg DataLoader FeatureManager FrameManager Window MathLib Attitude Propagator
  Triangulate Pnp VisionUpdate Backend LoaderSpec QueueSpec BackendSpec BiasSpec FlowSpec NumSpec FlowFacts BackWitness FlowWitness.
Import ListNotations.
Local Open Scope nat_scope.

(** C85: for samples pushed in the order of time, the attitude queue followed by the waiting samples is the end of the accepted stream. *)
Theorem C85_attitude : forall (T : Type) (S : SOps T) c ops (s0 s : bstate T), (0 <= vc_maxwin c < 4294967295)%Z -> fresh s0 -> no_test ops ->
  time_sorted (map im_ts (pushed_imu ops)) -> b_hist c s0 ops = Ok s ->
  exists pre, map im_ts (stream (st_imu (b_st s0)) ops) = pre ++ map ai_ts (at_items (b_att s)) ++ map im_ts (dl_imu (b_dl s)).
Proof. exact @attitude_flow. Qed.
Print Assumptions C85_attitude.
Example C85_attitude_example : exists s, fresh w_s0 /\ no_test f_again /\ time_sorted (map im_ts (pushed_imu f_again)) /\ b_hist (w_c 0) w_s0 f_again = Ok s /\
  length (stream (st_imu (b_st w_s0)) f_again) = 3 /\ length (at_items (b_att s)) = 2.
Proof. exact f_att. Qed.
(** The readings of the propagation queue followed by the waiting ones are the end of the accepted stream, unchanged, once each and in order. *)
Theorem C85_queue : forall (lm : libm32) (c : vcfg f32) ops (s0 s : bstate f32), (0 <= vc_maxwin c < 4294967295)%Z -> fresh (S := ops_f32 lm) s0 -> no_test ops ->
  time_sorted (map im_ts (pushed_imu ops)) -> one_session (S := ops_f32 lm) c s0 ops -> b_hist (S := ops_f32 lm) c s0 ops = Ok s -> b_status s = Initialized ->
  exists pre, map of_sample (stream (st_imu (b_st s0)) ops) = pre ++ map of_item (pq_items (b_pq s)) ++ map of_sample (dl_imu (b_dl s)).
Proof. exact queue_flow_f32. Qed.
Print Assumptions C85_queue.
Example C85_queue_example : exists s, fresh w_s0 /\ no_test f_ops /\ time_sorted (map im_ts (pushed_imu f_ops)) /\ one_session (w_c 0) w_s0 f_ops /\
  b_hist (w_c 0) w_s0 f_ops = Ok s /\ b_status s = Initialized /\ length (stream (st_imu (b_st w_s0)) f_ops) = 6 /\
  length (at_items (b_att s)) = 2 /\ length (pq_items (b_pq s)) = 2 /\ length (dl_imu (b_dl s)) = 2.
Proof. exact f_flow. Qed.
(** With no sample waiting, the newest published state is that at the last accepted sample. *)
Theorem C85_newest : forall (lm : libm32) (c : vcfg f32) ops (s0 s : bstate f32) mo ba bg t, (0 <= vc_maxwin c < 4294967295)%Z -> fresh (S := ops_f32 lm) s0 -> no_test ops ->
  time_sorted (map im_ts (pushed_imu ops)) -> one_session (S := ops_f32 lm) c s0 ops -> b_hist (S := ops_f32 lm) c s0 ops = Ok s ->
  b_publish_newest s = Some (mo, ba, bg, t) -> dl_imu (b_dl s) = [] ->
  exists l m, stream (st_imu (b_st s0)) ops = l ++ [m] /\ t = im_ts m.
Proof. exact newest_flow_f32. Qed.
Print Assumptions C85_newest.
Example C85_newest_example : exists s mo ba bg t, fresh w_s0 /\ no_test (w_ops 4) /\ time_sorted (map im_ts (pushed_imu (w_ops 4))) /\ one_session (w_c 0) w_s0 (w_ops 4) /\
  b_hist (w_c 0) w_s0 (w_ops 4) = Ok s /\ b_publish_newest s = Some (mo, ba, bg, t) /\ dl_imu (b_dl s) = [] /\ f64_is 4 t = true.
Proof. exact f_newest. Qed.
(** False without the hypothesis of one session: after a Reset the queue holds samples twice and goes back in time. *)
Theorem C85_doubled_refuted : exists (lm : libm32) (c : vcfg f32) (s0 s : bstate f32) ops a b d l,
  fresh (S := ops_f32 lm) s0 /\ b_hist (S := ops_f32 lm) c s0 ops = Ok s /\ no_test ops /\ time_sorted (map im_ts (pushed_imu ops)) /\ b_status s = Initialized /\
  pq_items (b_pq s) = a :: b :: d :: l /\ f64_ltb (pi_ts b) (pi_ts a) = true /\ f64_leb (pi_ts a) (pi_ts d) = true /\ f64_leb (pi_ts d) (pi_ts a) = true.
Proof. destruct f_doubled as (s & a & b & d & l & H). exists lm0, (w_c 0), w_s0, s, f_again, a, b, d, l. exact (conj w_fresh H). Qed.
Print Assumptions C85_doubled_refuted.
(** False for samples pushed out of order: one that the loader accepts is refused by the attitude estimator. *)
Theorem C85_dropped_refuted : exists (lm : libm32) (c : vcfg f32) (s0 s : bstate f32) ops i,
  fresh (S := ops_f32 lm) s0 /\ b_hist (S := ops_f32 lm) c s0 ops = Ok s /\ no_test ops /\ length (stream (st_imu (b_st s0)) ops) = 2 /\
  dl_imu (b_dl s) = [] /\ at_items (b_att s) = [i] /\ ~ exists pre, map im_ts (stream (st_imu (b_st s0)) ops) = pre ++ [ai_ts i].
Proof. destruct f_dropped as (s & i & H). exists lm0, (w_c 0), w_s0, s, f_wrong, i. exact (conj w_fresh H). Qed.
Print Assumptions C85_dropped_refuted.
