(** Property C87: the queues after an image. *)
From Coq Require Import ZArith Bool List.
From Verif Require Import Fp Scalar Base LinAlg Msg DataLoader FeatureManager FrameManager Window MathLib Attitude Propagator
  Triangulate Pnp VisionUpdate Backend LoaderSpec QueueSpec BackendSpec BiasSpec FlowSpec NumSpec TrimFacts BackWitness FlowWitness TrimWitness.
Import ListNotations.
Local Open Scope nat_scope.

(** C87: after an image that leaves the back end initialized, the newest frame has the time of the image. *)
Theorem C87_newest_frame : forall (T : Type) (S : SOps T) c o (s0 s s' : bstate T) ops r m, (0 <= vc_maxwin c < 4294967295)%Z -> fresh s0 -> time_sorted (map im_ts (pushed_imu ops)) ->
  b_hist c s0 ops = Ok s -> run_once c o s = Ok (s', r) -> next_feat s = Some m -> b_status s' = Initialized ->
  exists f, back (wn_frames (b_win s')) = Ok f /\ fr_ts f = fm_ts m.
Proof. exact @newest_frame. Qed.
Print Assumptions C87_newest_frame.
Example C87_newest_frame_example : exists s s' b m, b_hist (w_c 0) w_s0 (w_ops 2 ++ w_push 2) = Ok s /\ run_once (w_c 0) w_o s = Ok (s', b) /\ next_feat s = Some m /\ b_status s' = Initialized /\
  f64_is 3 (fm_ts m) = true /\ time_sorted (map im_ts (pushed_imu (w_ops 2 ++ w_push 2))).
Proof. exact g_image. Qed.
(** While the back end is initialized, the propagation queue holds nothing older than one period before the newest frame, and hence,
    with the waiting samples, at most the accepted samples from then on. *)
Theorem C87_queue : forall (lm : libm32) (c : vcfg f32) ops (s0 s : bstate f32) f, (0 <= vc_maxwin c < 4294967295)%Z -> fresh (S := ops_f32 lm) s0 -> no_test ops ->
  time_sorted (map im_ts (pushed_imu ops)) -> one_session (S := ops_f32 lm) c s0 ops -> b_hist (S := ops_f32 lm) c s0 ops = Ok s -> b_status s = Initialized ->
  back (wn_frames (b_win s)) = Ok f ->
  List.Forall (fun i => ~ older (dl_period (b_dl s0)) (fr_ts f) (pi_ts i)) (pq_items (b_pq s)) /\
  length (pq_items (b_pq s)) + length (dl_imu (b_dl s)) <=
    length (List.filter (fun m => negb (f64_ltb (dl_period (b_dl s0)) (f64_sub (fr_ts f) (im_ts m)))) (stream (st_imu (b_st s0)) ops)).
Proof. exact queue_trimmed_f32. Qed.
Print Assumptions C87_queue.
Example C87_queue_example : exists s f, fresh w_s0 /\ no_test f_ops /\ time_sorted (map im_ts (pushed_imu f_ops)) /\ one_session (w_c 0) w_s0 f_ops /\
  b_hist (w_c 0) w_s0 f_ops = Ok s /\ b_status s = Initialized /\ back (wn_frames (b_win s)) = Ok f /\ f64_is 4 (fr_ts f) = true /\
  length (pq_items (b_pq s)) = 2 /\ length (dl_imu (b_dl s)) = 2 /\ length (at_items (b_att s)) = 2 /\
  length (List.filter (fun m => negb (f64_ltb (dl_period (b_dl w_s0)) (f64_sub (fr_ts f) (im_ts m)))) (stream (st_imu (b_st w_s0)) f_ops)) = 4.
Proof. exact g_flow. Qed.
(** The same for the attitude queue, with a window of at least two frames, across resets, failures and RunOnceTest.
    C87_queue_example meets these hypotheses, with two items in the attitude queue; so does C87_reset_example after a Reset. *)
Theorem C87_attitude : forall (T : Type) (S : SOps T) c ops (s0 s : bstate T) f, (2 <= vc_maxwin c < 4294967295)%Z -> fresh s0 -> time_sorted (map im_ts (pushed_imu ops)) ->
  b_hist c s0 ops = Ok s -> b_status s = Initialized -> back (wn_frames (b_win s)) = Ok f ->
  List.Forall (fun i => ~ older32 (f64_to_f32 (dl_period (b_dl s0))) (fr_ts f) (ai_ts i)) (at_items (b_att s)).
Proof. exact @attitude_trimmed. Qed.
Print Assumptions C87_attitude.
Example C87_reset_example : exists s f, fresh w_s0 /\ time_sorted (map im_ts (pushed_imu f_again)) /\ b_hist (w_c 0) w_s0 f_again = Ok s /\ b_status s = Initialized /\
  back (wn_frames (b_win s)) = Ok f /\ f64_is 3 (fr_ts f) = true /\ length (at_items (b_att s)) = 2.
Proof. exact g_reset. Qed.
(** False for a window of one frame: the attitude queue is never cleaned. *)
Theorem C87_one_frame_refuted : exists (lm : libm32) (c : vcfg f32) (s0 s : bstate f32) ops f i r,
  fresh (S := ops_f32 lm) s0 /\ vc_maxwin c = 1%Z /\ dl_period (b_dl s0) = f64_of_Z 1 /\ b_hist (S := ops_f32 lm) c s0 ops = Ok s /\
  time_sorted (map im_ts (pushed_imu ops)) /\ b_status s = Initialized /\ length (at_items (b_att s)) = 6 /\
  back (wn_frames (b_win s)) = Ok f /\ at_items (b_att s) = i :: r /\ older32 (f64_to_f32 (f64_of_Z 1)) (fr_ts f) (ai_ts i).
Proof. destruct g_one as (s & f & i & r & H). exists lm0, g_c, w_s0, s, (w_ops 6), f, i, r. exact (conj w_fresh (conj eq_refl (conj eq_refl H))). Qed.
Print Assumptions C87_one_frame_refuted.
(** False while the initialization fails: nothing is removed from the attitude queue however many images come. *)
Theorem C87_waiting_refuted : exists (lm : libm32) (c : vcfg f32) (s0 s : bstate f32) ops f i r,
  fresh (S := ops_f32 lm) s0 /\ dl_period (b_dl s0) = f64_of_Z 1 /\ b_hist (S := ops_f32 lm) c s0 ops = Ok s /\
  time_sorted (map im_ts (pushed_imu ops)) /\ b_status s = NeedInit /\ length (at_items (b_att s)) = 6 /\
  back (wn_frames (b_win s)) = Ok f /\ at_items (b_att s) = i :: r /\ older32 (f64_to_f32 (f64_of_Z 1)) (fr_ts f) (ai_ts i).
Proof. destruct g_fail as (s & f & i & r & H). exists lm0, (w_c 0), w_s0, s, g_few, f, i, r. exact (conj w_fresh (conj eq_refl H)). Qed.
Print Assumptions C87_waiting_refuted.
