(** Properties C30-C39: the whole back end. *)
From Coq Require Import ZArith Reals Bool List.
From stdpp Require Import gmap.
From Verif Require Import Fp Scalar Base LinAlg Msg DataLoader FeatureManager FrameManager Window MathLib Attitude Propagator
  Triangulate Pnp VisionUpdate Backend LoaderSpec WindowSpec QueueSpec UpdSpec BackendSpec BiasSpec NumSpec
  PropagatorFacts BackLenFacts BackDimFacts BackSafeFacts BackTimeFacts BackBiasFacts QueueWitness BackWitness.
Import ListNotations.
Local Open Scope nat_scope.

(** C30: the window between two calls, and after a further RunOnce. *)
Theorem C30_bounded : forall (T : Type) (S : SOps T) c ops (s0 s : bstate T), (0 <= vc_maxwin c < 4294967295)%Z -> fresh s0 -> b_hist c s0 ops = Ok s ->
  n_frames s <= win_bound c /\ (b_status s = Initialized -> 1 <= n_frames s) /\
  forall o s' r, run_once c o s = Ok (s', r) ->
    n_frames s' <= win_bound c /\
    match next_feat s with
    | Some _ => 1 <= n_frames s' /\ (b_status s' = NeedInit -> n_frames s' = 1)
    | None => n_frames s' = n_frames s /\ b_status s' = b_status s
    end.
Proof. exact @window_bounded. Qed.
Print Assumptions C30_bounded.
Example C30_bounded_example : fresh w_s0 /\ exists s, b_hist (w_c 0) w_s0 (w_ops 6) = Ok s /\ b_status s = Initialized /\ n_frames s = 3 /\
  length (b_ext s) = 2 /\ mr (pq_ecc (b_pq s)) = 30 /\ length (pq_items (b_pq s)) = 2.
Proof. exact (conj w_fresh w_full). Qed.
(** No frame is dropped before the window is full, and exactly one afterwards. *)
Theorem C30_grows : forall (T : Type) (S : SOps T) c ops (s0 s : bstate T), (0 <= vc_maxwin c < 4294967295)%Z -> fresh s0 -> b_hist c s0 ops = Ok s ->
  forall o s' r f, run_once c o s = Ok (s', r) -> next_feat s = Some f -> b_status s' = Initialized ->
  n_frames s' = if (Z.of_nat (n_frames s) <? vc_maxwin c)%Z then n_frames s + 1 else n_frames s.
Proof. exact @window_grows. Qed.
Print Assumptions C30_grows.
Example C30_grows_example : (exists s s' b f, b_hist (w_c 0) w_s0 (w_ops 2 ++ w_push 2) = Ok s /\ n_frames s = 2 /\ next_feat s = Some f /\
  run_once (w_c 0) w_o s = Ok (s', b) /\ b_status s' = Initialized /\ n_frames s' = 3) /\
  exists s s' b f, b_hist (w_c 0) w_s0 (w_ops 3 ++ w_push 3) = Ok s /\ n_frames s = 3 /\ next_feat s = Some f /\
  run_once (w_c 0) w_o s = Ok (s', b) /\ b_status s' = Initialized /\ n_frames s' = 3.
Proof. exact (conj w_grow w_stay). Qed.
(** Every vision update runs with two frames or more. *)
Theorem C30_two_frames : forall (T : Type) (S : SOps T) c ops (s0 s : bstate T), (0 <= vc_maxwin c < 4294967295)%Z -> fresh s0 -> b_hist c s0 ops = Ok s ->
  forall o s' f w s1, feat_step c o s f = Ok s' -> update_window (b_win s) f = Ok w -> init_step c o (with_win s w) = Ok s1 ->
  b_status s1 = Initialized -> 2 <= n_frames s1.
Proof. exact @update_two_frames. Qed.
Print Assumptions C30_two_frames.
Example C30_two_frames_example : exists s, b_hist (w_c 1) w_s0 (w_ops 2) = Ok s /\ b_status s = Initialized /\ n_frames s = 2 /\ mr (pq_ecc (b_pq s)) = 24.
Proof. exact w_feature. Qed.

(** C31: under the contract of the front end no history is undefined behaviour. *)
Theorem C31_safe : forall (T : Type) (S : SOps T) c ops (s0 : bstate T), fresh s0 -> good_tracks (length (b_ext s0)) (pushed_feat ops) ->
  List.Forall oracle_ok (oracles ops) -> sizes_ok c (length (b_ext s0)) -> (Z.of_nat (length (pushed_feat ops)) < 4294967294)%Z ->
  exists s, b_hist c s0 ops = Ok s.
Proof. exact @backend_safe. Qed.
Print Assumptions C31_safe.
Example C31_safe_example : fresh w_s0 /\ good_tracks 2 (pushed_feat (w_ops 6)) /\ oracle_ok w_o /\ sizes_ok (w_c 0) 2.
Proof. exact (conj w_fresh (conj (w_tracks 6) (conj w_o_ok (w_sizes 0 (or_introl eq_refl))))). Qed.

(** C32 (false): each part of the contract is needed. An unknown camera ... *)
Theorem C32_camera_refuted : exists (lm : libm32) (c : vcfg f32) (s0 : bstate f32) ops,
  fresh (S := ops_f32 lm) s0 /\ sizes_ok c (length (b_ext s0)) /\ List.Forall good_msg (pushed_feat ops) /\ contiguous (pushed_feat ops) /\ b_hist (S := ops_f32 lm) c s0 ops = Ub UbIndex.
Proof. exists lm0, (w_c 0), w_s0, h_camera. exact (conj w_fresh (conj (w_sizes 0 (or_introl eq_refl)) camera_bad)). Qed.
Print Assumptions C32_camera_refuted.
(** ... an id reported twice in one message ... *)
Theorem C32_duplicate_refuted : exists (lm : libm32) (c : vcfg f32) (s0 : bstate f32) ops,
  fresh (S := ops_f32 lm) s0 /\ sizes_ok c (length (b_ext s0)) /\ List.Forall (cams_known (length (b_ext s0))) (pushed_feat ops) /\ contiguous (pushed_feat ops) /\
  b_hist (S := ops_f32 lm) c s0 ops = Ub UbNull.
Proof. exists lm0, (w_c 0), w_s0, h_dup. exact (conj w_fresh (conj (w_sizes 0 (or_introl eq_refl)) dup_bad)). Qed.
Print Assumptions C32_duplicate_refuted.
(** ... an id that comes back after a gap. *)
Theorem C32_gap_refuted : exists (lm : libm32) (c : vcfg f32) (s0 : bstate f32) ops,
  fresh (S := ops_f32 lm) s0 /\ sizes_ok c (length (b_ext s0)) /\ List.Forall good_msg (pushed_feat ops) /\ List.Forall (cams_known (length (b_ext s0))) (pushed_feat ops) /\
  b_hist (S := ops_f32 lm) c s0 ops = Ub UbIndex.
Proof. exists lm0, (w_c 0), w_s0, h_gap. exact (conj w_fresh (conj (w_sizes 0 (or_introl eq_refl)) gap_bad)). Qed.
Print Assumptions C32_gap_refuted.

(** C33 *)
Theorem C33_dimensions : forall (T : Type) (S : SOps T) c ops (s0 s : bstate T), (0 <= vc_maxwin c < 4294967295)%Z -> fresh s0 ->
  List.Forall (fun op => op <> BReset) ops -> b_hist c s0 ops = Ok s ->
  match b_status s with
  | Initialized => let n := 6 * (length (b_ext s) + n_frames s) in
      pq_items (b_pq s) <> [] /\ mr (pq_ecc (b_pq s)) = n /\ mc (pq_ecc (b_pq s)) = n /\
      List.Forall (fun it => mc (pi_ecov it) = n) (pq_items (b_pq s))
  | NeedInit => pq_items (b_pq s) = []
  end.
Proof. exact @dims_match. Qed.
Print Assumptions C33_dimensions.
Example C33_dimensions_example : exists s, b_hist (w_c 0) w_s0 (w_ops 6) = Ok s /\ b_status s = Initialized /\ n_frames s = 3 /\
  length (b_ext s) = 2 /\ mr (pq_ecc (b_pq s)) = 30 /\ length (pq_items (b_pq s)) = 2.
Proof. exact w_full. Qed.

(** C34 (false): a state from which no call but one that empties the queue leads back to operation ... *)
Theorem C34_stuck : forall (T : Type) (S : SOps T) c ops (s s' : bstate T), stuck s -> b_hist c s ops = Ok s' ->
  (forall ops1 ops2 s1, ops = ops1 ++ ops2 -> b_hist c s ops1 = Ok s1 -> pq_items (b_pq s1) <> []) -> stuck s'.
Proof. exact @stuck_forever. Qed.
Print Assumptions C34_stuck.
Example C34_stuck_example : exists s s', b_hist (w_c 0) w_s0 h_reset = Ok s /\ b_hist (w_c 0) s w_later = Ok s' /\ length (pq_items (b_pq s')) = 4 /\
  (forall ops1 ops2 s1, w_later = ops1 ++ ops2 -> b_hist (w_c 0) s ops1 = Ok s1 -> pq_items (b_pq s1) <> []).
Proof. exact reset_later. Qed.
(** ... is reached by Reset with a full window. *)
Theorem C34_recovery_refuted : exists (lm : libm32) (c : vcfg f32) (s0 s : bstate f32) ops,
  fresh (S := ops_f32 lm) s0 /\ b_hist (S := ops_f32 lm) c s0 ops = Ok s /\ stuck s.
Proof. destruct reset_stuck as (s & H). exists lm0, (w_c 0), w_s0, s, h_reset. exact (conj w_fresh H). Qed.
Print Assumptions C34_recovery_refuted.
(** A failed update does not have this effect, and neither has Reset with two frames. *)
Example C34_recovery_example : (exists s s', b_hist (w_c 0) w_s0 h_fail = Ok s /\ b_status s = NeedInit /\ pq_items (b_pq s) = [] /\
  b_hist (w_c 0) s w_resume = Ok s' /\ b_status s' = Initialized /\ n_frames s' = 3) /\
  exists s, b_hist (w_c 0) w_s0 h_lucky = Ok s /\ b_status s = Initialized /\ n_frames s = 3.
Proof. exact (conj fail_resume reset_lucky). Qed.

(** C35 *)
Theorem C35_initial_state : forall (T : Type) (S : SOps T) c o (s s' : bstate T), initialize c o s = Ok (s', true) ->
  exists f0 fs, wn_frames (b_win s') = f0 :: fs /\
  match pq_items (b_pq s) with
  | [] => exists it r, pq_items (b_pq s') = it :: r /\ pi_mo it = Motion (fr_p f0) (fr_v f0) (fr_q f0)
  | it :: _ => exists r, pq_items (b_pq s') = it :: r
  end.
Proof. exact @initial_state. Qed.
Print Assumptions C35_initial_state.
Example C35_initial_state_example : (exists s s', at_init (w_ops 1 ++ [BImu (w_imu 1); BRun w_o]) (w_msg w_ids w_ob 2) = Ok s /\
  initialize (w_c 0) w_o s = Ok (s', true) /\ pq_items (b_pq s) = []) /\
  exists s s', at_init (h_reset ++ [BImu (w_imu 5); BRun w_o]) (w_msg w_ids w_ob 6) = Ok s /\
  initialize (w_c 0) w_o s = Ok (s', true) /\ length (pq_items (b_pq s)) = 2.
Proof. exact (conj init_first init_stale). Qed.

(** C36 *)
Theorem C36_result : forall (T : Type) (S : SOps T) c o (s s' : bstate T) r, run_once c o s = Ok (s', r) ->
  r = match dl_imu (b_dl s), dl_feat (b_dl s) with
      | [], [] => false
      | imu :: _, [] => match b_status s with
          | Initialized => true
          | NeedInit => snd (att_propagate (vc_grav c) (b_att s) (im_accel imu) (im_gyro imu) (im_ts imu)) end
      | [], _ :: _ => true
      | imu :: _, feat :: _ =>
          if f64_leb (fm_ts feat) (im_ts imu) then true
          else match b_status s with
          | Initialized => true
          | NeedInit => snd (att_propagate (vc_grav c) (b_att s) (im_accel imu) (im_gyro imu) (im_ts imu)) end
      end.
Proof. exact @run_once_result. Qed.
Print Assumptions C36_result.
Theorem C36_features : forall (T : Type) (S : SOps T) c o (s s' : bstate T) r f, run_once c o s = Ok (s', r) -> next_feat s = Some f -> r = true.
Proof. exact @features_true. Qed.
Print Assumptions C36_features.
Example C36_features_example : exists s s' b f, b_hist (w_c 0) w_s0 (w_ops 2 ++ w_push 2) = Ok s /\ n_frames s = 2 /\ next_feat s = Some f /\
  run_once (w_c 0) w_o s = Ok (s', b) /\ b_status s' = Initialized /\ n_frames s' = 3.
Proof. exact w_grow. Qed.
Theorem C36_initialization_refuted : exists (lm : libm32) (c : vcfg f32) (s0 s s' : bstate f32) ops o,
  fresh (S := ops_f32 lm) s0 /\ b_hist (S := ops_f32 lm) c s0 ops = Ok s /\ run_once (S := ops_f32 lm) c o s = Ok (s', true) /\ b_status s' = NeedInit /\ n_frames s' = 1.
Proof. destruct silent_init as (s & s' & o & H). exists lm0, (w_c 0), w_s0, s, s', [BFeat (w_msg w_ids w_ob 0)], o. exact (conj w_fresh H). Qed.
Print Assumptions C36_initialization_refuted.
Theorem C36_update_refuted : exists (lm : libm32) (c : vcfg f32) (s0 s s' : bstate f32) ops o,
  fresh (S := ops_f32 lm) s0 /\ b_hist (S := ops_f32 lm) c s0 ops = Ok s /\ b_status s = Initialized /\ run_once (S := ops_f32 lm) c o s = Ok (s', true) /\ b_status s' = NeedInit /\ n_frames s' = 1.
Proof. destruct silent_update as (s & s' & o & H). exists lm0, (w_c 0), w_s0, s, s', (w_ops 3 ++ [BFeat (w_msg w_ids w_ob 50)]), o. exact (conj w_fresh H). Qed.
Print Assumptions C36_update_refuted.

(** C37 *)
Theorem C37_published : forall (T : Type) (S : SOps T) (s : bstate T), match pq_items (b_pq s) with
  | [] => b_publish_newest s = None /\ b_publish_oldest s = None
  | h :: r => b_publish_oldest s = Some (pi_mo h, pq_ba (b_pq s), pq_bg (b_pq s), pi_ts h) /\
              b_publish_newest s = Some (pi_mo (List.last r h), pq_ba (b_pq s), pq_bg (b_pq s), pi_ts (List.last r h))
  end.
Proof. intros T S s. exact (publish_states (b_pq s)). Qed.
Print Assumptions C37_published.
Example C37_published_example : exists s1 s2 m1 m2 ba1 ba2 bg1 bg2 t1 t2, b_hist (w_c 0) w_s0 (w_ops 3) = Ok s1 /\ b_hist (w_c 0) s1 ([BReset] ++ w_later) = Ok s2 /\
  b_publish_newest s1 = Some (m1, ba1, bg1, t1) /\ b_publish_newest s2 = Some (m2, ba2, bg2, t2) /\ f64_is 3 t1 = true /\ f64_is 8 t2 = true /\
  time_sorted (map im_ts (pushed_imu (w_ops 3 ++ [BReset] ++ w_later))).
Proof. exact w_times. Qed.

(** C38 *)
Theorem C38_monotone : forall (T : Type) (S : SOps T) c ops1 ops2 (s0 s1 s2 : bstate T) m1 m2 ba1 ba2 bg1 bg2 t1 t2,
  (0 <= vc_maxwin c < 4294967295)%Z -> fresh s0 -> time_sorted (map im_ts (pushed_imu (ops1 ++ ops2))) ->
  b_hist c s0 ops1 = Ok s1 -> b_hist c s1 ops2 = Ok s2 ->
  b_publish_newest s1 = Some (m1, ba1, bg1, t1) -> b_publish_newest s2 = Some (m2, ba2, bg2, t2) -> f64_leb t1 t2 = true.
Proof. exact @publish_monotone. Qed.
Print Assumptions C38_monotone.
Example C38_monotone_example : exists s1 s2 m1 m2 ba1 ba2 bg1 bg2 t1 t2, b_hist (w_c 0) w_s0 (w_ops 3) = Ok s1 /\ b_hist (w_c 0) s1 ([BReset] ++ w_later) = Ok s2 /\
  b_publish_newest s1 = Some (m1, ba1, bg1, t1) /\ b_publish_newest s2 = Some (m2, ba2, bg2, t2) /\ f64_is 3 t1 = true /\ f64_is 8 t2 = true /\
  time_sorted (map im_ts (pushed_imu (w_ops 3 ++ [BReset] ++ w_later))).
Proof. exact w_times. Qed.

(** C39: without Reset or failed update the queue holds the readings as they were pushed ... *)
Theorem C39_raw : forall (lm : libm32) (c : vcfg f32) ops (s0 s : bstate f32), fresh (S := ops_f32 lm) s0 ->
  b_hist (S := ops_f32 lm) c s0 ops = Ok s -> stays_initialized (S := ops_f32 lm) c s0 ops ->
  List.Forall (fun it => exists m, In m (pushed_imu ops) /\ pi_a it = im_accel m /\ pi_g it = im_gyro m /\ pi_ts it = shift (im_ts m)) (pq_items (b_pq s)).
Proof. exact raw_measurements. Qed.
Print Assumptions C39_raw.
Example C39_raw_example : exists s, b_hist (w_c 0) w_s0 (w_ops 4) = Ok s /\ stays_initialized (w_c 0) w_s0 (w_ops 4) /\ length (pq_items (b_pq s)) = 2.
Proof. exact once. Qed.
(** ... and every propagation step removes the current bias once from both of its readings. *)
Theorem C39_integrated : forall grav n (q : pqueue R) pre it0 a g t, pq_items q = pre ++ [it0] -> exists it1,
  pq_items (pq_propagate grav n q a g t) = pq_items q ++ [it1] /\ pi_a it1 = a /\ pi_g it1 = g /\ pi_ts it1 = t /\
  pi_mo it1 = trapezoid grav (pi_mo it0) (without (pq_ba q) (pi_a it0)) (without (pq_bg q) (pi_g it0)) (without (pq_ba q) a) (without (pq_bg q) g) (real_step (pi_ts it0) t).
Proof. exact integrates_corrected. Qed.
Print Assumptions C39_integrated.
Example C39_integrated_example : pq_items k_pq = [] ++ [k_item] /\ exists it1, pq_items (pq_propagate v3zero 2 k_pq k_bias v3zero (f64_of_Z 1)) = [k_item; it1] /\
  mo_v (pi_mo it1) = V3 0%R 0%R 0%R.
Proof. exact k_rest. Qed.
(** False for all histories: after a re-initialization the queue holds readings from which the bias was already removed. *)
Theorem C39_twice_refuted : exists (lm : libm32) (c : vcfg f32) (s0 s : bstate f32) ops it,
  fresh (S := ops_f32 lm) s0 /\ b_hist (S := ops_f32 lm) c s0 ops = Ok s /\ In it (pq_items (b_pq s)) /\ f32_leb (v3x (pi_a it)) (f32_of_Z (-1)) = true /\
  List.Forall (fun m => im_accel m <> pi_a it) (pushed_imu ops).
Proof. destruct twice as (s & it & H). exists lm0, (w_c 0), w_s0, s, h_again, it. exact (conj w_fresh H). Qed.
Print Assumptions C39_twice_refuted.
