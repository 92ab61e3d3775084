(** Properties C72-C75: the test program of the back end (apps/test_eskf_vio_backend.cpp). *)
From Coq Require Import ZArith Reals List Bool.
From stdpp Require Import gmap.
From Verif Require Import Fp Scalar Base LinAlg Msg DataLoader FeatureManager FrameManager Window MathLib Attitude Propagator
  Triangulate Pnp VisionUpdate Backend LoaderSpec WindowSpec QueueSpec UpdSpec BackendSpec BackWitness Config ConfigSpec ConfigWitness
  QuatFacts App AppSpec AppFacts AppWitness AppLineFacts.
Import ListNotations.
Local Open Scope nat_scope.

(** C72: whatever the data files contain, the test program has defined behaviour when two cameras are configured. *)
Theorem C72_safe : forall (T : Type) (S : SOps T) ji jp jc c os fs (s0 : bstate T), BackendSpec.fresh s0 -> 2 <= length (b_ext s0) ->
  sizes_ok c (length (b_ext s0)) -> (forall k, oracle_ok (os k)) -> (Z.of_nat (length (opt_lines (af_cam fs))) < 4294967294)%Z ->
  exists s k res, app_main ji jp jc c os fs s0 = Ok (s, k, res).
Proof. exact @app_safe. Qed.
Print Assumptions C72_safe.
(** The configuration of the repository qualifies. *)
Example C72_configuration : forall junk st, exists c m, read_config f32_u32 junk repo_dir cfg0 ConfigWitness.m00 = Ok (c, m, true) /\
  let s0 := apply_config f32_to_f64 c (b_blank st) in
  BackendSpec.fresh s0 /\ 2 <= length (b_ext s0) /\ sizes_ok (apply_vcfg c) (length (b_ext s0)).
Proof. exact repo_app. Qed.
(** A run that initializes the filter and fills the window. *)
Example C72_run : exists s res, app_main a_ji v3zero a_jc (w_c 0) (fun _ => w_o) a_files w_s0 = Ok (s, 4, res) /\ b_status s = Initialized /\ n_frames s = 3 /\
  length res = 3.
Proof. exact a_run. Qed.

(** C73: what is loaded from well-formed files. *)
Theorem C73_loads : forall (T : Type) (S : SOps T) ji jp jc fs (s0 s1 : bstate T) cnt ms ps vs, BackendSpec.fresh s0 -> b_st s0 = statics0 ->
  says imu_said (af_imu fs) ms -> says pt_said (af_pts fs) ps -> says cam_said (af_cam fs) vs -> af_pts fs <> None ->
  app_imu ji (af_imu fs) s0 = (s1, cnt) ->
  let s2 := app_feat jp jc (af_pts fs) (af_cam fs) s1 in
  let used := upto (fun m => too_late (im_ts m)) ms in
  cnt = (Z.of_nat (length used) mod 4294967296)%Z /\
  dl_imu (b_dl s2) = accepted_imu None 0 (map (PushI 0) used) /\
  exists fms, List.Forall2 (fun v m => shows ps (fst (fst v)) m) (upto (fun v => too_late (fst (fst v))) vs) fms /\
    dl_feat (b_dl s2) = accepted_feat None 0 (map (PushF 0) fms).
Proof. exact @app_loads. Qed.
Print Assumptions C73_loads.
Example C73_loads_example : exists ms ps vs, says imu_said (af_imu a_files) ms /\ says pt_said (af_pts a_files) ps /\ says cam_said (af_cam a_files) vs /\
  length ms = 4 /\ length ps = 10 /\ length vs = 4 /\ time_sorted (map im_ts ms) /\ b_st w_s0 = statics0.
Proof. exact a_said. Qed.
Example C73_loads_result : let '(s1, cnt) := app_imu a_ji (af_imu a_files) w_s0 in
  let s2 := app_feat v3zero a_jc (af_pts a_files) (af_cam a_files) s1 in
  cnt = 4%Z /\ length (dl_imu (b_dl s2)) = 4 /\ length (dl_feat (b_dl s2)) = 4.
Proof. exact a_loaded. Qed.
(** False: not everything up to maxTimeStamp = 100 is used. *)
Theorem C73_range_refuted : exists (lm : libm32) (f : afile f32) ms (s0 : bstate f32), BackendSpec.fresh (S := ops_f32 lm) s0 /\
  says imu_said (Some f) ms /\ time_sorted (map im_ts ms) /\
  List.Forall (fun m => f64_leb (im_ts m) (f64_of_Z 100) = true) ms /\ length ms = 2 /\
  forall ji, length (dl_imu (b_dl (fst (app_imu ji (Some f) s0)))) = 1.
Proof. exists lm0, late_file, late_ms, w_s0. exact (conj w_fresh late_lost). Qed.
Print Assumptions C73_range_refuted.
(** False: a line that says nothing is not skipped; the first one sends uninitialised memory to the filter. *)
Theorem C73_short_refuted : exists (lm : libm32) (l : list (atok f32)) (s0 : bstate f32), BackendSpec.fresh (S := ops_f32 lm) s0 /\ imu_said l = None /\
  forall ji, exists m, dl_imu (b_dl (fst (app_imu ji (Some [Some l]) s0))) = [m] /\ im_accel m = iv_acc ji /\ im_gyro m = iv_gyr ji.
Proof. exists lm0, [an 1], w_s0. exact (conj w_fresh short_junk). Qed.
Print Assumptions C73_short_refuted.

(** What any line does, well-formed or not: the numbers before the first token that is no number are stored in order, that token stores what
    the extraction leaves, and everything else keeps the value of the line before. *)
Theorem C73_any_line : forall (T : Type) l (v : imu_vars T), let v' := imu_line l v in
  (iv_ts v', q_list (iv_q v') ++ v3_list (iv_pos v') ++ v3_list (iv_gyr v') ++ v3_list (iv_acc v')) =
  overlay_time l (iv_ts v) (q_list (iv_q v) ++ v3_list (iv_pos v) ++ v3_list (iv_gyr v) ++ v3_list (iv_acc v)).
Proof. exact imu_line_any. Qed.
Print Assumptions C73_any_line.
Example C73_any_line_example : forall t d : f64,
  imu_line [ANum d 20; ANum d 21; ABad d 0; ANum d 22] (ImuVars t (Quat 1 2 3 4) (V3 5 6 7) (V3 8 9 10) (V3 11 12 13)) =
  ImuVars d (Quat 21 0 3 4) (V3 5 6 7) (V3 8 9 10) (V3 11 12 13).
Proof. exact broken_line. Qed.
Theorem C73_any_camera : forall (T : Type) l (v : cam_vars T), let v' := cam_line l v in
  (cv_ts v', q_list (cv_q v') ++ v3_list (cv_p v')) = overlay_time l (cv_ts v) (q_list (cv_q v) ++ v3_list (cv_p v)).
Proof. exact cam_line_any. Qed.
Print Assumptions C73_any_camera.
Theorem C73_any_points : forall (T : Type) f (v : v3 T), map v3_list (pts_loop f v) = overlays (map (@overlay T) (file_lines f)) (v3_list v).
Proof. exact pts_any. Qed.
Print Assumptions C73_any_points.
Example C73_any_points_example : forall d : f64, pts_loop [Some [ANum d 20; ANum d 21; ANum d 22; ANum d 23]; Some [ANum d 30]; Some []; None] (V3 1 2 3) =
  [V3 20 21 22; V3 30 21 22; V3 30 21 22].
Proof. exact broken_points. Qed.

(** C74: in exact arithmetic the simulated observations are those the filter predicts at the true body pose. *)
Theorem C74_exact : forall (pts : list (v3 R)) t q p f i pt o c z, qunit q -> qunit (fr_q f) -> mounted app_bc0 f q p ->
  nth_error pts i = Some pt -> nth_error (fm_obs (app_msg pts (CamVars t q p))) i = Some o -> o !! c = Some z ->
  exists e, nth_error [app_bc0; app_bc1] (Z.to_nat c) = Some e /\ meas_res e f pt z = V2 0%R 0%R.
Proof. exact app_exact. Qed.
Print Assumptions C74_exact.
Example C74_exact_example : qunit (qid (T := R)) /\ qunit (fr_q body) /\ mounted app_bc0 body qid v3zero /\ v3z (meas_pc app_bc0 body (V3 1 1 4)%R) = 4%R.
Proof. exact body_mounted. Qed.
(** The camera files of the repository describe the same two cameras. *)
Example C74_cameras : exists c m, read_config f32_u32 no_junk repo_dir cfg0 ConfigWitness.m00 = Ok (c, m, true) /\
  exists e0 e1, b_ext (apply_config f32_to_f64 c (b_blank statics0)) = [e0; e1] /\ same_ext e0 app_bc0 = true /\ same_ext e1 app_bc1 = true.
Proof. exact repo_mounting. Qed.

(** C75: the main loop. *)
Theorem C75_runs : forall (T : Type) (S : SOps T) ji jp jc c os fs (s0 s : bstate T) ms k res, (0 <= vc_maxwin c < 4294967295)%Z -> BackendSpec.fresh s0 ->
  says imu_said (af_imu fs) ms -> (Z.of_nat (length ms) < 4294967296)%Z -> time_sorted (map im_ts ms) ->
  app_main ji jp jc c os fs s0 = Ok (s, k, res) ->
  let cnt := length (upto (fun m => too_late (im_ts m)) ms) in
  k <= cnt /\ (k < cnt -> nan_published s) /\ length res <= k /\ time_sorted (map (fun r => fst (fst (fst r))) res) /\
  List.Forall (fun r : saved T => sisnan (v3x (mo_p (snd (fst (fst r))))) = false) res /\
  (k = cnt -> waiting s <= length (opt_lines (af_cam fs))).
Proof. exact @app_runs. Qed.
Print Assumptions C75_runs.
Example C75_runs_example : exists s res, app_main a_ji v3zero a_jc (w_c 0) (fun _ => w_o) a_files w_s0 = Ok (s, 4, res) /\ b_status s = Initialized /\ n_frames s = 3 /\
  length res = 3.
Proof. exact a_run. Qed.
(** False: what has been loaded need not be processed. Here no IMU sample is. *)
Theorem C75_all_refuted : exists (lm : libm32) (c : vcfg f32) o fs ji jc (s0 s : bstate f32) k, BackendSpec.fresh (S := ops_f32 lm) s0 /\
  app_main (S := ops_f32 lm) ji (v3zero (S := ops_f32 lm)) jc c (fun _ => o) fs s0 = Ok (s, k, []) /\ k = 2 /\ length (dl_imu (b_dl s)) = 2.
Proof. destruct early_left as (s & res & E & -> & H). exists lm0, (w_c 0), w_o, early_files, a_ji, a_jc, w_s0, s, 2. exact (conj w_fresh (conj E (conj eq_refl H))). Qed.
Print Assumptions C75_all_refuted.
