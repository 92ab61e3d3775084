(** Properties C93 and C94: the listings printed by the Information functions. *)
From Coq Require Import ZArith List Bool String.
From stdpp Require Import gmap list.
From Verif Require Import Fp Scalar Base LinAlg Msg FeatureManager FrameManager Window WindowSpec UpdSpec Config BackWitness ConfigWitness WindowWitness Print PrintSpec PrintFacts PrintWitness.
Import ListNotations.
Local Open Scope Z_scope.
#[local] Existing Instance ops_one.

(** C93: after any history that keeps the contract of the front end the listing of the feature manager contains exactly the observations in the messages of the frames in the
    window, each once, under the right feature, frame and camera; its headers name every feature of these messages once, with exactly the range of frames that observe it. *)
Theorem C93_listing : forall (T : Type) (S : SOps T) (nord : observe T -> list (Z * v2 T)), valid_norder nord -> forall ord (ops : list (w_op T)), valid_order ord -> good_history ops -> exists w ls,
  w_run ord window0 ops = Ok w /\ print_features nord ord (wn_heap w) (wn_mgr w) = Ok ls /\ length (wn_frames w) = length (a_run [] ops) /\
  List.NoDup (read_tracks None ls) /\
  (forall id fr cam x, In (id, fr, cam, x) (read_tracks None ls) <->
    exists i frm m o, nth_error (wn_frames w) i = Some frm /\ nth_error (a_run [] ops) i = Some m /\ fr_id frm = fr /\ reported m id = Some o /\ o !! cam = Some x) /\
  List.NoDup (map (fun h => fst (fst (fst h))) (read_heads ls)) /\
  (forall id a b n, In (id, a, b, n) (read_heads ls) -> a <= b /\ forall fr, a <= fr <= b <->
    exists i frm m, nth_error (wn_frames w) i = Some frm /\ nth_error (a_run [] ops) i = Some m /\ fr_id frm = fr /\ reported m id <> None) /\
  (forall id i m, nth_error (a_run [] ops) i = Some m -> reported m id <> None -> exists a b n, In (id, a, b, n) (read_heads ls)).
Proof. exact @window_listing. Qed.
Print Assumptions C93_listing.
Example C93_example : valid_norder (fun o : observe unit => map_to_list o) /\ good_history (firstn 3 (demo_hist (T := unit))) /\
  match w_run map_to_list window0 (firstn 3 (demo_hist (T := unit))) with
  | Ok w => match print_features (fun o => map_to_list o) map_to_list (wn_heap w) (wn_mgr w) with Ok ls => (length (read_heads ls), length (read_tracks None ls)) | Ub _ => (0, 0)%nat end
  | Ub _ => (0, 0)%nat
  end = (3, 12)%nat.
Proof. exact listing_example. Qed.
(** The number in a header is the number of observations below it, modulo 2^32, for every series of calls of the feature manager. *)
Theorem C93_number : forall (T : Type) (S : SOps T) (nord : observe T -> list (Z * v2 T)), valid_norder nord -> forall ord (ops : list (ft_op T)), valid_order ord -> Forall ft_op_ok ops ->
  exists h m ls, ft_run ord (Heap 0 ∅, ∅) ops = Ok (h, m) /\ print_features nord ord h m = Ok ls /\
  forall id a b n, In (id, a, b, n) (read_heads ls) ->
    n = Z.of_nat (length (List.filter (fun e => fst (fst (fst e)) =? id) (read_tracks None ls))) mod 4294967296.
Proof. exact @listing_number. Qed.
Print Assumptions C93_number.
Example C93_number_example : Forall ft_op_ok (ft_demo (T := unit)).
Proof. exact (proj1 ft_demo_ok). Qed.
(** The listing of the frame manager shows every frame of the window in order, with the time of its message, the number of features in its message and its state. *)
Theorem C93_frames : forall (T : Type) (S : SOps T) ord (ops : list (w_op T)), valid_order ord -> good_history ops -> exists w,
  w_run ord window0 ops = Ok w /\
  Forall2 (fun e f => e = (fr_id f, fr_ts f, snd (fst (fst (fst e))), fr_q f, fr_p f, fr_v f)) (read_frames (print_frames (wn_frames w))) (wn_frames w) /\
  Forall2 (fun e m => snd (fst (fst (fst (fst e)))) = fm_ts m /\ snd (fst (fst (fst e))) = Z.of_nat (length (fm_ids m))) (read_frames (print_frames (wn_frames w))) (a_run [] ops).
Proof. exact @frame_listing. Qed.
Print Assumptions C93_frames.
Example C93_frames_example : good_history (firstn 3 (demo_hist (T := unit))) /\ map (fun m => length (fm_ids m)) (a_run [] (firstn 3 (demo_hist (T := unit)))) = [2; 3; 2]%nat.
Proof. exact frames_example. Qed.
(** "The last frame of a header is never before the first" is false for a feature that is constructed without observations. *)
Theorem C93_last_refuted : forall (T : Type) (S : SOps T) (nord : observe T -> list (Z * v2 T)), exists (f : feature T) ls id a b n, print_feature nord f = ls /\ In (id, a, b, n) (read_heads ls) /\ b < a.
Proof. exact @last_refuted. Qed.
Print Assumptions C93_last_refuted.

(** C94: printing a message is defined exactly if it has an observation for every id, as every message made by the constructor has; the lines then contain exactly its observations. *)
Theorem C94_message : forall (T : Type) (nord : observe T -> list (Z * v2 T)), valid_norder nord -> forall m : feat_msg T,
  (length (fm_ids m) <= length (fm_obs m))%nat -> exists ls, print_msg nord m = Ok ls /\
  forall id cam x, In (id, cam, x) (read_msg None ls) <-> exists i o, nth_error (fm_ids m) i = Some id /\ nth_error (fm_obs m) i = Some o /\ o !! cam = Some x.
Proof. exact @msg_listing. Qed.
Print Assumptions C94_message.
Theorem C94_safe : forall (T : Type) (nord : observe T -> list (Z * v2 T)), valid_norder nord -> forall m : feat_msg T,
  (exists ls, print_msg nord m = Ok ls) <-> (length (fm_ids m) <= length (fm_obs m))%nat.
Proof. exact @msg_safe. Qed.
Print Assumptions C94_safe.
Theorem C94_made : forall (T : Type) (nord : observe T -> list (Z * v2 T)), valid_norder nord -> forall ids obs flag ts, exists ls, print_msg nord (feat_msg_make ids obs flag ts) = Ok ls.
Proof. exact @made_listing. Qed.
Print Assumptions C94_made.
(** The lines of a combined message contain its IMU samples in order. *)
Theorem C94_imu : forall (T : Type) (nord : observe T -> list (Z * v2 T)) (m : comb_msg T), (match cm_feat m with Some f => length (fm_ids f) <= length (fm_obs f) | None => True end)%nat ->
  exists ls, print_comb nord m = Ok ls /\ read_imu ls = cm_imu m.
Proof. exact @comb_listing. Qed.
Print Assumptions C94_imu.
Example C94_imu_example : match cm_feat comb_demo with Some f => (length (fm_ids f), length (fm_obs f), length (cm_imu comb_demo)) | None => (0, 0, 0)%nat end = (2, 2, 2)%nat /\
  match print_comb (fun o => map_to_list o) comb_demo with Ok ls => (length ls, read_msg None ls) | Ub _ => (0%nat, []) end = (12%nat, [(7, 0, V2 tt tt); (7, 1, V2 tt tt); (9, 0, V2 tt tt)]).
Proof. exact comb_example. Qed.
(** The configuration: every parameter is shown exactly once under its name, and every camera under its number. *)
Theorem C94_config : forall (T : Type) (c : config T) vis, (length (cf_p c) <= length (cf_q c))%nat -> exists ls, print_config c vis = Ok ls /\
  shown "   [IMU] sigma bias accel : " ls = [[Sca (cf_na c)]] /\
  shown "   [IMU] sigma bias gyro : " ls = [[Sca (cf_ng c)]] /\
  shown "   [IMU] sigma bias accel random walk : " ls = [[Sca (cf_nwa c)]] /\
  shown "   [IMU] sigma bias gyro random walk : " ls = [[Sca (cf_nwg c)]] /\
  shown "   [IMU] gravity norm : " ls = [[Sca (cf_grav c)]] /\
  shown "   [IMU] default bias accel : " ls = [[Sca (v3x (cf_ba c)); Sca (v3y (cf_ba c)); Sca (v3z (cf_ba c))]] /\
  shown "   [IMU] default bias gyro : " ls = [[Sca (v3x (cf_bg c)); Sca (v3y (cf_bg c)); Sca (v3z (cf_bg c))]] /\
  shown "   [IMU] data period : " ls = [[Sca (cf_period c); Txt " s"%string]] /\
  shown "   [VISION] sigma vision : " ls = [[Sca (cf_sigma c)]] /\
  shown "   [VISION] max frame num : " ls = [[UInt (cf_maxframe c)]] /\
  shown "   [VISION] max features num for update : " ls = [[UInt (cf_maxfeat c)]] /\
  shown "   [VISION] min keyframe tracked features num : " ls = [[UInt (cf_mintrack c)]] /\
  shown "   [VISION] min keyframe mean parallax : " ls = [[Sca (cf_minpar c)]] /\
  shown "   [VISION] min keyframe traslation : " ls = [[Sca (cf_maxtrans c)]] /\
  shown "   [VISION] max cameras num : " ls = [[UInt (cf_ncam c)]] /\
  shown "   [GENERAL] use vision update : " ls = [[Flag vis]] /\
  length (shown "      cam " ls) = length (cf_p c) /\
  (forall i p q, nth_error (cf_p c) i = Some p -> nth_error (cf_q c) i = Some q -> nth_error (shown "      cam " ls) i = Some (cam_line (i, (p, q)))).
Proof. exact @config_listing. Qed.
Print Assumptions C94_config.
(** So the listing determines the configuration. *)
Theorem C94_injective : forall (T : Type) (c c' : config T) vis vis' ls, length (cf_p c) = length (cf_q c) -> length (cf_p c') = length (cf_q c') ->
  print_config c vis = Ok ls -> print_config c' vis' = Ok ls -> c = c' /\ vis = vis'.
Proof. exact @config_injective. Qed.
Print Assumptions C94_injective.
(** After ReadConfigParams, whatever the files, the configuration can be printed and the number of cameras is the number of cameras listed. *)
Theorem C94_read : forall (T : Type) (S : SOps T) u junk (d : cdir T) c m c' m' r vis, read_config u junk d c m = Ok (c', m', r) -> exists ls, print_config c' vis = Ok ls /\
  length (cf_q c') = length (cf_p c') /\ shown "   [VISION] max cameras num : " ls = [[UInt (Z.of_nat (length (shown "      cam " ls)) mod 4294967296)]].
Proof. exact @read_listing. Qed.
Print Assumptions C94_read.
Example C94_read_example : forall junk, exists c m ls, read_config f32_u32 junk repo_dir cfg0 ConfigWitness.m00 = Ok (c, m, true) /\ length (cf_p c) = 2%nat /\ print_config c true = Ok ls.
Proof. exact read_example. Qed.
(** "Printing any message is defined" is false. *)
Theorem C94_short_refuted : forall (T : Type) (nord : observe T -> list (Z * v2 T)), exists m : feat_msg T, length (fm_ids m) = 1%nat /\ print_msg nord m = Ub UbIndex.
Proof. exact @short_refuted. Qed.
Print Assumptions C94_short_refuted.
(** "The number of cameras is the number of cameras listed" is false before a configuration is read: two cameras, none listed. *)
Theorem C94_cameras_refuted : forall (T : Type) (S : SOps T), exists (c : config T) ls, print_config c true = Ok ls /\ shown "   [VISION] max cameras num : " ls = [[UInt 2]] /\ shown "      cam " ls = [].
Proof. exact @cameras_refuted. Qed.
Print Assumptions C94_cameras_refuted.
