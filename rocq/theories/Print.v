(** The Information functions: src/data_manager/data_typedef.cpp, src/data_manager/vision_data/feature_manager.cpp,
    src/data_manager/vision_data/frame_manager.cpp, src/config/config.cpp. LogInfo writes one line to std::cout (log_api.hpp 15). *)
From Coq Require Import ZArith List Bool String.
From stdpp Require Import gmap.
From Verif Require Import Fp Scalar Base LinAlg Msg FeatureManager FrameManager Config.
Import ListNotations.
Local Open Scope Z_scope.

(** What is inserted into the stream. How a number is written as text (six digits, or as set by LogFixPercision) is library code and
    not modelled: a line is the list of the inserted values. *)
Inductive field (T : Type) := Txt (s : string) | UInt (z : Z) | Dbl (x : f64) | Sca (x : T) | Flag (b : bool).
Arguments Txt {T}. Arguments UInt {T}. Arguments Dbl {T}. Arguments Sca {T}. Arguments Flag {T}.
(** One LogInfo (log_api.hpp 15). *)
Definition pline (T : Type) := list (field T).

Section Print.
Context {T : Type}.
Local Open Scope string_scope.
(** Iteration order of FeatureObserve::norms, an unordered_map (data_typedef.hpp 13). *)
Variable nord : observe T -> list (Z * v2 T).

(** [v.transpose()] of a Vector2 and a Vector3. *)
Definition pr_v2 (v : v2 T) : pline T := [Sca (v2x v); Sca (v2y v)].
Definition pr_v3 (v : v3 T) : pline T := [Sca (v3x v); Sca (v3y v); Sca (v3z v)].
(** The four components of a quaternion, as inserted in frame_manager.cpp 56-57 and config.cpp 102. *)
Definition pr_q (q : quat T) : pline T := [Sca (qw q); Txt ", "; Sca (qx q); Txt ", "; Sca (qy q); Txt ", "; Sca (qz q)].

(** FeaturesMessage::Information (data_typedef.cpp 48-56): the loop over the ids from index [i] on; observes[i] is not checked. *)
Fixpoint print_msg_loop (i : nat) (ids : list Z) (obs : list (observe T)) : out (list (pline T)) :=
  match ids with
  | [] => Ok []
  | id :: r =>
    let! o := at_ obs i in
    let! t := print_msg_loop (Datatypes.S i) r obs in
    Ok (([Txt "     feature id "; UInt id; Txt " is observed in:"] ::
         map (fun kv => [Txt "       camera id "; UInt (fst kv); Txt " ["] ++ pr_v2 (snd kv) ++ [Txt "]"])%list (nord o)) ++ t)%list
  end.
Definition print_msg (m : feat_msg T) : out (list (pline T)) :=
  let! t := print_msg_loop 0 (fm_ids m) (fm_obs m) in
  Ok ([Txt ">> Features Message at time stamp "; Dbl (fm_ts m); Txt "s:"] :: t).
(** IMUMessage::Information (data_typedef.cpp 67-71). *)
Definition print_imu (m : imu_msg T) : list (pline T) :=
  [ [Txt ">> IMU Message at time stamp "; Dbl (im_ts m); Txt "s:"];
    ([Txt "     gyro  ["] ++ pr_v3 (im_gyro m) ++ [Txt "]"])%list;
    ([Txt "     accel ["] ++ pr_v3 (im_accel m) ++ [Txt "]"])%list ].
(** CombinedMessage::Information (data_typedef.cpp 94-101). *)
Definition print_comb (m : comb_msg T) : out (list (pline T)) :=
  let! a := match cm_feat m with None => Ok [] | Some f => print_msg f end in
  Ok (a ++ flat_map print_imu (cm_imu m))%list.

(** Feature::Information (feature_manager.cpp 36-45): the loop over observes from index [i] on; firstFrameID + i is a 32-bit sum. *)
Fixpoint print_obs (first : Z) (i : nat) (obs : list (observe T)) : list (pline T) :=
  match obs with
  | [] => []
  | o :: r =>
    (map (fun kv => [Txt "     frame "; UInt (u32 (first + Z.of_nat i)); Txt " camera "; UInt (fst kv); Txt " observe ["]
       ++ pr_v2 (snd kv) ++ [Txt "]"])%list (nord o) ++ print_obs first (Datatypes.S i) r)%list
  end.
Definition print_feature (f : feature T) : list (pline T) :=
  [Txt ">> Feature id "; UInt (ft_id f); Txt " is observed in frame ["; UInt (ft_first f); Txt ", "; UInt (final_frame f);
   Txt "], observe num is "; UInt (ft_num f)] :: print_obs (ft_first f) 0 (ft_obs f).
(** FeatureManager::Information (feature_manager.cpp 147-156). *)
Fixpoint print_ptrs (h : heap T) (l : list (Z * nat)) : out (list (pline T)) :=
  match l with
  | [] => Ok []
  | kp :: r => let! f := hget h (snd kp) in let! t := print_ptrs h r in Ok (print_feature f ++ t)%list
  end.
Definition print_features (ord : order) (h : heap T) (m : fmgr) : out (list (pline T)) :=
  if decide (m = ∅) then Ok [[Txt ">> Feature manager has no featuers."]]
  else let! t := print_ptrs h (ord m) in Ok (t ++ [[Txt ""]])%list.

(** Frame::Information (frame_manager.cpp 53-60). *)
Definition print_frame (f : frame T) : list (pline T) :=
  [ [Txt ">> Frame id "; UInt (fr_id f); Txt " at time "; Dbl (fr_ts f); Txt "s observes "; UInt (Z.of_nat (size (fr_feats f))); Txt " features."];
    ([Txt "     q_wb is ["] ++ pr_q (fr_q f) ++ [Txt "] (s, v)"])%list;
    ([Txt "     p_wb is ["] ++ pr_v3 (fr_p f) ++ [Txt "]"])%list;
    ([Txt "     v_wb is ["] ++ pr_v3 (fr_v f) ++ [Txt "]"])%list ].
(** FrameManager::Information (frame_manager.cpp 210-219). *)
Definition print_frames (fs : list (frame T)) : list (pline T) :=
  match fs with
  | [] => [[Txt ">> Frame manager has no featuers."]]
  | _ => (flat_map print_frame fs ++ [[Txt ""]])%list
  end.

(** The loop over the cameras of Configurator::Information (config.cpp 98-103): the bound is the length of default_p_bc, default_q_bc[i]
    is not checked. *)
Fixpoint print_cams (i : nat) (ps : list (v3 T)) (qs : list (quat T)) : out (list (pline T)) :=
  match ps with
  | [] => Ok []
  | p :: r =>
    let! q := at_ qs i in
    let! t := print_cams (Datatypes.S i) r qs in
    Ok (([Txt "      cam "; UInt (Z.of_nat i); Txt " p_bc : ["] ++ pr_v3 p ++ [Txt "], q_bc : ["] ++ pr_q q ++ [Txt "]"])%list :: t)
  end.
(** Configurator::Information (config.cpp 76-108); [vis] is general.useVisionUpdate (config.hpp 38), which nothing else reads. *)
Definition print_config (c : config T) (vis : bool) : out (list (pline T)) :=
  let! cams := print_cams 0 (cf_p c) (cf_q c) in
  Ok ([ [Txt ">> Config params:"];
        [Txt "   [IMU] sigma bias accel : "; Sca (cf_na c)];
        [Txt "   [IMU] sigma bias gyro : "; Sca (cf_ng c)];
        [Txt "   [IMU] sigma bias accel random walk : "; Sca (cf_nwa c)];
        [Txt "   [IMU] sigma bias gyro random walk : "; Sca (cf_nwg c)];
        [Txt "   [IMU] gravity norm : "; Sca (cf_grav c)];
        ([Txt "   [IMU] default bias accel : "] ++ pr_v3 (cf_ba c))%list;
        ([Txt "   [IMU] default bias gyro : "] ++ pr_v3 (cf_bg c))%list;
        [Txt "   [IMU] data period : "; Sca (cf_period c); Txt " s"];
        [Txt "   [VISION] sigma vision : "; Sca (cf_sigma c)];
        [Txt "   [VISION] max frame num : "; UInt (cf_maxframe c)];
        [Txt "   [VISION] max features num for update : "; UInt (cf_maxfeat c)];
        [Txt "   [VISION] min keyframe tracked features num : "; UInt (cf_mintrack c)];
        [Txt "   [VISION] min keyframe mean parallax : "; Sca (cf_minpar c)];
        [Txt "   [VISION] min keyframe traslation : "; Sca (cf_maxtrans c)];
        [Txt "   [VISION] max cameras num : "; UInt (cf_ncam c)];
        [Txt "   [VISION] cameras extrinsic :"] ] ++ cams ++ [[Txt "   [GENERAL] use vision update : "; Flag vis]])%list.
End Print.
