(** Message types: include/data_manager/data_typedef.hpp, src/data_manager/data_typedef.cpp. *)
From Coq Require Import ZArith List Bool.
From stdpp Require Import gmap.
From Verif Require Import Fp Scalar Base LinAlg.

(** FeatureObserve (data_typedef.hpp 10-24): normalized coordinates per camera id. An
    std::unordered_map is a finite map; its iteration order is supplied by an oracle where it matters. *)
Definition observe (T : Type) := gmap Z (v2 T).

(** IMUMessage (data_typedef.hpp 54-71). *)
Record imu_msg (T : Type) := ImuMsg { im_gyro : v3 T; im_accel : v3 T; im_ts : f64 }.
(** FeaturesMessage (data_typedef.hpp 28-50). Shared pointers to observations are by value:
    the back end never mutates a FeatureObserve. *)
Record feat_msg (T : Type) := FeatMsg { fm_ids : list Z; fm_obs : list (observe T); fm_flag : list Z; fm_ts : f64 }.
(** CombinedMessage (data_typedef.hpp 75-92); [None] is the null features pointer. *)
Record comb_msg (T : Type) := CombMsg { cm_feat : option (feat_msg T); cm_imu : list (imu_msg T) }.
Arguments ImuMsg {T}. Arguments im_gyro {T}. Arguments im_accel {T}. Arguments im_ts {T}.
Arguments FeatMsg {T}. Arguments fm_ids {T}. Arguments fm_obs {T}. Arguments fm_flag {T}. Arguments fm_ts {T}.
Arguments CombMsg {T}. Arguments cm_feat {T}. Arguments cm_imu {T}.

(** FeatureObserve::GetNorm (data_typedef.cpp 13-21). *)
Definition observe_get {T} (o : observe T) (cam : Z) : option (v2 T) := o !! cam.

(** FeaturesMessage constructor (data_typedef.cpp 25-34): cleared when the lengths differ. *)
Definition feat_msg_make {T} (ids : list Z) (obs : list (observe T)) (flag : list Z) (ts : f64) : feat_msg T :=
  if negb (Nat.eqb (length ids) (length obs)) then FeatMsg [] [] [] (f64_of_Z 0)
  else FeatMsg ids obs flag ts.

(** Changing the time stamp in place: [msg->timeStamp -= offset] (data_loader.cpp 25, 42). *)
Definition imu_set_ts {T} (m : imu_msg T) (t : f64) : imu_msg T := ImuMsg (im_gyro m) (im_accel m) t.
Definition feat_set_ts {T} (m : feat_msg T) (t : f64) : feat_msg T := FeatMsg (fm_ids m) (fm_obs m) (fm_flag m) t.

(** CombinedMessage::Clear (data_typedef.cpp 86-89). *)
Definition comb_empty {T} : comb_msg T := CombMsg None [].
