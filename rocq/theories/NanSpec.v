(** Specification vocabulary for C88: not-a-number values. Nothing here is used by the model. *)
From Coq Require Import ZArith List Bool.
From Verif Require Import Fp Scalar Base LinAlg Msg DataLoader MathLib Attitude Propagator VisionUpdate Backend.
Import ListNotations.

(** Some component is NaN; every component is NaN. *)
Definition v3_some_nan (v : v3 f32) : Prop := f32_isnan (v3x v) = true \/ f32_isnan (v3y v) = true \/ f32_isnan (v3z v) = true.
Definition v3_all_nan (v : v3 f32) : Prop := f32_isnan (v3x v) = true /\ f32_isnan (v3y v) = true /\ f32_isnan (v3z v) = true.
Definition q_some_nan (q : quat f32) : Prop :=
  f32_isnan (qw q) = true \/ f32_isnan (qx q) = true \/ f32_isnan (qy q) = true \/ f32_isnan (qz q) = true.
(** A sample with a NaN in it. *)
Definition nan_sample (m : imu_msg f32) : Prop := v3_some_nan (im_accel m) \/ v3_some_nan (im_gyro m).
(** The IMU sample the next RunOnce hands on. *)
Definition next_imu {T : Type} (s : bstate T) : option (imu_msg T) := hd_error (cm_imu (snd (fst (fst (dl_pop_one (b_dl s)))))).
(** A published position and velocity with no number in them. *)
Definition published_nan (x : option (motion f32 * v3 f32 * v3 f32 * f64)) : Prop :=
  exists mo ba bg t, x = Some (mo, ba, bg, t) /\ v3_all_nan (mo_p mo) /\ v3_all_nan (mo_v mo).
