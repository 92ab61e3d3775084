(** Specification vocabulary for the flow of the IMU samples through the back end (C85). Nothing here is used by the model. *)
From Coq Require Import ZArith List Bool.
From Verif Require Import Fp Scalar Base LinAlg Msg DataLoader Attitude Propagator VisionUpdate Backend LoaderSpec BackendSpec BiasSpec.
Import ListNotations.

Section FlowSpec.
Context {T : Type} {S : SOps T}.

(** The samples that count: those pushed with a time later than the one pushed just before ([last], already shifted;
    None at the start of the process), with the shifted time. *)
Fixpoint stream (last : option f64) (ops : list (b_op T)) : list (imu_msg T) :=
  match ops with
  | [] => []
  | BImu m :: r =>
      let t := shift (im_ts m) in
      (if f64_ltb (match last with Some u => u | None => f64_sub t (f64_of_Z 1%Z) end) t then [imu_shifted m] else []) ++ stream (Some t) r
  | _ :: r => stream last r
  end.

(** Messages are only taken by RunOnce. *)
Definition no_test (ops : list (b_op T)) : Prop := List.Forall (fun op => match op with BTest => False | _ => True end) ops.

(** A reading: accelerometer, gyroscope and time. *)
Definition reading : Type := v3 T * v3 T * f64.
Definition of_sample (m : imu_msg T) : reading := (im_accel m, im_gyro m, im_ts m).
Definition of_item (i : pitem T) : reading := (pi_a i, pi_g i, pi_ts i).

(** One session: the back end has a state only while it is initialized, and stays initialized once it is. *)
Definition one_session (c : vcfg T) (s0 : bstate T) (ops : list (b_op T)) : Prop :=
  stays_initialized c s0 ops /\
  forall ops1 ops2 s1, ops = ops1 ++ ops2 -> b_hist c s0 ops1 = Ok s1 -> b_status s1 = NeedInit -> b_publish_newest s1 = None.
End FlowSpec.
