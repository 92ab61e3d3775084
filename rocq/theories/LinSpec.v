(** Specification of the linearisation of one propagation step (C78): how a small error of the state and of the
    measurements before the step appears after it. *)
From Coq Require Import Reals List Arith.
From Coquelicot Require Import Coquelicot.
From Verif Require Import Fp Scalar Base LinAlg MathLib Propagator QuatFacts DerivSpec ProcSpec.
Local Open Scope R_scope.

(** A state with its biases. *)
Record nav := Nav { nv_m : motion R; nv_ba : v3 R; nv_bg : v3 R }.
(** Derivative of a curve of quaternions. *)
Definition derive4 (f : R -> quat R) (t : R) (d : quat R) : Prop :=
  is_derive (fun s => qw (f s)) t (qw d) /\ is_derive (fun s => qx (f s)) t (qx d) /\
  is_derive (fun s => qy (f s)) t (qy d) /\ is_derive (fun s => qz (f s)) t (qz d).
(** The curve of states [x] leaves [x 0] with the velocity [d] of the error state (position, velocity, rotation,
    accelerometer bias, gyro bias). A rotation velocity [th] is in the body frame: q' = q (0, th / 2). *)
Definition leaves (x : R -> nav) (d : nat -> R) : Prop :=
  (forall e, qunit (mo_q (nv_m (x e)))) /\
  derive3 (fun e => mo_p (nv_m (x e))) 0 (part d 0) /\
  derive3 (fun e => mo_v (nv_m (x e))) 0 (part d 3) /\
  derive4 (fun e => mo_q (nv_m (x e))) 0
    (qmul (mo_q (nv_m (x 0))) (Quat 0 (v3x (part d 6) / 2) (v3y (part d 6) / 2) (v3z (part d 6) / 2))) /\
  derive3 (fun e => nv_ba (x e)) 0 (part d 9) /\
  derive3 (fun e => nv_bg (x e)) 0 (part d 12).
(** A pair of IMU measurements. *)
Record meas := Meas { ma0 : v3 R; mg0 : v3 R; ma1 : v3 R; mg1 : v3 R }.
(** The noise of the accelerometer and of the gyro is the same for both measurements of the step. *)
Definition noisy (z : R -> meas) (na ng : v3 R) : Prop :=
  derive3 (fun e => ma0 (z e)) 0 na /\ derive3 (fun e => ma1 (z e)) 0 na /\
  derive3 (fun e => mg0 (z e)) 0 ng /\ derive3 (fun e => mg1 (z e)) 0 ng.
(** The state after a step of [dt]. *)
Definition after (grav : v3 R) (x : nav) (z : meas) (dt : R) : nav :=
  Nav (fst (fst (nominal_step grav (nv_ba x) (nv_bg x) (nv_m x) (ma0 z) (mg0 z) (ma1 z) (mg1 z) dt))) (nv_ba x) (nv_bg x).
