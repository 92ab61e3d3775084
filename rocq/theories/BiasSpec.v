(** Specification vocabulary for the treatment of the sensor biases (C39). Nothing here is used by the model. *)
From Coq Require Import Reals List.
From Verif Require Import Fp Scalar Base LinAlg Msg DataLoader Propagator VisionUpdate Backend BackendSpec.
Import ListNotations.

Section BiasSpec.
Context {T : Type} {S : SOps T}.
(** Once initialized, the back end stays initialized: no Reset and no failed update after the first success. *)
Definition stays_initialized (c : vcfg T) (s0 : bstate T) (ops : list (b_op T)) : Prop :=
  forall ops1 ops2 ops3 s1 s2, ops = ops1 ++ ops2 ++ ops3 -> b_hist c s0 ops1 = Ok s1 -> b_status s1 = Initialized ->
  b_hist c s1 ops2 = Ok s2 -> b_status s2 = Initialized.
End BiasSpec.

Local Open Scope R_scope.
(** A reading without the bias. *)
Definition without (b a : v3 R) : v3 R := V3 (v3x a - v3x b) (v3y a - v3y b) (v3z a - v3z b).
Definition mean (a b : v3 R) : v3 R := V3 ((v3x a + v3x b) / 2) ((v3y a + v3y b) / 2) ((v3z a + v3z b) / 2).
(** First-order rotation at rate [w] during [dt]. *)
Definition half_turn (w : v3 R) (dt : R) : quat R := Quat 1 (v3x w * dt / 2) (v3y w * dt / 2) (v3z w * dt / 2).
(** Trapezoid integration from [m] with bias-free readings at both ends: rotation at the mean rate, velocity by the
    mean of the two specific forces in the world minus gravity, position by the mean velocity. *)
Definition trapezoid (grav : v3 R) (m : motion R) (a0 w0 a1 w1 : v3 R) (dt : R) : motion R :=
  let q1 := qnormalize (qmul (mo_q m) (half_turn (mean w0 w1) dt)) in
  let f := mean (qrot (mo_q m) a0) (qrot q1 a1) in
  let v1 := V3 (v3x (mo_v m) + (v3x f - v3x grav) * dt) (v3y (mo_v m) + (v3y f - v3y grav) * dt) (v3z (mo_v m) + (v3z f - v3z grav) * dt) in
  let vm := mean (mo_v m) v1 in
  Motion (V3 (v3x (mo_p m) + v3x vm * dt) (v3y (mo_p m) + v3y vm * dt) (v3z (mo_p m) + v3z vm * dt)) v1 q1.
