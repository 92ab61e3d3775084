(** Specification vocabulary for invariants of whole runs in exact arithmetic (C76, C77). Nothing here is used by the model. *)
From Coq Require Import Reals List.
From Verif Require Import Fp Scalar Base LinAlg Msg DataLoader FeatureManager FrameManager Window MathLib Attitude Propagator
  Triangulate Pnp VisionUpdate Backend MatFacts NumSpec UpdSpec.
Import ListNotations.

(** Every attitude in the state is a unit quaternion: cameras, frames, attitude estimator, initial state, queue. *)
Definition unit_attitudes (s : bstate R) : Prop :=
  List.Forall (fun e => qnorm2 (ex_q e) = 1%R) (b_ext s) /\ List.Forall (fun f => qnorm2 (fr_q f) = 1%R) (wn_frames (b_win s)) /\
  List.Forall (fun it => qnorm2 (ai_q it) = 1%R) (at_items (b_att s)) /\
  qnorm2 (mo_q (pq_init (b_pq s))) = 1%R /\ List.Forall (fun it => qnorm2 (mo_q (pi_mo it)) = 1%R) (pq_items (b_pq s)).

(** An eigen-solver without error: every symmetric matrix is decomposed exactly. *)
Definition exact_solver (saes : mat R -> eigen_dec R) : Prop := forall a, mr a = mc a -> fsym (mr a) (me a) ->
  mr (ed_vec (saes a)) = mr a /\ mc (ed_vec (saes a)) = mr a /\ eigen_of (mr a) (me a) (me (ed_vec (saes a))) (ed_val (saes a)).

(** The covariance of every queued state, with the extrinsics and the cloned poses, is symmetric positive semidefinite. *)
Definition covariances_psd (s : bstate R) : Prop := exists n, psd_queue n (b_pq s).
