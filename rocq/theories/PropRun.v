(** Properties C76 and C77: invariants of whole runs in exact arithmetic. *)
From Coq Require Import ZArith Reals List.
From Verif Require Import Fp Scalar Base LinAlg Msg DataLoader FeatureManager FrameManager Window MathLib Attitude Propagator
  Triangulate Pnp VisionUpdate Backend BackendSpec MatFacts NumSpec UpdSpec RunSpec UnitRunFacts CovRunFacts RunWitness.
Import ListNotations.

(** C76: from unit extrinsics, every attitude is a unit quaternion at every time, whatever the solvers return ... *)
Theorem C76_run : forall c ops (s0 s : bstate R), BackendSpec.fresh s0 -> List.Forall (fun e => qnorm2 (ex_q e) = 1%R) (b_ext s0) ->
  b_hist c s0 ops = Ok s -> unit_attitudes s.
Proof. exact run_unit. Qed.
Print Assumptions C76_run.
(** ... in particular every published one. *)
Theorem C76_published : forall c ops (s0 s : bstate R) m ba bg t, BackendSpec.fresh s0 -> List.Forall (fun e => qnorm2 (ex_q e) = 1%R) (b_ext s0) ->
  b_hist c s0 ops = Ok s -> b_publish_newest s = Some (m, ba, bg, t) \/ b_publish_oldest s = Some (m, ba, bg, t) -> qnorm2 (mo_q m) = 1%R.
Proof. exact published_unit. Qed.
Print Assumptions C76_published.
Example C76_example : BackendSpec.fresh r_s0 /\ List.Forall (fun e => qnorm2 (ex_q e) = 1%R) (b_ext r_s0) /\
  exists s, b_hist r_c r_s0 (r_ops 1) = Ok s /\ (1 <= n_frames s)%nat.
Proof. destruct (r_runs 1 eq_refl) as (A & B & _). exact (conj A (conj B r_frame)). Qed.

(** C77: with an exact eigen-solver and non-negative noise, every queued covariance is symmetric positive semidefinite
    at every time, through initializations, updates, lost tracks and resets. *)
Theorem C77_psd : forall c ops (s0 s : bstate R) st period exts ba bg na ng nwa nwg, (0 <= vc_maxwin c < 4294967295)%Z ->
  (0 <= na)%R -> (0 <= ng)%R -> (0 <= nwa)%R -> (0 <= nwg)%R -> s0 = b_new st period exts ba bg na ng nwa nwg ->
  List.Forall (fun o => exact_solver (vo_saes (bo_vis o))) (oracles ops) -> b_hist c s0 ops = Ok s -> covariances_psd s.
Proof. exact run_psd. Qed.
Print Assumptions C77_psd.
(** There is an exact eigen-solver, and any number of rounds with it runs through. *)
Example C77_example : forall n, (Z.of_nat n < 4294967294)%Z -> BackendSpec.fresh r_s0 /\ List.Forall (fun e => qnorm2 (ex_q e) = 1%R) (b_ext r_s0) /\
  List.Forall (fun o => exact_solver (vo_saes (bo_vis o))) (oracles (r_ops n)) /\ exists s, b_hist r_c r_s0 (r_ops n) = Ok s.
Proof. exact r_runs. Qed.
