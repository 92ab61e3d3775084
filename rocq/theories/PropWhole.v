(** C96: a vision update, from the messages to the new states. *)
From Coq Require Import ZArith Reals List Bool.
From stdpp Require Import gmap list.
From Verif Require Import Fp Scalar Base LinAlg MathLib MatFacts Msg DataLoader FeatureManager FrameManager Window Attitude Propagator VisionUpdate Backend
  LoaderSpec WindowSpec QueueSpec UpdSpec NumSpec RunSpec KalmanFacts BackendSpec InitWitness TruthWitness UpdWitness BlindSpec BlindWitness BundleSpec WholeSpec
  ParallaxFacts WholeFacts WholeRunFacts WholeWitness.
Import ListNotations.
Local Open Scope nat_scope.

(** Every vision update of a run is the joint estimate of states and points from what the messages of the window reported. *)
Theorem C96_run : forall c ops (s0 s : bstate R) st period exts ba bg na ng nwa nwg o m ts thr v v' pol,
  s0 = b_new st period exts ba bg na ng nwa nwg -> (0 <= na)%R -> (0 <= ng)%R -> (0 <= nwa)%R -> (0 <= nwg)%R ->
  List.Forall (fun e => qnorm2 (ex_q e) = 1%R) exts -> good_tracks (length exts) (pushed_feat ops) ->
  (Z.of_nat (length (pushed_feat ops)) < 4294967294)%Z -> sizes_ok c (length exts) -> (zero_thr < vc_noise c * vc_noise c)%R ->
  List.Forall oracle_ok (oracles ops) -> List.Forall (fun o => exact_solver (vo_saes (bo_vis o))) (oracles ops) ->
  oracle_ok o -> exact_solver (vo_saes (bo_vis o)) -> exact_qr (bo_vis o) ->
  b_hist c s0 ops = Ok s -> runs_update c o s m ts thr v v' pol ->
  exists b A, (A ++ [m]) `sublist_of` map feat_shifted (pushed_feat ops) /\ updated (vo_nord (bo_vis o)) (vo_rand (bo_vis o)) c b (A ++ [m]) ts thr v v' pol.
Proof. exact whole_run. Qed.
Print Assumptions C96_run.
(** A level body at rest that sees ten points in stereo, from the configuration to the first update. *)
Example C96_run_example : h_s0 = b_new (DlStatics None None) t_thr i_exts v3zero v3zero 1%R 1%R 1%R 1%R /\
  List.Forall (fun e => qnorm2 (ex_q e) = 1%R) i_exts /\ good_tracks (length i_exts) (pushed_feat h_ops) /\
  (Z.of_nat (length (pushed_feat h_ops)) < 4294967294)%Z /\ sizes_ok h_c (length i_exts) /\ (zero_thr < vc_noise h_c * vc_noise h_c)%R /\
  List.Forall oracle_ok (oracles h_ops) /\ List.Forall (fun o => exact_solver (vo_saes (bo_vis o))) (oracles h_ops) /\
  oracle_ok h_o /\ exact_solver (vo_saes (bo_vis h_o)) /\ exact_qr (bo_vis h_o) /\
  b_hist h_c h_s0 h_ops = Ok h_s /\ exists v v' pol, runs_update h_c h_o h_s (t_m2 0%R) (f64_of_Z 2) t_thr v v' pol.
Proof. exact h_example. Qed.

(** The measurements fix a point exactly when two of them see it in different directions. *)
Theorem C96_parallax : forall nord b exts fs (ft : feature R), List.Forall (fun e => qnorm2 (ex_q e) = 1%R) exts -> List.Forall (fun f => qnorm2 (fr_q f) = 1%R) fs ->
  (locatable nord b exts fs ft <-> parallax nord b exts fs ft).
Proof. exact locatable_parallax. Qed.
Print Assumptions C96_parallax.
Example C96_parallax_example : List.Forall (fun e => qnorm2 (ex_q e) = 1%R) [n_e] /\ List.Forall (fun f => qnorm2 (fr_q f) = 1%R) [n_f0; n_f1] /\
  parallax (vo_nord bl_o) 1 [n_e] [n_f0; n_f1] n_f /\ ~ parallax (vo_nord bl_o) 1 [n_e] [n_f0; n_f1] h_once.
Proof. exact h_parallax. Qed.
