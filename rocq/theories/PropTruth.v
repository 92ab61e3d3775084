(** C84: an estimator that starts at the truth and is given exact data stays at the truth. *)
From Coq Require Import ZArith Reals List Bool.
From stdpp Require Import gmap list.
From Verif Require Import Fp Scalar Base LinAlg MathLib Msg DataLoader FeatureManager FrameManager Window Attitude Propagator Pnp VisionUpdate Backend
  WindowSpec QueueSpec UpdSpec GeoSpec BackendSpec InitSpec InitWitness TruthSpec TruthFacts TruthRunFacts TruthResetFacts TruthWitness.
Import ListNotations.
Local Open Scope R_scope.

Theorem C84_update : forall (o : voracle R) c (s s' : vstate R) ts thr pol it r fs' b,
  valid_order (vo_ord o) -> valid_norder (vo_nord o) -> exact_svd (vo_svd o) -> all_unit s -> consecutive b (wn_frames (vs_win s)) ->
  from_image ts thr (pq_items (vs_pq s)) (it :: r) -> coherent (vc_grav c) (pq_ba (vs_pq s)) (pq_bg (vs_pq s)) (it :: r) ->
  newest_at (wn_frames (vs_win s)) (pi_mo it) fs' ->
  (forall l f id p ft, wn_frames (vs_win s) = l ++ [f] -> fr_feats f !! id = Some p -> hp_cells (wn_heap (vs_win s)) !! p = Some ft -> exists X, exact_track (vs_ext s) fs' X ft) ->
  vision_update o c s ts thr = Ok (s', true, pol) ->
  vs_ext s' = vs_ext s /\ pq_ba (vs_pq s') = pq_ba (vs_pq s) /\ pq_bg (vs_pq s') = pq_bg (vs_pq s) /\ wn_frames (vs_win s') = fs' /\
  map (fun x => (pi_mo x, pi_a x, pi_g x, pi_ts x)) (pq_items (vs_pq s')) = map (fun x => (pi_mo x, pi_a x, pi_g x, pi_ts x)) (it :: r).
Proof. exact update_moving. Qed.
Print Assumptions C84_update.

(** The body moves one metre per second along its first axis; it sees ten points in two frames. *)
Example C84_update_example : exists fs' s' pol,
  valid_order (vo_ord (bo_vis t_o)) /\ valid_norder (vo_nord (bo_vis t_o)) /\ exact_svd (vo_svd (bo_vis t_o)) /\ all_unit t_vs /\
  consecutive 1 (wn_frames (vs_win t_vs)) /\ length (wn_frames (vs_win t_vs)) = 2%nat /\
  from_image (f64_of_Z 2) t_thr (pq_items (vs_pq t_vs)) [t_i2; t_i3] /\ coherent (vc_grav t_c) (pq_ba (vs_pq t_vs)) (pq_bg (vs_pq t_vs)) [t_i2; t_i3] /\
  newest_at (wn_frames (vs_win t_vs)) (pi_mo t_i2) fs' /\
  (forall l f id p ft, wn_frames (vs_win t_vs) = l ++ [f] -> fr_feats f !! id = Some p -> hp_cells (wn_heap (vs_win t_vs)) !! p = Some ft -> exists X, exact_track (vs_ext t_vs) fs' X ft) /\
  vision_update (bo_vis t_o) t_c t_vs (f64_of_Z 2) t_thr = Ok (s', true, pol).
Proof. exact t_update_example. Qed.

Theorem C84_run : forall c exts Y q p a ba bg ops s0 s, resting (vc_grav c) exts Y q p a ba bg s0 -> List.Forall (rest_op exts Y a bg) ops ->
  stays_initialized c s0 ops -> b_hist c s0 ops = Ok s -> resting (vc_grav c) exts Y q p a ba bg s.
Proof. exact resting_run. Qed.
Print Assumptions C84_run.

Theorem C84_published : forall grav exts Y q p a ba bg s, resting grav exts Y q p a ba bg s ->
  exists t0 t1, b_publish_oldest s = Some (Motion p v3zero q, ba, bg, t0) /\ b_publish_newest s = Some (Motion p v3zero q, ba, bg, t1).
Proof. exact resting_published. Qed.
Print Assumptions C84_published.

(** A tilted body at rest that sees ten points in stereo; the call updates the filter with the second frame. *)
Example C84_run_example : resting (vc_grav t_c) i_exts t_Y i_q v3zero t_a v3zero v3zero t_s /\ List.Forall (rest_op i_exts t_Y t_a v3zero) [BRun t_o] /\
  stays_initialized t_c t_s [BRun t_o] /\ exists s, b_hist t_c t_s [BRun t_o] = Ok s.
Proof. exact t_run_example. Qed.

Theorem C84_reset : forall c exts Y q a ops s0 s, settled (vc_grav c) exts Y q a s0 -> List.Forall (settled_op exts Y a) ops ->
  b_hist c s0 ops = Ok s -> settled (vc_grav c) exts Y q a s.
Proof. exact settled_run. Qed.
Print Assumptions C84_reset.

Theorem C84_reset_published : forall grav exts Y q a s, settled grav exts Y q a s ->
  (forall m ba bg t, b_publish_oldest s = Some (m, ba, bg, t) \/ b_publish_newest s = Some (m, ba, bg, t) -> m = Motion v3zero v3zero q /\ ba = v3zero /\ bg = v3zero) /\
  (b_status s = Initialized -> b_publish_oldest s <> None /\ b_publish_newest s <> None).
Proof. exact settled_published. Qed.
Print Assumptions C84_reset_published.

(** The same body; the back end is reset and initializes again from the two frames. *)
Example C84_reset_example : settled (vc_grav t_c) i_exts t_Y i_q t_a t_s /\ List.Forall (settled_op i_exts t_Y t_a) [BReset; BRun t_o] /\
  exists s, b_hist t_c t_s [BReset; BRun t_o] = Ok s /\ b_status s = Initialized.
Proof. exact t_reset_example. Qed.
