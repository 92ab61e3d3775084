(** C95: what a vision update minimises is the reprojection error. *)
From Coq Require Import Reals List Arith ZArith.
From Coquelicot Require Import Coquelicot.
From stdpp Require Import gmap.
From Verif Require Import Fp Scalar Base LinAlg MathLib MatFacts Msg FeatureManager FrameManager Window WindowSpec Propagator VisionUpdate
  UpdSpec KalmanFacts UpdWitness DerivSpec BundleSpec InjectSpec MisfitSpec MisfitFacts MisfitWitness.
Import ListNotations.
Local Open Scope nat_scope.

(** C95: the misfit in the cost of C90 is the first-order expansion of the reprojection error, measured minus predicted, in
    the state corrected as in C71. *)
Theorem C95_misfit : forall (s : vstate R) (st : R -> vstate R) dx, newest_is_head s -> all_unit s ->
  (forall t, corrected (scaled t dx) s (st t)) ->
  forall k cam e f pw z r dp, nth_error (vs_ext s) cam = Some e -> nth_error (wn_frames (vs_win s)) k = Some f ->
  (zero_thr < Rabs (v3z (cam_point (fr_q f) (fr_p f) (ex_q e) (ex_p e) pw)))%R -> r < 2 ->
  let left t := reproj_in (st t) k cam (v3add pw (v3scale dp t)) z r in
  let lin t := misfit (vs_ext s) (wn_frames (vs_win s)) pw (k, cam, z) r (v3scale dp t) (fun j => t * me dx j 0%nat)%R in
  left 0%R = reproj e f pw z r /\ lin 0%R = left 0%R /\ (forall t, lin t = left 0 + t * (lin 1 - left 0))%R /\ is_derive left 0%R (lin 1 - left 0)%R.
Proof. exact misfit_is_linearization. Qed.
Print Assumptions C95_misfit.
Example C95_example : newest_is_head u_s /\ all_unit u_s /\ (forall t, corrected (scaled t u_dx) u_s (mf_st t)) /\
  nth_error (vs_ext u_s) 0 = Some n_e /\ nth_error (wn_frames (vs_win u_s)) 0 = Some (u_frame 1) /\
  (zero_thr < Rabs (v3z (cam_point (fr_q (u_frame 1)) (fr_p (u_frame 1)) (ex_q n_e) (ex_p n_e) (V3 1 (-1) 2)%R)))%R /\
  vs_ext (mf_st 1%R) <> vs_ext u_s.
Proof. exact mf_hyp. Qed.

(** False for a point less than 1e-10 in front of the camera: its error is not looked at. *)
Theorem C95_near_refuted : exists s k cam e f pw z, newest_is_head s /\ all_unit s /\ nth_error (vs_ext s) cam = Some e /\ nth_error (wn_frames (vs_win s)) k = Some f /\
  (0 < v3z (cam_point (fr_q f) (fr_p f) (ex_q e) (ex_p e) pw))%R /\ reproj e f pw z 0 = 1%R /\
  forall r dp x, misfit (vs_ext s) (wn_frames (vs_win s)) pw (k, cam, z) r dp x = 0%R.
Proof. exact near_refuted. Qed.
Print Assumptions C95_near_refuted.
