(** Examples for C95. *)
From Coq Require Import Reals List Arith ZArith Lra Lia.
From stdpp Require Import gmap.
From Verif Require Import Fp Scalar Base LinAlg MathLib MatFacts Msg FeatureManager FrameManager Window WindowSpec Propagator VisionUpdate
  UpdSpec KalmanFacts MeasFacts UnitFacts QuatFacts UpdWitness DerivSpec BlindFacts BundleSpec InjectSpec InjectFacts MisfitSpec MisfitFacts.
Import ListNotations.
Local Open Scope nat_scope.

(** Two frames and a camera, the correction of the example of C71 and its multiples. *)
Definition mf_st (t : R) : vstate R := match apply_delta (scaled t u_dx) u_s with Ok s => s | Ub _ => u_s end.
Lemma mf_corrected : forall t, corrected (scaled t u_dx) u_s (mf_st t).
Proof. intros t. apply apply_delta_corrected; [reflexivity|exact u_alone]. Qed.
Lemma mf_head : newest_is_head u_s.
Proof. exists u_item, [], (u_frame 2). repeat split. Qed.
Lemma mf_depth : (zero_thr < Rabs (v3z (cam_point (fr_q (u_frame 1)) (fr_p (u_frame 1)) (ex_q n_e) (ex_p n_e) (V3 1 (-1) 2)%R)))%R.
Proof.
  pose proof zero_thr_small. replace (v3z _) with 2%R; [rewrite Rabs_pos_eq; lra|].
  unfold cam_point, u_frame, n_e. cbn [fr_q fr_p ex_q ex_p]. vunf. ring.
Qed.
Lemma mf_hyp : newest_is_head u_s /\ all_unit u_s /\ (forall t, corrected (scaled t u_dx) u_s (mf_st t)) /\
  nth_error (vs_ext u_s) 0 = Some n_e /\ nth_error (wn_frames (vs_win u_s)) 0 = Some (u_frame 1) /\
  (zero_thr < Rabs (v3z (cam_point (fr_q (u_frame 1)) (fr_p (u_frame 1)) (ex_q n_e) (ex_p n_e) (V3 1 (-1) 2)%R)))%R /\
  vs_ext (mf_st 1%R) <> vs_ext u_s.
Proof.
  split; [exact mf_head|]. split; [exact u_unit|]. split; [exact mf_corrected|]. split; [reflexivity|]. split; [reflexivity|]. split; [exact mf_depth|].
  intros E. injection E as _ Hx _ _. revert Hx. cbn. lra.
Qed.

(** A point that is hardly in front of the camera: its measurement is left out. *)
Definition mf_near : v3 R := V3 0%R 0%R (zero_thr / 2)%R.
Lemma mf_near_point : cam_point (fr_q (u_frame 1)) (fr_p (u_frame 1)) (ex_q n_e) (ex_p n_e) mf_near = mf_near.
Proof. unfold cam_point, u_frame, n_e, mf_near. cbn [fr_q fr_p ex_q ex_p]. generalize (zero_thr / 2)%R. intros d. vunf. apply v3_ext; rops; ring. Qed.
Lemma near_refuted : exists s k cam e f pw z, newest_is_head s /\ all_unit s /\ nth_error (vs_ext s) cam = Some e /\ nth_error (wn_frames (vs_win s)) k = Some f /\
  (0 < v3z (cam_point (fr_q f) (fr_p f) (ex_q e) (ex_p e) pw))%R /\ reproj e f pw z 0 = 1%R /\
  forall r dp x, misfit (vs_ext s) (wn_frames (vs_win s)) pw (k, cam, z) r dp x = 0%R.
Proof.
  exists u_s, 0, 0, n_e, (u_frame 1), mf_near, (V2 1%R 0%R). split; [exact mf_head|]. split; [exact u_unit|]. split; [reflexivity|]. split; [reflexivity|].
  pose proof zero_thr_pos as Hp. assert (U1 : qunit (fr_q (u_frame 1))) by apply qid_unit. assert (U2 : qunit (ex_q n_e)) by apply qid_unit.
  split; [rewrite mf_near_point; cbn [v3z mf_near]; lra|]. split.
  - unfold reproj. rewrite mf_near_point. cbv zeta. cbn [v3x v3z mf_near v2x]. field. lra.
  - intros r dp x. unfold misfit, meas_entry. cbn [vs_ext vs_win u_s wn_frames nth_error]. rewrite meas_pc_point by assumption. rewrite mf_near_point. cbn [v3z mf_near].
    replace (sltb szero (sabs (zero_thr / 2)%R)) with false.
    + rewrite !rsum_0; [cbn; ring| |]; intros; cbn; ring.
    + symmetry. apply sltb_R_false. cbn [sabs ops_R]. rewrite Rabs_pos_eq by lra. fold zero_thr. lra.
Qed.
