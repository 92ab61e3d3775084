(** Property C104: the answers of the input calls. *)
From Coq Require Import ZArith List Bool.
From stdpp Require Import gmap.
From Verif Require Import Fp Scalar Base LinAlg Msg DataLoader Window Propagator VisionUpdate Backend BackendSpec ApiSpec BackWitness ApiFacts.
Import ListNotations.
Local Open Scope nat_scope.

(** C104: GetIMUMessage always answers true and changes at most the queue of samples, at its end. *)
Theorem C104_imu : forall (T : Type) (s : bstate T) m s' r, b_imu s m = (s', r) -> r = true /\ only_loader s s' /\ dl_feat (b_dl s') = dl_feat (b_dl s) /\
  exists k, dl_imu (b_dl s') = dl_imu (b_dl s) ++ k /\ (k = [] \/ exists t, k = [ImuMsg (im_gyro m) (im_accel m) t]).
Proof. exact @imu_call. Qed.
Print Assumptions C104_imu.
(** GetFeaturesMessage likewise; a message with observations missing is never kept. *)
Theorem C104_features : forall (T : Type) (s : bstate T) m s' r, b_feat s m = (s', r) -> r = true /\ only_loader s s' /\ dl_imu (b_dl s') = dl_imu (b_dl s) /\
  exists k, dl_feat (b_dl s') = dl_feat (b_dl s) ++ k /\ (k = [] \/ exists t, length (fm_ids m) = length (fm_obs m) /\ k = [FeatMsg (fm_ids m) (fm_obs m) (fm_flag m) t]).
Proof. exact @feat_call. Qed.
Print Assumptions C104_features.
(** RunOnceTest answers false exactly when nothing waits, and throws away just what RunOnce would have used. *)
Theorem C104_test : forall (T : Type) (S : SOps T) (s : bstate T) s' r, run_once_test s = (s', r) -> only_loader s s' /\ b_st s' = b_st s /\
  (r = false <-> dl_imu (b_dl s) = [] /\ dl_feat (b_dl s) = []) /\
  exists ki kf, dl_imu (b_dl s) = ki ++ dl_imu (b_dl s') /\ dl_feat (b_dl s) = kf ++ dl_feat (b_dl s') /\ length ki <= 1 /\ length kf <= 1 /\
    (r = true -> 1 <= length ki + length kf) /\
    forall c o s2 r2, run_once c o s = Ok (s2, r2) -> b_dl s2 = b_dl s'.
Proof. exact @test_call. Qed.
Print Assumptions C104_test.
Example C104_test_example : length (dl_imu (b_dl p_one)) = 1 /\ exists s', run_once_test p_one = (s', true) /\ dl_imu (b_dl s') = [].
Proof. exact (conj (proj1 late_taken) test_one). Qed.
(** False: the answer does not tell whether the message was kept. An inconsistent features message and a late sample are dropped and answered true. *)
Theorem C104_answer_refuted : exists (lm : libm32) (s0 : bstate f32), fresh (S := ops_f32 lm) s0 /\
  (exists m s', b_feat s0 m = (s', true) /\ length (fm_ids m) <> length (fm_obs m) /\ dl_feat (b_dl s') = []) /\
  exists m1 m2 s1 s2, b_imu s0 m1 = (s1, true) /\ length (dl_imu (b_dl s1)) = 1 /\ b_imu s1 m2 = (s2, true) /\ dl_imu (b_dl s2) = dl_imu (b_dl s1).
Proof.
  exists lm0, w_s0. split; [exact w_fresh|]. split.
  - destruct short_taken as (s' & H1 & H2). exists p_short, s'. repeat split; [exact H1|discriminate|exact H2].
  - destruct late_taken as (H0 & s' & H1 & H2). exists (w_imu 3), (w_imu 2), p_one, s'. exact (conj eq_refl (conj H0 (conj H1 H2))).
Qed.
Print Assumptions C104_answer_refuted.
