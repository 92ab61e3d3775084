(** Concrete histories for C86. *)
From Coq Require Import ZArith List Bool Lia.
From Verif Require Import Fp FpFacts Scalar Base LinAlg Msg DataLoader FeatureManager FrameManager Window MathLib Attitude Propagator
  Triangulate Pnp VisionUpdate Backend LoaderSpec BackendSpec BackBiasFacts FeedbackFacts BackWitness.
Import ListNotations.
Local Open Scope nat_scope.

Definition f32_is (n : Z) (x : f32) : bool := f32_leb (num n) x && f32_leb x (num n).

(** The second image initializes the back end and updates it: the configured accelerometer bias reaches the attitude estimator. *)
Definition k_push : list (b_op f32) := w_ops 1 ++ w_push 1.
Lemma k_step : exists s s', b_hist (w_c 0) w_s0 k_push = Ok s /\ b_step (w_c 0) s (BRun w_o) = Ok s' /\
  b_status s = NeedInit /\ b_status s' = Initialized /\ f32_is 0 (v3x (at_ba (b_att s))) = true /\ f32_is 1 (v3x (pq_ba (b_pq s))) = true /\ f32_is 1 (v3x (at_ba (b_att s'))) = true.
Proof.
  destruct (chk_ex _ (fun s => negb (is_init s) && f32_is 0 (v3x (at_ba (b_att s))) && f32_is 1 (v3x (pq_ba (b_pq s))) &&
     chk (fun s' => is_init s' && f32_is 1 (v3x (at_ba (b_att s')))) (b_step (w_c 0) s (BRun w_o))) (b_hist (w_c 0) w_s0 k_push)) as (s & E & H); [vm_compute; reflexivity|].
  bools. apply chk_ex in H0 as (s' & E' & H0). bools. exists s, s'. auto 10.
Qed.
(** After four images. *)
Lemma k_init : exists s, fresh w_s0 /\ b_hist (w_c 0) w_s0 (w_ops 4) = Ok s /\ b_status s = Initialized /\ f32_is 1 (v3x (at_ba (b_att s))) = true.
Proof.
  destruct (chk_ex _ (fun s => is_init s && f32_is 1 (v3x (at_ba (b_att s)))) (b_hist (w_c 0) w_s0 (w_ops 4))) as (s & E & H); [vm_compute; reflexivity|].
  bools. exists s. split; [exact w_fresh|]. auto.
Qed.
(** Before the first image the attitude estimator takes the reading as it is, although a bias of 1 is configured. *)
Definition k_first : list (b_op f32) := [BImu (ImuMsg v3zero (V3 (num 10) s0 s0) (f64_of_Z 0)); BRun w_o].
Lemma k_raw : exists s i, b_hist (w_c 0) w_s0 k_first = Ok s /\ at_items (b_att s) = [i] /\ f32_is 10 (v3x (ai_a i)) = true /\
  f32_is 1 (v3x (pq_ba (b_pq s))) = true /\ f32_is 0 (v3x (at_ba (b_att s))) = true.
Proof.
  destruct (chk_ex _ (fun s => match at_items (b_att s) with [i] => f32_is 10 (v3x (ai_a i)) | _ => false end && f32_is 1 (v3x (pq_ba (b_pq s))) && f32_is 0 (v3x (at_ba (b_att s))))
    (b_hist (w_c 0) w_s0 k_first)) as (s & E & H); [vm_compute; reflexivity|].
  apply andb_true_iff in H as [H H2]. apply andb_true_iff in H as [H H1]. destruct (at_items (b_att s)) as [|i [|]] eqn:Ea; try discriminate H.
  exists s, i. auto 10.
Qed.
