(** Property C86: the biases of the attitude estimator and of the propagator. *)
From Coq Require Import ZArith Bool List.
From Verif Require Import Fp Scalar Base LinAlg Msg DataLoader FeatureManager FrameManager Window MathLib Attitude Propagator
  Triangulate Pnp VisionUpdate Backend BackendSpec FeedbackFacts BackWitness FeedbackWitness.
Import ListNotations.
Local Open Scope nat_scope.

(** C86: an operation leaves the biases of both, or it is a RunOnce with an image after which both have the same. *)
Theorem C86_step : forall (T : Type) (S : SOps T) c op (s s' : bstate T), b_step c s op = Ok s' ->
  ((at_ba (b_att s'), at_bg (b_att s')) = (at_ba (b_att s), at_bg (b_att s)) /\ (pq_ba (b_pq s'), pq_bg (b_pq s')) = (pq_ba (b_pq s), pq_bg (b_pq s))) \/
  (exists o, op = BRun o) /\ next_feat s <> None /\ b_status s' = Initialized /\ (at_ba (b_att s'), at_bg (b_att s')) = (pq_ba (b_pq s'), pq_bg (b_pq s')).
Proof. exact @bias_step. Qed.
Print Assumptions C86_step.
Example C86_step_example : exists s s', b_hist (w_c 0) w_s0 k_push = Ok s /\ b_step (w_c 0) s (BRun w_o) = Ok s' /\
  b_status s = NeedInit /\ b_status s' = Initialized /\ f32_is 0 (v3x (at_ba (b_att s))) = true /\ f32_is 1 (v3x (pq_ba (b_pq s))) = true /\ f32_is 1 (v3x (at_ba (b_att s'))) = true.
Proof. exact k_step. Qed.
(** Over histories: the biases are the same, or no image was ever used and both have their initial values. *)
Theorem C86_shared : forall (T : Type) (S : SOps T) c ops (s0 s : bstate T), fresh s0 -> b_hist c s0 ops = Ok s ->
  (at_ba (b_att s) = pq_ba (b_pq s) /\ at_bg (b_att s) = pq_bg (b_pq s)) \/
  (b_status s = NeedInit /\ at_ba (b_att s) = v3zero /\ at_bg (b_att s) = v3zero /\ pq_ba (b_pq s) = pq_ba (b_pq s0) /\ pq_bg (b_pq s) = pq_bg (b_pq s0)).
Proof. exact @biases_shared. Qed.
Print Assumptions C86_shared.
(** While the back end is initialized they are the same. *)
Theorem C86_initialized : forall (T : Type) (S : SOps T) c ops (s0 s : bstate T), fresh s0 -> b_hist c s0 ops = Ok s -> b_status s = Initialized ->
  at_ba (b_att s) = pq_ba (b_pq s) /\ at_bg (b_att s) = pq_bg (b_pq s).
Proof. exact @biases_shared_init. Qed.
Print Assumptions C86_initialized.
Example C86_initialized_example : exists s, fresh w_s0 /\ b_hist (w_c 0) w_s0 (w_ops 4) = Ok s /\ b_status s = Initialized /\ f32_is 1 (v3x (at_ba (b_att s))) = true.
Proof. exact k_init. Qed.
(** False before: the configured bias is not removed from the samples that give the first attitude. *)
Theorem C86_start_refuted : exists (lm : libm32) (c : vcfg f32) (s0 s : bstate f32) ops i,
  fresh (S := ops_f32 lm) s0 /\ b_hist (S := ops_f32 lm) c s0 ops = Ok s /\ at_items (b_att s) = [i] /\ f32_is 10 (v3x (ai_a i)) = true /\
  f32_is 1 (v3x (pq_ba (b_pq s))) = true /\ f32_is 0 (v3x (at_ba (b_att s))) = true.
Proof. destruct k_raw as (s & i & H). exists lm0, (w_c 0), w_s0, s, k_first, i. exact (conj w_fresh H). Qed.
Print Assumptions C86_start_refuted.
