(** Property C103: symmetry of covariances in float arithmetic. *)
From Coq Require Import ZArith Bool List.
From Flocq Require Import IEEE754.BinarySingleNaN.
From Verif Require Import Fp Scalar Base LinAlg Msg DataLoader FeatureManager FrameManager Window MathLib Attitude Propagator
  Triangulate Pnp VisionUpdate Backend BackendSpec SymSpec SymFacts BackWitness SymWitness.
Import ListNotations.
Local Open Scope nat_scope.

(** C103: the covariance that a Kalman update leaves is symmetric bit for bit, whatever the prior, the measurement and the decomposition were,
    rounding, overflow and NaN included. *)
Theorem C103_update : forall (lm : libm32) saes noise P Hr K dx P', kalman (S := ops_f32 lm) saes noise P Hr = Ok (K, dx, P') -> forall i j, me P' i j = me P' j i.
Proof. exact kalman_bits. Qed.
Print Assumptions C103_update.
Example C103_update_example : exists K dx P', kalman sy_saes s1 sy_P sy_H = Ok (K, dx, P') /\ f32_ltb (me P' 0 1) s0 = true /\ me sy_P 0 1 <> me sy_P 1 0.
Proof. exact sy_kalman. Qed.
(** After a vision update that measures a feature the covariance of the corrected state is symmetric bit for bit, also after augmentation and marginalization. *)
Theorem C103_state : forall (lm : libm32) o c s ts thr s' pol, vision_update (S := ops_f32 lm) o c s ts thr = Ok (s', true, pol) -> some_feature lm o c s ts thr ->
  exists it, front (pq_items (vs_pq s')) = Ok it /\ sym15 (pi_cov it).
Proof. exact vision_bits. Qed.
Print Assumptions C103_state.
Example C103_state_example : exists v ts thr s' pol, vision_update (bo_vis w_o) (w_c 1) v ts thr = Ok (s', true, pol) /\ some_feature lm0 (bo_vis w_o) (w_c 1) v ts thr.
Proof. exact sy_update. Qed.
(** False for propagated covariances: in this run the covariance of position and velocity of the newest state differs on the two sides of the diagonal. *)
Theorem C103_propagated_refuted : exists (lm : libm32) c (b0 s : bstate f32) ops it, fresh (S := ops_f32 lm) b0 /\ b_hist (S := ops_f32 lm) c b0 ops = Ok s /\ b_status s = Initialized /\
  back (pq_items (b_pq s)) = Ok it /\ f32_ltb (me (pi_cov it) 0 3) (me (pi_cov it) 3 0) = true /\ ~ sym15 (pi_cov it).
Proof. exact sy_skew. Qed.
Print Assumptions C103_propagated_refuted.
