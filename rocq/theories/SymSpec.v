(** Specification vocabulary for C103. Nothing here is used by the model. *)
From Coq Require Import ZArith List Arith.
From Verif Require Import Fp Scalar Base LinAlg FeatureManager FrameManager Window Propagator VisionUpdate.
Local Open Scope nat_scope.

(** The 15 by 15 block of a covariance is symmetric, bit for bit: equal floats, with equal signs of zero, on both sides of the diagonal. *)
Definition sym15 (m : mat f32) : Prop := forall i j, i < 15 -> j < 15 -> me m i j = me m j i.
(** The vision update started in [s] measures at least one feature. *)
Definition some_feature (lm : libm32) (o : voracle f32) (c : vcfg f32) (s : vstate f32) (ts thr : f64) : Prop :=
  exists q fs h p l, pq_reset_origin (vs_pq s) ts thr = (q, true) /\ update_newest (wn_frames (vs_win s)) q = Ok (Some fs) /\
    select_good (S := ops_f32 lm) o c (vs_ext s) fs (wn_heap (vs_win s)) = Ok (h, p :: l).
