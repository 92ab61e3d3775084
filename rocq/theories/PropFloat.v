(** Property C97: attitudes in float arithmetic. *)
From Coq Require Import ZArith Reals List Bool.
From Flocq Require Import Core BinarySingleNaN.
From Verif Require Import Fp Scalar Base LinAlg MathLib Msg FeatureManager FrameManager Window Attitude Propagator VisionUpdate
  FloatSpec FloatQueueFacts FloatZeroFacts FloatWitness.
Import ListNotations.
Local Open Scope R_scope.

(** C97: in binary32, with rates and biases of at most 1024 rad/s per axis and at most a second between samples, every attitude of the queue has
    squared length within 2^-20 of one, after any number of samples: rounding errors do not add up. *)
Theorem C97_propagate : forall (lm : libm32) grav n l (q : pqueue f32),
  paced 1024 (map item_rate (pq_items q) ++ map (fun s => (snd (fst s), snd s)) l) -> v3_within 1024 (pq_bg q) -> near_unit (mo_q (pq_init q)) ->
  Forall (fun it => near_unit (item_att it)) (pq_items q) -> Forall (fun it => near_unit (item_att it)) (pq_items (feed (ops_f32 lm) grav n q l)).
Proof. exact feed_unit. Qed.
Print Assumptions C97_propagate.
Example C97_propagate_example : paced 1024 (map item_rate (pq_items fq) ++ map (fun s => (snd (fst s), snd s)) fl) /\ v3_within 1024 (pq_bg fq) /\ near_unit (mo_q (pq_init fq)) /\
  Forall (fun it => near_unit (item_att it)) (pq_items fq) /\ length (pq_items (feed (ops_f32 lmz) zv 1 fq fl)) = 3%nat.
Proof. exact feed_example. Qed.

(** Repropagation from a head of unit length. *)
Theorem C97_repropagate : forall (lm : libm32) grav (q : pqueue f32) it0 r, pq_items q = it0 :: r -> paced 1024 (map item_rate (pq_items q)) -> v3_within 1024 (pq_bg q) ->
  near_unit (item_att it0) -> Forall (fun it => near_unit (item_att it)) (pq_items (pq_repropagate (S := ops_f32 lm) grav q)).
Proof. exact repropagate_unit. Qed.
Print Assumptions C97_repropagate.
Example C97_repropagate_example : exists it0 r, pq_items rq = it0 :: r /\ paced 1024 (map item_rate (pq_items rq)) /\ v3_within 1024 (pq_bg rq) /\ near_unit (item_att it0) /\
  map (fun it => B2SF (qz (item_att it))) (pq_items (pq_repropagate (S := ops_f32 lmz) zv rq)) <> map (fun it => B2SF (qz (item_att it))) (pq_items rq).
Proof. exact reprop_example. Qed.

(** The correction of a vision update: head of the queue, cameras and frames. *)
Theorem C97_correction : forall (lm : libm32) dx (s s' : vstate f32), dx_within dx -> Forall (fun it => near_unit (item_att it)) (pq_items (vs_pq s)) ->
  Forall (fun e => near_unit (ex_q e)) (vs_ext s) -> Forall (fun f => near_unit (fr_q f)) (wn_frames (vs_win s)) -> apply_delta (S := ops_f32 lm) dx s = Ok s' ->
  Forall (fun it => near_unit (item_att it)) (pq_items (vs_pq s')) /\ Forall (fun e => near_unit (ex_q e)) (vs_ext s') /\ Forall (fun f => near_unit (fr_q f)) (wn_frames (vs_win s')).
Proof. exact correction_unit. Qed.
Print Assumptions C97_correction.
Example C97_correction_example : exists s', dx_within dx68 /\ Forall (fun it => near_unit (item_att it)) (pq_items (vs_pq vs68)) /\
  Forall (fun e => near_unit (ex_q e)) (vs_ext vs68) /\ Forall (fun f => near_unit (fr_q f)) (wn_frames (vs_win vs68)) /\ apply_delta (S := ops_f32 lmz) dx68 vs68 = Ok s' /\
  map (fun e => B2SF (qw (ex_q e))) (vs_ext s') <> map (fun e => B2SF (qw (ex_q e))) (vs_ext vs68).
Proof. exact correct_example. Qed.

(** A step of the attitude estimator, with an acceleration that is not zero and a feedback integral of at most 512. *)
Theorem C97_estimator : forall (lm : libm32) grav (st : att f32) a g t it0, back (at_items st) = Ok it0 -> Forall (fun it => near_unit (ai_q it)) (at_items st) ->
  v3_within 16 grav -> 1 <= v3_len2 grav -> v3_within 1024 a -> / 4 <= v3_len2 a -> v3_within 256 g -> v3_within 256 (at_bg st) -> v3_within 512 (ai_g it0) ->
  v3_within 512 (at_err st) -> within_second (ai_ts it0) t -> Forall (fun it => near_unit (ai_q it)) (at_items (fst (att_propagate (S := ops_f32 lm) grav st a g t))).
Proof. exact estimator_unit. Qed.
Print Assumptions C97_estimator.
Example C97_estimator_example : exists it0, back (at_items at68) = Ok it0 /\ Forall (fun it => near_unit (ai_q it)) (at_items at68) /\
  v3_within 16 gr10 /\ 1 <= v3_len2 gr10 /\ v3_within 1024 av /\ / 4 <= v3_len2 av /\ v3_within 256 gv /\ v3_within 256 (at_bg at68) /\ v3_within 512 (ai_g it0) /\
  v3_within 512 (at_err at68) /\ within_second (ai_ts it0) t1 /\ length (at_items (fst (att_propagate (S := ops_f32 lmz) gr10 at68 av gv t1))) = 2%nat.
Proof. exact estimator_example. Qed.

(** False for every finite measurement: a single finite rate of 2^90 overflows the squared norm and the attitude becomes the zero quaternion. *)
Theorem C97_finite_refuted : exists (lm : libm32) grav n (q : pqueue f32) a g t it', Forall (fun it => near_unit (item_att it)) (pq_items q) /\ pq_items q <> [] /\ v3_within huge g /\
  v3_within 0 (pq_bg q) /\ v3_within 16 a /\ paced huge (map item_rate (pq_items q) ++ [(g, t)]) /\
  back (pq_items (pq_propagate (S := ops_f32 lm) grav n q a g t)) = Ok it' /\ q_zero (item_att it').
Proof. exact finite_refuted. Qed.
Print Assumptions C97_finite_refuted.
(** From then on every later attitude of the queue is zero. *)
Theorem C97_zero_lasts : forall (lm : libm32) grav n l (q : pqueue f32) it, back (pq_items q) = Ok it -> q_zero (item_att it) -> v3_within huge (pq_bg q) ->
  paced huge (map item_rate (pq_items q) ++ map (fun s => (snd (fst s), snd s)) l) ->
  exists it', back (pq_items (feed (ops_f32 lm) grav n q l)) = Ok it' /\ q_zero (item_att it').
Proof. exact zero_lasts. Qed.
Print Assumptions C97_zero_lasts.
Example C97_zero_lasts_example : exists it, back (pq_items zq) = Ok it /\ q_zero (item_att it) /\ v3_within huge (pq_bg zq) /\
  paced huge (map item_rate (pq_items zq) ++ map (fun s => (snd (fst s), snd s)) [(av, gv, t2)]).
Proof. exact zero_example. Qed.
