(** Property C88: not-a-number samples. *)
From Coq Require Import ZArith Bool List.
From Flocq Require Import IEEE754.BinarySingleNaN.
From Verif Require Import Fp Scalar Base LinAlg Msg DataLoader FeatureManager FrameManager Window MathLib Attitude Propagator
  Triangulate Pnp VisionUpdate Backend LoaderSpec QueueSpec BackendSpec BiasSpec NanSpec NanFacts BackWitness NanWitness.
Import ListNotations.
Local Open Scope nat_scope.

(** C88: the length test on the first sample accepts a NaN, and stores a NaN attitude. *)
Theorem C88_accepted : forall (lm : libm32) (grav : v3 f32) (st : att f32) a g t, at_items st = [] -> v3_some_nan a ->
  exists it, att_propagate (S := ops_f32 lm) grav st a g t = (Att [it] (at_ba st) (at_bg st) (at_err st), true) /\ q_some_nan (ai_q it) /\ v3_some_nan (ai_a it) /\ ai_ts it = t.
Proof. exact nan_accepted. Qed.
Print Assumptions C88_accepted.
Example C88_accepted_example : snd (att_propagate (V3 s0 s0 (num 10)) (att_new (T := f32)) (V3 s0 (num 11) s0) v3zero (f64_of_Z 0)) = false /\
  snd (att_propagate (V3 s0 s0 (num 10)) (att_new (T := f32)) (V3 s0 B754_nan s0) v3zero (f64_of_Z 0)) = true.
Proof. exact n_gate. Qed.
(** One sample with a NaN in it, taken by RunOnce when initialized or before the first initialization: RunOnce reports success, and whatever
    calls follow (images, failures, resets, new initializations) every position and velocity published for the newest sample while initialized
    is NaN, unless the queue holds the one item of a new initialization only. The newest attitude stays NaN as well. *)
Theorem C88_forever : forall (lm : libm32) (c : vcfg f32) (o : boracle f32) (s0 s s1 s2 : bstate f32) (ops1 ops2 : list (b_op f32)) m r,
  (0 <= vc_maxwin c < 4294967295)%Z -> fresh (S := ops_f32 lm) s0 -> time_sorted (map im_ts (pushed_imu ops1)) ->
  b_hist (S := ops_f32 lm) c s0 ops1 = Ok s -> next_imu s = Some m -> nan_sample m ->
  b_status s = Initialized \/ (b_publish_newest s = None /\ v3_some_nan (im_accel m)) ->
  run_once (S := ops_f32 lm) c o s = Ok (s1, r) -> b_hist (S := ops_f32 lm) c s1 ops2 = Ok s2 ->
  r = true /\ (b_status s2 = Initialized -> published_nan (b_publish_newest s2) \/ length (pq_items (b_pq s2)) = 1) /\
  (forall x, back (at_items (b_att s2)) = Ok x -> q_some_nan (ai_q x) \/ v3_some_nan (ai_g x)).
Proof. exact nan_forever. Qed.
Print Assumptions C88_forever.
Example C88_forever_example : exists s s1 s2 m r, fresh w_s0 /\ time_sorted (map im_ts (pushed_imu n_before)) /\ b_hist (w_c 0) w_s0 n_before = Ok s /\ pub_okb s = true /\
  next_imu s = Some m /\ nan_sample m /\ b_status s = Initialized /\ run_once (w_c 0) w_o s = Ok (s1, r) /\ b_hist (w_c 0) s1 n_after = Ok s2 /\
  b_status s2 = Initialized /\ length (pq_items (b_pq s2)) = 2 /\ r = true /\ published_nan (b_publish_newest s2).
Proof. exact n_forever. Qed.
Example C88_first_example : exists s s1 s2 m r, fresh w_s0 /\ time_sorted (map im_ts (pushed_imu (n_start (n_imu 0)))) /\ b_hist (w_c 0) w_s0 (n_start (n_imu 0)) = Ok s /\
  next_imu s = Some m /\ nan_sample m /\ b_publish_newest s = None /\ v3_some_nan (im_accel m) /\ run_once (w_c 0) w_o s = Ok (s1, r) /\ b_hist (w_c 0) s1 (n_rounds 1 4) = Ok s2 /\
  b_status s2 = Initialized /\ length (pq_items (b_pq s2)) = 2 /\ r = true /\ published_nan (b_publish_newest s2).
Proof. exact n_first. Qed.
(** No NaN need come from outside: a first sample exactly along gravity has the same effect (see C59 for the attitude alone). *)
Theorem C88_level : forall (lm : libm32) (c : vcfg f32) (o : boracle f32) (s s1 s2 : bstate f32) (ops2 : list (b_op f32)) m r (n : f32),
  is_finite n = true -> vc_grav c = V3 (B754_zero false) (B754_zero false) n ->
  at_items (b_att s) = [] -> pq_items (b_pq s) = [] -> b_status s = NeedInit -> next_imu s = Some m -> v3sub (S := ops_f32 lm) (im_accel m) (at_ba (b_att s)) = vc_grav c ->
  run_once (S := ops_f32 lm) c o s = Ok (s1, r) -> b_hist (S := ops_f32 lm) c s1 ops2 = Ok s2 ->
  r = true /\ (b_status s2 = Initialized -> published_nan (b_publish_newest s2) \/ length (pq_items (b_pq s2)) = 1) /\
  (forall x, back (at_items (b_att s2)) = Ok x -> q_some_nan (ai_q x) \/ v3_some_nan (ai_g x)).
Proof. exact level_forever. Qed.
Print Assumptions C88_level.
Example C88_level_example : exists s s1 s2 m r, fresh w_s0 /\ b_hist (w_c 0) w_s0 (n_start (n_level 0)) = Ok s /\ is_finite (num 10) = true /\ vc_grav (w_c 0) = V3 (B754_zero false) (B754_zero false) (num 10) /\
  at_items (b_att s) = [] /\ pq_items (b_pq s) = [] /\ b_status s = NeedInit /\ next_imu s = Some m /\ v3sub (im_accel m) (at_ba (b_att s)) = vc_grav (w_c 0) /\
  run_once (w_c 0) w_o s = Ok (s1, r) /\ b_hist (w_c 0) s1 (n_rounds 1 4) = Ok s2 /\
  b_status s2 = Initialized /\ length (pq_items (b_pq s2)) = 2 /\ r = true /\ published_nan (b_publish_newest s2).
Proof. exact n_level_start. Qed.
(** False that a sample with a NaN is refused, reported, or at least recovered from by a Reset and a new initialization. *)
Theorem C88_recovers_refuted : exists (lm : libm32) (c : vcfg f32) (o : boracle f32) (s0 s s1 s2 : bstate f32) ops1 ops2 ops3 m,
  fresh (S := ops_f32 lm) s0 /\ b_hist (S := ops_f32 lm) c s0 ops1 = Ok s /\ b_status s = Initialized /\ pub_okb s = true /\
  next_imu s = Some m /\ nan_sample m /\ run_once (S := ops_f32 lm) c o s = Ok (s1, true) /\ b_hist (S := ops_f32 lm) c s1 (ops2 ++ BReset :: ops3) = Ok s2 /\
  b_status s2 = Initialized /\ published_nan (b_publish_newest s2).
Proof.
  destruct n_forever as (s & s1 & s2 & m & r & H1 & _ & H2 & H3 & H4 & H5 & H6 & H7 & H8 & H9 & _ & -> & H10).
  exists lm0, (w_c 0), w_o, w_s0, s, s1, s2, n_before, [BRun w_o], (n_rounds 4 3), m. exact (conj H1 (conj H2 (conj H6 (conj H3 (conj H4 (conj H5 (conj H7 (conj H8 (conj H9 H10))))))))).
Qed.
Print Assumptions C88_recovers_refuted.
