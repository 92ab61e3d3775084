(** Concrete histories for C85. *)
From Coq Require Import ZArith List Bool Lia.
From stdpp Require Import gmap list.
From Flocq Require Import IEEE754.BinarySingleNaN.
From Verif Require Import Fp FpFacts Scalar Base LinAlg Msg DataLoader FeatureManager FrameManager Window MathLib Attitude Propagator
  Triangulate Pnp VisionUpdate Backend LoaderSpec WindowSpec QueueSpec UpdSpec BackendSpec BiasSpec FlowSpec NumSpec BackBiasFacts FlowFacts BackWitness.
Import ListNotations.
Local Open Scope nat_scope.

(** C85 in float arithmetic, with any libm. *)
Theorem queue_flow_f32 : forall (lm : libm32) (c : vcfg f32) ops (s0 s : bstate f32), (0 <= vc_maxwin c < 4294967295)%Z -> fresh (S := ops_f32 lm) s0 -> no_test ops ->
  time_sorted (map im_ts (pushed_imu ops)) -> one_session (S := ops_f32 lm) c s0 ops -> b_hist (S := ops_f32 lm) c s0 ops = Ok s -> b_status s = Initialized ->
  exists pre, map of_sample (stream (st_imu (b_st s0)) ops) = pre ++ map of_item (pq_items (b_pq s)) ++ map of_sample (dl_imu (b_dl s)).
Proof. intros lm. exact (queue_flow (S := ops_f32 lm) f32_sub_zero). Qed.
Theorem newest_flow_f32 : forall (lm : libm32) (c : vcfg f32) ops (s0 s : bstate f32) mo ba bg t, (0 <= vc_maxwin c < 4294967295)%Z -> fresh (S := ops_f32 lm) s0 -> no_test ops ->
  time_sorted (map im_ts (pushed_imu ops)) -> one_session (S := ops_f32 lm) c s0 ops -> b_hist (S := ops_f32 lm) c s0 ops = Ok s ->
  b_publish_newest s = Some (mo, ba, bg, t) -> dl_imu (b_dl s) = [] ->
  exists l m, stream (st_imu (b_st s0)) ops = l ++ [m] /\ t = im_ts m.
Proof. intros lm. exact (newest_flow (S := ops_f32 lm) f32_sub_zero). Qed.

Ltac sorted_times := cbn; repeat match goal with |- _ /\ _ => split | |- True => exact I | |- _ = false => vm_compute; reflexivity
    | |- forall y, _ => intros y Hy; repeat (destruct Hy as [<-|Hy]; [vm_compute; reflexivity|]); destruct Hy end.
Ltac no_tests := unfold no_test; cbn; repeat (constructor; [exact I|]); constructor.

Definition quiet (s : bstate f32) : bool := is_init s || match b_publish_newest s with None => true | Some _ => false end.
Lemma quiet_session : forall c s0 ops, steady c s0 ops = true -> all_prefixes quiet c s0 ops = true -> one_session c s0 ops.
Proof.
  intros c s0 ops H1 H2. split; [apply steady_stays; exact H1|]. intros o1 o2 s1 Eo Hs Hn. pose proof (all_prefixes_spec _ _ _ _ H2 o1 o2 s1 Eo Hs) as Hq.
  unfold quiet, is_init in Hq. rewrite Hn in Hq. cbn [orb] in Hq. destruct (b_publish_newest s1); [discriminate|reflexivity].
Qed.

(** Six samples pushed, four processed, two of them still in the queue, two waiting. *)
Definition f_ops : list (b_op f32) := w_ops 4 ++ [BImu (w_imu 4); BImu (w_imu 5)].
Lemma f_flow : exists s, fresh w_s0 /\ no_test f_ops /\ time_sorted (map im_ts (pushed_imu f_ops)) /\ one_session (w_c 0) w_s0 f_ops /\
  b_hist (w_c 0) w_s0 f_ops = Ok s /\ b_status s = Initialized /\ length (stream (st_imu (b_st w_s0)) f_ops) = 6 /\
  length (at_items (b_att s)) = 2 /\ length (pq_items (b_pq s)) = 2 /\ length (dl_imu (b_dl s)) = 2.
Proof.
  destruct (chk_ex _ (fun s => is_init s && Nat.eqb (length (stream (st_imu (b_st w_s0)) f_ops)) 6 && Nat.eqb (length (at_items (b_att s))) 2 &&
      Nat.eqb (length (pq_items (b_pq s))) 2 && Nat.eqb (length (dl_imu (b_dl s))) 2) (b_hist (w_c 0) w_s0 f_ops)) as (s & E & H); [vm_compute; reflexivity|].
  bools. exists s. split; [exact w_fresh|]. split; [no_tests|]. split; [sorted_times|].
  split; [apply quiet_session; vm_compute; reflexivity|]. auto 10.
Qed.
(** All samples processed. *)
Lemma f_newest : exists s mo ba bg t, fresh w_s0 /\ no_test (w_ops 4) /\ time_sorted (map im_ts (pushed_imu (w_ops 4))) /\ one_session (w_c 0) w_s0 (w_ops 4) /\
  b_hist (w_c 0) w_s0 (w_ops 4) = Ok s /\ b_publish_newest s = Some (mo, ba, bg, t) /\ dl_imu (b_dl s) = [] /\ f64_is 4 t = true.
Proof.
  destruct (chk_ex _ (fun s => match b_publish_newest s with Some (_, _, _, t) => f64_is 4 t | None => false end && Nat.eqb (length (dl_imu (b_dl s))) 0)
    (b_hist (w_c 0) w_s0 (w_ops 4))) as (s & E & H); [vm_compute; reflexivity|].
  apply andb_true_iff in H as [H1 H2]. destruct (b_publish_newest s) as [[[[mo ba] bg] t]|] eqn:P; [|discriminate H1]. bools.
  exists s, mo, ba, bg, t. split; [exact w_fresh|]. split; [no_tests|]. split; [sorted_times|]. split; [apply quiet_session; vm_compute; reflexivity|].
  split; [exact E|]. split; [exact P|]. split; [destruct (dl_imu (b_dl s)); [reflexivity|discriminate H2]|exact H1].
Qed.

(** After a Reset the samples of the attitude queue are propagated a second time: the queue goes back in time, and the
    same time occurs twice. *)
Definition f_again : list (b_op f32) := w_ops 2 ++ [BReset] ++ w_round w_ids w_ob 2.
Lemma f_doubled : exists s a b d l, b_hist (w_c 0) w_s0 f_again = Ok s /\ no_test f_again /\ time_sorted (map im_ts (pushed_imu f_again)) /\ b_status s = Initialized /\
  pq_items (b_pq s) = a :: b :: d :: l /\ f64_ltb (pi_ts b) (pi_ts a) = true /\ f64_leb (pi_ts a) (pi_ts d) = true /\ f64_leb (pi_ts d) (pi_ts a) = true.
Proof.
  destruct (chk_ex _ (fun s => is_init s && match pq_items (b_pq s) with a :: b :: d :: _ => f64_ltb (pi_ts b) (pi_ts a) && f64_leb (pi_ts a) (pi_ts d) && f64_leb (pi_ts d) (pi_ts a) | _ => false end)
    (b_hist (w_c 0) w_s0 f_again)) as (s & E & H); [vm_compute; reflexivity|].
  apply andb_true_iff in H as [H0 H]. destruct (pq_items (b_pq s)) as [|a [|b [|d l]]] eqn:Ei; try discriminate H. bools.
  exists s, a, b, d, l. split; [exact E|]. split; [no_tests|]. split; [sorted_times|]. auto 10.
Qed.

(** Out of order: 5, 3, 4. The loader drops the second one only, the attitude estimator the third. *)
Definition f_wrong : list (b_op f32) := [BImu (w_imu 5); BImu (w_imu 3); BImu (w_imu 4); BRun w_o; BRun w_o].
Lemma f_dropped : exists s i, b_hist (w_c 0) w_s0 f_wrong = Ok s /\ no_test f_wrong /\ length (stream (st_imu (b_st w_s0)) f_wrong) = 2 /\
  dl_imu (b_dl s) = [] /\ at_items (b_att s) = [i] /\ ~ exists pre, map im_ts (stream (st_imu (b_st w_s0)) f_wrong) = pre ++ [ai_ts i].
Proof.
  destruct (chk_ex _ (fun s => match at_items (b_att s) with [i] => f64_is 6 (ai_ts i) | _ => false end && Nat.eqb (length (dl_imu (b_dl s))) 0 &&
     match map im_ts (stream (st_imu (b_st w_s0)) f_wrong) with [x; y] => f64_is 5 y | _ => false end)
    (b_hist (w_c 0) w_s0 f_wrong)) as (s & E & H); [vm_compute; reflexivity|].
  apply andb_true_iff in H as [H H2]. apply andb_true_iff in H as [H1 H3]. destruct (at_items (b_att s)) as [|i [|]] eqn:Ea; try discriminate H1. bools.
  assert (Ls : length (stream (st_imu (b_st w_s0)) f_wrong) = 2) by (vm_compute; reflexivity).
  exists s, i. split; [exact E|]. split; [no_tests|]. split; [exact Ls|]. split; [destruct (dl_imu (b_dl s)); [reflexivity|discriminate H3]|]. split; [exact Ea|].
  intros (pre & Hp). rewrite Hp in H2. destruct pre as [|x [|y [|z pre]]]; cbn in H2; try discriminate H2.
  - unfold f64_is in H1, H2. apply andb_true_iff in H1 as [_ H1], H2 as [H2 _]. pose proof (f64_leb_trans _ _ _ H1 H2) as H4. vm_compute in H4. discriminate H4.
Qed.
Lemma f_att : exists s, fresh w_s0 /\ no_test f_again /\ time_sorted (map im_ts (pushed_imu f_again)) /\ b_hist (w_c 0) w_s0 f_again = Ok s /\
  length (stream (st_imu (b_st w_s0)) f_again) = 3 /\ length (at_items (b_att s)) = 2.
Proof.
  destruct (chk_ex _ (fun s => Nat.eqb (length (stream (st_imu (b_st w_s0)) f_again)) 3 && Nat.eqb (length (at_items (b_att s))) 2) (b_hist (w_c 0) w_s0 f_again)) as (s & E & H);
    [vm_compute; reflexivity|].
  bools. exists s. split; [exact w_fresh|]. split; [no_tests|]. split; [sorted_times|]. auto.
Qed.
