(** Concrete histories for C87. *)
From Coq Require Import ZArith List Bool Lia.
From stdpp Require Import gmap list.
From Verif Require Import Fp FpFacts Scalar Base LinAlg Msg DataLoader FeatureManager FrameManager Window MathLib Attitude Propagator
  Triangulate Pnp VisionUpdate Backend LoaderSpec WindowSpec QueueSpec BackendSpec BiasSpec FlowSpec NumSpec BackBiasFacts FlowFacts TrimFacts BackWitness FlowWitness.
Import ListNotations.
Local Open Scope nat_scope.

(** C87 in float arithmetic, with any libm. *)
Theorem queue_trimmed_f32 : forall (lm : libm32) (c : vcfg f32) ops (s0 s : bstate f32) f, (0 <= vc_maxwin c < 4294967295)%Z -> fresh (S := ops_f32 lm) s0 -> no_test ops ->
  time_sorted (map im_ts (pushed_imu ops)) -> one_session (S := ops_f32 lm) c s0 ops -> b_hist (S := ops_f32 lm) c s0 ops = Ok s -> b_status s = Initialized ->
  back (wn_frames (b_win s)) = Ok f ->
  List.Forall (fun i => ~ older (dl_period (b_dl s0)) (fr_ts f) (pi_ts i)) (pq_items (b_pq s)) /\
  length (pq_items (b_pq s)) + length (dl_imu (b_dl s)) <=
    length (List.filter (fun m => negb (f64_ltb (dl_period (b_dl s0)) (f64_sub (fr_ts f) (im_ts m)))) (stream (st_imu (b_st s0)) ops)).
Proof. intros lm. exact (queue_trimmed (S := ops_f32 lm) f32_sub_zero). Qed.

Definition newest_is (n : Z) (s : bstate f32) : bool := match back (wn_frames (b_win s)) with Ok f => f64_is n (fr_ts f) | Ub _ => false end.
(** Six samples, the newest image at 4 (shifted), period 1: two samples in the queue and two waiting, of four that are not older. *)
Lemma g_flow : exists s f, fresh w_s0 /\ no_test f_ops /\ time_sorted (map im_ts (pushed_imu f_ops)) /\ one_session (w_c 0) w_s0 f_ops /\
  b_hist (w_c 0) w_s0 f_ops = Ok s /\ b_status s = Initialized /\ back (wn_frames (b_win s)) = Ok f /\ f64_is 4 (fr_ts f) = true /\
  length (pq_items (b_pq s)) = 2 /\ length (dl_imu (b_dl s)) = 2 /\ length (at_items (b_att s)) = 2 /\
  length (List.filter (fun m => negb (f64_ltb (dl_period (b_dl w_s0)) (f64_sub (fr_ts f) (im_ts m)))) (stream (st_imu (b_st w_s0)) f_ops)) = 4.
Proof.
  destruct (chk_ex _ (fun s => is_init s && match back (wn_frames (b_win s)) with Ok f => f64_is 4 (fr_ts f) && Nat.eqb (length (pq_items (b_pq s))) 2 && Nat.eqb (length (dl_imu (b_dl s))) 2 && Nat.eqb (length (at_items (b_att s))) 2 &&
      Nat.eqb (length (List.filter (fun m => negb (f64_ltb (dl_period (b_dl w_s0)) (f64_sub (fr_ts f) (im_ts m)))) (stream (st_imu (b_st w_s0)) f_ops))) 4 | Ub _ => false end)
    (b_hist (w_c 0) w_s0 f_ops)) as (s & E & H); [vm_compute; reflexivity|].
  apply andb_true_iff in H as [H0 H]. destruct (back (wn_frames (b_win s))) as [f|] eqn:Eb; [|discriminate H]. bools.
  exists s, f. split; [exact w_fresh|]. split; [no_tests|]. split; [sorted_times|]. split; [apply quiet_session; vm_compute; reflexivity|]. auto 12.
Qed.
(** The third image. *)
Lemma g_image : exists s s' b m, b_hist (w_c 0) w_s0 (w_ops 2 ++ w_push 2) = Ok s /\ run_once (w_c 0) w_o s = Ok (s', b) /\ next_feat s = Some m /\ b_status s' = Initialized /\
  f64_is 3 (fm_ts m) = true /\ time_sorted (map im_ts (pushed_imu (w_ops 2 ++ w_push 2))).
Proof.
  destruct (chk_ex _ (fun s => match next_feat s with Some m => f64_is 3 (fm_ts m) | None => false end && chk (fun p => is_init (fst p)) (run_once (w_c 0) w_o s))
    (b_hist (w_c 0) w_s0 (w_ops 2 ++ w_push 2))) as (s & E & H); [vm_compute; reflexivity|].
  apply andb_true_iff in H as [H0 H]. destruct (next_feat s) as [m|] eqn:En; [|discriminate H0]. apply chk_ex in H as ([s' b] & E' & H). cbn [fst] in H. bools.
  exists s, s', b, m. split; [exact E|]. split; [exact E'|]. split; [exact En|]. split; [exact H|]. split; [exact H0|]. sorted_times.
Qed.

Definition old_head (s : bstate f32) : bool :=
  match back (wn_frames (b_win s)), at_items (b_att s) with Ok f, i :: _ => f32_ltb (f64_to_f32 (f64_of_Z 1)) (f64_to_f32 (f64_sub (fr_ts f) (ai_ts i))) | _, _ => false end.
Lemma old_head_ex : forall s, old_head s = true -> exists f i r, back (wn_frames (b_win s)) = Ok f /\ at_items (b_att s) = i :: r /\ older32 (f64_to_f32 (f64_of_Z 1)) (fr_ts f) (ai_ts i).
Proof. intros s H. unfold old_head in H. destruct (back _) as [f|] eqn:Eb; [|discriminate H]. destruct (at_items _) as [|i r] eqn:Ea; [discriminate H|]. exists f, i, r. auto. Qed.
(** While too few features are seen, initialization fails and nothing is removed. *)
Definition g_few : list (b_op f32) := flat_map (fun t => w_round [1; 2; 3]%Z w_ob (Z.of_nat t)) (seq 0 6).
Lemma g_fail : exists s f i r, b_hist (w_c 0) w_s0 g_few = Ok s /\ time_sorted (map im_ts (pushed_imu g_few)) /\ b_status s = NeedInit /\ length (at_items (b_att s)) = 6 /\
  back (wn_frames (b_win s)) = Ok f /\ at_items (b_att s) = i :: r /\ older32 (f64_to_f32 (f64_of_Z 1)) (fr_ts f) (ai_ts i).
Proof.
  destruct (chk_ex _ (fun s => negb (is_init s) && Nat.eqb (length (at_items (b_att s))) 6 && old_head s) (b_hist (w_c 0) w_s0 g_few)) as (s & E & H); [vm_compute; reflexivity|].
  bools. destruct (old_head_ex s H0) as (f & i & r & H2 & H3 & H4). exists s, f, i, r. split; [exact E|]. split; [sorted_times|]. auto 10.
Qed.
(** With a window of one frame nothing is removed although the back end is initialized. *)
Definition g_c : vcfg f32 := VCfg s1 0 1%Z 20%Z s1 (V3 s0 s0 (num 10)).
Lemma g_one : exists s f i r, b_hist g_c w_s0 (w_ops 6) = Ok s /\ time_sorted (map im_ts (pushed_imu (w_ops 6))) /\ b_status s = Initialized /\ length (at_items (b_att s)) = 6 /\
  back (wn_frames (b_win s)) = Ok f /\ at_items (b_att s) = i :: r /\ older32 (f64_to_f32 (f64_of_Z 1)) (fr_ts f) (ai_ts i).
Proof.
  destruct (chk_ex _ (fun s => is_init s && Nat.eqb (length (at_items (b_att s))) 6 && old_head s) (b_hist g_c w_s0 (w_ops 6))) as (s & E & H); [vm_compute; reflexivity|].
  bools. destruct (old_head_ex s H0) as (f & i & r & H2 & H3 & H4). exists s, f, i, r. split; [exact E|]. split; [sorted_times|]. auto 10.
Qed.
(** Initialized again after a Reset. *)
Lemma g_reset : exists s f, fresh w_s0 /\ time_sorted (map im_ts (pushed_imu f_again)) /\ b_hist (w_c 0) w_s0 f_again = Ok s /\ b_status s = Initialized /\
  back (wn_frames (b_win s)) = Ok f /\ f64_is 3 (fr_ts f) = true /\ length (at_items (b_att s)) = 2.
Proof.
  destruct (chk_ex _ (fun s => is_init s && Nat.eqb (length (at_items (b_att s))) 2 && newest_is 3 s) (b_hist (w_c 0) w_s0 f_again)) as (s & E & H); [vm_compute; reflexivity|].
  bools. unfold newest_is in H0. destruct (back (wn_frames (b_win s))) as [f|] eqn:Eb; [|discriminate H0]. exists s, f. split; [exact w_fresh|]. split; [sorted_times|]. auto 10.
Qed.
