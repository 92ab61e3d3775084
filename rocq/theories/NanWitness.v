(** Concrete histories for C88. *)
From Coq Require Import ZArith List Bool Lia.
From stdpp Require Import gmap list.
From Flocq Require Import IEEE754.BinarySingleNaN.
From Verif Require Import Fp FpFacts Scalar Base LinAlg Msg DataLoader FeatureManager FrameManager Window MathLib Attitude Propagator
  Triangulate Pnp VisionUpdate Backend LoaderSpec WindowSpec QueueSpec BackendSpec BiasSpec FlowSpec NumSpec NanSpec NanFacts BackBiasFacts FlowFacts BackWitness FlowWitness.
Import ListNotations.
Local Open Scope nat_scope.

(** A sample with one NaN, and one of a level sensor. *)
Definition n_imu (t : Z) : imu_msg f32 := ImuMsg v3zero (V3 s0 B754_nan s0) (f64_of_Z t).
Definition n_level (t : Z) : imu_msg f32 := ImuMsg v3zero (V3 s0 s0 (num 10)) (f64_of_Z t).
Definition n_rounds (t n : nat) : list (b_op f32) := flat_map (fun t => w_round w_ids w_ob (Z.of_nat t)) (seq t n).
Definition v3_nanb (v : v3 f32) : bool := f32_isnan (v3x v) && f32_isnan (v3y v) && f32_isnan (v3z v).
Definition pub_nanb (s : bstate f32) : bool := match b_publish_newest s with Some (mo, _, _, _) => v3_nanb (mo_p mo) && v3_nanb (mo_v mo) | None => false end.
Lemma pub_nanb_ex : forall s, pub_nanb s = true -> published_nan (b_publish_newest s).
Proof.
  intros s H. unfold pub_nanb, v3_nanb in H. destruct (b_publish_newest s) as [[[[mo ba] bg] t]|]; [|discriminate H]. bools. exists mo, ba, bg, t. split; [reflexivity|]. unfold v3_all_nan. auto.
Qed.
Definition pub_okb (s : bstate f32) : bool := match b_publish_newest s with Some (mo, _, _, _) => is_finite (v3x (mo_p mo)) && is_finite (v3y (mo_p mo)) && is_finite (v3z (mo_p mo)) | None => false end.

(** Initialized by two images, then the sample; later a Reset and three more images. *)
Definition n_before : list (b_op f32) := w_ops 2 ++ [BImu (n_imu 2); BImu (w_imu 3)].
Definition n_after : list (b_op f32) := [BRun w_o; BReset] ++ n_rounds 4 3.
Definition nan_imub (s : bstate f32) : bool := match next_imu s with Some m => f32_isnan (v3y (im_accel m)) | None => false end.
Lemma nan_imub_ex : forall s, nan_imub s = true -> exists m, next_imu s = Some m /\ v3_some_nan (im_accel m).
Proof. intros s H. unfold nan_imub in H. destruct (next_imu s) as [m|]; [|discriminate H]. exists m. split; [reflexivity|]. right. left. exact H. Qed.
Definition n_check (ops2 : list (b_op f32)) (s : bstate f32) : bool :=
  nan_imub s && chk (fun p => (snd p && chk (fun s2 => is_init s2 && pub_nanb s2 && Nat.eqb (length (pq_items (b_pq s2))) 2) (b_hist (w_c 0) (fst p) ops2))%bool) (run_once (w_c 0) w_o s).
Lemma n_forever : exists s s1 s2 m r, fresh w_s0 /\ time_sorted (map im_ts (pushed_imu n_before)) /\ b_hist (w_c 0) w_s0 n_before = Ok s /\ pub_okb s = true /\
  next_imu s = Some m /\ nan_sample m /\ b_status s = Initialized /\ run_once (w_c 0) w_o s = Ok (s1, r) /\ b_hist (w_c 0) s1 n_after = Ok s2 /\
  b_status s2 = Initialized /\ length (pq_items (b_pq s2)) = 2 /\ r = true /\ published_nan (b_publish_newest s2).
Proof.
  destruct (chk_ex _ (fun s => is_init s && pub_okb s && n_check n_after s) (b_hist (w_c 0) w_s0 n_before)) as (s & E & H); [vm_compute; reflexivity|].
  apply andb_true_iff in H as [H H1]. apply andb_true_iff in H as [H0 H2]. unfold n_check in H1. apply andb_true_iff in H1 as [H1 H3]. apply nan_imub_ex in H1 as (m & M1 & M2).
  apply chk_ex in H3 as ([s1 r] & E1 & H3). cbn [fst snd] in H3. apply andb_true_iff in H3 as [H3 H4]. apply chk_ex in H4 as (s2 & E2 & H4). bools. match goal with X : pub_nanb _ = true |- _ => apply pub_nanb_ex in X end.
  exists s, s1, s2, m, r. split; [exact w_fresh|]. split; [sorted_times|]. split; [exact E|]. split; [exact H2|]. split; [exact M1|]. split; [left; exact M2|]. auto 10.
Qed.
(** The very first sample. *)
Definition n_start (m : imu_msg f32) : list (b_op f32) := [BImu m; BFeat (w_msg w_ids w_ob 0)].
Lemma n_first : exists s s1 s2 m r, fresh w_s0 /\ time_sorted (map im_ts (pushed_imu (n_start (n_imu 0)))) /\ b_hist (w_c 0) w_s0 (n_start (n_imu 0)) = Ok s /\
  next_imu s = Some m /\ nan_sample m /\ b_publish_newest s = None /\ v3_some_nan (im_accel m) /\ run_once (w_c 0) w_o s = Ok (s1, r) /\ b_hist (w_c 0) s1 (n_rounds 1 4) = Ok s2 /\
  b_status s2 = Initialized /\ length (pq_items (b_pq s2)) = 2 /\ r = true /\ published_nan (b_publish_newest s2).
Proof.
  destruct (chk_ex _ (fun s => match b_publish_newest s with None => true | _ => false end && n_check (n_rounds 1 4) s) (b_hist (w_c 0) w_s0 (n_start (n_imu 0)))) as (s & E & H); [vm_compute; reflexivity|].
  apply andb_true_iff in H as [H0 H1]. unfold n_check in H1. apply andb_true_iff in H1 as [H1 H3]. apply nan_imub_ex in H1 as (m & M1 & M2).
  apply chk_ex in H3 as ([s1 r] & E1 & H3). cbn [fst snd] in H3. apply andb_true_iff in H3 as [H3 H4]. apply chk_ex in H4 as (s2 & E2 & H4). bools.
  match goal with X : pub_nanb _ = true |- _ => apply pub_nanb_ex in X end. destruct (b_publish_newest s) eqn:Eb; [discriminate H0|].
  exists s, s1, s2, m, r. split; [exact w_fresh|]. split; [sorted_times|]. split; [exact E|]. split; [exact M1|]. split; [left; exact M2|]. auto 12.
Qed.
(** A level sensor at the start. *)
Definition f32_eqb (x y : f32) : bool :=
  match x, y with B754_zero s, B754_zero t => Bool.eqb s t | B754_finite s m e _, B754_finite t n f _ => Bool.eqb s t && Pos.eqb m n && Z.eqb e f | _, _ => false end.
Lemma f32_eqb_eq : forall x y, f32_eqb x y = true -> x = y.
Proof.
  intros x y H. apply B2SF_inj. destruct x, y; try discriminate H; cbn [f32_eqb] in H.
  - apply eqb_prop in H. subst. reflexivity.
  - apply andb_true_iff in H as [H H3]. apply andb_true_iff in H as [H1 H2]. apply eqb_prop in H1. apply Pos.eqb_eq in H2. apply Z.eqb_eq in H3. subst. reflexivity.
Qed.
Definition v3_eqb (a b : v3 f32) : bool := f32_eqb (v3x a) (v3x b) && f32_eqb (v3y a) (v3y b) && f32_eqb (v3z a) (v3z b).
Lemma v3_eqb_eq : forall a b, v3_eqb a b = true -> a = b.
Proof.
  intros [a1 a2 a3] [b1 b2 b3] H. unfold v3_eqb in H. cbn [v3x v3y v3z] in H. apply andb_true_iff in H as [H H3]. apply andb_true_iff in H as [H1 H2].
  apply f32_eqb_eq in H1, H2, H3. subst. reflexivity.
Qed.
Lemma n_level_start : exists s s1 s2 m r, fresh w_s0 /\ b_hist (w_c 0) w_s0 (n_start (n_level 0)) = Ok s /\ is_finite (num 10) = true /\ vc_grav (w_c 0) = V3 (B754_zero false) (B754_zero false) (num 10) /\
  at_items (b_att s) = [] /\ pq_items (b_pq s) = [] /\ b_status s = NeedInit /\ next_imu s = Some m /\ v3sub (im_accel m) (at_ba (b_att s)) = vc_grav (w_c 0) /\
  run_once (w_c 0) w_o s = Ok (s1, r) /\ b_hist (w_c 0) s1 (n_rounds 1 4) = Ok s2 /\
  b_status s2 = Initialized /\ length (pq_items (b_pq s2)) = 2 /\ r = true /\ published_nan (b_publish_newest s2).
Proof.
  destruct (chk_ex _ (fun s => match at_items (b_att s), pq_items (b_pq s) with [], [] => true | _, _ => false end && negb (is_init s) &&
      match next_imu s with Some m => v3_eqb (v3sub (im_accel m) (at_ba (b_att s))) (vc_grav (w_c 0)) | None => false end &&
      chk (fun p => (snd p && chk (fun s2 => is_init s2 && pub_nanb s2 && Nat.eqb (length (pq_items (b_pq s2))) 2) (b_hist (w_c 0) (fst p) (n_rounds 1 4)))%bool) (run_once (w_c 0) w_o s))
    (b_hist (w_c 0) w_s0 (n_start (n_level 0)))) as (s & E & H); [vm_compute; reflexivity|].
  apply andb_true_iff in H as [H H3]. apply andb_true_iff in H as [H H2]. apply andb_true_iff in H as [H0 H1].
  destruct (at_items (b_att s)) eqn:Ea; [|discriminate H0]. destruct (pq_items (b_pq s)) eqn:Ep; [|discriminate H0]. destruct (next_imu s) as [m|] eqn:En; [|discriminate H2]. apply v3_eqb_eq in H2.
  apply chk_ex in H3 as ([s1 r] & E1 & H3). cbn [fst snd] in H3. apply andb_true_iff in H3 as [H3 H4]. apply chk_ex in H4 as (s2 & E2 & H4). bools.
  match goal with X : pub_nanb _ = true |- _ => apply pub_nanb_ex in X end.
  exists s, s1, s2, m, r. split; [exact w_fresh|]. split; [exact E|]. split; [reflexivity|]. split; [reflexivity|]. auto 14.
Qed.
(** A wrong length is refused, a NaN is not. *)
Lemma n_gate : snd (att_propagate (V3 s0 s0 (num 10)) (att_new (T := f32)) (V3 s0 (num 11) s0) v3zero (f64_of_Z 0)) = false /\
  snd (att_propagate (V3 s0 s0 (num 10)) (att_new (T := f32)) (V3 s0 B754_nan s0) v3zero (f64_of_Z 0)) = true.
Proof. split; vm_compute; reflexivity. Qed.
