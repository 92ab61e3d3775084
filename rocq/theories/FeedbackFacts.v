(** The attitude estimator and the propagator use the same biases (C86). *)
From Coq Require Import ZArith List Bool Lia Arith.
From stdpp Require Import gmap list.
From Verif Require Import Fp FpFacts Scalar Base LinAlg Msg DataLoader FeatureManager FrameManager Window MathLib Attitude Propagator
  Triangulate Pnp VisionUpdate Backend LoaderSpec WindowSpec QueueSpec UpdSpec BackendSpec AttitudeFacts
  PropagatorFacts BackLenFacts BackDimFacts BackSafeFacts.
Import ListNotations.
Local Open Scope nat_scope.

Section Feedback.
Context {T : Type} {S : SOps T}.

(** Biases of the attitude estimator and of the propagator. *)
Definition att_bias (s : bstate T) : v3 T * v3 T := (at_ba (b_att s), at_bg (b_att s)).
Definition est_bias (s : bstate T) : v3 T * v3 T := (pq_ba (b_pq s), pq_bg (b_pq s)).

Lemma propagate_bias : forall grav n (q : pqueue T) a g t, let q' := pq_propagate grav n q a g t in pq_ba q' = pq_ba q /\ pq_bg q' = pq_bg q.
Proof. intros grav n q a g t. unfold pq_propagate. destruct (back _); [|split; reflexivity]. destruct (prop_item _ _ _ _ _ _ _ _ _) as [[? ?] ?]. split; reflexivity. Qed.
Lemma replay_bias : forall grav n l (q : pqueue T), let q' := replay grav n q l in pq_ba q' = pq_ba q /\ pq_bg q' = pq_bg q.
Proof.
  intros grav n. induction l as [|i l IH]; intros q; cbn; [auto|]. destruct (IH (pq_propagate grav n q (ai_a i) (ai_g i) (ai_ts i))) as [I1 I2].
  destruct (propagate_bias grav n q (ai_a i) (ai_g i) (ai_ts i)) as [P1 P2]. split; [rewrite <- P1; exact I1|rewrite <- P2; exact I2].
Qed.
Lemma att_propagate_bias : forall grav (st : att T) a g t, let st' := fst (att_propagate grav st a g t) in at_ba st' = at_ba st /\ at_bg st' = at_bg st.
Proof.
  intros grav st a g t. pose proof (att_propagate_rule grav st a g t) as H. destruct (rev (at_items st)).
  - destruct (sgt64 _ _); [rewrite H; auto|]. destruct H as (q & ->). auto.
  - destruct (f64_ltb _ _); [rewrite H; auto|]. destruct H as (q & e & ->). auto.
Qed.
(** A failed update leaves the biases. *)
Lemma vision_update_fail_bias : forall (o : voracle T) c s ts thr s' pol, vision_update o c s ts thr = Ok (s', false, pol) ->
  pq_ba (vs_pq s') = pq_ba (vs_pq s) /\ pq_bg (vs_pq s') = pq_bg (vs_pq s).
Proof.
  intros o c s ts thr s' pol H. unfold vision_update, pq_reset_origin in H. destruct (origin_loop _ _ _); cbn [negb] in H; [|injection H as <- _; split; reflexivity].
  binv H. binv H. destruct x0 as [P|]; [|injection H as <- _; split; reflexivity]. binv H. destruct x0 as [fs|]; [|injection H as <- _; split; reflexivity].
  binv H. destruct (snd x0); [binv H; discriminate H|]. binv H. destruct x1; [|injection H as <- _; split; reflexivity]. binv H. binv H. discriminate H.
Qed.

Lemma imu_step_bias : forall c (s s' : bstate T) m r, imu_step c s m = (s', r) -> att_bias s' = att_bias s /\ est_bias s' = est_bias s.
Proof.
  intros c s s' m r H. unfold imu_step in H. pose proof (att_propagate_bias (vc_grav c) (b_att s) (im_accel m) (im_gyro m) (im_ts m)) as [A1 A2].
  destruct (att_propagate _ _ _ _ _) as [a b]. cbn [fst] in *. unfold att_bias, est_bias. destruct (b_status s); injection H as <- _; cbn; rewrite A1, A2; split; try reflexivity.
  destruct (propagate_bias (vc_grav c) (length (b_ext s)) (b_pq s) (im_accel m) (im_gyro m) (im_ts m)) as [-> ->]. reflexivity.
Qed.
Lemma clean_step_bias : forall (s s' : bstate T), clean_step s = Ok s' -> att_bias s' = att_bias s /\ est_bias s' = est_bias s /\ b_status s' = b_status s.
Proof.
  intros s s' H. unfold clean_step in H. destruct (Nat.ltb _ _); [|injection H as <-; auto]. binv H. binv H. injection H as <-.
  destruct (att_clean_inv _ _ _ _ E0) as (_ & _ & D1 & D2 & _). unfold att_bias, est_bias. cbn. rewrite D1, D2. auto.
Qed.
(** After an image: the back end is initialized and both biases agree, or nothing changed. *)
Lemma feat_step_bias : forall c o (s s' : bstate T) m, feat_step c o s m = Ok s' ->
  (b_status s' = Initialized /\ att_bias s' = est_bias s') \/ (b_status s' = NeedInit /\ att_bias s' = att_bias s /\ est_bias s' = est_bias s).
Proof.
  intros c o s s' m H. unfold feat_step in H. binv H. binv H. binv H. rename x into w, x0 into s1, x1 into s2.
  destruct (clean_step_bias _ _ H) as (C1 & C2 & C3). rewrite C1, C2, C3. clear C1 C2 C3 H.
  assert (I : att_bias s1 = att_bias s /\ est_bias s1 = est_bias s).
  { unfold init_step in E0. cbn [with_win b_status] in E0. destruct (b_status s); [|injection E0 as <-; auto]. binv E0. destruct x as [s3 r]. cbn [fst snd] in E0.
    pose proof (initialize_pq _ _ _ _ _ E2) as Hi. destruct r.
    - injection E0 as <-. destruct Hi as (fi & rest & a & mo & _ & Hc & Ha & Hq & _). cbn [with_win b_att b_pq b_dl b_ext] in Hc, Hq.
      destruct (att_clean_inv _ _ _ _ Hc) as (_ & _ & D1 & D2 & _). unfold att_bias, est_bias. cbn [with_status b_att b_pq]. rewrite Ha, D1, D2, Hq.
      destruct (replay_bias (vc_grav c) (length (b_ext s)) (at_items a) (with_init (b_pq s) mo)) as [R1 R2]. cbn zeta in R1, R2. rewrite R1, R2. auto.
    - binv E0. injection E0 as <-. destruct Hi as [e1 e2]. unfold att_bias, est_bias. cbn [with_win b_att b_pq]. rewrite e1, e2. auto. }
  destruct I as [I1 I2]. unfold update_step in E1. destruct (b_status s1) eqn:Es1; [injection E1 as <-; right; auto|].
  binv E1. destruct x as [[v ok] pol]. destruct ok; binv E1; injection E1 as <-.
  - left. split; reflexivity.
  - right. split; [reflexivity|]. split; [exact I1|]. match goal with V : vision_update _ _ _ _ _ = Ok _ |- _ => apply vision_update_fail_bias in V as [V1 V2] end. unfold est_bias in *. cbn in *. rewrite V1, V2. exact I2.
Qed.
Lemma run_once_bias : forall c o (s s' : bstate T) r, run_once c o s = Ok (s', r) ->
  (b_status s' = Initialized /\ next_feat s <> None /\ att_bias s' = est_bias s') \/
  (att_bias s' = att_bias s /\ est_bias s' = est_bias s /\ (b_status s' = Initialized -> b_status s = Initialized)).
Proof.
  intros c o s s' r H. unfold next_feat. unfold run_once in H. destruct (dl_pop_one (b_dl s)) as [[[l m] ok] d]. cbn [fst snd].
  destruct ok; cbn [negb] in H; [|injection H as <- _; right; auto].
  destruct (match cm_imu m with [] => (_, true) | i :: _ => imu_step c _ i end) as [s1 r1] eqn:E1.
  assert (K : att_bias s1 = att_bias s /\ est_bias s1 = est_bias s /\ b_status s1 = b_status s).
  { destruct (cm_imu m) as [|i x]; [injection E1 as <- _; auto|]. pose proof (imu_step_bias _ _ _ _ _ E1) as [K1 K2]. apply imu_step_win in E1 as (_ & E1 & _). auto. }
  destruct K as (K1 & K2 & K3). destruct (cm_feat m) as [f|]; [|injection H as <- _; right; rewrite K3; auto].
  binv H. injection H as <- _. destruct (feat_step_bias _ _ _ _ _ E) as [[F1 F2]|(F1 & F2 & F3)].
  - left. split; [exact F1|]. split; [discriminate|exact F2].
  - right. rewrite F2, F3, F1. split; [exact K1|]. split; [exact K2|discriminate].
Qed.

(** C86: the biases change only with a successful update, and then together. *)
Theorem bias_step : forall c op (s s' : bstate T), b_step c s op = Ok s' ->
  (att_bias s' = att_bias s /\ est_bias s' = est_bias s) \/
  (exists o, op = BRun o) /\ next_feat s <> None /\ b_status s' = Initialized /\ att_bias s' = est_bias s'.
Proof.
  intros c op s s' H. destruct op as [m|m|o| |]; cbn [b_step] in H.
  - assert (e : s' = fst (b_imu s m)) by congruence. subst s'. left. unfold b_imu. destruct (dl_push_imu _ _ _) as [[[? ?] ?] ?]. auto.
  - assert (e : s' = fst (b_feat s m)) by congruence. subst s'. left. unfold b_feat. destruct (dl_push_feat _ _ _) as [[[? ?] ?] ?]. auto.
  - binv H. destruct x as [s2 r]. injection H as <-. destruct (run_once_bias _ _ _ _ _ E) as [(H1 & H2 & H3)|(H1 & H2 & _)]; [right; eauto|left; auto].
  - assert (e : s' = fst (run_once_test s)) by congruence. subst s'. left. unfold run_once_test. destruct (dl_pop_one _) as [[[? ?] ?] ?]. auto.
  - injection H as <-. left. auto.
Qed.
(** C86: over histories. *)
Definition bias_inv (e0 : v3 T * v3 T) (s : bstate T) : Prop :=
  att_bias s = est_bias s \/ (b_status s = NeedInit /\ att_bias s = (v3zero, v3zero) /\ est_bias s = e0).
Lemma b_hist_bias : forall c e0 ops (s s' : bstate T), b_hist c s ops = Ok s' -> bias_inv e0 s -> bias_inv e0 s'.
Proof.
  intros c e0. induction ops as [|op r IH]; intros s s' H HI; cbn [b_hist] in H; [injection H as <-; exact HI|]. binv H. apply (IH x s' H). clear IH H.
  destruct HI as [HI|(H1 & H2 & H3)].
  - left. destruct (bias_step _ _ _ _ E) as [[K1 K2]|(_ & _ & _ & K)]; [rewrite K1, K2; exact HI|exact K].
  - destruct op as [m|m|o| |]; cbn [b_step] in E.
    + assert (e : x = fst (b_imu s m)) by congruence. subst x. right. unfold b_imu. destruct (dl_push_imu _ _ _) as [[[? ?] ?] ?]. auto.
    + assert (e : x = fst (b_feat s m)) by congruence. subst x. right. unfold b_feat. destruct (dl_push_feat _ _ _) as [[[? ?] ?] ?]. auto.
    + binv E. destruct x0 as [s2 b]. injection E as <-. destruct (run_once_bias _ _ _ _ _ E0) as [(_ & _ & K)|(K1 & K2 & K3)]; [left; exact K|right].
      split; [|rewrite K1, K2; auto]. destruct (b_status s2); [reflexivity|]. specialize (K3 eq_refl). congruence.
    + assert (e : x = fst (run_once_test s)) by congruence. subst x. right. unfold run_once_test. destruct (dl_pop_one _) as [[[? ?] ?] ?]. auto.
    + injection E as <-. right. auto.
Qed.
Theorem biases_shared : forall c ops (s0 s : bstate T), fresh s0 -> b_hist c s0 ops = Ok s ->
  (at_ba (b_att s) = pq_ba (b_pq s) /\ at_bg (b_att s) = pq_bg (b_pq s)) \/
  (b_status s = NeedInit /\ at_ba (b_att s) = v3zero /\ at_bg (b_att s) = v3zero /\ pq_ba (b_pq s) = pq_ba (b_pq s0) /\ pq_bg (b_pq s) = pq_bg (b_pq s0)).
Proof.
  intros c ops s0 s Hf H. destruct (b_hist_bias c (est_bias s0) ops s0 s H) as [K|(K1 & K2 & K3)].
  - right. destruct Hf as (st & per & ex & ba & bg & na & ng & nwa & nwg & ->). auto.
  - left. unfold att_bias, est_bias in K. injection K as -> ->. auto.
  - right. unfold att_bias, est_bias in *. injection K2 as -> ->. injection K3 as -> ->. auto.
Qed.
Theorem biases_shared_init : forall c ops (s0 s : bstate T), fresh s0 -> b_hist c s0 ops = Ok s -> b_status s = Initialized ->
  at_ba (b_att s) = pq_ba (b_pq s) /\ at_bg (b_att s) = pq_bg (b_pq s).
Proof. intros c ops s0 s Hf H Hi. destruct (biases_shared c ops s0 s Hf H) as [K|(K & _)]; [exact K|congruence]. Qed.
End Feedback.
