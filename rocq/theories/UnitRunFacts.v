(** C76: attitudes stay unit quaternions in every run of the back end. *)
From Coq Require Import Reals Lra Lia Arith Bool List ZArith.
From stdpp Require Import gmap list.
From Verif Require Import Fp FpFacts Scalar Base LinAlg Msg DataLoader FeatureManager FrameManager Window MathLib Attitude Propagator
  Triangulate Pnp VisionUpdate Backend LoaderSpec WindowSpec QueueSpec UpdSpec BackendSpec AttitudeFacts FrameFacts QuatFacts MotionFacts UnitFacts
  BackLenFacts BackDimFacts BackSafeFacts RunSpec.
Import ListNotations.
Local Open Scope nat_scope.

Definition units (l : list (frame R)) : Prop := List.Forall (fun f => qunit (fr_q f)) l.

(** ** Window *)
Lemma erase_at_units : forall l i, units l -> units (erase_at l i).
Proof.
  intros l i H. unfold erase_at. apply List.Forall_app. split; [apply Forall_take; exact H|apply Forall_drop; exact H].
Qed.
Lemma remove_frame_units : forall l k, units l -> units (fst (remove_frame l k)).
Proof.
  intros l k H. unfold remove_frame. destruct (_ <=? _)%Z; [exact H|]. cbn [fst]. apply erase_at_units. destruct (0 <? k)%Z; [|exact H].
  apply List.Forall_app. split; [apply Forall_take; exact H|]. apply List.Forall_map. apply (Forall_drop _ (Z.to_nat k)) in H. exact H.
Qed.
Lemma marginalize_units : forall ord (w w' : window R) p, marginalize ord w p = Ok w' -> units (wn_frames w) -> units (wn_frames w').
Proof.
  intros ord w w' p H Hu. unfold marginalize in H. destruct p; try (injection H as <-; exact Hu); binv H; binv H; injection H as <-; apply remove_frame_units; exact Hu.
Qed.
Lemma shrink_units : forall fuel ord k (w w' : window R), shrink fuel ord k w = Ok w' -> units (wn_frames w) -> units (wn_frames w').
Proof.
  induction fuel as [|n IH]; intros ord k w w' H Hu; cbn [shrink] in H; destruct (Nat.ltb _ _); try (injection H as <-; exact Hu).
  binv H. eapply IH; [exact H|]. eapply marginalize_units; eassumption.
Qed.
Lemma update_window_units : forall (w w' : window R) m, update_window w m = Ok w' -> units (wn_frames w) -> units (wn_frames w').
Proof.
  intros w w' m H Hu. unfold update_window in H. destruct (add_new_frame (wn_frames w) (new_frame (fm_ts m))) as [fs b] eqn:Ef. binv H. binv H. destruct x0 as [[[h mg] ch] b0]. binv H. injection H as <-. cbn [wn_frames].
  assert (Hf : units fs).
  { unfold add_new_frame in Ef. injection Ef as <- _. apply List.Forall_app. split; [exact Hu|]. constructor; [|constructor].
    destruct (back_cases _ (wn_frames w)) as [[_ Eb]|(l & y & e & Eb)]; rewrite Eb; [exact qid_unit|]. cbn [with_pose fr_q].
    unfold units in Hu. rewrite e in Hu. apply List.Forall_app in Hu as [_ Hu]. inversion Hu. assumption. }
  apply set_last_unit; [exact Hf|]. cbn [with_feats fr_q].
  destruct (back_cases _ fs) as [[e Eb]|(l & y & e & Eb)]; rewrite Eb in E; [discriminate|]. injection E as <-.
  unfold units in Hf. rewrite e in Hf. apply List.Forall_app in Hf as [_ Hf]. inversion Hf. assumption.
Qed.

(** ** Attitude estimator *)
Definition aunits (l : list (att_item R)) : Prop := List.Forall (fun it => qunit (ai_q it)) l.
Lemma att_propagate_units : forall grav (a : att R) ac gy t, aunits (at_items a) -> aunits (at_items (fst (att_propagate grav a ac gy t))).
Proof.
  intros grav a ac gy t H. unfold att_propagate. destruct (back_cases _ (at_items a)) as [[e Eb]|(l & y & e & Eb)]; rewrite Eb.
  - destruct (att_gate _ _); [exact H|]. cbn [fst at_items]. apply List.Forall_app. split; [exact H|]. constructor; [|constructor]. cbn [ai_q]. unfold att_init_q. cbv zeta.
    apply qnormalize_unit. set (d := delta_q _). assert (U : qunit (qnormalize d)) by (apply qnormalize_unit, delta_q_pos). unfold qunit in U. rewrite U. lra.
  - destruct (f64_ltb _ _); [exact H|]. cbn [fst at_items]. apply List.Forall_app. split; [exact H|]. constructor; [|constructor]. cbn [ai_q]. apply qstep_unit.
    unfold aunits in H. rewrite e in H. apply List.Forall_app in H as [_ H]. inversion H. assumption.
Qed.
Lemma att_clean_units : forall (a a' : att R) ts thr, att_clean a ts thr = Ok a' -> aunits (at_items a) -> aunits (at_items a').
Proof. intros a a' ts thr H Hu. destruct (att_clean_inv _ _ _ _ H) as ((pre & Hp) & _). unfold aunits in *. rewrite Hp in Hu. apply List.Forall_app in Hu as [_ Hu]. exact Hu. Qed.
Lemma att_search_units : forall ts thr l pre q, aunits l -> (forall it, pre = Some it -> qunit (ai_q it)) -> att_search (T := R) ts thr pre l = Ok (Some q) -> qunit q.
Proof.
  intros ts thr. induction l as [|it l IH]; intros pre q Hu Hp H; cbn [att_search] in H; [discriminate|]. inversion Hu as [|? ? H1 H2]; subst.
  destruct (f64_leb _ _).
  - destruct pre as [p|]; [|discriminate]. cbv zeta in H. destruct (_ && _)%bool; [injection H as <-; auto|]. destruct (f64_ltb _ _); [injection H as <-; exact H1|discriminate].
  - eapply IH; [exact H2| |exact H]. intros i e. injection e as <-. exact H1.
Qed.
Lemma att_get_units : forall (a : att R) ts thr q, aunits (at_items a) -> att_get a ts thr = Ok (Some q) -> qunit q.
Proof.
  intros a ts thr q Hu H. unfold att_get in H. destruct (at_items a) as [|i0 l] eqn:E0; [discriminate|].
  assert (Hall : forall x, In x (i0 :: l) -> qunit (ai_q x)) by (apply List.Forall_forall; exact Hu).
  binv H. destruct (back_cases _ (i0 :: l)) as [[e Eb]|(k & y & e & Eb)]; rewrite Eb in E; [discriminate|]. injection E as <-.
  destruct (f64_leb _ _).
  - destruct (f64_ltb _ _); [|discriminate]. injection H as <-. apply Hall. rewrite e. apply in_or_app. right. left. reflexivity.
  - cbn [front obind] in H. destruct (_ && _)%bool.
    + destruct (f64_ltb _ _); [|discriminate]. injection H as <-. apply Hall. left. reflexivity.
    + eapply (att_search_units ts thr _ None); [|intros it e0; discriminate e0|exact H]. apply List.Forall_rev. exact Hu.
Qed.

(** ** Initialization *)
Lemma pnp_loop_unit : forall ldlt w eps pts iter k (q : quat R) p, qunit q -> qunit (po_q (pnp_loop ldlt w eps pts iter k q p)).
Proof.
  intros ldlt w eps pts. induction iter as [|it IH]; intros k q p Hq; cbn [pnp_loop]; [exact Hq|].
  destruct (pnp_normal w q p pts) as [H b]. cbv zeta. destruct (sisnan _); [exact Hq|]. destruct (_ <? _)%sc; [apply qstep_unit; exact Hq|]. apply IH. apply qstep_unit. exact Hq.
Qed.
Lemma pnp_kernel_unit : forall cfg ldlt a b (q : quat R) p, qunit q -> qunit (po_q (pnp_kernel cfg ldlt a b q p)).
Proof. intros cfg ldlt a b q p Hq. unfold pnp_kernel. destruct (_ || _)%bool; [exact Hq|]. apply pnp_loop_unit. exact Hq. Qed.
Lemma estimate_pose_unit : forall o exts h (f : frame R) q p, List.Forall (fun e => qunit (ex_q e)) exts -> qunit (fr_q f) ->
  estimate_pose o exts h f = Ok (Some (q, p)) -> qunit q.
Proof.
  intros o exts h f q p He Hf H. unfold estimate_pose in H. binv H. destruct (Nat.ltb _ _); [discriminate|]. binv H. cbv zeta in H.
  assert (Ue : qunit (ex_q x0)). { unfold at_ in E0. destruct (nth_error exts 0) eqn:En; [|discriminate]. injection E0 as <-. rewrite List.Forall_forall in He. apply He. eapply nth_error_In. exact En. }
  destruct (po_ok _); [|discriminate]. injection H as <- <-. apply qmul_unit; [|rewrite qinv_unit by exact Ue; apply qconj_unit; exact Ue].
  apply pnp_kernel_unit. apply qmul_unit; assumption.
Qed.
Lemma replay_unit : forall grav n l (q : pqueue R), unit_queue q -> unit_queue (replay grav n q l).
Proof. intros grav n. induction l as [|it l IH]; intros q H; [exact H|]. cbn [replay fold_left]. apply IH. apply propagate_unit. exact H. Qed.

Lemma initialize_unit : forall c o (s s' : bstate R) r, initialize c o s = Ok (s', r) -> unit_attitudes s -> unit_attitudes s'.
Proof.
  intros c o s s' r H Hu. pose proof Hu as (U1 & U2 & U3 & U4 & U5). unfold initialize in H.
  destruct (wn_frames (b_win s)) as [|fi [|fj rest]] eqn:Ef; try (injection H as <- _; exact Hu).
  destruct (f64_ltb _ _); [injection H as <- _; exact Hu|]. binv H. destruct x as [q0|]; [|injection H as <- _; exact Hu].
  assert (Q0 : qunit q0) by (eapply att_get_units; [exact U3|exact E]).
  inversion U2 as [|? ? V1 V2]; subst. inversion V2 as [|? ? V3 V4]; subst.
  binv H. binv H. destruct x0 as [[q1 p1]|].
  - assert (Q1 : qunit q1) by (eapply estimate_pose_unit; [exact U1| |exact E1]; exact Q0).
    binv H. binv H. injection H as <- _. unfold init_propagator in E2. binv E2. injection E2 as <-.
    split; [exact U1|]. split; [cbn; constructor; [exact Q0|constructor; [exact Q1|exact V4]]|]. split; [eapply att_clean_units; [exact E4|exact U3]|].
    apply replay_unit. split; [exact Q0|exact U5].
  - injection H as <- _. split; [exact U1|]. split; [cbn; constructor; [exact Q0|constructor; [exact Q0|exact V4]]|]. auto.
Qed.

(** ** Histories *)
Lemma init_step_unit : forall c o (s s' : bstate R), init_step c o s = Ok s' -> unit_attitudes s -> unit_attitudes s'.
Proof.
  intros c o s s' H Hu. unfold init_step in H. destruct (b_status s); [|injection H as <-; exact Hu].
  binv H. destruct x as [s1 r]. cbn [fst snd] in H. pose proof (initialize_unit _ _ _ _ _ E Hu) as (U1 & U2 & U3). destruct r; [injection H as <-; split; [exact U1|split; [exact U2|exact U3]]|].
  binv H. injection H as <-. split; [exact U1|]. split; [eapply shrink_units; [exact E0|exact U2]|exact U3].
Qed.
Lemma update_step_unit : forall c o ts (s s' : bstate R), update_step c o ts s = Ok s' -> unit_attitudes s -> unit_attitudes s'.
Proof.
  intros c o ts s s' H Hu. pose proof Hu as (U1 & U2 & U3 & U4). unfold update_step in H. destruct (b_status s); [injection H as <-; exact Hu|].
  binv H. destruct x as [[v ok] pol]. apply vision_update_unit in E as (W1 & W2 & W3); [|split; [exact U1|split; [exact U2|exact U4]]].
  destruct ok; binv H; injection H as <-; (split; [exact W1|]); (split; [|split; [exact U3|exact W3]]).
  - eapply marginalize_units; [exact E|exact W2].
  - eapply shrink_units; [exact E|exact W2].
Qed.
Lemma feat_step_unit : forall c o (s s' : bstate R) m, feat_step c o s m = Ok s' -> unit_attitudes s -> unit_attitudes s'.
Proof.
  intros c o s s' m H Hu. unfold feat_step in H. binv H. binv H. binv H.
  assert (W : unit_attitudes (with_win s x)).
  { destruct Hu as (U1 & U2 & U3). split; [exact U1|]. split; [eapply update_window_units; [exact E|exact U2]|exact U3]. }
  pose proof (update_step_unit _ _ _ _ _ E1 (init_step_unit _ _ _ _ E0 W)) as (U1 & U2 & U3 & U4).
  unfold clean_step in H. destruct (Nat.ltb _ _); [|injection H as <-; repeat split; tauto]. binv H. binv H. injection H as <-.
  split; [exact U1|]. split; [exact U2|]. split; [eapply att_clean_units; [exact E3|exact U3]|exact U4].
Qed.
Lemma imu_step_unit : forall c (s : bstate R) m, unit_attitudes s -> unit_attitudes (fst (imu_step c s m)).
Proof.
  intros c s m (U1 & U2 & U3 & U4). unfold imu_step. pose proof (att_propagate_units (vc_grav c) (b_att s) (im_accel m) (im_gyro m) (im_ts m) U3) as Ha.
  destruct (att_propagate _ _ _ _ _) as [a r]. cbn [fst] in Ha. destruct (b_status s); cbn [fst]; (split; [exact U1|]); (split; [exact U2|]); (split; [exact Ha|]); [exact U4|].
  apply propagate_unit. exact U4.
Qed.
Lemma b_step_unit : forall c op (s s' : bstate R), b_step c s op = Ok s' -> unit_attitudes s -> unit_attitudes s'.
Proof.
  intros c op s s' H Hu. destruct op as [m|m|o| |]; cbn [b_step] in H.
  - injection H as <-. unfold b_imu. destruct (dl_push_imu (b_st s) (b_dl s) m) as [[[st l] m'] r]. exact Hu.
  - injection H as <-. unfold b_feat. destruct (dl_push_feat (b_st s) (b_dl s) m) as [[[st l] m'] r]. exact Hu.
  - binv H. injection H as <-. unfold run_once in E. destruct (dl_pop_one (b_dl s)) as [[[l m] ok] d]. destruct ok; cbn [negb] in E; [|injection E as <-; exact Hu].
    destruct (match cm_imu m with [] => (_, true) | i :: _ => imu_step c _ i end) as [s1 r1] eqn:E1.
    assert (H1 : unit_attitudes s1).
    { destruct (cm_imu m) as [|i l0]; [injection E1 as <- _; exact Hu|]. pose proof (imu_step_unit c (with_dl s (b_st s) l) i Hu) as G. rewrite E1 in G. exact G. }
    destruct (cm_feat m); [|injection E as <-; exact H1]. binv E. injection E as <-. eapply feat_step_unit; eassumption.
  - injection H as <-. unfold run_once_test. destruct (dl_pop_one (b_dl s)) as [[[l m] ok] d]. exact Hu.
  - injection H as <-. exact Hu.
Qed.
(** C76 *)
Theorem run_unit : forall c ops (s0 s : bstate R), BackendSpec.fresh s0 -> List.Forall (fun e => qnorm2 (ex_q e) = 1%R) (b_ext s0) ->
  b_hist c s0 ops = Ok s -> unit_attitudes s.
Proof.
  intros c ops s0 s Hf He H. assert (Hu : unit_attitudes s0).
  { destruct Hf as (st & per & ex & ba & bg & na & ng & nwa & nwg & ->). split; [exact He|]. split; [constructor|]. split; [constructor|]. split; [exact qid_unit|constructor]. }
  clear Hf He. revert s0 Hu H. induction ops as [|op ops IH]; intros s0 Hu H; cbn [b_hist] in H; [injection H as <-; exact Hu|].
  binv H. eapply IH; [|exact H]. eapply b_step_unit; eassumption.
Qed.
Theorem published_unit : forall c ops (s0 s : bstate R) m ba bg t, BackendSpec.fresh s0 -> List.Forall (fun e => qnorm2 (ex_q e) = 1%R) (b_ext s0) ->
  b_hist c s0 ops = Ok s -> b_publish_newest s = Some (m, ba, bg, t) \/ b_publish_oldest s = Some (m, ba, bg, t) -> qnorm2 (mo_q m) = 1%R.
Proof.
  intros c ops s0 s m ba bg t Hf He H Hp. destruct (run_unit _ _ _ _ Hf He H) as (_ & _ & _ & _ & U). rewrite List.Forall_forall in U.
  unfold b_publish_newest, b_publish_oldest, pq_publish_newest, pq_publish_oldest in Hp. destruct Hp as [Hp|Hp].
  - destruct (back_cases _ (pq_items (b_pq s))) as [[e Eb]|(k & y & e & Eb)]; rewrite Eb in Hp; [discriminate|]. injection Hp as <- _ _ _. apply U. rewrite e. apply in_or_app. right. left. reflexivity.
  - destruct (pq_items (b_pq s)) as [|y k]; [discriminate|]. injection Hp as <- _ _ _. apply U. left. reflexivity.
Qed.
