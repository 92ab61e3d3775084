(** No IMU sample is lost, doubled or reordered between the pushes and the queues of the back end (C85). *)
From Coq Require Import ZArith List Bool Lia Arith.
From stdpp Require Import gmap list.
From Flocq Require Import IEEE754.BinarySingleNaN.
From Verif Require Import Fp FpFacts Scalar Base LinAlg Msg DataLoader FeatureManager FrameManager Window MathLib Attitude Propagator
  Triangulate Pnp VisionUpdate Backend LoaderSpec WindowSpec QueueSpec UpdSpec NumSpec BackendSpec BiasSpec FlowSpec LoaderFacts AttitudeFacts
  PropagatorFacts UpdCovFacts SafeFacts BackLenFacts BackDimFacts BackSafeFacts BackTimeFacts BackBiasFacts AppFacts.
Import ListNotations.
Local Open Scope nat_scope.

Section Flow.
Context {T : Type} {S : SOps T}.

(** A list is a suffix. *)
Definition ends {A} (l e : list A) : Prop := exists pre, l = pre ++ e.
Lemma ends_refl : forall A (l : list A), ends l l.
Proof. intros A l. exists []. reflexivity. Qed.
Lemma ends_drop : forall A (l p e : list A), ends l (p ++ e) -> ends l e.
Proof. intros A l p e (x & ->). exists (x ++ p). rewrite app_assoc. reflexivity. Qed.
Lemma ends_snoc : forall A (l e k : list A), ends l e -> ends (l ++ k) (e ++ k).
Proof. intros A l e k (x & ->). exists x. rewrite app_assoc. reflexivity. Qed.

(** ** The attitude estimator takes every sample, after the first one it accepts *)
Lemma att_takes : forall grav (st : att T) m R, time_sorted (map ai_ts (at_items st) ++ im_ts m :: R) ->
  let a := fst (att_propagate grav st (im_accel m) (im_gyro m) (im_ts m)) in
  at_ba a = at_ba st /\ at_bg a = at_bg st /\
  ((at_items st = [] /\ at_items a = []) \/
   exists it, at_items a = at_items st ++ [it] /\ ameas it = (v3sub (im_accel m) (at_ba st), v3sub (im_gyro m) (at_bg st), im_ts m)).
Proof.
  intros grav st m R Hs a. subst a. pose proof (att_propagate_rule grav st (im_accel m) (im_gyro m) (im_ts m)) as Hr.
  destruct (back_cases _ (at_items st)) as [[e _]|(l & b & e & _)].
  - rewrite e in Hr. cbn [rev] in Hr. destruct (sgt64 _ _); [rewrite Hr; cbn [fst]; auto|]. destruct Hr as (q & ->). cbn [fst at_ba at_bg at_items]. rewrite e.
    split; [reflexivity|]. split; [reflexivity|]. right. eexists. split; reflexivity.
  - rewrite e, rev_app_distr in Hr. cbn [rev app] in Hr. rewrite <- e in Hr.
    assert (L : f64_leb (ai_ts b) (im_ts m) = true).
    { apply sorted_app in Hs as (_ & _ & Hs). apply Hs; [|left; reflexivity]. rewrite e, map_app. apply in_or_app. right. left. reflexivity. }
    destruct (f64_ltb (im_ts m) (ai_ts b)) eqn:El; [apply f64_ltb_leb_false in El; congruence|]. destruct Hr as (q & er & ->). cbn [fst at_ba at_bg at_items].
    split; [reflexivity|]. split; [reflexivity|]. right. eexists. split; reflexivity.
Qed.

(** [L] are the samples accepted so far, [W] those not yet processed. *)
Definition att_flow (L W : list (imu_msg T)) (s : bstate T) : Prop :=
  ends (map im_ts L) (map ai_ts (at_items (b_att s)) ++ map im_ts W).
Definition pq_flow (L W : list (imu_msg T)) (s : bstate T) : Prop :=
  match b_status s with
  | NeedInit => pq_items (b_pq s) = [] /\ at_ba (b_att s) = v3zero /\ at_bg (b_att s) = v3zero /\
      ends (map samp L) (map ameas (at_items (b_att s)) ++ map samp W)
  | Initialized => ends (map samp L) (map meas (pq_items (b_pq s)) ++ map samp W)
  end.

Lemma imu_step_att : forall c (s : bstate T) m, b_att (fst (imu_step c s m)) = fst (att_propagate (vc_grav c) (b_att s) (im_accel m) (im_gyro m) (im_ts m)).
Proof. intros c s m. unfold imu_step. destruct (att_propagate _ _ _ _ _). destruct (b_status s); reflexivity. Qed.

Lemma imu_step_att_flow : forall c L W (s s' : bstate T) m r R, imu_step c s m = (s', r) ->
  time_sorted (map ai_ts (at_items (b_att s)) ++ im_ts m :: R) -> att_flow L (m :: W) s -> att_flow L W s'.
Proof.
  intros c L W s s' m r R H Hs HF. pose proof (imu_step_att c s m) as Ha. rewrite H in Ha. cbn [fst] in Ha. unfold att_flow in *. rewrite Ha.
  destruct (att_takes (vc_grav c) (b_att s) m R Hs) as (_ & _ & [[e1 e2]|(it & e & Hm)]).
  - rewrite e2. rewrite e1 in HF. cbn [map app] in *. apply (ends_drop _ _ [im_ts m]). exact HF.
  - rewrite e, map_app, <- app_assoc. cbn [map app]. unfold ameas in Hm. injection Hm as _ _ ->. exact HF.
Qed.

Lemma kept_att_flow : forall L W (s s' : bstate T), att_kept s s' -> att_flow L W s -> att_flow L W s'.
Proof.
  intros L W s s' ((pre & Hp) & _) HF. unfold att_flow in *. rewrite Hp, map_app, <- app_assoc in HF. eapply ends_drop. exact HF.
Qed.

Lemma run_once_att_flow : forall c o (s s' : bstate T) r R L, (0 <= vc_maxwin c < 4294967295)%Z -> time_inv c R s -> run_once c o s = Ok (s', r) ->
  att_flow L (dl_imu (b_dl s)) s -> att_flow L (dl_imu (b_dl s')) s'.
Proof.
  intros c o s s' r R L Hm (Hs & HA & Hw & (n & HP) & Hoff) H HF.
  unfold run_once in H. pose proof (pop_one_conserve (b_dl s)) as Hc.
  destruct (dl_pop_one (b_dl s)) as [[[l m] ok] d] eqn:Ep. destruct Hc as [Hc _]. rewrite <- Hc in HF. rewrite <- Hc, map_app, <- app_assoc in Hs.
  assert (Hone : length (cm_imu m) <= 1 /\ (ok = false -> cm_imu m = [])).
  { unfold dl_pop_one in Ep. destruct (dl_imu (b_dl s)), (dl_feat (b_dl s)); try (injection Ep as _ <- <- _; cbn; split; [lia|]; try discriminate; reflexivity).
    destruct (f64_leb _ _); [destruct (f64_ltb _ _)|]; injection Ep as _ <- <- _; cbn; split; try lia; discriminate. }
  destruct Hone as [Hone Hnone]. set (s0 := with_dl s (b_st s) l) in *.
  destruct ok; cbn [negb] in H; [|injection H as <- <-; rewrite (Hnone eq_refl) in HF; exact HF].
  destruct (match cm_imu m with [] => (s0, true) | i :: _ => imu_step c s0 i end) as [s1 r1] eqn:E1.
  assert (K : att_flow L (dl_imu l) s1 /\ att_inv s1 /\ (exists n1, PQ n1 (b_pq s1)) /\ b_dl s1 = l /\ b_win s1 = b_win s /\ b_status s1 = b_status s).
  { destruct (cm_imu m) as [|i [|]]; [injection E1 as <- <-; cbn; split; [exact HF|eauto 10]| |cbn in Hone; lia]. cbn [map app] in Hs, HF.
    pose proof (imu_step_win _ _ _ _ _ E1) as (W1 & W2 & W3 & _).
    assert (N : f64_isnan (im_ts i) = false) by (eapply sorted_notnan; [exact Hs|apply in_or_app; right; left; reflexivity]).
    destruct (imu_step_inv _ _ _ _ _ N E1 HA n HP) as [X Y]. cbn in W1, W2, W3. split; [|auto 10].
    eapply (imu_step_att_flow c L (dl_imu l) s0 s1); [exact E1|exact Hs|exact HF]. }
  destruct K as (K1 & K2 & (n1 & K3) & K4 & K5 & K6).
  destruct (cm_feat m) as [f|].
  - binv H. injection H as <- <-.
    assert (Hw1 : win_ok c s1) by (unfold win_ok, n_frames in *; rewrite K5, K6; exact Hw).
    destruct (feat_step_time c o s1 x f n1 Hm Hw1 K3 K2 E) as (F1 & F2 & F3 & F4 & F5).
    rewrite F1, K4. eapply kept_att_flow; [exact F4|exact K1].
  - injection H as <- <-. rewrite K4. exact K1.
Qed.

(** The memory of the loader changes only with a push. *)
Lemma feat_step_st : forall c o (s s' : bstate T) m, feat_step c o s m = Ok s' -> b_st s' = b_st s.
Proof.
  intros c o s s' m H. unfold feat_step in H. binv H. binv H. binv H. rename x into w, x0 into s1, x1 into s2.
  transitivity (b_st s2); [|transitivity (b_st s1)].
  - unfold clean_step in H. destruct (Nat.ltb _ _); [|injection H as <-; reflexivity]. binv H. binv H. injection H as <-. reflexivity.
  - unfold update_step in E1. destruct (b_status s1); [injection E1 as <-; reflexivity|]. binv E1. destruct x as [[v ok] pol]. destruct ok; binv E1; injection E1 as <-; reflexivity.
  - unfold init_step in E0. cbn [with_win b_status] in E0. destruct (b_status s); [|injection E0 as <-; reflexivity]. binv E0. destruct x as [s3 r]. cbn [fst snd] in E0.
    apply initialize_len in E2 as (_ & _ & _ & E2 & _). destruct r; [injection E0 as <-; exact E2|]. binv E0. injection E0 as <-. exact E2.
Qed.
Lemma run_once_st : forall c o (s s' : bstate T) r, run_once c o s = Ok (s', r) -> b_st s' = b_st s.
Proof.
  intros c o s s' r H. unfold run_once in H. destruct (dl_pop_one (b_dl s)) as [[[l m] ok] d]. destruct ok; cbn [negb] in H; [|injection H as <- <-; reflexivity].
  destruct (match cm_imu m with [] => (_, true) | i :: _ => imu_step c _ i end) as [s1 r1] eqn:E1.
  assert (K : b_st s1 = b_st s).
  { destruct (cm_imu m) as [|i x]; [injection E1 as <- <-; reflexivity|]. apply imu_step_win in E1 as (_ & _ & _ & E1 & _). exact E1. }
  destruct (cm_feat m); [|injection H as <- <-; exact K]. binv H. injection H as <- <-. rewrite (feat_step_st _ _ _ _ _ E). exact K.
Qed.

(** ** Histories *)
Definition not_test (op : b_op T) : Prop := match op with BTest => False | _ => True end.
Lemma stream_cons : forall c op (s s' : bstate T) r, off_ok (b_dl s) -> b_step c s op = Ok s' ->
  stream (st_imu (b_st s)) (op :: r) = stream (st_imu (b_st s)) [op] ++ stream (st_imu (b_st s')) r.
Proof.
  intros c op s s' r Ho H. destruct op as [m|m|o| |]; cbn [b_step] in H; cbn [stream app]; try (rewrite app_nil_r).
  - assert (e : s' = fst (b_imu s m)) by congruence. subst s'. unfold b_imu. rewrite push_imu_eq by exact Ho. reflexivity.
  - assert (e : s' = fst (b_feat s m)) by congruence. subst s'. unfold b_feat. rewrite push_feat_eq by exact Ho. destruct (well_sized m); reflexivity.
  - binv H. destruct x as [s2 b]. injection H as <-. rewrite (run_once_st _ _ _ _ _ E). reflexivity.
  - assert (e : s' = fst (run_once_test s)) by congruence. subst s'. unfold run_once_test. destruct (dl_pop_one (b_dl s)) as [[[l x] ok] d]. reflexivity.
  - injection H as <-. reflexivity.
Qed.
(** Calls other than RunOnce: the queues are unchanged and an accepted sample is appended to those waiting. *)
Lemma b_step_waiting : forall c op (s s' : bstate T), off_ok (b_dl s) -> not_test op -> match op with BRun _ => False | _ => True end -> b_step c s op = Ok s' ->
  b_att s' = b_att s /\ b_pq s' = b_pq s /\ dl_imu (b_dl s') = dl_imu (b_dl s) ++ stream (st_imu (b_st s)) [op].
Proof.
  intros c op s s' Ho Hn Hr H. destruct op as [m|m|o| |]; cbn [b_step] in H; cbn [stream app]; rewrite ?app_nil_r; try contradiction.
  - assert (e : s' = fst (b_imu s m)) by congruence. subst s'. unfold b_imu. rewrite push_imu_eq by exact Ho. cbn. destruct (f64_ltb _ _); rewrite ?app_nil_r; auto.
  - assert (e : s' = fst (b_feat s m)) by congruence. subst s'. unfold b_feat. rewrite push_feat_eq by exact Ho. destruct (well_sized m); auto.
  - injection H as <-. auto.
Qed.
Lemma att_flow_app : forall L W K (s s' : bstate T), at_items (b_att s') = at_items (b_att s) -> att_flow L W s -> att_flow (L ++ K) (W ++ K) s'.
Proof. intros L W K s s' e H. unfold att_flow in *. rewrite e, !map_app, app_assoc. apply ends_snoc. exact H. Qed.

Lemma b_hist_att_flow : forall c ops (s s' : bstate T) R L, (0 <= vc_maxwin c < 4294967295)%Z -> List.Forall not_test ops ->
  time_inv c (map (fun m => shift (im_ts m)) (pushed_imu ops) ++ R) s -> b_hist c s ops = Ok s' -> att_flow L (dl_imu (b_dl s)) s ->
  att_flow (L ++ stream (st_imu (b_st s)) ops) (dl_imu (b_dl s')) s'.
Proof.
  intros c. induction ops as [|op r IH]; intros s s' R L Hm Hn HI H HF; cbn [b_hist] in H; [injection H as <-; cbn [stream]; rewrite app_nil_r; exact HF|].
  binv H. rename x into s1. inversion Hn as [|? ? Hn1 Hn2]; subst. rewrite pushed_imu_cons, map_app, <- app_assoc in HI.
  destruct (b_step_time _ _ _ _ _ Hm HI E) as [HI1 _]. pose proof HI as (_ & _ & _ & _ & Ho). rewrite (stream_cons c op s s1 r Ho E), app_assoc.
  eapply IH; [exact Hm|exact Hn2|exact HI1|exact H|].
  destruct op as [m|m|o| |];
    try (destruct (b_step_waiting c _ s s1 Ho Hn1 I E) as (B1 & _ & ->); apply (att_flow_app _ _ _ s); [rewrite B1; reflexivity|exact HF]).
  - cbn [b_step] in E. binv E. destruct x as [s2 b]. cbn [fst] in E. injection E as <-. cbn [stream]. rewrite app_nil_r.
    eapply run_once_att_flow; [exact Hm|exact HI|exact E0|exact HF].
Qed.

Lemma fresh_time_inv : forall (c : vcfg T) (ops : list (b_op T)) (s0 : bstate T), fresh s0 -> time_sorted (map im_ts (pushed_imu ops)) ->
  time_inv c (map (fun m => shift (im_ts m)) (pushed_imu ops) ++ []) s0.
Proof.
  intros c ops s0 Hf Hs. apply shift_sorted in Hs. rewrite map_map in Hs. rewrite app_nil_r.
  destruct Hf as (st & per & ex & ba & bg & na & ng & nwa & nwg & ->). split; [exact Hs|]. split; [|split; [split; [cbn; lia|discriminate]|split; [exists 0; repeat split; constructor|reflexivity]]].
  split; [exact I|]. split; [auto|]. discriminate.
Qed.

(** C85: the attitude queue. *)
Theorem attitude_flow : forall c ops (s0 s : bstate T), (0 <= vc_maxwin c < 4294967295)%Z -> fresh s0 -> no_test ops ->
  time_sorted (map im_ts (pushed_imu ops)) -> b_hist c s0 ops = Ok s ->
  exists pre, map im_ts (stream (st_imu (b_st s0)) ops) = pre ++ map ai_ts (at_items (b_att s)) ++ map im_ts (dl_imu (b_dl s)).
Proof.
  intros c ops s0 s Hm Hf Hn Hs H.
  destruct (b_hist_att_flow c ops s0 s [] [] Hm Hn (fresh_time_inv c ops s0 Hf Hs) H) as (pre & Hp); [|exists pre; exact Hp].
  destruct Hf as (st & per & ex & ba & bg & na & ng & nwa & nwg & ->). exists []. reflexivity.
Qed.

(** ** The propagation queue *)
Hypothesis sub_zero : forall x : T, ssub x s0 = x.

Lemma imu_step_pq_flow : forall c L W (s s' : bstate T) m r R, imu_step c s m = (s', r) ->
  time_sorted (map ai_ts (at_items (b_att s)) ++ im_ts m :: R) -> pq_flow L (m :: W) s -> pq_flow L W s'.
Proof.
  intros c L W s s' m r R H Hs HF. pose proof (imu_step_win _ _ _ _ _ H) as (_ & W2 & _). unfold pq_flow in *. rewrite W2.
  destruct (b_status s) eqn:Es.
  - pose proof (imu_step_att c s m) as Ha. rewrite H in Ha. cbn [fst] in Ha. rewrite Ha. destruct HF as (F1 & F2 & F3 & F4).
    destruct (att_takes (vc_grav c) (b_att s) m R Hs) as (A1 & A2 & A3).
    unfold imu_step in H. destruct (att_propagate (vc_grav c) (b_att s) (im_accel m) (im_gyro m) (im_ts m)) as [a rr]. rewrite Es in H. injection H as <- <-.
    cbn [fst with_att b_pq] in *. split; [exact F1|]. rewrite A1, A2. split; [exact F2|]. split; [exact F3|].
    destruct A3 as [[e1 e2]|(it & e & Hm)].
    + rewrite e2. rewrite e1 in F4. cbn [map app] in *. apply (ends_drop _ _ [samp m]). exact F4.
    + rewrite e, map_app, <- app_assoc. cbn [map app]. rewrite Hm, F2, F3, !(v3sub_zero sub_zero). exact F4.
  - unfold imu_step in H. destruct (att_propagate _ _ _ _ _) as [a rr]. rewrite Es in H. injection H as <- <-. cbn [with_pq with_att b_pq b_ext].
    destruct (pq_propagate_items (vc_grav c) (length (b_ext s)) (b_pq s) (im_accel m) (im_gyro m) (im_ts m)) as (it & -> & E & _).
    rewrite map_app, <- app_assoc. cbn [map app]. rewrite E. exact HF.
Qed.

Lemma feat_step_pq_flow : forall c o L W (s s' : bstate T) m, pq_flow L W s -> feat_step c o s m = Ok s' ->
  (b_status s = Initialized -> b_status s' = Initialized) -> (b_status s' = NeedInit -> pq_items (b_pq s') = []) -> pq_flow L W s'.
Proof.
  intros c o L W s s' m HF H Hstay Hnew. unfold feat_step in H. binv H. binv H. binv H. rename x into w, x0 into s1, x1 into s2.
  pose proof (clean_step_same _ _ H) as (_ & C2 & _ & _ & C5 & _). unfold pq_flow in HF |- *. destruct (b_status s) eqn:Es.
  - destruct HF as (F1 & F2 & F3 & F4).
    (* the attitude queue only loses a prefix; the queue after the initialization is the attitude queue *)
    assert (I : exists pre, at_items (b_att s) = pre ++ at_items (b_att s1) /\ at_ba (b_att s1) = v3zero /\ at_bg (b_att s1) = v3zero /\
      match b_status s1 with NeedInit => True | Initialized => map meas (pq_items (b_pq s1)) = map ameas (at_items (b_att s1)) end).
    { unfold init_step in E0. cbn [with_win b_status] in E0. rewrite Es in E0. binv E0. destruct x as [s3 r]. cbn [fst snd] in E0.
      pose proof (initialize_pq _ _ _ _ _ E2) as Hi. destruct r.
      - injection E0 as <-. destruct Hi as (fi & rest & a & mo & _ & Hc & Ha & Hq & _). cbn [with_win b_att b_pq b_dl b_ext] in Hc, Hq.
        destruct (att_clean_inv _ _ _ _ Hc) as ((pre & Hp) & _ & D1 & D2 & _). exists pre. cbn [with_status b_att b_status b_pq]. rewrite Ha, D1, D2.
        split; [exact Hp|]. split; [exact F2|]. split; [exact F3|]. rewrite Hq.
        destruct (replay_items (vc_grav c) (length (b_ext s)) (at_items a) (with_init (b_pq s) mo)) as (l' & -> & Hm & _). cbn [with_init pq_items]. rewrite F1. exact Hm.
      - binv E0. injection E0 as <-. destruct Hi as [e1 e2]. pose proof (initialize_len _ _ _ _ _ E2) as (_ & J2 & _ & _).
        cbn [with_win b_att b_pq b_status] in *. exists []. rewrite e1. split; [reflexivity|]. split; [exact F2|]. split; [exact F3|].
        destruct (b_status s3); [exact I|]. congruence. }
    destruct I as (pre & I1 & I2 & I3 & I4).
    assert (F4' : ends (map samp L) (map ameas (at_items (b_att s1)) ++ map samp W)).
    { rewrite I1, map_app, <- app_assoc in F4. eapply ends_drop. exact F4. }
    unfold update_step in E1. destruct (b_status s1) eqn:Es1.
    + injection E1 as <-. rewrite C2, Es1. split; [apply Hnew; rewrite C2; exact Es1|].
      unfold clean_step in H. destruct (Nat.ltb _ _); [|injection H as <-; auto]. binv H. binv H. injection H as <-. cbn [with_att b_att].
      destruct (att_clean_inv _ _ _ _ E2) as ((p2 & Hp) & _ & D1 & D2 & _). rewrite D1, D2. split; [exact I2|]. split; [exact I3|].
      rewrite Hp, map_app, <- app_assoc in F4'. eapply ends_drop. exact F4'.
    + binv E1. destruct x as [[v ok] pol]. apply vision_update_meas in E2 as (p2 & Hpre). cbn [vs_pq] in Hpre. destruct ok; binv E1.
      * injection E1 as <-. cbn [with_att with_win b_status b_pq b_att] in *. rewrite C2, C5. rewrite <- I4, Hpre, <- app_assoc in F4'. eapply ends_drop. exact F4'.
      * injection E1 as <-. cbn [with_status with_win b_status b_pq b_att] in *. rewrite C2. split; [apply Hnew; rewrite C2; reflexivity|].
        unfold clean_step in H. destruct (Nat.ltb _ _); [|injection H as <-; auto]. binv H. binv H. injection H as <-. cbn [with_att with_win with_status b_att].
        match goal with X : att_clean _ _ _ = Ok _ |- _ => destruct (att_clean_inv _ _ _ _ X) as ((p3 & Hp) & _ & D1 & D2 & _) end. cbn [with_win with_status b_att] in Hp, D1, D2. rewrite D1, D2. split; [exact I2|]. split; [exact I3|].
        rewrite Hp, map_app, <- app_assoc in F4'. eapply ends_drop. exact F4'.
  - rewrite (Hstay eq_refl). unfold init_step in E0. cbn [with_win b_status] in E0. rewrite Es in E0. injection E0 as <-.
    unfold update_step in E1. cbn [with_win b_status] in E1. rewrite Es in E1. binv E1. destruct x as [[v ok] pol].
    apply vision_update_meas in E0 as (p2 & Hpre). cbn [vs_pq with_win b_pq] in Hpre. rewrite C5. rewrite Hpre, <- app_assoc in HF. apply ends_drop in HF.
    destruct ok; binv E1; injection E1 as <-; exact HF.
Qed.

Lemma run_once_pq_flow : forall c o (s s' : bstate T) r R L, time_inv c R s -> run_once c o s = Ok (s', r) ->
  (b_status s = Initialized -> b_status s' = Initialized) -> (b_status s' = NeedInit -> pq_items (b_pq s') = []) ->
  pq_flow L (dl_imu (b_dl s)) s -> pq_flow L (dl_imu (b_dl s')) s'.
Proof.
  intros c o s s' r R L (Hs & _) H Hstay Hnew HF.
  unfold run_once in H. pose proof (pop_one_conserve (b_dl s)) as Hc.
  destruct (dl_pop_one (b_dl s)) as [[[l m] ok] d] eqn:Ep. destruct Hc as [Hc _]. rewrite <- Hc in HF. rewrite <- Hc, map_app, <- app_assoc in Hs.
  assert (Hone : length (cm_imu m) <= 1 /\ (ok = false -> cm_imu m = [])).
  { unfold dl_pop_one in Ep. destruct (dl_imu (b_dl s)), (dl_feat (b_dl s)); try (injection Ep as _ <- <- _; cbn; split; [lia|]; try discriminate; reflexivity).
    destruct (f64_leb _ _); [destruct (f64_ltb _ _)|]; injection Ep as _ <- <- _; cbn; split; try lia; discriminate. }
  destruct Hone as [Hone Hnone]. set (s0 := with_dl s (b_st s) l) in *.
  destruct ok; cbn [negb] in H; [|injection H as <- <-; rewrite (Hnone eq_refl) in HF; exact HF].
  destruct (match cm_imu m with [] => (s0, true) | i :: _ => imu_step c s0 i end) as [s1 r1] eqn:E1.
  assert (K : pq_flow L (dl_imu l) s1 /\ b_dl s1 = l /\ b_status s1 = b_status s).
  { destruct (cm_imu m) as [|i [|]]; [injection E1 as <- <-; cbn; split; [exact HF|auto]| |cbn in Hone; lia]. cbn [map app] in Hs, HF.
    pose proof (imu_step_win _ _ _ _ _ E1) as (W1 & W2 & W3 & _). cbn in W1, W2, W3. split; [|auto].
    eapply (imu_step_pq_flow c L (dl_imu l) s0 s1); [exact E1|exact Hs|exact HF]. }
  destruct K as (K1 & K2 & K3).
  destruct (cm_feat m) as [f|]; [|injection H as <- <-; rewrite K2; exact K1].
  binv H. injection H as <- <-. pose proof (feat_step_dl _ _ _ _ _ E) as F1. rewrite F1, K2.
  eapply feat_step_pq_flow; [exact K1|exact E|rewrite K3; exact Hstay|exact Hnew].
Qed.

Lemma pq_flow_app : forall L W K (s s' : bstate T), b_status s' = b_status s -> b_att s' = b_att s -> b_pq s' = b_pq s -> pq_flow L W s -> pq_flow (L ++ K) (W ++ K) s'.
Proof.
  intros L W K s s' e1 e2 e3 H. unfold pq_flow in *. rewrite e1, e2, e3. destruct (b_status s).
  - destruct H as (H1 & H2 & H3 & H4). split; [exact H1|]. split; [exact H2|]. split; [exact H3|]. rewrite !map_app, app_assoc. apply ends_snoc. exact H4.
  - rewrite !map_app, app_assoc. apply ends_snoc. exact H.
Qed.
Lemma newest_none : forall s : bstate T, b_publish_newest s = None -> pq_items (b_pq s) = [].
Proof.
  intros s H. unfold b_publish_newest, pq_publish_newest in H. destruct (back_cases _ (pq_items (b_pq s))) as [[e _]|(l & b & e & Eb)]; [exact e|].
  rewrite Eb in H. discriminate H.
Qed.
Lemma one_session_tail : forall c op r (s s1 : bstate T), one_session c s (op :: r) -> b_step c s op = Ok s1 -> one_session c s1 r.
Proof.
  intros c op r s s1 [H1 H2] E. split.
  - intros o1 o2 o3 a b Eo Ha Hs Hb. apply (H1 (op :: o1) o2 o3 a b); [rewrite Eo; reflexivity| |exact Hs|exact Hb]. cbn [b_hist]. rewrite E. exact Ha.
  - intros o1 o2 a Eo Ha. apply (H2 (op :: o1) o2); [rewrite Eo; reflexivity|]. cbn [b_hist]. rewrite E. exact Ha.
Qed.
Lemma b_hist_pq_flow : forall c ops (s s' : bstate T) R L, (0 <= vc_maxwin c < 4294967295)%Z -> List.Forall not_test ops -> one_session c s ops ->
  time_inv c (map (fun m => shift (im_ts m)) (pushed_imu ops) ++ R) s -> b_hist c s ops = Ok s' -> pq_flow L (dl_imu (b_dl s)) s ->
  pq_flow (L ++ stream (st_imu (b_st s)) ops) (dl_imu (b_dl s')) s'.
Proof.
  intros c. induction ops as [|op r IH]; intros s s' R L Hm Hn Hst HI H HF; cbn [b_hist] in H; [injection H as <-; cbn [stream]; rewrite app_nil_r; exact HF|].
  binv H. rename x into s1. inversion Hn as [|? ? Hn1 Hn2]; subst. rewrite pushed_imu_cons, map_app, <- app_assoc in HI.
  destruct (b_step_time _ _ _ _ _ Hm HI E) as [HI1 _]. pose proof HI as (_ & _ & _ & _ & Ho). rewrite (stream_cons c op s s1 r Ho E), app_assoc.
  assert (S1 : b_status s = Initialized -> b_status s1 = Initialized).
  { intros e. apply (proj1 Hst [] [op] r s s1); [reflexivity|reflexivity|exact e|]. cbn [b_hist]. rewrite E. reflexivity. }
  assert (S2 : b_status s1 = NeedInit -> pq_items (b_pq s1) = []).
  { intros e. apply newest_none. apply (proj2 Hst [op] r s1); [reflexivity| |exact e]. cbn [b_hist]. rewrite E. reflexivity. }
  eapply IH; [exact Hm|exact Hn2|eapply one_session_tail; [exact Hst|exact E]|exact HI1|exact H|].
  destruct op as [m|m|o| |].
  - destruct (b_step_waiting c _ s s1 Ho Hn1 I E) as (B1 & B2 & ->). apply (pq_flow_app _ _ _ s); [|exact B1|exact B2|exact HF].
    assert (e : s1 = fst (b_imu s m)) by (cbn [b_step] in E; congruence). subst s1. unfold b_imu. destruct (dl_push_imu _ _ _) as [[[? ?] ?] ?]. reflexivity.
  - destruct (b_step_waiting c _ s s1 Ho Hn1 I E) as (B1 & B2 & ->). apply (pq_flow_app _ _ _ s); [|exact B1|exact B2|exact HF].
    assert (e : s1 = fst (b_feat s m)) by (cbn [b_step] in E; congruence). subst s1. unfold b_feat. destruct (dl_push_feat _ _ _) as [[[? ?] ?] ?]. reflexivity.
  - cbn [b_step] in E. binv E. destruct x as [s2 b]. cbn [fst] in E. injection E as <-. cbn [stream]. rewrite app_nil_r.
    eapply run_once_pq_flow; [exact HI|exact E0|exact S1|exact S2|exact HF].
  - contradiction.
  - destruct (b_step_waiting c _ s s1 Ho Hn1 I E) as (B1 & B2 & ->). apply (pq_flow_app _ _ _ s); [|exact B1|exact B2|exact HF].
    cbn [b_step] in E. injection E as <-. cbn [b_reset with_status b_status] in *. destruct (b_status s); [reflexivity|]. specialize (S1 eq_refl). discriminate S1.
Qed.

(** C85: the propagation queue. *)
Theorem queue_flow : forall c ops (s0 s : bstate T), (0 <= vc_maxwin c < 4294967295)%Z -> fresh s0 -> no_test ops ->
  time_sorted (map im_ts (pushed_imu ops)) -> one_session c s0 ops -> b_hist c s0 ops = Ok s -> b_status s = Initialized ->
  exists pre, map of_sample (stream (st_imu (b_st s0)) ops) = pre ++ map of_item (pq_items (b_pq s)) ++ map of_sample (dl_imu (b_dl s)).
Proof.
  intros c ops s0 s Hm Hf Hn Hs Hst H Hi.
  assert (K : pq_flow ([] ++ stream (st_imu (b_st s0)) ops) (dl_imu (b_dl s)) s).
  { apply (b_hist_pq_flow c ops s0 s [] []); [exact Hm|exact Hn|exact Hst|exact (fresh_time_inv c ops s0 Hf Hs)|exact H|].
    destruct Hf as (st & per & ex & ba & bg & na & ng & nwa & nwg & ->). split; [reflexivity|]. split; [reflexivity|]. split; [reflexivity|]. exists []. reflexivity. }
  unfold pq_flow in K. rewrite Hi in K. exact K.
Qed.
(** C85: what is published is as new as the samples processed. *)
Theorem newest_flow : forall c ops (s0 s : bstate T) mo ba bg t, (0 <= vc_maxwin c < 4294967295)%Z -> fresh s0 -> no_test ops ->
  time_sorted (map im_ts (pushed_imu ops)) -> one_session c s0 ops -> b_hist c s0 ops = Ok s ->
  b_publish_newest s = Some (mo, ba, bg, t) -> dl_imu (b_dl s) = [] ->
  exists l m, stream (st_imu (b_st s0)) ops = l ++ [m] /\ t = im_ts m.
Proof.
  intros c ops s0 s mo ba bg t Hm Hf Hn Hs Hst H Hp He.
  assert (Hi : b_status s = Initialized).
  { destruct (b_status s) eqn:Es; [|reflexivity]. rewrite (proj2 Hst ops [] s) in Hp; [discriminate|rewrite app_nil_r; reflexivity|exact H|exact Es]. }
  destruct (queue_flow c ops s0 s Hm Hf Hn Hs Hst H Hi) as (pre & Hq). rewrite He in Hq. cbn [map] in Hq. rewrite app_nil_r in Hq.
  unfold b_publish_newest, pq_publish_newest in Hp. destruct (back_cases _ (pq_items (b_pq s))) as [[e Eb]|(l & b & e & Eb)]; rewrite Eb in Hp; [discriminate|].
  cbn in Hp. injection Hp as _ _ _ <-. rewrite e, map_app, app_assoc in Hq. cbn [map] in Hq.
  destruct (back_cases _ (stream (st_imu (b_st s0)) ops)) as [[x _]|(k & m & x & _)]; [rewrite x in Hq; destruct (pre ++ map of_item l); discriminate|].
  exists k, m. split; [exact x|]. rewrite x, map_app in Hq. cbn [map] in Hq. apply app_inj_tail in Hq as [_ Hq]. unfold of_item, of_sample in Hq. injection Hq as _ _ <-. reflexivity.
Qed.
End Flow.
