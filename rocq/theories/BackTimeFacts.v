(** The published propagation time never goes back. *)
From Coq Require Import ZArith List Bool Lia Arith.
From stdpp Require Import gmap list.
From Verif Require Import Fp FpFacts Scalar Base LinAlg Msg DataLoader FeatureManager FrameManager Window MathLib Attitude Propagator
  Triangulate Pnp VisionUpdate Backend LoaderSpec WindowSpec QueueSpec UpdSpec BackendSpec LoaderFacts AttitudeFacts FrameFacts FeatureFacts
  WindowFacts UpdCovFacts MeasFacts SelectFacts BackLenFacts SafeFacts NarrowFacts BackDimFacts BackSafeFacts.
Import ListNotations.
Local Open Scope nat_scope.

Section BackTime.
Context {T : Type} {S : SOps T}.

(** [L] is a time that has been reached: the attitude queue ends at it or later, and so does the propagation queue
    unless it is empty. *)
Definition reached (L : f64) (s : bstate T) : Prop :=
  (exists x, back (at_items (b_att s)) = Ok x /\ f64_leb L (ai_ts x) = true) /\
  (forall t, back (map pi_ts (pq_items (b_pq s))) = Ok t -> f64_leb L t = true).

Definition att_kept (s s' : bstate T) : Prop :=
  (exists pre, at_items (b_att s) = pre ++ at_items (b_att s')) /\ (at_items (b_att s) <> [] -> at_items (b_att s') <> []).
Lemma att_kept_refl : forall s s' : bstate T, at_items (b_att s') = at_items (b_att s) -> att_kept s s'.
Proof. intros s s' e. unfold att_kept. rewrite e. split; [exists []; reflexivity|auto]. Qed.
Lemma att_kept_trans : forall a b c : bstate T, att_kept a b -> att_kept b c -> att_kept a c.
Proof. intros a b c ((p & Hp) & Hn) ((q & Hq) & Hm). split; [exists (p ++ q); rewrite <- app_assoc, <- Hq; exact Hp|auto]. Qed.
Lemma att_kept_back : forall (s s' : bstate T), att_kept s s' -> back (at_items (b_att s')) = back (at_items (b_att s)).
Proof.
  intros s s' ((p & Hp) & Hn). destruct (at_items (b_att s)) as [|i l] eqn:E.
  - symmetry in Hp. apply app_eq_nil in Hp as [_ ->]. reflexivity.
  - rewrite Hp, back_suffix; [reflexivity|]. apply Hn. discriminate.
Qed.

Lemma reached_weak : forall L (s s' : bstate T), att_kept s s' ->
  (exists pre, map pi_ts (pq_items (b_pq s)) = pre ++ map pi_ts (pq_items (b_pq s'))) -> reached L s -> reached L s'.
Proof.
  intros L s s' Hk (pre & Hp) [(x & Hx & HL) H2]. split.
  - exists x. rewrite (att_kept_back _ _ Hk). auto.
  - intros t Ht. apply H2. rewrite Hp, back_suffix; [exact Ht|]. intros e. rewrite e in Ht. discriminate.
Qed.

Lemma init_step_time : forall c o (s s' : bstate T) n, PQ n (b_pq s) -> init_step c o s = Ok s' ->
  (exists n', PQ n' (b_pq s')) /\ att_kept s s' /\ forall L, reached L s -> reached L s'.
Proof.
  intros c o s s' n HP H. unfold init_step in H. destruct (b_status s); [|injection H as <-; split; [exists n; exact HP|]; split; [apply att_kept_refl; reflexivity|auto]].
  binv H. destruct x as [s1 r]. cbn [fst snd] in H. pose proof (initialize_pq _ _ _ _ _ E) as Hi. destruct r.
  - injection H as <-. destruct Hi as (fi & rest & a & m & _ & Hc & <- & Hq & _). destruct (att_clean_inv _ _ _ _ Hc) as ((pre & Hp) & Hn & _).
    assert (Hk : att_kept s (with_status s1 Initialized)) by (split; [exists pre; exact Hp|exact Hn]).
    cbn [with_status b_pq]. split; [rewrite Hq; eexists; apply replay_PQ; exact HP|]. split; [exact Hk|].
    intros L [(x & Hx & HL) H2]. split; [exists x; rewrite (att_kept_back _ _ Hk); auto|]. cbn [with_status b_pq]. rewrite Hq, replay_times.
    assert (N : at_items (b_att s1) <> []) by (apply Hn; intros e; rewrite e in Hx; discriminate).
    intros t Ht. rewrite back_suffix in Ht by (intros e; apply map_eq_nil in e; exact (N e)).
    pose proof (att_kept_back _ _ Hk) as Hb. cbn [with_status b_att] in Hb. rewrite Hx in Hb.
    destruct (back_cases _ (at_items (b_att s1))) as [[e _]|(l & y & e & Ey)]; [destruct (N e)|]. rewrite Ey in Hb. injection Hb as ->.
    rewrite e, map_app in Ht. cbn [map] in Ht. rewrite back_snoc in Ht. injection Ht as <-. exact HL.
  - binv H. injection H as <-. destruct Hi as [e1 e2]. cbn [with_win b_pq]. rewrite e2. split; [exists n; exact HP|].
    assert (Hk : att_kept s (with_win s1 x)) by (apply att_kept_refl; cbn [with_win b_att]; rewrite e1; reflexivity).
    split; [exact Hk|]. intros L. apply reached_weak; [exact Hk|]. cbn [with_win b_pq]. rewrite e2. exists []. reflexivity.
Qed.

Lemma feat_step_time : forall c o (s s' : bstate T) m n, (0 <= vc_maxwin c < 4294967295)%Z -> win_ok c s -> PQ n (b_pq s) -> att_inv s ->
  feat_step c o s m = Ok s' ->
  b_dl s' = b_dl s /\ (exists n', PQ n' (b_pq s')) /\ att_inv s' /\ att_kept s s' /\ forall L, reached L s -> reached L s'.
Proof.
  intros c o s s' m n Hm Hw HP HA H. pose proof (feat_step_win _ _ _ _ _ Hm Hw H) as (_ & _ & Htwo). destruct Hw as [Hw _].
  unfold feat_step in H. binv H. binv H. binv H. rename x into w, x0 into s1, x1 into s2. specialize (Htwo w s1 E E0). pose proof (update_window_len _ _ _ E) as Lw.
  assert (Hb : (Z.of_nat (n_frames (with_win s w)) < 4294967296)%Z) by (unfold n_frames, win_bound in *; cbn; lia).
  pose proof (init_step_len _ _ _ _ Hb E0) as (_ & I2 & I3).
  assert (Hb1 : (Z.of_nat (n_frames s1) < 4294967296)%Z) by (destruct (b_status s1); lia).
  pose proof (att_inv_init c o (with_win s w) s1 HA E0) as HA1.
  destruct (init_step_time c o (with_win s w) s1 n HP E0) as ((n1 & HP1) & K1 & R1).
  assert (Up : b_dl s2 = b_dl s1 /\ (exists n2, PQ n2 (b_pq s2)) /\ att_inv s2 /\ att_kept s1 s2 /\ forall L, reached L s1 -> reached L s2).
  { destruct (b_status s1) eqn:Es1.
    - unfold update_step in E1. rewrite Es1 in E1. injection E1 as <-. split; [reflexivity|]. split; [exists n1; exact HP1|]. split; [exact HA1|].
      split; [apply att_kept_refl; reflexivity|auto].
    - pose proof (att_inv_update _ _ _ _ _ _ (Htwo eq_refl) Hb1 HP1 HA1 E1) as HA2.
      pose proof (update_step_inv _ _ _ _ _ _ Es1 (Htwo eq_refl) Hb1 HP1 E1) as (U1 & U2 & U3 & _ & U5 & U6).
      assert (Hk : att_kept s1 s2) by (apply att_kept_refl; exact U1).
      split; [exact U3|]. split; [|split; [exact HA2|split; [exact Hk|intros L; apply reached_weak; assumption]]].
      destruct (b_status s2); [destruct U6 as (_ & U6 & _)|destruct U6 as (_ & _ & U6)]; eexists; exact U6. }
  destruct Up as (U1 & U2 & U3 & U4 & U5).
  pose proof (att_inv_clean_step _ _ U3 H) as HA3. pose proof (clean_step_same _ _ H) as (_ & _ & _ & _ & C5 & C6).
  assert (K3 : att_kept s2 s').
  { unfold clean_step in H. destruct (Nat.ltb _ _); [|injection H as <-; apply att_kept_refl; reflexivity]. binv H. binv H. injection H as <-.
    destruct (att_clean_inv _ _ _ _ E3) as (A1 & A2 & _). split; [exact A1|exact A2]. }
  split; [rewrite C6, U1, I2; reflexivity|]. split; [rewrite C5; exact U2|]. split; [exact HA3|].
  split; [eapply att_kept_trans; [|exact K3]; eapply att_kept_trans; [|exact U4]; exact K1|].
  intros L HL. apply (reached_weak L s2); [exact K3|rewrite C5; exists []; reflexivity|]. apply U5, R1. exact HL.
Qed.

(** The whole invariant; [R] are the times still to be pushed, after the shift. *)
Definition time_inv (c : vcfg T) (R : list f64) (s : bstate T) : Prop :=
  time_sorted (map ai_ts (at_items (b_att s)) ++ map im_ts (dl_imu (b_dl s)) ++ R) /\
  att_inv s /\ win_ok c s /\ (exists n, PQ n (b_pq s)) /\ off_ok (b_dl s).

Lemma imu_step_time : forall c (s s' : bstate T) m r R, imu_step c s m = (s', r) ->
  time_sorted (map ai_ts (at_items (b_att s)) ++ im_ts m :: R) -> att_inv s ->
  time_sorted (map ai_ts (at_items (b_att s')) ++ R) /\ forall L, reached L s -> reached L s'.
Proof.
  intros c s s' m r R H Hs HA. pose proof Hs as Hs0. apply sorted_app in Hs as (S1 & S2 & S3). destruct S2 as (N & S2 & S4).
  pose proof (att_inv_imu c s s' m r N HA H) as (HA1 & HA2 & HA3).
  pose proof (att_propagate_rule (vc_grav c) (b_att s) (im_accel m) (im_gyro m) (im_ts m)) as Hr.
  unfold imu_step in H. destruct (att_propagate (vc_grav c) (b_att s) (im_accel m) (im_gyro m) (im_ts m)) as [a rr].
  assert (Ha : b_att s' = a) by (destruct (b_status s); injection H as <- <-; reflexivity). rewrite Ha in *.
  assert (Keep : forall i, In i (map ai_ts (at_items a)) -> In i (map ai_ts (at_items (b_att s))) \/ i = im_ts m).
  { intros i. destruct (rev (at_items (b_att s))) as [|b l].
    - destruct (sgt64 _ _); [injection Hr as -> _; auto|]. destruct Hr as (q & Hr). injection Hr as -> _. cbn. intros [<-|[]]. auto.
    - destruct (f64_ltb _ _); [injection Hr as -> _; auto|]. destruct Hr as (q & e & Hr). injection Hr as -> _. cbn [at_items]. rewrite map_app.
      intros Hi. apply in_app_or in Hi as [Hi|[<-|[]]]; auto. }
  split.
  - apply sorted_app. split; [exact HA1|]. split; [exact S4|]. intros x y Hx Hy. destruct (Keep x Hx) as [Hx'| ->].
    + apply S3; [exact Hx'|right; exact Hy].
    + apply S2. exact Hy.
  - intros L [(x & Hx & HL) H2].
    assert (Hin : In (ai_ts x) (map ai_ts (at_items (b_att s)))).
    { apply in_map. apply back_ok_nth in Hx as [Hx _]. eapply nth_error_In. exact Hx. }
    pose proof (S3 _ _ Hin (or_introl eq_refl)) as Lx. pose proof (f64_leb_trans _ _ _ HL Lx) as Lm. unfold reached. rewrite Ha. split.
    + destruct (back_cases _ (at_items (b_att s))) as [[e _]|(l' & b & e & Eb)]; [rewrite e in Hin; destruct Hin|].
      rewrite Eb in Hx. injection Hx as ->. rewrite e, rev_app_distr in Hr. cbn [rev app] in Hr. rewrite <- e in Hr.
      destruct (f64_ltb _ _); [injection Hr as -> _; exists x; auto|]. destruct Hr as (q & er & Hr). injection Hr as -> _. cbn [at_items].
      eexists. rewrite back_snoc. split; [reflexivity|exact Lm].
    + destruct (b_status s); injection H as <- <-; cbn; [exact H2|].
      destruct (pq_propagate_items (vc_grav c) (length (b_ext s)) (b_pq s) (im_accel m) (im_gyro m) (im_ts m)) as (it & -> & Hm & _).
      intros t. rewrite map_app. cbn [map]. rewrite back_snoc. intros e. injection e as <-. unfold meas in Hm. injection Hm as _ _ ->. exact Lm.
Qed.

Lemma run_once_time : forall c o (s s' : bstate T) r R, (0 <= vc_maxwin c < 4294967295)%Z -> time_inv c R s -> run_once c o s = Ok (s', r) ->
  time_inv c R s' /\ forall L, reached L s -> reached L s'.
Proof.
  intros c o s s' r R Hm (Hs & HA & Hw & (n & HP) & Hoff) H. pose proof (proj1 (run_once_win _ _ _ _ _ Hm Hw H)) as Hw'.
  unfold run_once in H. pose proof (pop_one_off _ Hoff) as Hoff'. pose proof (pop_one_conserve (b_dl s)) as Hc.
  destruct (dl_pop_one (b_dl s)) as [[[l m] ok] d] eqn:Ep. cbn [fst] in Hoff'. destruct Hc as [Hc _]. rewrite <- Hc, map_app, <- app_assoc in Hs.
  assert (Hone : length (cm_imu m) <= 1).
  { unfold dl_pop_one in Ep. destruct (dl_imu (b_dl s)), (dl_feat (b_dl s)); try (injection Ep as _ <- _ _; cbn; lia).
    destruct (f64_leb _ _); [destruct (f64_ltb _ _)|]; injection Ep as _ <- _ _; cbn; lia. }
  assert (Drop : time_sorted (map ai_ts (at_items (b_att s)) ++ map im_ts (dl_imu l) ++ R)).
  { destruct (cm_imu m) as [|i [|]]; [exact Hs| |cbn in Hone; lia]. cbn [map app] in Hs. apply sorted_app in Hs as (S1 & S2 & S3). apply sorted_app.
    split; [exact S1|]. split; [exact (proj2 (proj2 S2))|]. intros x y Hx Hy. apply S3; [exact Hx|right; exact Hy]. }
  set (s0 := with_dl s (b_st s) l) in *.
  destruct ok; cbn [negb] in H; [|injection H as <- <-; split; [split; [exact Drop|split; [exact HA|split; [exact Hw'|split; [exists n; exact HP|exact Hoff']]]]|auto]].
  destruct (match cm_imu m with [] => (s0, true) | i :: _ => imu_step c s0 i end) as [s1 r1] eqn:E1.
  assert (K : time_sorted (map ai_ts (at_items (b_att s1)) ++ map im_ts (dl_imu l) ++ R) /\ att_inv s1 /\ (exists n1, PQ n1 (b_pq s1)) /\ b_dl s1 = l /\
    b_win s1 = b_win s /\ b_status s1 = b_status s /\ forall L, reached L s -> reached L s1).
  { destruct (cm_imu m) as [|i [|]]; [injection E1 as <- <-; cbn; eauto 10| |cbn in Hone; lia]. cbn [map app] in Hs.
    pose proof (imu_step_win _ _ _ _ _ E1) as (W1 & W2 & W3 & _).
    destruct (imu_step_time c s0 s1 i r1 _ E1 Hs HA) as [T1 T2].
    assert (N : f64_isnan (im_ts i) = false) by (eapply sorted_notnan; [exact Hs|apply in_or_app; right; left; reflexivity]).
    destruct (imu_step_inv _ _ _ _ _ N E1 HA n HP) as [X Y]. cbn in W1, W2, W3. auto 10. }
  destruct K as (K1 & K2 & (n1 & K3) & K4 & K5 & K6 & K7).
  destruct (cm_feat m) as [f|].
  - binv H. injection H as <- <-.
    assert (Hw1 : win_ok c s1) by (unfold win_ok, n_frames in *; rewrite K5, K6; exact Hw).
    destruct (feat_step_time c o s1 x f n1 Hm Hw1 K3 K2 E) as (F1 & F2 & F3 & ((pre & F4) & _) & F5).
    split; [|intros L HL; apply F5, K7; exact HL]. unfold time_inv. rewrite F1, K4. split; [|auto].
    rewrite F4, map_app, <- app_assoc in K1. apply sorted_app in K1. tauto.
  - injection H as <- <-. split; [|exact K7]. unfold time_inv. rewrite K4. eauto 10.
Qed.

Lemma b_step_time : forall c op (s s' : bstate T) R, (0 <= vc_maxwin c < 4294967295)%Z ->
  time_inv c (map (fun m => shift (im_ts m)) (pushed_imu [op]) ++ R) s -> b_step c s op = Ok s' ->
  time_inv c R s' /\ forall L, reached L s -> reached L s'.
Proof.
  intros c op s s' R Hm HI H. pose proof (b_step_win c s s' op Hm ltac:(destruct HI; tauto) H) as Hw'.
  destruct op as [m|m|o| |]; cbn [b_step pushed_imu flat_map map app] in *.
  - assert (e : s' = fst (b_imu s m)) by congruence. subst s'. clear H. destruct HI as (Hs & HA & Hw & HP & Hoff). unfold b_imu. rewrite push_imu_eq by exact Hoff. cbn [fst]. split; [|auto].
    split; [|split; [exact HA|split; [exact Hw|split; [exact HP|reflexivity]]]]. cbn.
    destruct (f64_ltb _ _).
    + rewrite map_app, <- app_assoc. exact Hs.
    + apply sorted_app in Hs as (S1 & S2 & S3). apply sorted_app in S2 as (S4 & S5 & S6). apply sorted_app. split; [exact S1|]. split.
      * apply sorted_app. split; [exact S4|]. split; [exact (proj2 (proj2 S5))|]. intros x y Hx Hy. apply S6; [exact Hx|right; exact Hy].
      * intros x y Hx Hy. apply S3; [exact Hx|]. apply in_app_or in Hy as [Hy|Hy]; apply in_or_app; [auto|right; right; exact Hy].
  - assert (e : s' = fst (b_feat s m)) by congruence. subst s'. clear H. destruct HI as (Hs & HA & Hw & HP & Hoff). unfold b_feat. rewrite push_feat_eq by exact Hoff.
    destruct (well_sized m); cbn [fst]; (split; [|auto]); (split; [|split; [exact HA|split; [exact Hw|split; [exact HP|first [reflexivity|exact Hoff]]]]]); cbn;
      try destruct (f64_ltb _ _); exact Hs.
  - binv H. destruct x as [s2 r]. injection H as <-. eapply run_once_time; eassumption.
  - assert (e : s' = fst (run_once_test s)) by congruence. subst s'. clear H. destruct HI as (Hs & HA & Hw & HP & Hoff). unfold run_once_test in *. pose proof (pop_one_off _ Hoff) as Hoff'. pose proof (pop_one_conserve (b_dl s)) as Hc.
    destruct (dl_pop_one (b_dl s)) as [[[l x] ok] d]. cbn [fst] in *. destruct Hc as [Hc _]. split; [|auto]. split; [|split; [exact HA|split; [exact Hw'|split; [exact HP|exact Hoff']]]].
    cbn. rewrite <- Hc, map_app in Hs. apply sorted_app in Hs as (S1 & S2 & S3). rewrite <- app_assoc in S2. apply sorted_app in S2 as (S4 & S5 & S6). apply sorted_app.
    split; [exact S1|]. split; [exact S5|]. intros a b Ha Hb. apply S3; [exact Ha|]. rewrite <- app_assoc. apply in_or_app. right. exact Hb.
  - injection H as <-. destruct HI as (Hs & (H1 & H2 & H3) & Hw & HP & Hoff). split; [|auto]. split; [exact Hs|]. split; [|split; [exact Hw'|split; [exact HP|exact Hoff]]].
    split; [exact H1|]. split; [|exact H3]. intros e. split; [reflexivity|exact (proj2 (H2 e))].
Qed.

Lemma pushed_imu_cons : forall (op : b_op T) r, pushed_imu (op :: r) = pushed_imu [op] ++ pushed_imu r.
Proof. intros op r. unfold pushed_imu. cbn [flat_map]. rewrite app_nil_r. reflexivity. Qed.

Lemma b_hist_time : forall c ops (s s' : bstate T) R, (0 <= vc_maxwin c < 4294967295)%Z ->
  time_inv c (map (fun m => shift (im_ts m)) (pushed_imu ops) ++ R) s -> b_hist c s ops = Ok s' ->
  time_inv c R s' /\ forall L, reached L s -> reached L s'.
Proof.
  intros c. induction ops as [|op r IH]; intros s s' R Hm HI H; cbn [b_hist] in H; [injection H as <-; auto|].
  binv H. rewrite pushed_imu_cons, map_app, <- app_assoc in HI. destruct (b_step_time _ _ _ _ _ Hm HI E) as [H1 H2].
  destruct (IH _ _ _ Hm H1 H) as [H3 H4]. auto.
Qed.

Lemma shift_sorted : forall l, time_sorted l -> time_sorted (map shift l).
Proof.
  induction l as [|x r IH]; cbn [map time_sorted]; [auto|]. intros (N & H & Hr). split; [apply shift_nn; exact N|]. split; [|auto].
  intros y Hy. apply in_map_iff in Hy as (z & <- & Hz). apply shift_mono, H, Hz.
Qed.

(** C38 *)
Theorem publish_monotone : forall c ops1 ops2 (s0 s1 s2 : bstate T) m1 m2 ba1 ba2 bg1 bg2 t1 t2,
  (0 <= vc_maxwin c < 4294967295)%Z -> fresh s0 -> time_sorted (map im_ts (pushed_imu (ops1 ++ ops2))) ->
  b_hist c s0 ops1 = Ok s1 -> b_hist c s1 ops2 = Ok s2 ->
  b_publish_newest s1 = Some (m1, ba1, bg1, t1) -> b_publish_newest s2 = Some (m2, ba2, bg2, t2) -> f64_leb t1 t2 = true.
Proof.
  intros c ops1 ops2 s0 s1 s2 m1 m2 ba1 ba2 bg1 bg2 t1 t2 Hm Hf Hs H1 H2 P1 P2.
  assert (I0 : time_inv c (map (fun m => shift (im_ts m)) (pushed_imu ops1) ++ map (fun m => shift (im_ts m)) (pushed_imu ops2) ++ []) s0).
  { apply shift_sorted in Hs. rewrite map_map in Hs. rewrite app_nil_r, <- map_app. unfold pushed_imu in *. rewrite <- flat_map_app.
    destruct Hf as (st & per & ex & ba & bg & na & ng & nwa & nwg & ->). split; [exact Hs|]. split; [|split; [split; [cbn; lia|discriminate]|split; [exists 0; repeat split; constructor|reflexivity]]].
    split; [exact I|]. split; [auto|]. discriminate. }
  destruct (b_hist_time _ _ _ _ _ Hm I0 H1) as [I1 _]. destruct (b_hist_time _ _ _ _ _ Hm I1 H2) as [I2 R2].
  assert (Pub : forall (s : bstate T) m ba bg t, b_publish_newest s = Some (m, ba, bg, t) -> back (map pi_ts (pq_items (b_pq s))) = Ok t).
  { intros s m ba bg t P. unfold b_publish_newest, pq_publish_newest, pq_publish in P. destruct (back_cases _ (pq_items (b_pq s))) as [[_ e]|(l & y & e & Ey)]; [rewrite e in P; discriminate|].
    rewrite Ey in P. injection P as _ _ _ <-. rewrite e, map_app. apply back_snoc. }
  apply Pub in P1, P2. destruct (R2 t1) as [_ R3]; [|exact (R3 t2 P2)].
  destruct I1 as (_ & (_ & A2 & A3) & _). destruct (back_cases _ (at_items (b_att s1))) as [[e _]|(l & x & e & Ex)].
  { destruct (A2 e) as [_ eq]. rewrite eq in P1. discriminate. }
  assert (L1 : f64_leb t1 (ai_ts x) = true) by (apply (A3 x Ex); apply back_ok_nth in P1 as [P1 _]; eapply nth_error_In; exact P1).
  split; [exists x; auto|]. intros t Ht. rewrite P1 in Ht. injection Ht as <-. apply f64_leb_refl. apply f64_leb_iff in L1. tauto.
Qed.
End BackTime.
