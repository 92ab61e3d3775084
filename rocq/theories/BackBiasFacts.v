(** The bias is removed once from every sample that reaches the propagator before the first failure or reset. *)
From Coq Require Import ZArith List Bool Lia Arith Reals Lra.
From stdpp Require Import gmap list.
From Flocq Require Import IEEE754.BinarySingleNaN.
From Verif Require Import Fp FpFacts Scalar Base LinAlg Msg DataLoader FeatureManager FrameManager Window MathLib Attitude Propagator
  Triangulate Pnp VisionUpdate Backend LoaderSpec WindowSpec QueueSpec UpdSpec NumSpec BackendSpec BiasSpec LoaderFacts AttitudeFacts QuatFacts
  PropagatorFacts UpdCovFacts SafeFacts BackLenFacts BackDimFacts BackSafeFacts BackTimeFacts.
Import ListNotations.
Local Open Scope nat_scope.

Section Bias.
Context {T : Type} {S : SOps T}.

(** ** Measurements through an update *)
Lemma update_cov_meas : forall (P : mat T) q q', update_cov P q = Ok q' -> map meas (pq_items q') = map meas (pq_items q).
Proof.
  intros P q q' H. unfold update_cov in H. destruct (Nat.ltb _ _); [discriminate|]. binv H. destruct (pq_items q) as [|i r] eqn:Ei; [discriminate|].
  injection E as <-. binv H. binv H. binv H. unfold with_head in H. cbn [with_ecc pq_items] in H. rewrite ?Ei in H. cbn [obind] in H.
  try binv H. injection H as <-. cbn. reflexivity.
Qed.
Lemma finish_meas : forall (o : voracle T) c pol P s s', finish_update o c pol P s = Ok s' -> map meas (pq_items (vs_pq s')) = map meas (pq_items (vs_pq s)).
Proof.
  intros o c pol P s s' H. unfold finish_update in H. binv H. binv H. binv H. injection H as <-. cbn [vs_pq].
  rewrite (proj1 (repropagate_replays (vc_grav c) 0 x1)). eapply update_cov_meas. exact E1.
Qed.
Lemma apply_delta_meas : forall dx (s s' : vstate T), apply_delta dx s = Ok s' -> map meas (pq_items (vs_pq s')) = map meas (pq_items (vs_pq s)).
Proof.
  intros dx s s' H. destruct (pq_items (vs_pq s)) as [|it r] eqn:E.
  - unfold apply_delta in H. rewrite E in H. discriminate.
  - destruct (apply_delta_inv _ _ _ _ _ H E) as (_ & m & ->). reflexivity.
Qed.
Lemma vision_update_meas : forall (o : voracle T) c s ts thr s' ok pol, vision_update o c s ts thr = Ok (s', ok, pol) ->
  exists pre, map meas (pq_items (vs_pq s)) = pre ++ map meas (pq_items (vs_pq s')).
Proof.
  intros o c s ts thr s' ok pol H. unfold vision_update, pq_reset_origin in H.
  pose proof (origin_loop_spec ts thr (pq_items (vs_pq s))) as Hor. destruct (origin_loop ts thr (pq_items (vs_pq s))) as [l'|]; cbn [negb] in H.
  2:{ injection H as <- <- <-. cbn. exists (map meas (pq_items (vs_pq s))). rewrite app_nil_r. reflexivity. }
  destruct Hor as (pre & it & r & Hl & -> & _).
  assert (K : forall q : pqueue T, map meas (pq_items q) = map meas (it :: r) -> exists p, map meas (pq_items (vs_pq s)) = p ++ map meas (pq_items q)).
  { intros q e. exists (map meas pre). rewrite e, Hl, map_app. reflexivity. }
  binv H. binv H. destruct x0 as [P|]; [|injection H as <- <- <-; apply K; reflexivity].
  binv H. destruct x0 as [fs|]; [|injection H as <- <- <-; apply K; reflexivity].
  binv H. destruct (snd x0).
  - binv H. injection H as <- <- <-. apply K. rewrite (finish_meas _ _ _ _ _ _ E3). reflexivity.
  - binv H. destruct x1 as [Hr|]; [|injection H as <- <- <-; apply K; reflexivity]. binv H. binv H. injection H as <- <- <-. apply K.
    rewrite (finish_meas _ _ _ _ _ _ E5). unfold update_state in E4. binv E4. destruct x3 as [[Kg dx] P']. binv E4. injection E4 as <-. cbn [snd].
    rewrite (apply_delta_meas _ _ _ E7). reflexivity.
Qed.

(** ** One message *)
Lemma suffix_incl : forall (A : Type) (pre l k : list A), incl (pre ++ l) k -> incl l k.
Proof. intros A pre l k H x Hx. apply H. apply in_or_app. right. exact Hx. Qed.

Variable sub_zero : forall x : T, ssub x s0 = x.
Lemma v3sub_zero : forall a : v3 T, v3sub a v3zero = a.
Proof. intros [x y z]. unfold v3sub, v3zero. cbn. rewrite !sub_zero. reflexivity. Qed.

Definition samp (m : imu_msg T) : v3 T * v3 T * f64 := (im_accel m, im_gyro m, im_ts m).
Definition ameas (i : att_item T) : v3 T * v3 T * f64 := (ai_a i, ai_g i, ai_ts i).
Definition raw_inv (P : list (v3 T * v3 T * f64)) (s : bstate T) : Prop :=
  incl (map samp (dl_imu (b_dl s))) P /\ incl (map meas (pq_items (b_pq s))) P /\ off_ok (b_dl s) /\
  (b_status s = NeedInit -> at_ba (b_att s) = v3zero /\ at_bg (b_att s) = v3zero /\ incl (map ameas (at_items (b_att s))) P).

Lemma imu_step_raw : forall P c (s s' : bstate T) m r, raw_inv P s -> In (samp m) P -> imu_step c s m = (s', r) -> raw_inv P s'.
Proof.
  intros P c s s' m r (H1 & H2 & H0 & H3) Hm H. pose proof (imu_step_win _ _ _ _ _ H) as (_ & W2 & W3 & _). unfold raw_inv. rewrite W2, W3. split; [exact H1|].
  pose proof (att_propagate_rule (vc_grav c) (b_att s) (im_accel m) (im_gyro m) (im_ts m)) as Hr.
  unfold imu_step in H. destruct (att_propagate (vc_grav c) (b_att s) (im_accel m) (im_gyro m) (im_ts m)) as [a rr].
  destruct (b_status s); injection H as <- <-; cbn [with_att with_pq b_att b_pq].
  - split; [exact H2|]. split; [exact H0|]. intros _. destruct (H3 eq_refl) as (B1 & B2 & B3).
    assert (K : forall q e l, incl (map ameas l) P -> let a' := Att (l ++ [AttItem q (v3sub (im_accel m) (at_ba (b_att s))) (v3sub (im_gyro m) (at_bg (b_att s))) (im_ts m)]) (at_ba (b_att s)) (at_bg (b_att s)) e in
      at_ba a' = v3zero /\ at_bg a' = v3zero /\ incl (map ameas (at_items a')) P).
    { intros q e l Hl. cbn. split; [exact B1|]. split; [exact B2|]. rewrite map_app. cbn [map]. unfold ameas at 2. cbn. rewrite B1, B2, !v3sub_zero.
      intros x Hx. apply in_app_or in Hx as [Hx|[<-|[]]]; [apply Hl; exact Hx|exact Hm]. }
    destruct (rev (at_items (b_att s))).
    + destruct (sgt64 _ _); [injection Hr as -> _; auto|]. destruct Hr as (q & Hr). injection Hr as -> _. apply (K q (at_err (b_att s)) []). intros x [].
    + destruct (f64_ltb _ _); [injection Hr as -> _; auto|]. destruct Hr as (q & e & Hr). injection Hr as -> _. apply K. exact B3.
  - split; [|split; [exact H0|discriminate]]. cbn [b_ext].
    destruct (pq_propagate_items (vc_grav c) (length (b_ext s)) (b_pq s) (im_accel m) (im_gyro m) (im_ts m)) as (it & -> & E & _).
    rewrite map_app. cbn [map]. intros x Hx. apply in_app_or in Hx as [Hx|[<-|[]]]; [apply H2; exact Hx|]. rewrite E. exact Hm.
Qed.

Lemma att_kept_incl : forall P (s s' : bstate T), att_kept s s' -> incl (map ameas (at_items (b_att s))) P -> incl (map ameas (at_items (b_att s'))) P.
Proof. intros P s s' ((pre & Hp) & _) H. rewrite Hp, map_app in H. eapply suffix_incl. exact H. Qed.

Lemma feat_step_raw : forall P c o (s s' : bstate T) m, raw_inv P s -> feat_step c o s m = Ok s' -> (b_status s = Initialized -> b_status s' = Initialized) -> raw_inv P s'.
Proof.
  intros P c o s s' m (H1 & H2 & H0 & H3) H Hstay. unfold feat_step in H. binv H. binv H. binv H. rename x into w, x0 into s1, x1 into s2.
  assert (I : b_dl s1 = b_dl s /\ incl (map meas (pq_items (b_pq s1))) P /\
    (b_status s = NeedInit -> at_ba (b_att s1) = v3zero /\ at_bg (b_att s1) = v3zero /\ incl (map ameas (at_items (b_att s1))) P)).
  { unfold init_step in E0. cbn [with_win b_status] in E0. destruct (b_status s) eqn:Es; [|injection E0 as <-; split; [reflexivity|]; split; [exact H2|discriminate]].
    destruct (H3 eq_refl) as (B1 & B2 & B3). binv E0. destruct x as [s3 r]. cbn [fst snd] in E0. pose proof (initialize_pq _ _ _ _ _ E2) as Hi.
    pose proof (initialize_len _ _ _ _ _ E2) as (_ & _ & J3 & _). destruct r.
    - injection E0 as <-. destruct Hi as (fi & rest & a & mo & _ & Hc & Ha & Hq & _). cbn [with_win b_att b_pq b_dl b_ext] in Hc, Hq, J3.
      destruct (att_clean_inv _ _ _ _ Hc) as ((pre & Hp) & _ & C1 & C2 & _). cbn [with_status b_dl b_pq b_att]. split; [exact J3|].
      rewrite Hp, map_app in B3. apply suffix_incl in B3. split.
      + rewrite Hq. destruct (replay_items (vc_grav c) (length (b_ext s)) (at_items a) (with_init (b_pq s) mo)) as (l' & -> & Hm & _).
        rewrite map_app, Hm. intros x Hx. apply in_app_or in Hx as [Hx|Hx]; [apply H2; exact Hx|apply B3; exact Hx].
      + intros _. rewrite Ha, C1, C2. auto.
    - binv E0. injection E0 as <-. destruct Hi as [e1 e2]. cbn [with_win b_att b_pq b_dl] in *. rewrite e1, e2. split; [exact J3|]. split; [exact H2|]. intros _. auto. }
  destruct I as (I1 & I2 & I3).
  assert (U : b_dl s2 = b_dl s1 /\ incl (map meas (pq_items (b_pq s2))) P /\ (b_status s2 = NeedInit -> b_att s2 = b_att s1)).
  { unfold update_step in E1. destruct (b_status s1) eqn:Es; [injection E1 as <-; auto|]. binv E1. destruct x as [[v ok] pol].
    apply vision_update_meas in E2 as (pre & Hpre). cbn [vs_pq] in Hpre. rewrite Hpre in I2. apply suffix_incl in I2. destruct ok; binv E1; injection E1 as <-; cbn;
      (split; [reflexivity|]); (split; [exact I2|]); [first [discriminate|rewrite Es; discriminate]|reflexivity]. }
  destruct U as (U1 & U2 & U3). pose proof (clean_step_same _ _ H) as (_ & C2 & _ & _ & C5 & C6). unfold raw_inv. rewrite C2 in *. rewrite C5, C6, U1, I1. split; [exact H1|].
  split; [exact U2|]. split; [exact H0|]. intros En. destruct (b_status s) eqn:Es; [|specialize (Hstay eq_refl); congruence].
  destruct (I3 eq_refl) as (B1 & B2 & B3). specialize (U3 En). unfold clean_step in H. destruct (Nat.ltb _ _); [|injection H as <-; rewrite U3; auto].
  binv H. binv H. injection H as <-. cbn [with_att b_att]. destruct (att_clean_inv _ _ _ _ E3) as ((pre & Hp) & _ & D1 & D2 & _). rewrite U3 in *. rewrite D1, D2.
  rewrite Hp, map_app in B3. apply suffix_incl in B3. auto.
Qed.

Lemma run_once_raw : forall P c o (s s' : bstate T) r, raw_inv P s -> run_once c o s = Ok (s', r) -> (b_status s = Initialized -> b_status s' = Initialized) -> raw_inv P s'.
Proof.
  intros P c o s s' r HI H Hstay. pose proof HI as (H1 & H2 & H0 & H3). unfold run_once in H. pose proof (pop_one_off _ H0) as Hoff'. pose proof (pop_one_conserve (b_dl s)) as Hc.
  destruct (dl_pop_one (b_dl s)) as [[[l m] ok] d]. cbn [fst] in Hoff'. destruct Hc as [Hc _]. rewrite <- Hc, map_app in H1.
  assert (HI0 : raw_inv P (with_dl s (b_st s) l)) by (split; [eapply suffix_incl; exact H1|auto]).
  destruct ok; cbn [negb] in H; [|injection H as <- <-; exact HI0].
  destruct (match cm_imu m with [] => (_, true) | i :: _ => imu_step c _ i end) as [s1 r1] eqn:E1.
  assert (K : raw_inv P s1 /\ b_status s1 = b_status s).
  { destruct (cm_imu m) as [|i x]; [injection E1 as <- <-; split; [exact HI0|reflexivity]|]. pose proof (imu_step_win _ _ _ _ _ E1) as (_ & W2 & _).
    split; [|exact W2]. eapply imu_step_raw; [exact HI0| |exact E1]. apply H1. left. reflexivity. }
  destruct K as [K1 K2]. destruct (cm_feat m); [|injection H as <- <-; exact K1]. binv H. injection H as <- <-. eapply feat_step_raw; [exact K1|exact E|]. rewrite K2. exact Hstay.
Qed.

Lemma b_step_raw : forall P c op (s s' : bstate T), raw_inv P s -> incl (map (fun m => samp (imu_shifted m)) (pushed_imu [op])) P -> b_step c s op = Ok s' ->
  (b_status s = Initialized -> b_status s' = Initialized) -> raw_inv P s'.
Proof.
  intros P c op s s' HI Hp H Hstay. pose proof HI as (H1 & H2 & H0 & H3). destruct op as [m|m|o| |]; cbn [b_step] in H.
  - assert (e : s' = fst (b_imu s m)) by congruence. subst s'. unfold b_imu. rewrite push_imu_eq by exact H0. cbn [fst]. split; [|split; [exact H2|split; [reflexivity|exact H3]]].
    cbn. destruct (f64_ltb _ _); [|exact H1]. rewrite map_app. intros x Hx. apply in_app_or in Hx as [Hx|[<-|[]]]; [apply H1; exact Hx|]. apply Hp. left. reflexivity.
  - assert (e : s' = fst (b_feat s m)) by congruence. subst s'. unfold b_feat. rewrite push_feat_eq by exact H0.
    destruct (well_sized m); cbn [fst]; (split; [|split; [exact H2|split; [first [reflexivity|exact H0]|exact H3]]]); cbn; try destruct (f64_ltb _ _); exact H1.
  - binv H. destruct x as [s2 r]. injection H as <-. eapply run_once_raw; eassumption.
  - assert (e : s' = fst (run_once_test s)) by congruence. subst s'. unfold run_once_test. pose proof (pop_one_off _ H0) as Hoff'. pose proof (pop_one_conserve (b_dl s)) as Hc.
    destruct (dl_pop_one (b_dl s)) as [[[l x] ok] d]. cbn [fst] in *. destruct Hc as [Hc _]. rewrite <- Hc, map_app in H1. split; [eapply suffix_incl; exact H1|auto].
  - injection H as <-. split; [exact H1|]. split; [exact H2|]. split; [exact H0|]. intros _. destruct (b_status s) eqn:Es; [apply H3; reflexivity|]. specialize (Hstay eq_refl). discriminate.
Qed.

Lemma b_hist_raw : forall P c ops (s s' : bstate T), raw_inv P s -> incl (map (fun m => samp (imu_shifted m)) (pushed_imu ops)) P -> b_hist c s ops = Ok s' ->
  stays_initialized c s ops -> raw_inv P s'.
Proof.
  intros P c. induction ops as [|op r IH]; intros s s' HI Hp H Hst; cbn [b_hist] in H; [injection H as <-; exact HI|].
  binv H. rewrite pushed_imu_cons, map_app in Hp. apply (IH x); [|eapply suffix_incl; exact Hp|exact H|].
  - eapply b_step_raw; [exact HI| |exact E|].
    + intros y Hy. apply Hp. apply in_or_app. left. exact Hy.
    + intros Hs. apply (Hst [] [op] r s x); [reflexivity|reflexivity|exact Hs|]. cbn [b_hist]. rewrite E. reflexivity.
  - intros o1 o2 o3 s1 s2 Eo H1 Hs H2. apply (Hst (op :: o1) o2 o3 s1 s2); [rewrite Eo; reflexivity| |exact Hs|exact H2]. cbn [b_hist]. rewrite E. exact H1.
Qed.

Theorem raw_measurements_gen : forall c ops (s0 s : bstate T), fresh s0 -> b_hist c s0 ops = Ok s -> stays_initialized c s0 ops ->
  List.Forall (fun it => exists m, In m (pushed_imu ops) /\ pi_a it = im_accel m /\ pi_g it = im_gyro m /\ pi_ts it = shift (im_ts m)) (pq_items (b_pq s)).
Proof.
  intros c ops s0 s Hf H Hst. set (P := map (fun m => samp (imu_shifted m)) (pushed_imu ops)).
  assert (HI : raw_inv P s0).
  { destruct Hf as (st & per & ex & ba & bg & na & ng & nwa & nwg & ->). split; [intros x []|]. split; [intros x []|]. split; [reflexivity|]. intros _.
    split; [reflexivity|]. split; [reflexivity|intros x []]. }
  destruct (b_hist_raw P c ops s0 s HI (fun x Hx => Hx) H Hst) as (_ & K & _). apply List.Forall_forall. intros it Hit. specialize (K (meas it) (in_map meas _ _ Hit)).
  apply in_map_iff in K as (m & Em & Hm). exists m. split; [exact Hm|]. unfold samp, meas, imu_shifted, imu_set_ts in Em. cbn in Em. injection Em as -> -> ->. auto.
Qed.
End Bias.

(** Subtracting +0 changes no float. *)
Lemma f32_sub_zero : forall x : f32, f32_sub x (B754_zero false) = x.
Proof. intros [[|]|[|]| |[|] m e H]; reflexivity. Qed.

(** C39: in float arithmetic, with any libm. *)
Theorem raw_measurements : forall (lm : libm32) (c : vcfg f32) ops (s0 s : bstate f32), fresh (S := ops_f32 lm) s0 ->
  b_hist (S := ops_f32 lm) c s0 ops = Ok s -> stays_initialized (S := ops_f32 lm) c s0 ops ->
  List.Forall (fun it => exists m, In m (pushed_imu ops) /\ pi_a it = im_accel m /\ pi_g it = im_gyro m /\ pi_ts it = shift (im_ts m)) (pq_items (b_pq s)).
Proof. intros lm. exact (raw_measurements_gen (S := ops_f32 lm) f32_sub_zero). Qed.

Local Open Scope R_scope.
(** C39: what a propagation step integrates, in exact arithmetic. *)
Theorem integrates_corrected : forall grav n (q : pqueue R) pre it0 a g t, pq_items q = pre ++ [it0] -> exists it1,
  pq_items (pq_propagate grav n q a g t) = pq_items q ++ [it1] /\ pi_a it1 = a /\ pi_g it1 = g /\ pi_ts it1 = t /\
  pi_mo it1 = trapezoid grav (pi_mo it0) (without (pq_ba q) (pi_a it0)) (without (pq_bg q) (pi_g it0)) (without (pq_ba q) a) (without (pq_bg q) g) (real_step (pi_ts it0) t).
Proof.
  intros grav n q pre it0 a g t E. unfold pq_propagate. rewrite E, back_snoc. unfold prop_item, nominal_step. cbn [pq_items]. eexists. split; [reflexivity|].
  cbn [pi_a pi_g pi_ts pi_mo]. split; [reflexivity|]. split; [reflexivity|]. split; [reflexivity|].
  unfold trapezoid. cbv zeta. change (step_dt (pi_ts it0) t) with (real_step (pi_ts it0) t). set (dt := real_step _ _).
  assert (Eq : qmul (mo_q (pi_mo it0)) (delta_q (v3scale (v3sub (v3scale (v3add (pi_g it0) g) shalf) (pq_bg q)) dt)) =
    qmul (mo_q (pi_mo it0)) (half_turn (mean (without (pq_bg q) (pi_g it0)) (without (pq_bg q) g)) dt)).
  { f_equal. destruct (pi_g it0), g, (pq_bg q). unfold half_turn, mean, without, delta_q. vunf. rops. cbn. f_equal; try lra; field. }
  rewrite Eq. set (q1 := qnormalize _).
  assert (Ew : v3scale (v3add (qrot (mo_q (pi_mo it0)) (v3sub (pi_a it0) (pq_ba q))) (qrot q1 (v3sub a (pq_ba q)))) shalf =
    mean (qrot (mo_q (pi_mo it0)) (without (pq_ba q) (pi_a it0))) (qrot q1 (without (pq_ba q) a))).
  { change (v3sub (pi_a it0) (pq_ba q)) with (without (pq_ba q) (pi_a it0)). change (v3sub a (pq_ba q)) with (without (pq_ba q) a).
    destruct (qrot (mo_q _) _), (qrot q1 _). unfold mean. vunf. rops. cbn. f_equal; lra. }
  rewrite Ew. set (acc := mean _ _). destruct (pi_mo it0) as [p0 v0 q0]. cbn [mo_p mo_v mo_q]. f_equal.
  - destruct p0, v0, acc, grav. vunf. rops. cbn. f_equal; field.
Qed.
