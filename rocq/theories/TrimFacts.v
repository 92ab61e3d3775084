(** The queues hold only what is needed since the newest image (C87). *)
From Coq Require Import ZArith Reals Lra List Bool Lia Arith.
From stdpp Require Import gmap list.
From Flocq Require Import Core IEEE754.BinarySingleNaN.
From Verif Require Import Fp FpFacts NarrowFacts Scalar Base LinAlg Msg DataLoader FeatureManager FrameManager Window MathLib Attitude Propagator
  Triangulate Pnp VisionUpdate Backend LoaderSpec WindowSpec QueueSpec UpdSpec NumSpec BackendSpec BiasSpec FlowSpec LoaderFacts FrameFacts AttitudeFacts
  PropagatorFacts UpdCovFacts SafeFacts BackLenFacts BackDimFacts BackSafeFacts BackTimeFacts BackBiasFacts AppFacts FlowFacts.
Import ListNotations.
Local Open Scope nat_scope.

(** ** Times: later than an item that is not old is not old *)
Lemma f64_ltb_le_trans : forall a b c : f64, f64_ltb a b = true -> f64_leb b c = true -> f64_ltb a c = true.
Proof. intros a b c H1 H2. apply f64_ltb_iff in H1 as (A & B & L1). apply f64_leb_iff in H2 as (_ & C & L2). apply f64_ltb_iff. split; [exact A|]. split; [exact C|lra]. Qed.
Lemma sub_nan : forall t x y : f64, f64_isnan x = false -> f64_leb x y = true -> f64_isnan (f64_sub t x) = true ->
  f64_isnan (f64_sub t y) = true \/ f64_sub t y = B754_infinity true.
Proof.
  intros t x y Hx Hl Hn. apply f64_leb_iff in Hl as (_ & Hy & Hl). pose proof big_pos as HP.
  destruct (f64_cases t) as [Ft|[->|[->| ->]]].
  - exfalso. destruct (f64_cases x) as [Fx|[->|[->| ->]]]; [|destruct t; discriminate|destruct t; discriminate|discriminate].
    pose proof (f64_sub_fin t x Ft Fx) as [K _]. congruence.
  - destruct (f64_cases y) as [Fy|[->|[->| ->]]]; [right; destruct y; try discriminate; reflexivity|left; reflexivity|right; reflexivity|discriminate].
  - assert (x = B754_infinity false) as -> by (destruct x as [|[]| |]; try discriminate; reflexivity).
    destruct (f64_cases y) as [Fy|[->|[->| ->]]]; [|cbn in Hl; lra|left; reflexivity|discriminate].
    cbn [ext] in Hl. rewrite (ext_fin y Fy) in Hl. pose proof (f64_fin_lt y). lra.
  - left. destruct y; reflexivity.
Qed.
Lemma ltb_nan_r : forall a b : f64, f64_isnan b = true -> f64_ltb a b = false.
Proof. intros [| | |] [| | |] H; try discriminate; reflexivity. Qed.
Lemma ltb_minf : forall a : f64, f64_ltb a (B754_infinity true) = false.
Proof. intros [[]|[]| |[]]; reflexivity. Qed.
Lemma not_older_mono : forall thr t x y : f64, f64_isnan x = false -> f64_leb x y = true ->
  f64_ltb thr (f64_sub t x) = false -> f64_ltb thr (f64_sub t y) = false.
Proof.
  intros thr t x y Nx Hl H. destruct (f64_isnan (f64_sub t y)) eqn:Ny; [apply ltb_nan_r; exact Ny|].
  destruct (f64_isnan (f64_sub t x)) eqn:Ex.
  - destruct (sub_nan t x y Nx Hl Ex) as [K|K]; [congruence|]. rewrite K. apply ltb_minf.
  - destruct (f64_ltb thr (f64_sub t y)) eqn:E; [|reflexivity]. pose proof (f64_sub_mono_r x y t Hl Ex Ny) as M. rewrite (f64_ltb_le_trans _ _ _ E M) in H. discriminate H.
Qed.
Lemma f32_ltb_via : forall a b c : f32, f32_ltb a b = true -> f32_ltb c b = false -> f32_isnan c = false -> f32_ltb a c = true.
Proof.
  intros a b c H1 H2 Nc.
  destruct (is_finite a && is_finite b && is_finite c) eqn:F.
  - apply andb_true_iff in F as [F Fc]. apply andb_true_iff in F as [Fa Fb].
    unfold f32_ltb in *. rewrite Bltb_correct in * by assumption. apply Rlt_bool_true. destruct (Rlt_bool_spec (B2R a) (B2R b)) as [L1|]; [|discriminate].
    destruct (Rlt_bool_spec (B2R c) (B2R b)) as [|L2]; [discriminate|]. lra.
  - destruct a as [|[]| |], b as [|[]| |], c as [|[]| |]; try discriminate F; try discriminate H1; try discriminate H2; try discriminate Nc; reflexivity.
Qed.
Lemma narrow_notnan : forall x, f64_isnan x = false -> f32_isnan (f64_to_f32 x) = false.
Proof.
  intros x H. destruct (f64_cases x) as [F|[->|[->| ->]]]; try reflexivity; [|discriminate].
  destruct (narrow_fin x F) as [(Y & _)|[[-> _]|[-> _]]]; try reflexivity. destruct (f64_to_f32 x); try discriminate; reflexivity.
Qed.
Lemma not_old32_mono : forall (thr : f32) (t x y : f64), f64_isnan x = false -> f64_leb x y = true -> is_old32 t thr x = false -> is_old32 t thr y = false.
Proof.
  intros thr t x y Nx Hl H. unfold is_old32 in *. destruct (f64_isnan (f64_sub t y)) eqn:Ny; [apply f32_ltb_nan; right; apply narrow_nan; exact Ny|].
  destruct (f64_isnan (f64_sub t x)) eqn:Ex.
  - destruct (sub_nan t x y Nx Hl Ex) as [K|K]; [congruence|]. rewrite K. apply f32_ltb_minf.
  - destruct (f32_ltb thr (f64_to_f32 (f64_sub t y))) eqn:E; [|reflexivity].
    rewrite (f32_ltb_via _ _ (f64_to_f32 (f64_sub t x)) E) in H; [discriminate H| |apply narrow_notnan; exact Ex].
    apply narrow_mono. apply f64_sub_mono_r; assumption.
Qed.

(** ** The newest frame is that of the image *)
Section Trim.
Context {T : Type} {S : SOps T}.

Definition tss (w : window T) : list f64 := map fr_ts (wn_frames w).
Lemma tss_len : forall w, length (tss w) = length (wn_frames w).
Proof. intros w. apply map_length. Qed.
Lemma update_window_tss : forall (w w' : window T) m, update_window w m = Ok w' -> tss w' = tss w ++ [fm_ts m].
Proof.
  intros w w' m H. unfold update_window in H. destruct (add_new_frame (wn_frames w) (new_frame (fm_ts m))) as [fs b] eqn:Ef. binv H. binv H. destruct x0 as [[[h mg] ch] b0]. binv H. injection H as <-.
  unfold tss. cbn [wn_frames]. unfold add_new_frame in Ef. injection Ef as <- _. rewrite FrameFacts.back_app in E. injection E as <-. unfold set_last. rewrite removelast_last, map_app. cbn [map with_feats fr_ts].
  destruct (back (wn_frames w)); reflexivity.
Qed.
Lemma initialize_tss : forall c o (s s' : bstate T) r, initialize c o s = Ok (s', r) -> tss (b_win s') = tss (b_win s).
Proof.
  intros c o s s' r H. unfold initialize in H. unfold tss. destruct (wn_frames (b_win s)) as [|fi [|fj rest]] eqn:Ef; [injection H as <- _; rewrite Ef; reflexivity|injection H as <- _; rewrite Ef; reflexivity|].
  destruct (f64_ltb _ _); [injection H as <- _; rewrite Ef; reflexivity|]. binv H. destruct x as [q0|]; [|injection H as <- _; rewrite Ef; reflexivity].
  binv H. binv H. destruct x0 as [[q1 p1]|]; [|injection H as <- _; reflexivity]. binv H. binv H. injection H as <- _.
  unfold init_propagator in E2. binv E2. injection E2 as <-. reflexivity.
Qed.
Lemma set_last_tss : forall (l : list (frame T)) f f', back l = Ok f -> fr_ts f' = fr_ts f -> map fr_ts (set_last l f') = map fr_ts l.
Proof.
  intros l f f' Hb Hf. destruct (back_cases _ l) as [[e Eb]|(l' & b & e & Eb)]; [rewrite Eb in Hb; discriminate|]. rewrite Eb in Hb. injection Hb as ->. subst l.
  unfold set_last. rewrite removelast_last, !map_app. cbn [map]. rewrite Hf. reflexivity.
Qed.
Lemma correct_frames_tss : forall dx off n m (l l' : list (frame T)) i, correct_frames dx off i n m l = Ok l' -> map fr_ts l' = map fr_ts l.
Proof.
  intros dx off n m. induction l as [|f r IH]; intros l' i H; cbn [correct_frames] in H; [injection H as <-; reflexivity|].
  destruct (_ =? _)%Z; [injection H as <-; reflexivity|]. binv H. binv H. binv H. injection H as <-. cbn [map with_pose fr_ts]. f_equal. eapply IH. eassumption.
Qed.
Lemma vision_update_tss : forall (o : voracle T) c s ts thr s' b pol, vision_update o c s ts thr = Ok (s', b, pol) -> tss (vs_win s') = tss (vs_win s).
Proof.
  intros o c s ts thr s' b pol H. unfold vision_update in H. destruct (pq_reset_origin _ _ _) as [q found].
  destruct (negb found); [injection H as <- _ _; reflexivity|].
  binv H. rename x into pol'. binv H. destruct x as [P|]; [|injection H as <- _ _; reflexivity]. binv H. destruct x as [fs|]; [|injection H as <- _ _; reflexivity].
  binv H. rename x into sel.
  assert (Lf : map fr_ts fs = tss (vs_win s)).
  { unfold update_newest in E1. unfold tss. destruct (wn_frames (vs_win s)) as [|f r] eqn:Ef; [discriminate|]. binv E1. binv E1. injection E1 as <-. eapply set_last_tss; [eassumption|reflexivity]. }
  assert (Fin : forall P' sx s2, finish_update o c pol' P' sx = Ok s2 -> vs_win s2 = vs_win sx).
  { intros P' sx s2 Hf. unfold finish_update in Hf. binv Hf. binv Hf. binv Hf. injection Hf as <-. reflexivity. }
  destruct (snd sel) as [|p0 r0].
  - binv H. injection H as <- _ _. apply Fin in E3. rewrite E3. exact Lf.
  - binv H. destruct x as [Hr|]; [|injection H as <- _ _; exact Lf].
    binv H. binv H. injection H as <- _ _. apply Fin in E5. rewrite E5.
    unfold update_state in E4. binv E4. destruct x1 as [[K dx] P']. binv E4. injection E4 as <-. cbn [snd].
    match goal with X : apply_delta _ _ = Ok _ |- _ => unfold apply_delta in X; do 7 binv X; injection X as <- end. unfold tss at 1. cbn [vs_win wn_frames] in *. rewrite <- Lf.
    destruct fs as [|f r]; [match goal with X : Ok _ = Ok _ |- _ => injection X as <- end; reflexivity|].
    match goal with X : obind (back _) _ = Ok _ |- _ => binv X; eapply correct_frames_tss; exact X end.
Qed.
Lemma marginalize_last : forall ord (w w' : window T) p t, 2 <= length (wn_frames w) -> (Z.of_nat (length (wn_frames w)) < 4294967296)%Z -> p <> MargNewest ->
  marginalize ord w p = Ok w' -> back (tss w) = Ok t -> back (tss w') = Ok t.
Proof.
  intros ord w w' p t H2 Hb Hp H Ht. destruct (marginalize_frames T S ord w w' p H2 Hb H) as [Hl Hk]. set (n := length (wn_frames w)) in *.
  assert (Ln : 1 <= length (kept p n)) by (rewrite kept_length by exact H2; destruct p; cbn [left_after]; lia).
  destruct (Hk (length (kept p n) - 1) ltac:(lia)) as (f & f' & F1 & F2 & _ & _ & _ & F3 & _).
  assert (Hi : nth (length (kept p n) - 1) (kept p n) 0 = n - 1).
  { destruct p; cbn [kept] in *; [|contradiction| |]; rewrite ?app_length, ?seq_length; try (rewrite seq_nth by lia; lia).
    cbn [length]. rewrite app_nth2; rewrite seq_length; [|lia]. replace (n - 2 + 1 - 1 - (n - 2)) with 0 by lia. reflexivity. }
  rewrite Hi in F1.
  assert (B : forall (l : list (frame T)) g, nth_error l (length l - 1) = Some g -> back (map fr_ts l) = Ok (fr_ts g)).
  { intros l g Hg. destruct (back_cases _ l) as [[e _]|(l' & b & e & _)]; subst l; [discriminate|]. rewrite app_length in Hg. cbn [length] in Hg.
    rewrite nth_error_app2 in Hg by lia. replace (length l' + 1 - 1 - length l') with 0 in Hg by lia. injection Hg as ->. rewrite map_app. apply FrameFacts.back_app. }
  unfold tss in *. rewrite (B _ _ F1) in Ht. injection Ht as <-. rewrite <- F3. apply B. rewrite Hl. exact F2.
Qed.

(** ** What an image leaves *)
Definition not_older (c : vcfg T) (s : bstate T) : Prop :=
  exists t, back (tss (b_win s)) = Ok t /\
    (exists i r, pq_items (b_pq s) = i :: r /\ f64_ltb (dl_period (b_dl s)) (f64_sub t (pi_ts i)) = false) /\
    ((2 <= vc_maxwin c)%Z -> 2 <= n_frames s /\ exists i r, at_items (b_att s) = i :: r /\ is_old32 t (f64_to_f32 (dl_period (b_dl s))) (ai_ts i) = false).

Lemma vision_update_head : forall (o : voracle T) c s ts thr s' pol, vision_update o c s ts thr = Ok (s', true, pol) ->
  exists i r, pq_items (vs_pq s') = i :: r /\ f64_ltb thr (f64_sub ts (pi_ts i)) = false.
Proof.
  intros o c s ts thr s' pol H. unfold vision_update, pq_reset_origin in H.
  pose proof (origin_loop_spec ts thr (pq_items (vs_pq s))) as Hor. destruct (origin_loop ts thr (pq_items (vs_pq s))) as [l'|]; cbn [negb] in H; [|discriminate H].
  destruct Hor as (pre & it & r & Hl & -> & Ho).
  assert (K : forall q : pqueue T, map meas (pq_items q) = map meas (it :: r) -> exists i k, pq_items q = i :: k /\ f64_ltb thr (f64_sub ts (pi_ts i)) = false).
  { intros q e. destruct (pq_items q) as [|i k]; [discriminate e|]. exists i, k. split; [reflexivity|]. cbn [map] in e. unfold meas at 1 3 in e. injection e as _ _ -> _. exact Ho. }
  binv H. binv H. destruct x0 as [P|]; [|discriminate H]. binv H. destruct x0 as [fs|]; [|discriminate H]. binv H. destruct (snd x0).
  - binv H. injection H as <- _. apply K. match goal with X : finish_update _ _ _ _ _ = Ok _ |- _ => rewrite (finish_meas _ _ _ _ _ _ X) end. reflexivity.
  - binv H. destruct x1 as [Hr|]; [|discriminate H]. binv H. binv H. injection H as <- _. apply K.
    match goal with X : finish_update _ _ _ _ _ = Ok _ |- _ => rewrite (finish_meas _ _ _ _ _ _ X) end.
    match goal with X : update_state _ _ _ _ _ = Ok _ |- _ => unfold update_state in X; binv X; destruct x3 as [[Kg dx] P']; binv X; injection X as <- end. cbn [snd].
    match goal with X : apply_delta _ _ = Ok _ |- _ => rewrite (apply_delta_meas _ _ _ X) end. reflexivity.
Qed.
Lemma clean_loop_head : forall ts thr (l l' : list (att_item T)), clean_loop ts thr l = Ok l' -> exists i r, l' = i :: r /\ is_old32 ts thr (ai_ts i) = false.
Proof. intros ts thr. induction l as [|a l IH]; intros l' H; cbn [clean_loop] in H; [discriminate H|]. destruct (is_old32 _ _ _) eqn:E; [apply IH; exact H|]. injection H as <-. eauto. Qed.

Lemma back_map : forall (l : list (frame T)) f, back l = Ok f -> back (map fr_ts l) = Ok (fr_ts f).
Proof.
  intros l f H. destruct (back_cases _ l) as [[e Eb]|(l' & b & e & Eb)]; rewrite Eb in H; [discriminate H|]. injection H as ->. subst l. rewrite map_app. apply FrameFacts.back_app.
Qed.

(** The queues after an image that leaves the back end initialized. *)
Lemma feat_step_trim : forall c o (s s' : bstate T) m, (0 <= vc_maxwin c < 4294967295)%Z -> win_ok c s -> att_inv s' -> feat_step c o s m = Ok s' -> b_status s' = Initialized ->
  back (tss (b_win s')) = Ok (fm_ts m) /\ not_older c s'.
Proof.
  intros c o s s' m Hm Hw HA H Hi. pose proof (feat_step_win c o s s' m Hm Hw H) as (Hn & _ & H2).
  unfold feat_step in H. binv H. binv H. binv H. rename x into w, x0 into s1, x1 into s2. pose proof (clean_step_same _ _ H) as (C1 & C2 & C3 & _ & C5 & C6).
  rewrite Hi in C2. symmetry in C2. specialize (H2 _ _ E E0).
  unfold update_step in E1. destruct (b_status s1) eqn:Es1; [injection E1 as <-; congruence|]. specialize (H2 eq_refl). binv E1. destruct x as [[v ok] pol].
  destruct ok; binv E1; injection E1 as <-; [|discriminate C2]. rename x into w2.
  assert (T1 : back (tss (b_win s1)) = Ok (fm_ts m)).
  { transitivity (back (tss w)); [|rewrite (update_window_tss _ _ _ E); apply FrameFacts.back_app]. f_equal. unfold init_step in E0. cbn [with_win b_status] in E0.
    destruct (b_status s) eqn:Es; [|injection E0 as <-; reflexivity]. binv E0. destruct x as [s3 r]. cbn [fst snd] in E0.
    pose proof (initialize_tss _ _ _ _ _ E1) as X. destruct r; [injection E0 as <-; exact X|]. binv E0. injection E0 as <-.
    pose proof (initialize_len _ _ _ _ _ E1) as (_ & J2 & _). cbn [with_win b_status] in J2, Es1. exfalso. congruence. }
  assert (B1 : (Z.of_nat (n_frames s1) < 4294967296)%Z).
  { pose proof (update_window_len _ _ _ E) as Lw. assert (Lz : (Z.of_nat (n_frames (with_win s w)) < 4294967296)%Z) by (unfold n_frames; cbn [with_win b_win]; rewrite Lw; destruct Hw as [Hw _]; unfold win_bound, n_frames in Hw; lia).
    pose proof (init_step_len _ _ _ _ Lz E0) as (_ & _ & X). rewrite Es1 in X. destruct X as [X _]. rewrite X. exact Lz. }
  pose proof (vision_update_tss _ _ _ _ _ _ _ _ E2) as T2. pose proof (vision_update_len _ _ _ _ _ _ _ _ E2) as (L2 & _ & L3). specialize (L3 eq_refl). cbn [vs_win] in T2, L2, L3. unfold n_frames in H2, B1.
  apply decide_policy_cases in L3.
  assert (T3 : back (tss w2) = Ok (fm_ts m)).
  { eapply marginalize_last; [| | |exact E3|rewrite T2; exact T1]; [rewrite L2; lia|rewrite L2; lia|]. destruct L3 as [[-> _]|[_ [->|[-> _]]]]; discriminate. }
  cbn [with_att with_win b_win b_pq b_dl] in C1, C3, C5, C6. rewrite C3. split; [exact T3|]. exists (fm_ts m). rewrite C3, C5, C6. split; [exact T3|].
  split; [exact (vision_update_head _ _ _ _ _ _ _ E2)|]. intros Hmw.
  assert (N2 : 2 <= length (wn_frames w2)).
  { pose proof (marginalize_len _ _ _ _ (eq_ind_r (fun z => 2 <= z) H2 L2) (eq_ind_r (fun z => (Z.of_nat z < 4294967296)%Z) B1 L2) E3) as X. rewrite L2 in X. rewrite X.
    destruct L3 as [[-> _]|[L4 [->|[-> _]]]]; cbn [left_after]; lia. }
  split; [rewrite C1; exact N2|]. unfold clean_step in H. cbn [with_att with_win b_win b_dl b_att] in H. rewrite (proj2 (Nat.ltb_lt _ _)) in H by exact N2.
  binv H. match goal with X : back (wn_frames w2) = Ok _ |- _ => pose proof (back_map _ _ X) as Bm end. unfold tss in T3. rewrite T3 in Bm. injection Bm as Bm. binv H. injection H as <-.
  match goal with X : att_clean _ _ _ = Ok _ |- _ => rename X into Ec end. cbn [with_att with_win b_att b_status] in *. rewrite <- Bm in Ec.
  destruct HA as (_ & HA & _). cbn [with_att with_win b_att b_status] in HA.
  unfold att_clean in Ec. cbn [att_set_bias at_items] in Ec. destruct (at_items (b_att s1)) as [|i l] eqn:Ea.
  - injection Ec as <-. exfalso. destruct HA as [HA _]; [cbn [att_set_bias at_items]; exact Ea|]. cbn in HA, Hi. congruence.
  - binv Ec. injection Ec as <-. cbn [at_items]. eapply clean_loop_head. eassumption.
Qed.

(** ** Histories *)
Definition trim_inv (c : vcfg T) (per : f64) (s : bstate T) : Prop := dl_period (b_dl s) = per /\ (b_status s = Initialized -> not_older c s).
Lemma pop_period : forall (l : loader T), dl_period (fst (fst (fst (dl_pop_one l)))) = dl_period l.
Proof.
  intros l. unfold dl_pop_one. destruct (dl_imu l), (dl_feat l); try reflexivity. destruct (f64_leb _ _); [destruct (f64_ltb _ _)|]; reflexivity.
Qed.
Lemma att_head : forall grav (st : att T) a g t i r, at_items st = i :: r -> exists r', at_items (fst (att_propagate grav st a g t)) = i :: r'.
Proof.
  intros grav st a g t i r Hi. pose proof (att_propagate_rule grav st a g t) as Hr.
  destruct (back_cases _ (at_items st)) as [[e _]|(l & b & e & _)]; [rewrite e in Hi; discriminate Hi|]. rewrite e, rev_app_distr in Hr. cbn [rev app] in Hr. rewrite <- e in Hr.
  destruct (f64_ltb _ _); [rewrite Hr; cbn [fst]; eauto|]. destruct Hr as (q & er & ->). cbn [fst at_items]. rewrite Hi. cbn [app]. eauto.
Qed.
Lemma imu_step_trim : forall c per (s s' : bstate T) m r, imu_step c s m = (s', r) -> trim_inv c per s -> trim_inv c per s'.
Proof.
  intros c per s s' m r H [Hp Ht]. pose proof (imu_step_win _ _ _ _ _ H) as (W1 & W2 & W3 & _). unfold trim_inv. rewrite W3. split; [exact Hp|]. intros Hi. rewrite W2 in Hi.
  destruct (Ht Hi) as (t & B & (i & l & Q1 & Q2) & A). exists t. unfold n_frames in *. rewrite W1, W3. split; [exact B|].
  pose proof (imu_step_att c s m) as Ha. rewrite H in Ha. cbn [fst] in Ha. rewrite Ha. split.
  - unfold imu_step in H. destruct (att_propagate _ _ _ _ _) as [a x]. rewrite Hi in H. injection H as <- _. cbn [with_pq with_att b_pq b_ext].
    destruct (pq_propagate_items (vc_grav c) (length (b_ext s)) (b_pq s) (im_accel m) (im_gyro m) (im_ts m)) as (it & -> & _). rewrite Q1. cbn [app]. eauto.
  - intros Hm. destruct (A Hm) as (A0 & j & k & A1 & A2). split; [exact A0|]. destruct (att_head (vc_grav c) (b_att s) (im_accel m) (im_gyro m) (im_ts m) j k A1) as (k' & ->). eauto.
Qed.
Lemma run_once_trim : forall c o per (s s' : bstate T) r, (0 <= vc_maxwin c < 4294967295)%Z -> win_ok c s -> att_inv s' -> run_once c o s = Ok (s', r) -> trim_inv c per s ->
  trim_inv c per s' /\ (forall m, next_feat s = Some m -> b_status s' = Initialized -> back (tss (b_win s')) = Ok (fm_ts m)).
Proof.
  intros c o per s s' r Hm Hw HA H Ht. unfold next_feat. unfold run_once in H. pose proof (pop_period (b_dl s)) as Hp.
  destruct (dl_pop_one (b_dl s)) as [[[l m] ok] d] eqn:Ep. cbn [fst snd] in *.
  assert (Hf : ok = false -> cm_feat m = None).
  { intros ->. unfold dl_pop_one in Ep. destruct (dl_imu (b_dl s)), (dl_feat (b_dl s)); try (injection Ep as _ <- _; reflexivity); try discriminate Ep. destruct (f64_leb _ _); [destruct (f64_ltb _ _)|]; discriminate Ep. }
  assert (T0 : trim_inv c per (with_dl s (b_st s) l)).
  { destruct Ht as [T1 T2]. split; [cbn [with_dl b_dl]; congruence|]. intros Hi. destruct (T2 Hi) as (t & X). exists t. cbn [with_dl b_dl b_win b_pq b_att]. rewrite Hp. exact X. }
  destruct ok; cbn [negb] in H; [|injection H as <- _; split; [exact T0|rewrite (Hf eq_refl); discriminate]].
  destruct (match cm_imu m with [] => (_, true) | i :: _ => imu_step c _ i end) as [s1 r1] eqn:E1.
  assert (K : trim_inv c per s1 /\ b_win s1 = b_win s /\ b_status s1 = b_status s).
  { destruct (cm_imu m) as [|i x]; [injection E1 as <- _; auto|]. pose proof (imu_step_win _ _ _ _ _ E1) as (W1 & W2 & _). split; [eapply imu_step_trim; eassumption|]. auto. }
  destruct K as (K1 & K2 & K3). destruct (cm_feat m) as [f|]; [|injection H as <- _; split; [exact K1|discriminate]].
  binv H. injection H as <- _. assert (Hw1 : win_ok c s1) by (unfold win_ok, n_frames in *; rewrite K2, K3; exact Hw).
  pose proof (feat_step_dl _ _ _ _ _ E) as Fd. split.
  - split; [rewrite Fd; exact (proj1 K1)|]. intros Hi. exact (proj2 (feat_step_trim c o s1 x f Hm Hw1 HA E Hi)).
  - intros f' e Hi. injection e as <-. exact (proj1 (feat_step_trim c o s1 x f Hm Hw1 HA E Hi)).
Qed.
Lemma b_step_trim : forall c op per (s s' : bstate T) R, (0 <= vc_maxwin c < 4294967295)%Z ->
  time_inv c (map (fun m => shift (im_ts m)) (pushed_imu [op]) ++ R) s -> b_step c s op = Ok s' -> trim_inv c per s -> trim_inv c per s'.
Proof.
  intros c op per s s' R Hm HI H Ht. destruct (b_step_time _ _ _ _ _ Hm HI H) as [HI' _]. pose proof HI as (_ & _ & Hw & _ & Ho). destruct HI' as (_ & HA & _).
  destruct op as [m|m|o| |]; cbn [b_step] in H.
  - assert (e : s' = fst (b_imu s m)) by congruence. subst s'. unfold b_imu. rewrite push_imu_eq by exact Ho. exact Ht.
  - assert (e : s' = fst (b_feat s m)) by congruence. subst s'. unfold b_feat. rewrite push_feat_eq by exact Ho. destruct (well_sized m); exact Ht.
  - binv H. destruct x as [s2 r]. injection H as <-. exact (proj1 (run_once_trim c o per s s2 r Hm Hw HA E Ht)).
  - assert (e : s' = fst (run_once_test s)) by congruence. subst s'. unfold run_once_test. pose proof (pop_period (b_dl s)) as Hp. destruct (dl_pop_one (b_dl s)) as [[[l m] ok] d]. cbn [fst] in *.
    destruct Ht as [T1 T2]. split; [cbn [with_dl b_dl]; congruence|]. intros Hi. destruct (T2 Hi) as (t & X). exists t. cbn [with_dl b_dl b_win b_pq b_att]. rewrite Hp. exact X.
  - injection H as <-. split; [exact (proj1 Ht)|discriminate].
Qed.
Lemma b_hist_trim : forall c per ops (s s' : bstate T) R, (0 <= vc_maxwin c < 4294967295)%Z ->
  time_inv c (map (fun m => shift (im_ts m)) (pushed_imu ops) ++ R) s -> b_hist c s ops = Ok s' -> trim_inv c per s -> trim_inv c per s' /\ time_inv c R s'.
Proof.
  intros c per. induction ops as [|op r IH]; intros s s' R Hm HI H Ht; cbn [b_hist] in H; [injection H as <-; auto|].
  binv H. rewrite pushed_imu_cons, map_app, <- app_assoc in HI. destruct (b_step_time _ _ _ _ _ Hm HI E) as [HI1 _].
  eapply IH; [exact Hm|exact HI1|exact H|]. eapply b_step_trim; eassumption.
Qed.
Lemma fresh_trim : forall c (s0 : bstate T), fresh s0 -> trim_inv c (dl_period (b_dl s0)) s0.
Proof. intros c s0 (st & per & ex & ba & bg & na & ng & nwa & nwg & ->). split; [reflexivity|discriminate]. Qed.

(** C87: the newest frame is that of the last image. *)
Theorem newest_frame : forall c o (s0 s s' : bstate T) ops r m, (0 <= vc_maxwin c < 4294967295)%Z -> fresh s0 -> time_sorted (map im_ts (pushed_imu ops)) ->
  b_hist c s0 ops = Ok s -> run_once c o s = Ok (s', r) -> next_feat s = Some m -> b_status s' = Initialized ->
  exists f, back (wn_frames (b_win s')) = Ok f /\ fr_ts f = fm_ts m.
Proof.
  intros c o s0 s s' ops r m Hm Hf Hs H Hr Hn Hi.
  destruct (b_hist_trim c _ ops s0 s [] Hm (fresh_time_inv c ops s0 Hf Hs) H (fresh_trim c s0 Hf)) as [Ht HI].
  pose proof (proj1 (run_once_time c o s s' r [] Hm HI Hr)) as (_ & HA & _). pose proof HI as (_ & _ & Hw & _).
  pose proof (proj2 (run_once_trim c o _ s s' r Hm Hw HA Hr Ht) m Hn Hi) as B.
  destruct (back_cases _ (wn_frames (b_win s'))) as [[e _]|(l & f & e & Eb)]; [unfold tss in B; rewrite e in B; discriminate B|].
  exists f. split; [exact Eb|]. pose proof (back_map _ _ Eb) as B'. unfold tss in B. rewrite B in B'. injection B' as ->. reflexivity.
Qed.
(** C87: the attitude queue. *)
Theorem attitude_trimmed : forall c ops (s0 s : bstate T) f, (2 <= vc_maxwin c < 4294967295)%Z -> fresh s0 -> time_sorted (map im_ts (pushed_imu ops)) ->
  b_hist c s0 ops = Ok s -> b_status s = Initialized -> back (wn_frames (b_win s)) = Ok f ->
  List.Forall (fun i => ~ older32 (f64_to_f32 (dl_period (b_dl s0))) (fr_ts f) (ai_ts i)) (at_items (b_att s)).
Proof.
  intros c ops s0 s f Hm Hf Hs H Hi Hb.
  destruct (b_hist_trim c _ ops s0 s [] ltac:(lia) (fresh_time_inv c ops s0 Hf Hs) H (fresh_trim c s0 Hf)) as [[Hp Ht] HI]. destruct HI as (_ & (HA & _) & _).
  destruct (Ht Hi) as (t & B & _ & A). destruct (A ltac:(lia)) as (_ & i & r & A1 & A2). unfold tss in B. rewrite (back_map _ _ Hb) in B. injection B as <-. rewrite Hp in A2.
  rewrite A1 in *. cbn [map time_sorted] in HA. destruct HA as (N & HL & _).
  constructor; [unfold older32; unfold is_old32 in A2; congruence|]. apply List.Forall_forall. intros x Hx. unfold older32.
  pose proof (not_old32_mono _ _ _ (ai_ts x) N (HL _ (in_map ai_ts _ _ Hx)) A2) as K. unfold is_old32 in K. congruence.
Qed.
(** ** The propagation queue *)
Lemma stream_in : forall ops last x, In x (map im_ts (stream last ops)) -> In x (map (fun m : imu_msg T => shift (im_ts m)) (pushed_imu ops)).
Proof.
  induction ops as [|op r IH]; intros last x Hx; [destruct Hx|]. rewrite pushed_imu_cons, map_app. apply in_or_app. destruct op as [m|m|o| |]; cbn [stream] in Hx; try (right; eapply IH; exact Hx).
  rewrite map_app in Hx. apply in_app_or in Hx as [Hx|Hx]; [|right; eapply IH; exact Hx]. left. destruct (f64_ltb _ _); [|destruct Hx]. cbn in Hx. destruct Hx as [<-|[]]. left. reflexivity.
Qed.
Lemma stream_sorted : forall ops last, time_sorted (map (fun m : imu_msg T => shift (im_ts m)) (pushed_imu ops)) -> time_sorted (map im_ts (stream last ops)).
Proof.
  induction ops as [|op r IH]; intros last Hs; [exact I|]. rewrite pushed_imu_cons, map_app in Hs. apply sorted_app in Hs as (S1 & S2 & S3).
  destruct op as [m|m|o| |]; cbn [stream]; try (apply IH; exact S2). rewrite map_app. apply sorted_app. split; [|split; [apply IH; exact S2|]].
  - destruct (f64_ltb _ _); [|exact I]. cbn in *. split; [exact (proj1 S1)|]. split; [intros y []|exact I].
  - intros x y Hx Hy. destruct (f64_ltb _ _); [|destruct Hx]. cbn in Hx. destruct Hx as [<-|[]]. apply S3; [left; reflexivity|eapply stream_in; exact Hy].
Qed.
Hypothesis sub_zero : forall x : T, ssub x s0 = x.
(** C87: the propagation queue. *)
Theorem queue_trimmed : forall c ops (s0 s : bstate T) f, (0 <= vc_maxwin c < 4294967295)%Z -> fresh s0 -> no_test ops ->
  time_sorted (map im_ts (pushed_imu ops)) -> one_session c s0 ops -> b_hist c s0 ops = Ok s -> b_status s = Initialized -> back (wn_frames (b_win s)) = Ok f ->
  List.Forall (fun i => ~ older (dl_period (b_dl s0)) (fr_ts f) (pi_ts i)) (pq_items (b_pq s)) /\
  length (pq_items (b_pq s)) + length (dl_imu (b_dl s)) <=
    length (List.filter (fun m => negb (f64_ltb (dl_period (b_dl s0)) (f64_sub (fr_ts f) (im_ts m)))) (stream (st_imu (b_st s0)) ops)).
Proof.
  intros c ops s0 s f Hm Hf Hn Hs Ho H Hi Hb.
  destruct (b_hist_trim c _ ops s0 s [] Hm (fresh_time_inv c ops s0 Hf Hs) H (fresh_trim c s0 Hf)) as [[Hp Ht] _].
  destruct (queue_flow sub_zero c ops s0 s Hm Hf Hn Hs Ho H Hi) as (pre & Hq).
  assert (Ss : time_sorted (map im_ts (stream (st_imu (b_st s0)) ops))).
  { apply stream_sorted. pose proof (fresh_time_inv c ops s0 Hf Hs) as (X & _). rewrite app_nil_r in X. apply sorted_app in X as (_ & X & _). apply sorted_app in X as (_ & X & _). exact X. }
  set (L := stream (st_imu (b_st s0)) ops) in *.
  assert (Hq2 : map im_ts L = map snd pre ++ map pi_ts (pq_items (b_pq s)) ++ map im_ts (dl_imu (b_dl s))).
  { apply (f_equal (map snd)) in Hq. rewrite !map_app, !map_map in Hq. exact Hq. }
  rewrite Hq2 in Ss. apply sorted_app in Ss as (_ & Ss & _).
  destruct (Ht Hi) as (t & B & (i & r & Q1 & Q2) & _). unfold tss in B. rewrite (back_map _ _ Hb) in B. injection B as <-. rewrite Hp in Q2.
  assert (All : forall x, In x (map pi_ts (pq_items (b_pq s)) ++ map im_ts (dl_imu (b_dl s))) -> f64_ltb (dl_period (b_dl s0)) (f64_sub (fr_ts f) x) = false).
  { rewrite Q1 in *. cbn [map app time_sorted] in Ss. destruct Ss as (N & HL & _). intros x [<-|Hx]; [exact Q2|]. eapply not_older_mono; [exact N|apply HL; exact Hx|exact Q2]. }
  split.
  - apply List.Forall_forall. intros x Hx. unfold older. rewrite All; [discriminate|]. apply in_or_app. left. apply in_map. exact Hx.
  - assert (G : forall (M : list (imu_msg T)) a b, map im_ts M = a ++ b -> (forall x, In x b -> f64_ltb (dl_period (b_dl s0)) (f64_sub (fr_ts f) x) = false) ->
      length b <= length (List.filter (fun m => negb (f64_ltb (dl_period (b_dl s0)) (f64_sub (fr_ts f) (im_ts m)))) M)).
    { induction M as [|m M IH]; intros a b e Hx; [destruct a, b; try discriminate e; cbn; lia|]. cbn [map] in e. destruct a as [|y a].
      - destruct b as [|y b]; [cbn; lia|]. cbn [app] in e. injection e as <- e. cbn [List.filter]. rewrite (Hx _ (or_introl eq_refl)). cbn [negb length].
        specialize (IH [] b e (fun x H => Hx x (or_intror H))). lia.
      - injection e as _ e. specialize (IH a b e Hx). cbn [List.filter]. destruct (negb _); cbn [length]; lia. }
    specialize (G L _ _ Hq2 All). rewrite app_length, !map_length in G. exact G.
Qed.
End Trim.
