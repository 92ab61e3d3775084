(** Covariance dimensions and queued times through the whole back end. *)
From Coq Require Import ZArith List Bool Lia Arith.
From stdpp Require Import gmap list.
From Verif Require Import Fp Scalar Base LinAlg Msg DataLoader FeatureManager FrameManager Window MathLib Attitude Propagator
  Triangulate Pnp VisionUpdate Backend LoaderSpec WindowSpec QueueSpec UpdSpec BackendSpec FrameFacts FeatureFacts WindowFacts UpdCovFacts
  MeasFacts SelectFacts BackLenFacts SafeFacts.
Import ListNotations.
Local Open Scope nat_scope.

Section Dim.
Context {T : Type} {S : SOps T}.

(** ** Selected features have all their frames *)
Definition seen (o : voracle T) exts (fs : list (frame T)) (h : heap T) (p : nat) : Prop :=
  exists f vs, hp_cells h !! p = Some f /\ track_views (vo_nord o) exts fs (ft_first f) 0 (ft_obs f) = Ok vs.
Lemma seen_same : forall o exts fs h h' p, same_heap h h' -> seen o exts fs h p -> seen o exts fs h' p.
Proof.
  intros o exts fs h h' p [_ H] (f & vs & E & V). destruct (H p f E) as (g & Eg & _ & e1 & e2 & _). exists g, vs. rewrite e1, e2. auto.
Qed.
Lemma hget_inv : forall (h : heap T) p f, hget h p = Ok f -> hp_cells h !! p = Some f.
Proof. intros h p f H. unfold hget in H. destruct (hp_cells h !! p); [injection H as ->; reflexivity|discriminate]. Qed.
Lemma trianglize_inv : forall (o : voracle T) exts fs h p h' r, trianglize o exts fs h p = Ok (h', r) ->
  same_heap h h' /\ seen o exts fs h' p.
Proof.
  intros o exts fs h p h' r H. unfold trianglize in H. binv H. rename x into f. binv H. rename x into vs. binv H. destruct x as [g b].
  cbn [fst snd] in H. injection H as <- <-. apply hget_inv in E. destruct (solve_feature_ok (vo_svd o) f vs) as (g' & b' & E2 & Sg & _).
  assert (Ex : (g', b') = (g, b)) by congruence. injection Ex as -> ->.
  split; [eapply same_heap_set; eassumption|]. exists g, vs. split; [unfold hset; cbn [hp_cells]; apply lookup_insert|].
  destruct Sg as (_ & -> & -> & _). exact E0.
Qed.
Lemma select_loop_seen : forall (o : voracle T) exts fs l pos h good h' good', select_loop o exts fs l pos h good = Ok (h', good') ->
  (forall p, In p (map snd good) -> seen o exts fs h p) -> same_heap h h' /\ forall p, In p (map snd good') -> seen o exts fs h' p.
Proof.
  intros o exts fs. induction l as [|[id p] r IH]; intros pos h good h' good' H Hg; cbn [select_loop] in H.
  - injection H as <- <-. split; [apply same_heap_refl|exact Hg].
  - binv H. destruct x as [h1 b]. apply trianglize_inv in E as [Sh Sp]. cbn [fst snd] in H.
    assert (Hg1 : forall q, In q (map snd good) -> seen o exts fs h1 q) by (intros q Hq; eapply seen_same; [exact Sh|auto]).
    destruct b; (eapply IH in H as [A B]; [split; [eapply same_heap_trans; eassumption|exact B]|]); [|exact Hg1].
    intros q Hq. apply in_map_iff in Hq as (kq & <- & Hq). apply score_insert_in in Hq as [->|Hq]; [exact Sp|]. apply Hg1. apply in_map. exact Hq.
Qed.
Lemma write_track_some : forall nord exts (fs : list (frame T)) first p_w obs i row H vs x,
  track_views nord exts fs first i obs = Ok vs -> write_track nord exts fs first p_w i obs row H = Ok x -> x <> None.
Proof.
  intros nord exts fs first p_w. induction obs as [|o r IH]; intros i row H vs x V W; cbn [track_views write_track] in V, W.
  - injection W as <-. discriminate.
  - binv V. destruct (get_frame fs (u32 (i + first))) as [k|]; [|discriminate]. binv V. binv V. binv V.
    binv W. binv W. binv W. binv W. eapply IH; eassumption.
Qed.
Lemma meas_feature_some : forall (o : voracle T) exts fs cols f vs x, track_views (vo_nord o) exts fs (ft_first f) 0 (ft_obs f) = Ok vs ->
  meas_feature o exts fs cols f = Ok x -> x <> None.
Proof.
  intros o exts fs cols f vs x V H. unfold meas_feature in H. binv H. pose proof (write_track_some _ _ _ _ _ _ _ _ _ _ _ V E) as Hx.
  destruct x0 as [[Hm n]|]; [|destruct (Hx eq_refl)]. binv H. destruct (Nat.ltb _ _); [discriminate|]. binv H. injection H as <-. discriminate.
Qed.
Lemma stack_loop_some : forall (o : voracle T) exts fs cols h l row H x, (forall p, In p l -> seen o exts fs h p) ->
  stack_loop o exts fs cols h l row H = Ok x -> x <> None.
Proof.
  intros o exts fs cols h. induction l as [|p r IH]; intros row H x Hs E; cbn [stack_loop] in E; [injection E as <-; discriminate|].
  binv E. binv E. apply hget_inv in E0. destruct (Hs p (or_introl eq_refl)) as (f & vs & Ef & V).
  assert (x0 = f) by congruence. subst x0. pose proof (meas_feature_some _ _ _ _ _ _ _ V E1) as Hx. destruct x1 as [m|]; [|destruct (Hx eq_refl)].
  binv E. eapply IH; [|exact E]. intros q Hq. apply Hs. right. exact Hq.
Qed.
Lemma measurement_some : forall (o : voracle T) exts fs h l x, (forall p, In p l -> seen o exts fs h p) ->
  measurement o exts fs h l = Ok x -> x <> None.
Proof.
  intros o exts fs h l x Hs H. unfold measurement in H. binv H. binv H. pose proof (stack_loop_some _ _ _ _ _ _ _ _ _ Hs E0) as Hx.
  destruct x1; [|destruct (Hx eq_refl)]. binv H. injection H as <-. discriminate.
Qed.

(** ** Dimensions of the update *)
Lemma mmulc_inv : forall a b c : mat T, mmulc a b = Ok c -> c = mmul a b.
Proof. intros a b c H. unfold mmulc in H. destruct (Nat.eqb _ _); [congruence|discriminate]. Qed.
Lemma maddc_inv : forall a b c : mat T, maddc a b = Ok c -> c = madd a b.
Proof. intros a b c H. unfold maddc in H. destruct (_ && _)%bool; [congruence|discriminate]. Qed.
Lemma kalman_dims : forall saes noise (P Hr : mat T) K dx P', kalman saes noise P Hr = Ok (K, dx, P') -> mr P' = mr P /\ mc P' = mc P.
Proof.
  intros saes noise P Hr K dx P' H. unfold kalman in H. destruct (Nat.eqb _ _); [discriminate|]. do 9 binv H.
  repeat match goal with E : mmulc _ _ = Ok _ |- _ => apply mmulc_inv in E | E : maddc _ _ = Ok _ |- _ => apply maddc_inv in E end.
  injection H as _ _ <-. subst. split; reflexivity.
Qed.
Lemma apply_delta_inv : forall dx (s s' : vstate T) it r, apply_delta dx s = Ok s' -> pq_items (vs_pq s) = it :: r ->
  pq_ecc (vs_pq s') = pq_ecc (vs_pq s) /\ exists m, pq_items (vs_pq s') = PItem m (pi_cov it) (pi_ecov it) (pi_a it) (pi_g it) (pi_ts it) :: r.
Proof.
  intros dx s s' it r H Hi. unfold apply_delta in H. rewrite Hi in H. cbn [front obind] in H. binv H. unfold with_head in H. rewrite Hi in H.
  cbn [obind] in H. do 4 binv H. injection H as <-. cbn. eauto.
Qed.

Theorem vision_update_inv : forall (o : voracle T) c s ts thr n s' ok pol, PQ n (vs_pq s) -> 2 <= length (wn_frames (vs_win s)) ->
  vision_update o c s ts thr = Ok (s', ok, pol) ->
  (exists pre, map pi_ts (pq_items (vs_pq s)) = pre ++ map pi_ts (pq_items (vs_pq s'))) /\
  if ok then
    n = 6 * (length (vs_ext s) + length (wn_frames (vs_win s)) - 1) /\ pq_items (vs_pq s') <> [] /\
    PQ (6 * (length (vs_ext s) + left_after pol (length (wn_frames (vs_win s))))) (vs_pq s')
  else PQ n (vs_pq s') /\ (pq_items (vs_pq s') = [] \/ n <> 6 * (length (vs_ext s) + length (wn_frames (vs_win s)) - 1)).
Proof.
  intros o c s ts thr n s' ok pol HP H2 H. unfold vision_update, pq_reset_origin in H.
  pose proof (origin_loop_spec ts thr (pq_items (vs_pq s))) as Hor. destruct (origin_loop ts thr (pq_items (vs_pq s))) as [l'|]; cbn [negb] in H.
  2:{ injection H as <- <- <-. cbn [vs_pq with_items pq_items map].
      split; [exists (map pi_ts (pq_items (vs_pq s))); rewrite app_nil_r; reflexivity|].
      split; [|left; reflexivity]. destruct HP as (P1 & P2 & _). split; [exact P1|]. split; [exact P2|constructor]. }
  destruct Hor as (pre & it & r & Hl & -> & Hold). binv H. rename x into pol'.
  set (q := with_items (vs_pq s) (it :: r)) in *. set (ne := length (vs_ext s)) in *. set (nf := length (wn_frames (vs_win s))) in *.
  assert (HPq : PQ n q).
  { destruct HP as (P1 & P2 & P3). split; [exact P1|]. split; [exact P2|]. rewrite Hl in P3. apply List.Forall_app in P3 as [_ P3]. exact P3. }
  assert (Pre : exists pre0, map pi_ts (pq_items (vs_pq s)) = pre0 ++ map pi_ts (it :: r)).
  { exists (map pi_ts pre). rewrite Hl, map_app. reflexivity. }
  destruct (construct_cov_ok ne nf q n it r eq_refl HPq ltac:(lia)) as [Cok Cno].
  destruct (Nat.eq_dec n (6 * (ne + nf - 1))) as [En|En].
  2:{ rewrite (Cno En) in H. cbn [obind] in H. injection H as <- <- <-. split; [exact Pre|]. split; [exact HPq|right; exact En]. }
  destruct (Cok En) as (P & EP & P1 & P2). rewrite EP in H. cbn [obind] in H. binv H.
  destruct x as [fs|].
  2:{ unfold update_newest in E0. destruct (wn_frames (vs_win s)); [cbn in nf; unfold nf in H2; lia|]. binv E0. binv E0. discriminate. }
  assert (Lfs : length fs = nf).
  { unfold update_newest in E0. destruct (wn_frames (vs_win s)) as [|f0 fr] eqn:Ef; [discriminate|]. binv E0. binv E0. injection E0 as <-.
    unfold nf. apply set_last_len. discriminate. }
  binv H. destruct x as [h' l]. cbn [fst snd] in H. unfold select_good in E1. binv E1. binv E1. destruct x0 as [h1 good]. cbn [fst snd] in E1.
  injection E1 as <- <-. apply select_loop_seen in E3 as [_ Hseen]; [|intros p []].
  set (l := firstn (Z.to_nat (vc_maxfeat c)) (map snd good)) in *.
  assert (Hsl : forall p, In p l -> seen o (vs_ext s) fs h1 p) by (intros p Hp; apply Hseen; eapply firstn_in; exact Hp). clearbody l.
  set (s1 := VState (Window h1 (wn_mgr (vs_win s)) fs) (vs_ext s) q) in *.
  assert (Fin : forall P0 s2 it2 s3, finish_update o c pol' P0 s2 = Ok s3 -> length (wn_frames (vs_win s2)) = nf -> length (vs_ext s2) = ne ->
    pq_items (vs_pq s2) = it2 :: r -> pi_ts it2 = pi_ts it -> mr P0 = err_size ne (nf - 1) -> mc P0 = err_size ne (nf - 1) ->
    (exists pre0, map pi_ts (pq_items (vs_pq s)) = pre0 ++ map pi_ts (pq_items (vs_pq s3))) /\ pq_items (vs_pq s3) <> [] /\
    PQ (6 * (ne + left_after pol' nf)) (vs_pq s3)).
  { intros P0 s2 it2 s3 F F1 F2 F3 F4 F5 F6. destruct (finish_update_ok o c pol' P0 s2 it2 r) as (s4 & E4 & _ & _ & W3 & W4 & W5);
      [lia|exact F3|rewrite F1, F2; exact F5|rewrite F1, F2; exact F6|]. assert (s4 = s3) by congruence. subst s4.
    rewrite W5. rewrite F1, F2 in W3. split; [|split; [exact W4|exact W3]]. destruct Pre as [pre0 ->]. exists pre0. cbn [map]. rewrite F4. reflexivity. }
  destruct l as [|p0 l0].
  - binv H. injection H as <- <- <-. eapply Fin in E1 as (A1 & A2 & A3); [|exact Lfs|reflexivity|reflexivity|reflexivity|exact P1|exact P2].
    auto.
  - binv H. pose proof (measurement_some _ _ _ _ _ _ Hsl E1) as Hx. destruct x0 as [Hr|]; [|destruct (Hx eq_refl)].
    binv H. binv H. injection H as <- <- <-. unfold update_state in E3. binv E3. destruct x2 as [[K dx] P']. binv E3. injection E3 as <-. cbn [fst snd] in E4.
    apply kalman_dims in E5 as [D1 D2]. pose proof (apply_delta_inv _ _ _ it r E6 eq_refl) as (_ & m & A4).
    apply apply_delta_len in E6 as [L1 L2]. cbn [s1 vs_win vs_ext wn_frames] in L1, L2.
    eapply Fin in E4 as (A1 & A2 & A3); [|lia|exact L2|exact A4|reflexivity|lia|lia]. auto.
Qed.

(** ** Replay *)
Lemma propagate_PQ : forall grav ne (q : pqueue T) a g t n, PQ n q ->
  PQ (match pq_items q with [] => 6 * (ne + 1) | _ => n end) (pq_propagate grav ne q a g t).
Proof.
  intros grav ne q a g t n (H1 & H2 & H3). unfold pq_propagate. destruct (back (pq_items q)) as [it0|] eqn:E.
  - destruct (pq_items q) as [|i0 l] eqn:Ei; [discriminate|]. rewrite <- Ei in *. unfold prop_item, nominal_step.
    split; [exact H1|]. split; [exact H2|]. cbn [pq_items]. apply List.Forall_app. split; [exact H3|]. constructor; [|constructor].
    cbn [pi_ecov ecov_step mmul mc]. apply back_ok_nth in E as [E _]. rewrite List.Forall_forall in H3. apply H3. eapply nth_error_In. exact E.
  - destruct (pq_items q) as [|i0 l] eqn:Ei; [|destruct (back_ex (i0 :: l)) as [y Hy]; [discriminate|congruence]].
    unfold PQ. cbn. split; [lia|]. split; [lia|]. constructor; [cbn; lia|constructor].
Qed.
Lemma replay_PQ : forall grav ne (l : list (att_item T)) (q : pqueue T) n, PQ n q ->
  PQ (match pq_items q, l with [], _ :: _ => 6 * (ne + 1) | _, _ => n end) (replay grav ne q l).
Proof.
  intros grav ne. induction l as [|i r IH]; intros q n H; [destruct (pq_items q); exact H|].
  unfold replay. cbn [fold_left]. fold (replay grav ne (pq_propagate grav ne q (ai_a i) (ai_g i) (ai_ts i)) r).
  pose proof (propagate_PQ grav ne q (ai_a i) (ai_g i) (ai_ts i) n H) as H'. apply IH in H'.
  destruct (pq_propagate_items grav ne q (ai_a i) (ai_g i) (ai_ts i)) as (it & E & _). rewrite E in H'.
  destruct (pq_items q); cbn [app] in H'; destruct r; exact H'.
Qed.

(** ** Initialization *)
Lemma initialize_pq : forall c o (s s' : bstate T) r, initialize c o s = Ok (s', r) ->
  if r then exists fi rest a m, wn_frames (b_win s) = fi :: rest /\ att_clean (b_att s) (fr_ts fi) (f64_to_f32 (dl_period (b_dl s))) = Ok a /\ b_att s' = a /\
    b_pq s' = replay (vc_grav c) (length (b_ext s)) (with_init (b_pq s) m) (at_items a) /\ pq_items (b_pq s') <> []
  else b_att s' = b_att s /\ b_pq s' = b_pq s.
Proof.
  intros c o s s' r H. unfold initialize in H. destruct (wn_frames (b_win s)) as [|fi [|fj rest]] eqn:Ef;
    try (injection H as <- <-; auto; fail).
  destruct (f64_ltb _ _); [injection H as <- <-; auto|]. binv H. destruct x as [q0|]; [|injection H as <- <-; auto].
  binv H. binv H. destruct x0 as [[q1 p1]|]; [|injection H as <- <-; auto]. binv H. binv H. injection H as <- <-.
  unfold init_propagator in E2. binv E2. injection E2 as <-. cbn in *. eexists _, _, _, _. split; [reflexivity|]. split; [exact E4|].
  split; [reflexivity|]. split; [reflexivity|]. intros e. rewrite e in E3. discriminate.
Qed.

(** ** The update step *)
Lemma update_step_inv : forall c o ts (s s' : bstate T) n, b_status s = Initialized -> 2 <= n_frames s -> (Z.of_nat (n_frames s) < 4294967296)%Z ->
  PQ n (b_pq s) -> update_step c o ts s = Ok s' ->
  at_items (b_att s') = at_items (b_att s) /\ length (b_ext s') = length (b_ext s) /\ b_dl s' = b_dl s /\ b_st s' = b_st s /\
  (exists pre, map pi_ts (pq_items (b_pq s)) = pre ++ map pi_ts (pq_items (b_pq s'))) /\
  match b_status s' with
  | Initialized => n = 6 * (length (b_ext s) + n_frames s - 1) /\ pq_items (b_pq s') <> [] /\ PQ (6 * (length (b_ext s') + n_frames s')) (b_pq s')
  | NeedInit => n_frames s' = 1 /\ PQ n (b_pq s') /\ (pq_items (b_pq s') = [] \/ n <> 6 * (length (b_ext s) + n_frames s - 1))
  end.
Proof.
  intros c o ts s s' n Hs H2 Hb HP H. unfold update_step in H. rewrite Hs in H. binv H. destruct x as [[v ok] pol].
  pose proof (vision_update_inv _ _ (VState (b_win s) (b_ext s) (b_pq s)) _ _ n _ _ _ HP H2 E) as [Hpre Hv]. cbn [vs_win vs_ext vs_pq] in Hpre, Hv.
  apply vision_update_len in E as (L1 & L2 & _). cbn [vs_win vs_ext] in L1, L2. unfold n_frames in *.
  destruct ok.
  - binv H. injection H as <-. cbn. split; [reflexivity|]. split; [exact L2|]. split; [reflexivity|]. split; [reflexivity|].
    split; [exact Hpre|]. destruct Hv as (V1 & V2 & V3). split; [exact V1|]. split; [exact V2|].
    apply marginalize_len in E; [|lia|lia]. rewrite E, L1, L2. exact V3.
  - binv H. injection H as <-. cbn. split; [reflexivity|]. split; [exact L2|]. split; [reflexivity|]. split; [reflexivity|].
    split; [exact Hpre|]. apply shrink_all_len in E; [|lia]. split; [|exact Hv]. rewrite E, L1. lia.
Qed.

(** ** C33: dimensions without Reset *)
Definition dims_ok (s : bstate T) : Prop :=
  exists n, PQ n (b_pq s) /\
  match b_status s with
  | Initialized => pq_items (b_pq s) <> [] /\ n = 6 * (length (b_ext s) + n_frames s)
  | NeedInit => pq_items (b_pq s) = [] /\ n_frames s <= 1
  end.

Lemma imu_step_dims : forall c (s s' : bstate T) m r, dims_ok s -> imu_step c s m = (s', r) -> dims_ok s'.
Proof.
  intros c s s' m r (n & HP & Hd) H. pose proof (imu_step_win _ _ _ _ _ H) as (W1 & W2 & _ & _ & W5). unfold dims_ok, n_frames.
  rewrite W1, W2, W5. unfold imu_step in H. destruct (att_propagate _ _ _ _ _) as [a x]. destruct (b_status s).
  - injection H as <- <-. exists n. split; [exact HP|exact Hd].
  - injection H as <- <-. exists n. cbn. destruct Hd as [Hn ->].
    pose proof (propagate_PQ (vc_grav c) (length (b_ext s)) (b_pq s) (im_accel m) (im_gyro m) (im_ts m) _ HP) as H'.
    destruct (pq_propagate_items (vc_grav c) (length (b_ext s)) (b_pq s) (im_accel m) (im_gyro m) (im_ts m)) as (it & E & _).
    destruct (pq_items (b_pq s)) as [|i0 l0]; [destruct (Hn eq_refl)|]. split; [exact H'|]. rewrite E. split; [discriminate|reflexivity].
Qed.

Lemma feat_step_dims : forall c o (s s' : bstate T) m, (0 <= vc_maxwin c < 4294967295)%Z -> win_ok c s -> dims_ok s -> feat_step c o s m = Ok s' -> dims_ok s'.
Proof.
  intros c o s s' m Hm Hw (n & HP & Hd) H. pose proof (feat_step_win _ _ _ _ _ Hm Hw H) as (_ & _ & Htwo). destruct Hw as [Hw _].
  unfold feat_step in H. binv H. binv H. binv H. rename x into w, x0 into s1, x1 into s2.
  specialize (Htwo w s1 E E0). pose proof (update_window_len _ _ _ E) as Lw.
  apply clean_step_same in H as (C1 & C2 & C3 & C4 & C5 & C6). unfold dims_ok. rewrite C1, C2, C4, C5. fold (dims_ok s2).
  assert (Hb : (Z.of_nat (n_frames (with_win s w)) < 4294967296)%Z) by (unfold n_frames, win_bound in *; cbn; lia).
  assert (Mid : match b_status s1 with
    | Initialized => PQ (6 * (length (b_ext s1) + n_frames s1 - 1)) (b_pq s1) /\ pq_items (b_pq s1) <> []
    | NeedInit => PQ n (b_pq s1) /\ pq_items (b_pq s1) = [] /\ n_frames s1 <= 1 end /\ (Z.of_nat (n_frames s1) < 4294967296)%Z).
  { pose proof (init_step_len _ _ _ _ Hb E0) as (I1 & I2 & I3). unfold init_step in E0. cbn [with_win b_status] in E0.
    destruct (b_status s) eqn:Es.
    - destruct Hd as [Hd1 Hd2]. binv E0. destruct x as [s3 r]. cbn [fst snd] in E0. pose proof (initialize_pq _ _ _ _ _ E2) as Hi.
      pose proof (initialize_len _ _ _ _ _ E2) as (J1 & _ & _ & _ & J5 & J6). destruct r.
      + injection E0 as <-. cbn [with_status b_status b_pq b_ext]. destruct Hi as (fi & rest & a & m0 & _ & _ & _ & Hq & Hne).
        unfold n_frames in *. cbn [with_status with_win b_win] in *. rewrite J5. cbn [b_ext with_win].
        pose proof (replay_PQ (vc_grav c) (length (b_ext s)) (at_items a) (with_init (b_pq s) m0) n HP) as HR.
        cbn [with_init pq_items] in HR. rewrite Hd1 in HR. cbn [with_win b_ext b_pq] in Hq. rewrite <- Hq in HR.
        destruct (at_items a) as [|x0 xs]; [exfalso; apply Hne; rewrite Hq; cbn; exact Hd1|].
        split; [|lia]. split; [|exact Hne]. specialize (J6 eq_refl). replace (6 * (_ + _ - 1)) with (6 * (length (b_ext s) + 1)) by lia. exact HR.
      + binv E0. injection E0 as <-. cbn [with_win b_status b_pq b_ext] in *. destruct Hi as [_ Hq]. rewrite Hq. cbn [with_win b_pq].
        rewrite J5 in *. cbn [with_win b_ext] in *. unfold n_frames in *. cbn [with_win b_win] in *. 
        destruct (b_status s3) eqn:Es3; [|destruct I3 as [I3 I4]; pose proof (initialize_len _ _ _ _ _ E2) as (_ & J2 & _); cbn in J2; congruence].
        destruct I3 as [_ I3]. split; [split; [exact HP|split; [exact Hd1|lia]]|lia].
    - injection E0 as <-. unfold n_frames in *. cbn [with_win b_status b_pq b_ext b_win] in *. destruct Hd as [Hd1 Hd2]. rewrite Es. split; [|lia].
      split; [|exact Hd1]. replace (6 * (_ + _ - 1)) with n by lia. exact HP. }
  destruct Mid as [Mid Hb1]. destruct (b_status s1) eqn:Es1.
  - unfold update_step in E1. rewrite Es1 in E1. injection E1 as <-. exists n. rewrite Es1. exact Mid.
  - destruct Mid as [M1 M2]. pose proof (update_step_inv _ _ _ _ _ _ Es1 (Htwo eq_refl) Hb1 M1 E1) as (_ & U2 & _ & _ & _ & U6).
    unfold dims_ok. destruct (b_status s2).
    + destruct U6 as (U6 & U7 & [U8|U8]); [|destruct (U8 eq_refl)]. eexists. split; [exact U7|]. split; [exact U8|lia].
    + destruct U6 as (_ & U7 & U8). eexists. split; [exact U8|]. auto.
Qed.

Lemma run_once_dims : forall c o (s s' : bstate T) r, (0 <= vc_maxwin c < 4294967295)%Z -> win_ok c s -> dims_ok s -> run_once c o s = Ok (s', r) -> dims_ok s'.
Proof.
  intros c o s s' r Hm Hw Hd H. apply pop_one_run in H as (s1 & r1 & E1 & H). cbn zeta in E1.
  set (l := fst (fst (fst (dl_pop_one (b_dl s))))) in *.
  assert (W1 : win_ok c s1 /\ dims_ok s1).
  { destruct (cm_imu _) as [|i x]; [injection E1 as <- <-; split; [exact Hw|exact Hd]|]. split; [|eapply imu_step_dims; [|exact E1]; exact Hd].
    apply imu_step_win in E1 as (W1 & W2 & _). unfold win_ok, n_frames in *. rewrite W1, W2. exact Hw. }
  destruct W1 as [W1 W2]. destruct (snd (fst (dl_pop_one (b_dl s)))).
  - destruct (next_feat s).
    + destruct H as (s2 & E2 & H). injection H as -> ->. eapply feat_step_dims; eassumption.
    + injection H as -> ->. exact W2.
  - injection H as -> ->. exact Hd.
Qed.

Definition is_reset (op : b_op T) : bool := match op with BReset => true | _ => false end.

Theorem dims_match : forall c ops (s0 s : bstate T), (0 <= vc_maxwin c < 4294967295)%Z -> fresh s0 ->
  List.Forall (fun op => op <> BReset) ops -> b_hist c s0 ops = Ok s ->
  match b_status s with
  | Initialized => let n := 6 * (length (b_ext s) + n_frames s) in
      pq_items (b_pq s) <> [] /\ mr (pq_ecc (b_pq s)) = n /\ mc (pq_ecc (b_pq s)) = n /\
      List.Forall (fun it => mc (pi_ecov it) = n) (pq_items (b_pq s))
  | NeedInit => pq_items (b_pq s) = []
  end.
Proof.
  intros c ops s0 s Hm Hf Hr H.
  assert (D : dims_ok s).
  { assert (D0 : dims_ok s0).
    { destruct Hf as (st & per & ex & ba & bg & na & ng & nwa & nwg & ->). exists 0. split; [repeat split; constructor|]. cbn. auto. }
    pose proof (fresh_win c s0 Hf) as W0. clear Hf. revert s0 W0 D0 H. induction Hr as [|op r Hop Hr IH]; intros s0 W0 D0 H; cbn [b_hist] in H;
      [injection H as <-; exact D0|]. binv H. pose proof (b_step_win _ _ _ _ Hm W0 E) as W1. apply (IH x W1); [|exact H].
    destruct op as [m|m|o| |]; cbn [b_step] in E; [| | | |destruct (Hop eq_refl)].
    - injection E as <-. unfold b_imu. destruct (dl_push_imu (b_st s0) (b_dl s0) m) as [[[st l] m'] rr]. exact D0.
    - injection E as <-. unfold b_feat. destruct (dl_push_feat (b_st s0) (b_dl s0) m) as [[[st l] m'] rr]. exact D0.
    - binv E. destruct x0 as [s1 rr]. injection E as <-. exact (run_once_dims _ _ _ _ _ Hm W0 D0 E0).
    - injection E as <-. unfold run_once_test. destruct (dl_pop_one (b_dl s0)) as [[[l m] ok] d]. exact D0. }
  destruct D as (n & (P1 & P2 & P3) & D). destruct (b_status s); [exact (proj1 D)|]. destruct D as [D ->]. cbv zeta. auto.
Qed.

(** ** C34: a stale queue blocks every later initialization *)
Lemma feat_step_stuck : forall c o (s s' : bstate T) m, stuck s -> feat_step c o s m = Ok s' ->
  b_status s' = NeedInit /\ n_frames s' <= 1 /\ (pq_items (b_pq s') = [] \/ stuck s').
Proof.
  intros c o s s' m (Hs & Hf & Hq & n & HP & Hn) H. unfold feat_step in H. binv H. binv H. binv H. rename x into w, x0 into s1, x1 into s2.
  pose proof (update_window_len _ _ _ E) as Lw. apply clean_step_same in H as (C1 & C2 & C3 & C4 & C5 & C6).
  unfold stuck. rewrite C1, C2, C4, C5. fold (stuck s2).
  unfold n_frames in Hf. unfold init_step in E0. cbn [with_win b_status] in E0. rewrite Hs in E0. binv E0. destruct x as [s3 r]. cbn [fst snd] in E0.
  pose proof (initialize_pq _ _ _ _ _ E2) as Hi. pose proof (initialize_len _ _ _ _ _ E2) as (J1 & J2 & _ & _ & J5 & J6). cbn [with_win b_status b_ext] in J2, J5.
  unfold n_frames in *. cbn [with_win b_win] in *. destruct r.
  - injection E0 as <-. destruct Hi as (fi & rest & a & m0 & _ & _ & _ & Hrep & Hne). cbn [with_win b_ext b_pq] in Hrep.
    pose proof (replay_PQ (vc_grav c) (length (b_ext s)) (at_items a) (with_init (b_pq s) m0) n HP) as HR. cbn [with_init pq_items] in HR.
    rewrite <- Hrep in HR. destruct (pq_items (b_pq s)) as [|i0 l0] eqn:Eq; [destruct (Hq eq_refl)|].
    specialize (J6 eq_refl).
    pose proof (update_step_inv c o (fm_ts m) (with_status s3 Initialized) s2 n eq_refl) as U. unfold n_frames in U. cbn [with_status b_win b_pq b_ext] in U.
    specialize (U ltac:(lia) ltac:(lia) HR E1) as (_ & U2 & _ & _ & _ & U6).
    destruct (b_status s2) eqn:Es2; [|destruct U6 as [U6 _]; rewrite J5 in U6; lia]. destruct U6 as (U6 & U7 & U8).
    split; [reflexivity|]. split; [lia|]. destruct (pq_items (b_pq s2)) as [|i1 l1] eqn:Eq2; [left; reflexivity|]. right.
    unfold stuck, n_frames. rewrite Es2, Eq2. split; [reflexivity|]. split; [lia|]. split; [discriminate|]. exists n. unfold PQ in U7. rewrite Eq2 in U7. split; [exact U7|]. congruence.
  - binv E0. injection E0 as <-. destruct Hi as [_ Hq']. cbn [with_win b_pq] in Hq'. unfold update_step in E1. cbn [with_win b_status] in E1.
    rewrite J2, Hs in E1. injection E1 as <-. apply shrink_all_len in E3; [|lia]. cbn [with_win b_status b_win b_pq b_ext].
    rewrite Hq'. split; [congruence|]. split; [lia|]. right. unfold stuck, n_frames. cbn [with_win b_status b_win b_pq b_ext]. rewrite Hq', J5.
    split; [congruence|]. split; [lia|]. split; [exact Hq|]. exists n. auto.
Qed.

Lemma b_step_stuck : forall c (s s' : bstate T) op, stuck s -> b_step c s op = Ok s' ->
  b_status s' = NeedInit /\ (pq_items (b_pq s') = [] \/ stuck s').
Proof.
  intros c s s' op Hst H. pose proof Hst as (Hs & Hf & Hq & n & HP & Hn).
  assert (K : forall s2 : bstate T, b_status s2 = NeedInit -> b_win s2 = b_win s -> b_pq s2 = b_pq s -> b_ext s2 = b_ext s -> stuck s2).
  { intros s2 e1 e2 e3 e4. unfold stuck, n_frames in *. rewrite e1, e2, e3, e4. split; [reflexivity|]. split; [exact Hf|]. split; [exact Hq|]. eauto. }
  destruct op as [m|m|o| |]; cbn [b_step] in H.
  - injection H as <-. unfold b_imu. destruct (dl_push_imu (b_st s) (b_dl s) m) as [[[st l] m'] r]. split; [exact Hs|right; apply K; auto].
  - injection H as <-. unfold b_feat. destruct (dl_push_feat (b_st s) (b_dl s) m) as [[[st l] m'] r]. split; [exact Hs|right; apply K; auto].
  - binv H. destruct x as [s1 r]. injection H as <-. apply pop_one_run in E as (s2 & r2 & E1 & H). cbn zeta in E1. cbn [fst].
    assert (St2 : stuck s2).
    { destruct (cm_imu _) as [|i x]; [injection E1 as <- <-; apply K; auto|]. unfold imu_step in E1. destruct (att_propagate _ _ _ _ _).
      cbn [with_dl b_status] in E1. rewrite Hs in E1. injection E1 as <- <-. apply K; auto. }
    destruct (snd (fst (dl_pop_one (b_dl s)))).
    + destruct (next_feat s).
      * destruct H as (s3 & E2 & H). injection H as -> ->. destruct (feat_step_stuck _ _ _ _ _ St2 E2) as (A & _ & B). auto.
      * injection H as -> ->. split; [exact (proj1 St2)|right; exact St2].
    + injection H as -> ->. split; [exact Hs|right; apply K; auto].
  - injection H as <-. unfold run_once_test. destruct (dl_pop_one (b_dl s)) as [[[l m] ok] d]. split; [exact Hs|right; apply K; auto].
  - injection H as <-. split; [reflexivity|right; apply K; auto].
Qed.

Theorem stuck_forever : forall c ops (s s' : bstate T), stuck s -> b_hist c s ops = Ok s' ->
  (forall ops1 ops2 s1, ops = ops1 ++ ops2 -> b_hist c s ops1 = Ok s1 -> pq_items (b_pq s1) <> []) -> stuck s'.
Proof.
  intros c ops. induction ops as [|op r IH]; intros s s' Hs H Hq; cbn [b_hist] in H; [injection H as <-; exact Hs|].
  binv H. destruct (b_step_stuck _ _ _ _ Hs E) as [_ [Hb|Hb]].
  - exfalso. apply (Hq [op] r x eq_refl); [cbn [b_hist]; rewrite E; reflexivity|exact Hb].
  - apply (IH x s' Hb H). intros ops1 ops2 s1 -> H1. apply (Hq (op :: ops1) ops2 s1 eq_refl). cbn [b_hist]. rewrite E. exact H1.
Qed.
End Dim.
