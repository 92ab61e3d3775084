(** The covariance over a whole run of the back end (C77). *)
From Coq Require Import ZArith Reals Lra List Bool Lia Arith.
From stdpp Require Import gmap list.
From Verif Require Import Fp Scalar Base LinAlg Msg DataLoader FeatureManager FrameManager Window MathLib Attitude Propagator
  Triangulate Pnp VisionUpdate Backend WindowSpec QueueSpec UpdSpec BackendSpec MatFacts NumSpec MotionFacts CovFacts UpdCovFacts KalmanFacts
  QueueSpec PropagatorFacts SafeFacts BackLenFacts BackDimFacts RunSpec.
Import ListNotations.
Local Open Scope nat_scope.

(** The invariant on the propagation queue. *)
Definition CQ (q : pqueue R) : Prop := process_sizes q /\ fpsd 12 (me (pq_Q q)) /\ exists n, psd_queue n q.

(** ** Propagation *)
Lemma propagate_CQ : forall grav ne (q : pqueue R) a g t, CQ q -> CQ (pq_propagate grav ne q a g t).
Proof. intros grav ne q a g t (H1 & H2 & n & H3). destruct (propagate_psd grav ne n q a g t H1 H2 H3) as (A & B & C). split; [exact A|]. split; [exact B|eauto]. Qed.
Lemma replay_CQ : forall grav ne l (q : pqueue R), CQ q -> CQ (replay grav ne q l).
Proof. intros grav ne l. unfold replay. induction l as [|it l IH]; intros q H; cbn [fold_left]; [exact H|]. apply IH. apply propagate_CQ. exact H. Qed.
(** Repropagation starts from the head alone. *)
Lemma repropagate_CQ : forall grav n (q : pqueue R) h r, pq_items q = h :: r -> process_sizes q -> fpsd 12 (me (pq_Q q)) ->
  mr (pq_ecc q) = n -> mc (pq_ecc q) = n -> cov_sizes n h -> fpsd (15 + n) (full_cov (pi_cov h) (pi_ecov h) (pq_ecc q)) -> CQ (pq_repropagate grav q).
Proof.
  intros grav n q h r E Hp HQ E1 E2 Hs Hh. destruct (repropagate_replays grav 0 q) as [_ Hr]. rewrite E in Hr. rewrite Hr.
  assert (H1 : psd_queue n (with_items q [h])) by (split; [exact E1|]; split; [exact E2|]; constructor; [split; assumption|constructor]).
  destruct (feed_psd grav 0 (map meas r) n (with_items q [h]) Hp HQ H1) as (A & B & C). split; [exact A|]. split; [exact B|eauto].
Qed.

(** ** The parts of the update *)
Lemma construct_full : forall ne nf (q : pqueue R) n it r P, pq_items q = it :: r -> 1 <= nf -> mr (pq_ecc q) = n -> mc (pq_ecc q) = n -> cov_sizes n it ->
  construct_cov ne nf q = Ok (Some P) ->
  n = 6 * (ne + nf - 1) /\ mr P = 15 + n /\ mc P = 15 + n /\ feq (15 + n) (15 + n) (me P) (full_cov (pi_cov it) (pi_ecov it) (pq_ecc q)).
Proof.
  intros ne nf q n it r P Hi H1 E1 E2 (S1 & S2 & S3 & S4) H. unfold construct_cov in H. rewrite Hi in H. cbn [front obind] in H. rewrite S4 in H.
  destruct (Nat.eqb_spec n (cam_ex_size ne nf)) as [En|]; cbn [negb] in H; [|discriminate].
  assert (En' : n = 6 * (ne + nf - 1)) by (unfold cam_ex_size in En; lia). rewrite <- En in H. change imu_size with 15 in H. clear En.
  rewrite setb_ok in H by (cbn; lia). cbn [obind] in H. rewrite setbn_ok in H by (cbn; lia). cbn [obind] in H.
  rewrite setbn_ok in H by (cbn; lia). cbn [obind] in H. rewrite setbn_ok in H by (cbn; lia). cbn [obind] in H. injection H as <-.
  split; [exact En'|]. split; [reflexivity|]. split; [reflexivity|]. split. intros i j Hi' Hj'. unfold full_cov.
  destruct (Nat.ltb_spec i 15) as [Li|Li], (Nat.ltb_spec j 15) as [Lj|Lj].
  - rewrite 3 set_block_out by (cbn; lia). rewrite set_block_in by (cbn; lia). cbn [me]. rewrite 2 Nat.sub_0_r. reflexivity.
  - rewrite 2 set_block_out by (cbn; lia). rewrite set_block_in by (cbn; lia). cbn [me]. rewrite Nat.sub_0_r. reflexivity.
  - rewrite set_block_out by (cbn; lia). rewrite set_block_in by (cbn; lia). cbn [me mtr]. rewrite Nat.sub_0_r. reflexivity.
  - rewrite set_block_in by lia. reflexivity.
Qed.
Lemma stack_loop_mc : forall (o : voracle R) exts fs cols h l row H H', stack_loop o exts fs cols h l row H = Ok (Some H') -> mc H' = mc H.
Proof.
  intros o exts fs cols h. induction l as [|p l IH]; intros row H H' E; cbn [stack_loop] in E; [injection E as <-; reflexivity|].
  binv E. binv E. destruct x0 as [m|]; [|discriminate]. binv E. apply IH in E. rewrite E. apply setbn_inv in E2 as (_ & _ & _ & _ & ->). reflexivity.
Qed.
Lemma measurement_mc : forall (o : voracle R) exts fs h l H, measurement o exts fs h l = Ok (Some H) -> mc H = hx_cols (length exts) (length fs) + 1.
Proof.
  intros o exts fs h l H E. unfold measurement in E. binv E. binv E. destruct x0 as [m|]; [|discriminate]. apply stack_loop_mc in E1. cbn [mzero mc] in E1.
  binv E. injection E as <-. unfold compress in E2. destruct (Nat.ltb _ _); [binv E2|]; injection E2 as <-; exact E1.
Qed.
Lemma update_cov_inv : forall n (P : mat R) (q q' : pqueue R) it r, pq_items q = it :: r -> mr P = 15 + n -> mc P = 15 + n -> fpsd (15 + n) (me P) ->
  update_cov P q = Ok q' -> pq_F q' = pq_F q /\ pq_G q' = pq_G q /\ pq_Q q' = pq_Q q /\ mr (pq_ecc q') = n /\ mc (pq_ecc q') = n /\
    exists h, pq_items q' = h :: r /\ cov_sizes n h /\ fpsd (15 + n) (full_cov (pi_cov h) (pi_ecov h) (pq_ecc q')).
Proof.
  intros n P q q' it r Hi P1 P2 HP H. unfold update_cov in H. change imu_size with 15 in H. rewrite P2 in H.
  replace (15 + n - 15) with n in H by lia. replace (15 + n <? 15) with false in H by (symmetry; apply Nat.ltb_ge; lia). rewrite Hi in H. cbn [front obind] in H.
  do 3 (rewrite block_ok in H by (rewrite ?P1, ?P2; lia); cbn [obind] in H). unfold with_head in H. rewrite Hi in H. cbn [obind] in H. injection H as <-. unfold with_ecc. cbn.
  do 5 (split; [reflexivity|]). eexists. split; [reflexivity|]. split; [repeat split|]. cbn [pi_cov pi_ecov]. eapply fpsd_ext; [|exact HP].
  split. intros i j Li Lj. unfold full_cov, get_block. cbn [me].
  destruct (Nat.ltb_spec i 15), (Nat.ltb_spec j 15); cbn [Nat.add]; try reflexivity.
  - f_equal; lia.
  - destruct HP as [Hs _]. pose proof (feq_at Hs i j Li Lj) as E. unfold ftr in E. rewrite <- E. f_equal; lia.
  - f_equal; lia.
Qed.
Lemma finish_CQ : forall (o : voracle R) c pol P s s' it r, finish_update o c pol P s = Ok s' -> 2 <= length (wn_frames (vs_win s)) -> pq_items (vs_pq s) = it :: r ->
  mr P = err_size (length (vs_ext s)) (length (wn_frames (vs_win s)) - 1) -> mc P = err_size (length (vs_ext s)) (length (wn_frames (vs_win s)) - 1) ->
  fpsd (err_size (length (vs_ext s)) (length (wn_frames (vs_win s)) - 1)) (me P) -> process_sizes (vs_pq s) -> fpsd 12 (me (pq_Q (vs_pq s))) -> CQ (vs_pq s').
Proof.
  intros o c pol P s s' it r H H2 Hi P1 P2 HP Hp HQ. unfold finish_update in H. binv H. binv H. binv H. injection H as <-. cbn [vs_pq].
  destruct (expand_clones (vo_junk o) (length (vs_ext s)) (length (wn_frames (vs_win s))) P ltac:(lia) P1 P2 (proj1 HP)) as (P' & E' & A1 & A2 & _ & _ & A5).
  assert (P' = x) by congruence. subst P'. specialize (A5 HP).
  destruct (reduce_keeps (vo_junk o) pol (length (vs_ext s)) (length (wn_frames (vs_win s))) x H2 A1 A2 (proj1 A5)) as (P' & E'' & B1 & B2 & _ & _ & B5).
  assert (P' = x0) by congruence. subst P'. specialize (B5 A5). set (k := length (kept _ _)) in *.
  replace (err_size (length (vs_ext s)) k) with (15 + (6 * length (vs_ext s) + 6 * k)) in * by (unfold err_size; lia).
  destruct (update_cov_inv _ _ _ _ _ _ Hi B1 B2 B5 E1) as (C1 & C2 & C3 & C4 & C5 & h & C6 & C7 & C8).
  eapply repropagate_CQ; [exact C6| | |exact C4|exact C5|exact C7|exact C8].
  - unfold process_sizes in *. rewrite C1, C2, C3. exact Hp.
  - rewrite C3. exact HQ.
Qed.
Lemma exact_innovation : forall saes noise n (P H : mat R), exact_solver saes -> mr P = n -> mc P = n -> mc H = n -> fsym n (me P) -> solver_exact saes noise P H.
Proof.
  intros saes noise n P H He P1 P2 H1 Hs sm Es. destruct (innovation_eq n P H noise P1 P2 H1) as (sm' & E' & S1 & S2 & S3). assert (sm' = sm) by congruence. subst sm'.
  apply He; [congruence|]. rewrite S1. unfold fsym. rewrite S3. unfold innov_cov. rewrite ftr_add. 
  assert (A : feq (mr H) (mr H) (ftr (fscale (noise * noise) fid)) (fscale (noise * noise) fid)) by (split; intros i j _ _; unfold ftr, fscale, fid; rewrite Nat.eqb_sym; reflexivity).
  rewrite A. assert (B : feq (mr H) (mr H) (ftr (fmul n (fmul n (me H) (me P)) (ftr (me H)))) (fmul n (fmul n (me H) (me P)) (ftr (me H)))); [|rewrite B; reflexivity].
  rewrite ftr_mul. transitivity (fmul n (me H) (fmul n (ftr (me P)) (ftr (me H)))).
  - apply fmul_proper; [split; intros i j _ _; reflexivity|]. apply ftr_mul.
  - unfold fsym in Hs. rewrite Hs. symmetry. apply fmul_assoc.
Qed.

Lemma apply_delta_proc : forall dx (s s' : vstate R), apply_delta dx s = Ok s' ->
  pq_F (vs_pq s') = pq_F (vs_pq s) /\ pq_G (vs_pq s') = pq_G (vs_pq s) /\ pq_Q (vs_pq s') = pq_Q (vs_pq s).
Proof.
  intros dx s s' H. unfold apply_delta in H. binv H. binv H. unfold with_head in H. destruct (pq_items (vs_pq s)); [discriminate|].
  cbn [obind] in H. do 4 binv H. injection H as <-. cbn. auto.
Qed.

(** ** The update *)
Theorem vision_update_CQ : forall (o : voracle R) c s ts thr s' ok pol, exact_solver (vo_saes o) -> 2 <= length (wn_frames (vs_win s)) -> CQ (vs_pq s) ->
  vision_update o c s ts thr = Ok (s', ok, pol) -> CQ (vs_pq s').
Proof.
  intros o c s ts thr s' ok pol He H2 (Hp & HQ & n & N1 & N2 & N3) H. unfold vision_update, pq_reset_origin in H.
  pose proof (origin_loop_spec ts thr (pq_items (vs_pq s))) as Hor. destruct (origin_loop ts thr (pq_items (vs_pq s))) as [l'|]; cbn [negb] in H.
  2:{ injection H as <- <- <-. cbn [vs_pq]. split; [exact Hp|]. split; [exact HQ|]. exists n. split; [exact N1|]. split; [exact N2|constructor]. }
  destruct Hor as (pre & it & r & Hl & -> & _). binv H. rename x into pol'.
  set (q := with_items (vs_pq s) (it :: r)) in *. set (ne := length (vs_ext s)) in *. set (nf := length (wn_frames (vs_win s))) in *.
  rewrite Hl in N3. apply List.Forall_app in N3 as [_ N3].
  assert (Hq : CQ q) by (split; [exact Hp|]; split; [exact HQ|]; exists n; split; [exact N1|]; split; [exact N2|exact N3]).
  inversion N3 as [|? ? [Hs Hh] _]; subst. binv H. destruct x as [P|]; [|injection H as <- <- <-; exact Hq].
  destruct (construct_full ne nf q (mr (pq_ecc (vs_pq s))) it r P eq_refl ltac:(lia) eq_refl N2 Hs E0) as (En & P1 & P2 & P3).
  binv H. destruct x as [fs|]; [|injection H as <- <- <-; exact Hq].
  assert (Lfs : length fs = nf).
  { unfold update_newest in E1. destruct (wn_frames (vs_win s)) as [|f0 fr] eqn:Ef; [discriminate|]. binv E1. binv E1. injection E1 as <-.
    unfold nf. apply set_last_len. discriminate. }
  binv H. destruct x as [h' l]. cbn [fst snd] in H. set (m := mr (pq_ecc (vs_pq s))) in *.
  assert (PP : fpsd (15 + m) (me P)) by (eapply fpsd_ext; [symmetry; exact P3|exact Hh]).
  assert (Em : 15 + m = err_size ne (nf - 1)) by (unfold err_size; lia).
  set (s1 := VState (Window h' (wn_mgr (vs_win s)) fs) (vs_ext s) q) in *.
  destruct l as [|p0 l0].
  - binv H. injection H as <- <- <-. eapply (finish_CQ o c pol' P s1 x it r); [exact E3| | | | | |exact Hp|exact HQ]; cbn [s1 vs_win vs_ext vs_pq wn_frames]; rewrite ?Lfs.
    + exact H2.
    + reflexivity.
    + fold ne. lia.
    + fold ne. lia.
    + fold ne. rewrite <- Em. exact PP.
  - binv H. destruct x as [Hr|]; [|injection H as <- <- <-; exact Hq].
    binv H. binv H. injection H as <- <- <-. unfold update_state in E4. binv E4. destruct x1 as [[K dx] P']. binv E4. injection E4 as <-. cbn [fst snd] in E5.
    apply measurement_mc in E3. rewrite Lfs in E3. fold ne in E3. assert (Ec : mc Hr = (15 + m) + 1) by (rewrite E3; unfold hx_cols, imu_size; lia).
    destruct (kalman_contracts (vo_saes o) (vc_noise c) (15 + m) P Hr P1 P2 Ec PP) as (K' & dx' & P'' & Ek & _ & _ & _ & _ & K5 & K6 & _ & K8 & _).
    { eapply exact_innovation; [exact He|exact P1|exact P2|reflexivity|exact (proj1 PP)]. }
    assert (P'' = P') by congruence. subst P''.
    pose proof (apply_delta_inv _ _ _ it r E7 eq_refl) as (_ & mo & A4). pose proof (apply_delta_proc _ _ _ E7) as (A5 & A6 & A7).
    apply apply_delta_len in E7 as [L1 L2]. cbn [s1 vs_win vs_ext wn_frames] in L1, L2. rewrite Lfs in L1. fold ne in L2.
    eapply finish_CQ; [exact E5| |exact A4| | | | |]; rewrite ?L1, ?L2.
    + exact H2.
    + lia.
    + lia.
    + rewrite <- Em. exact K8.
    + unfold process_sizes in *. rewrite A5, A6, A7. exact Hp.
    + rewrite A7. exact HQ.
Qed.

(** ** Histories *)
Lemma init_step_CQ : forall c o (s s' : bstate R), init_step c o s = Ok s' -> CQ (b_pq s) -> CQ (b_pq s').
Proof.
  intros c o s s' H Hq. unfold init_step in H. destruct (b_status s); [|injection H as <-; exact Hq]. binv H. destruct x as [s1 r]. cbn [fst snd] in H.
  apply initialize_pq in E. assert (H1 : CQ (b_pq s1)).
  { destruct r; [|destruct E as [_ ->]; exact Hq]. destruct E as (fi & rest & a & m & _ & _ & _ & -> & _). apply replay_CQ. exact Hq. }
  destruct r; [injection H as <-; exact H1|]. binv H. injection H as <-. exact H1.
Qed.
Lemma update_step_CQ : forall c o ts (s s' : bstate R), update_step c o ts s = Ok s' -> exact_solver (vo_saes (bo_vis o)) ->
  (b_status s = Initialized -> 2 <= n_frames s) -> CQ (b_pq s) -> CQ (b_pq s').
Proof.
  intros c o ts s s' H He H2 Hq. unfold update_step in H. destruct (b_status s); [injection H as <-; exact Hq|].
  binv H. destruct x as [[v ok] pol]. assert (HV : CQ (vs_pq v)) by (eapply vision_update_CQ; [exact He| | |exact E]; [exact (H2 eq_refl)|exact Hq]).
  destruct ok; binv H; injection H as <-; exact HV.
Qed.
Lemma feat_step_CQ : forall c o (s s' : bstate R) m, (0 <= vc_maxwin c < 4294967295)%Z -> win_ok c s -> exact_solver (vo_saes (bo_vis o)) ->
  feat_step c o s m = Ok s' -> CQ (b_pq s) -> CQ (b_pq s').
Proof.
  intros c o s s' m Hm Hw He H Hq. pose proof (feat_step_win _ _ _ _ _ Hm Hw H) as (_ & _ & Htwo). unfold feat_step in H. binv H. binv H. binv H.
  specialize (Htwo x x0 E E0). apply clean_step_same in H as (C1 & C2 & C3 & C4 & C5 & C6).
  assert (H1 : CQ (b_pq x1)) by (eapply update_step_CQ; [exact E1|exact He|exact Htwo|]; eapply init_step_CQ; [exact E0|exact Hq]).
  congruence.
Qed.
Lemma imu_step_CQ : forall c (s : bstate R) m, CQ (b_pq s) -> CQ (b_pq (fst (imu_step c s m))).
Proof.
  intros c s m Hq. unfold imu_step. destruct (att_propagate _ _ _ _ _) as [a r]. destruct (b_status s); cbn [fst]; [exact Hq|]. apply propagate_CQ. exact Hq.
Qed.
Lemma b_step_CQ : forall c op (s s' : bstate R), (0 <= vc_maxwin c < 4294967295)%Z -> win_ok c s -> List.Forall (fun o => exact_solver (vo_saes (bo_vis o))) (oracles [op]) ->
  b_step c s op = Ok s' -> CQ (b_pq s) -> CQ (b_pq s').
Proof.
  intros c op s s' Hm Hw He H Hq. destruct op as [m|m|o| |]; cbn [b_step] in H.
  - injection H as <-. unfold b_imu. destruct (dl_push_imu (b_st s) (b_dl s) m) as [[[st l] m'] r]. exact Hq.
  - injection H as <-. unfold b_feat. destruct (dl_push_feat (b_st s) (b_dl s) m) as [[[st l] m'] r]. exact Hq.
  - inversion He as [|? ? He' _]; subst. binv H. destruct x as [s2 r]. injection H as <-. apply pop_one_run in E as (s1 & r1 & E1 & H). cbn zeta in E1. cbn [fst].
    set (l := fst (fst (fst (dl_pop_one (b_dl s))))) in *.
    assert (W1 : win_ok c s1 /\ CQ (b_pq s1)).
    { destruct (cm_imu _) as [|i x]; [injection E1 as <- <-; split; [exact Hw|exact Hq]|]. split.
      - apply imu_step_win in E1 as (W1 & W2 & _). unfold win_ok, n_frames in *. rewrite W1, W2. exact Hw.
      - pose proof (imu_step_CQ c (with_dl s (b_st s) l) i Hq) as G. rewrite E1 in G. exact G. }
    destruct W1 as [W1 W2]. destruct (snd (fst (dl_pop_one (b_dl s)))).
    + destruct (next_feat s).
      * destruct H as (s3 & E2 & H). injection H as -> ->. eapply feat_step_CQ; eassumption.
      * injection H as -> ->. exact W2.
    + injection H as -> ->. exact Hq.
  - injection H as <-. unfold run_once_test. destruct (dl_pop_one (b_dl s)) as [[[l m] ok] d]. exact Hq.
  - injection H as <-. exact Hq.
Qed.
Lemma hist_CQ : forall c ops (s0 s : bstate R), (0 <= vc_maxwin c < 4294967295)%Z -> win_ok c s0 -> List.Forall (fun o => exact_solver (vo_saes (bo_vis o))) (oracles ops) ->
  b_hist c s0 ops = Ok s -> CQ (b_pq s0) -> CQ (b_pq s).
Proof.
  intros c. induction ops as [|op ops IH]; intros s0 s Hm Hw He H Hq; cbn [b_hist] in H; [injection H as <-; exact Hq|]. binv H.
  change (op :: ops) with ([op] ++ ops) in He. unfold oracles in He. rewrite flat_map_app in He. apply List.Forall_app in He as [He1 He2].
  eapply IH; [exact Hm|eapply b_step_win; eassumption|exact He2|exact H|]. eapply b_step_CQ; eassumption.
Qed.
(** C77 *)
Theorem run_psd : forall c ops (s0 s : bstate R) st period exts ba bg na ng nwa nwg, (0 <= vc_maxwin c < 4294967295)%Z ->
  (0 <= na)%R -> (0 <= ng)%R -> (0 <= nwa)%R -> (0 <= nwg)%R -> s0 = b_new st period exts ba bg na ng nwa nwg ->
  List.Forall (fun o => exact_solver (vo_saes (bo_vis o))) (oracles ops) -> b_hist c s0 ops = Ok s -> covariances_psd s.
Proof.
  intros c ops s0 s st period exts ba bg na ng nwa nwg Hm H1 H2 H3 H4 E He H.
  assert (Hf : BackendSpec.fresh s0) by (repeat eexists; exact E).
  apply (hist_CQ c ops s0 s Hm (fresh_win c s0 Hf) He H). subst s0. split; [repeat split|]. split; [apply noise_Q_psd; assumption|].
  exists 0. split; [reflexivity|]. split; [reflexivity|constructor].
Qed.
