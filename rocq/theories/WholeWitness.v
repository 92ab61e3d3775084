(** A run from a new back end to its first vision update, in exact arithmetic, for the examples of C96. *)
From Coq Require Import ZArith Reals List Bool Lia Lra Arith.
From Flocq Require Import BinarySingleNaN.
From stdpp Require Import gmap list.
From Verif Require Import Fp Scalar Base LinAlg Msg DataLoader FeatureManager FrameManager Window MathLib MatFacts Attitude Propagator
  Triangulate Pnp VisionUpdate Backend LoaderSpec WindowSpec QueueSpec UpdSpec GeoSpec NumSpec RunSpec BackendSpec DerivSpec KalmanFacts InjectSpec TruthSpec BundleSpec WholeSpec
  LoaderFacts QuatFacts PnpFacts WindowFacts SafeFacts BackLenFacts BackSafeFacts BackDimFacts MotionFacts UnitRunFacts InitSpec InitFacts InitWitness
  TruthFacts TruthRunFacts TruthResetFacts QrFacts UpdWitness RunWitness BlindWitness BundleWitness ParallaxFacts TruthWitness.
Import ListNotations.
Local Open Scope nat_scope.
#[local] Opaque t_win t_win2.

(** ** The data: a level body at rest, ten points in stereo *)
Definition h_g : v3 R := V3 0%R 0%R 10%R.
Definition h_c : vcfg R := VCfg 1%R 20 10 10 1%R h_g.
Definition h_vis : voracle R := VOracle map_to_list (fun o => map_to_list o) i_svd (fun A => qr_fac (mr A) (mc A) (me A)) r_saes (fun _ _ => 0%R) (fun i => Z.of_nat i).
Definition h_o : boracle R := BOracle h_vis h_vis map_to_list (fun _ b i => me b i 0) (fun _ => map_to_list).
Definition h_imu (t : Z) : imu_msg R := ImuMsg v3zero h_g (f64_of_Z t).
Definition h_feat (t : Z) : feat_msg R := t_msg 0%R (f64_of_Z t).
Definition h_s0 : bstate R := b_new (DlStatics None None) t_thr i_exts v3zero v3zero 1%R 1%R 1%R 1%R.
Definition h_ops : list (b_op R) := [BImu (h_imu 0); BRun h_o; BImu (h_imu 1); BRun h_o; BFeat (h_feat 0); BRun h_o; BFeat (h_feat 1)].

Lemma h_shift : shift (f64_of_Z 0) = f64_of_Z 1 /\ shift (f64_of_Z 1) = f64_of_Z 2.
Proof. split; apply B2SF_inj; vm_compute; reflexivity. Qed.
Lemma h_o_ok : oracle_ok h_o.
Proof. split; [intros m; reflexivity|]. split; [intros m; reflexivity|]. split; [intros a; split; reflexivity|]. split; [intros m; reflexivity|]. split; [intros m; reflexivity|]. split; [intros m; reflexivity|]. intros k m. reflexivity. Qed.
Lemma h_qr : exact_qr (bo_vis h_o).
Proof. intros A. apply qr_fac_of. Qed.
Lemma h_sizes : sizes_ok h_c 2.
Proof. repeat split; cbn; lia. Qed.
Lemma h_shifted : map feat_shifted (pushed_feat h_ops) = [t_m1; t_m2 0%R].
Proof.
  cbn [h_ops pushed_feat flat_map app map]. unfold feat_shifted, feat_set_ts, h_feat, t_msg, t_m1, t_m2, t_msg. cbn [fm_ts fm_ids fm_obs fm_flag].
  destruct h_shift as [-> ->]. reflexivity.
Qed.
Lemma h_tracks : good_tracks 2 (pushed_feat h_ops).
Proof.
  cbn [h_ops pushed_feat flat_map app]. split; [constructor; [apply t_good|constructor; [apply t_good|constructor]]|]. split; [constructor; [apply (t_cams 0%R)|constructor; [apply (t_cams 0%R)|constructor]]|].
  apply short_contiguous. cbn. lia.
Qed.
Lemma h_noise : (zero_thr < vc_noise h_c * vc_noise h_c)%R.
Proof. cbn [vc_noise h_c]. pose proof zero_thr_small. lra. Qed.

(** ** The run before the update *)
Definition h_ld (l : list (feat_msg R)) : loader R := Loader l [] (f64_of_Z (-1)) t_thr.
Definition h_st (st : dl_statics) (l : list (feat_msg R)) (w : window R) (a : att R) : bstate R := BState st (h_ld l) w i_exts a (b_pq h_s0) NeedInit.
Lemma h_imu_round : forall st a t t' r, shift (f64_of_Z t) = f64_of_Z t' ->
  f64_ltb (match st_imu st with Some u => u | None => f64_sub (f64_of_Z t') (f64_of_Z 1) end) (f64_of_Z t') = true ->
  b_hist h_c (h_st st [] window0 a) (BImu (h_imu t) :: BRun h_o :: r) =
  b_hist h_c (h_st (DlStatics (st_feat st) (Some (f64_of_Z t'))) [] window0 (fst (att_propagate h_g a h_g v3zero (f64_of_Z t')))) r.
Proof.
  intros st a t t' r Et El. cbn [b_hist b_step]. unfold b_imu. cbn [h_st b_st b_dl]. rewrite push_imu_eq by reflexivity. unfold imu_shifted, imu_set_ts. cbn [h_imu im_ts im_gyro im_accel].
  rewrite Et, El. cbn [h_ld dl_feat dl_imu dl_offset dl_period app obind fst with_dl b_win b_ext b_att b_pq b_status].
  unfold run_once, dl_pop_one. cbn [h_st h_ld with_dl b_dl b_st dl_imu dl_feat dl_offset dl_period negb cm_imu cm_feat]. unfold imu_step. cbn [with_dl b_st b_dl b_win b_ext b_att b_pq b_status im_accel im_gyro im_ts h_c vc_grav].
  change (b_att (h_st st [] window0 a)) with a. destruct (att_propagate h_g a h_g v3zero (f64_of_Z t')) as [a' r']. reflexivity.
Qed.
Definition h_a1 : att R := fst (att_propagate h_g att_new h_g v3zero (f64_of_Z 1)).
Definition h_a2 : att R := fst (att_propagate h_g h_a1 h_g v3zero (f64_of_Z 2)).
Lemma h_a1_items : exists i, at_items h_a1 = [i] /\ ai_ts i = f64_of_Z 1.
Proof.
  unfold h_a1, att_propagate. cbn [att_new at_items back at_ba]. replace (v3sub h_g v3zero) with h_g by (unfold h_g; vunf; apply v3_ext; rops; ring).
  replace (att_gate h_g h_g) with false; [cbn [fst at_items app]; eexists; split; reflexivity|].
  symmetry. unfold att_gate. cbn [sabs ssub sgt64 ops_R]. replace (v3norm h_g - v3norm h_g)%R with 0%R by ring. rewrite Rabs_R0. unfold Rltb. destruct (Rlt_dec _ _) as [H|]; [|reflexivity].
  assert (P : (0 < B2R f64_0_04)%R) by (apply Flocq.Core.Float_prop.F2R_gt_0; reflexivity). lra.
Qed.
Lemma h_a2_items : exists i j, at_items h_a2 = [i; j] /\ ai_ts i = f64_of_Z 1 /\ ai_ts j = f64_of_Z 2.
Proof.
  destruct h_a1_items as (i & E & Ti). unfold h_a2, att_propagate. rewrite E. cbn [back]. rewrite Ti.
  replace (f64_ltb (f64_of_Z 2) (f64_of_Z 1)) with false by (vm_compute; reflexivity). cbn [fst at_items app]. eexists _, _. split; [reflexivity|]. split; [exact Ti|reflexivity].
Qed.
Lemma h_posed : t_posed qid t_win = t_win.
Proof.
  destruct t_win_ok as [E _]. generalize dependent t_win. intros w E. unfold update_window in E. cbn [window0 wn_frames wn_heap wn_mgr add_new_frame back app fst snd] in E.
  binv E. injection E0 as <-. binv E. destruct x as [[[h mg] ch] b]. binv E. injection E as <-. reflexivity.
Qed.
Definition h_sta (t : option f64) : dl_statics := DlStatics t (Some (f64_of_Z 2)).
Definition h_s : bstate R := h_st (h_sta (Some (f64_of_Z 2))) [t_m2 0%R] t_win h_a2.
Lemma h_feat_push : forall st0 l w t t', shift (f64_of_Z t) = f64_of_Z t' ->
  f64_ltb (match st0 with Some u => u | None => f64_sub (f64_of_Z t') (f64_of_Z 1) end) (f64_of_Z t') = true ->
  b_step h_c (h_st (h_sta st0) l w h_a2) (BFeat (h_feat t)) = Ok (h_st (h_sta (Some (f64_of_Z t'))) (l ++ [t_msg 0%R (f64_of_Z t')]) w h_a2).
Proof.
  intros st0 l w t t' Et El. cbn [b_step]. unfold b_feat. cbn [h_st b_st b_dl]. rewrite push_feat_eq by reflexivity.
  replace (well_sized (h_feat t)) with true by reflexivity. unfold feat_shifted, feat_set_ts. cbn [h_feat t_msg fm_ts fm_ids fm_obs fm_flag h_sta st_feat st_imu]. rewrite Et, El. reflexivity.
Qed.
Lemma h_first : b_step h_c (h_st (h_sta (Some (f64_of_Z 1))) [t_m1] window0 h_a2) (BRun h_o) = Ok (h_st (h_sta (Some (f64_of_Z 1))) [] t_win h_a2).
Proof.
  cbn [b_step]. unfold h_st at 1, h_ld at 1. unfold run_once, dl_pop_one. cbn [b_dl dl_imu dl_feat dl_offset dl_period negb cm_imu cm_feat]. unfold feat_step. cbn [with_dl b_win]. rewrite (proj1 t_win_ok). cbn [obind].
  destruct (t_frames1 qid) as (f & Ef & _). rewrite h_posed in Ef. unfold init_step. cbn [with_win b_status]. unfold initialize. cbn [with_win with_dl b_win]. rewrite Ef. cbn [obind fst snd with_win with_dl b_win].
  unfold shrink_all. rewrite Ef. cbn [length shrink]. rewrite Ef. cbn [length Nat.ltb Nat.leb obind]. unfold update_step. cbn [with_win b_status obind]. cbn [with_win with_dl b_win b_status obind]. unfold clean_step. cbn [with_win with_dl b_win]. rewrite Ef. reflexivity.
Qed.
Lemma h_reach : b_hist h_c h_s0 h_ops = Ok h_s.
Proof.
  destruct h_shift as [S1 S2]. unfold h_ops. change h_s0 with (h_st (DlStatics None None) [] window0 att_new).
  rewrite (h_imu_round _ _ 0 1); [|exact S1|vm_compute; reflexivity]. rewrite (h_imu_round _ _ 1 2); [|exact S2|vm_compute; reflexivity]. cbn [st_feat].
  fold h_a1. fold h_a2. change (DlStatics None (Some (f64_of_Z 2))) with (h_sta None). cbn [b_hist].
  rewrite (h_feat_push None [] window0 0 1 S1) by (vm_compute; reflexivity). cbn [obind app]. fold t_m1. rewrite h_first. cbn [obind].
  rewrite (h_feat_push (Some (f64_of_Z 1)) [] t_win 1 2 S2) by (vm_compute; reflexivity). reflexivity.
Qed.

(** ** The update *)
Definition h_w : window R := t_win2 0%R qid.
Lemma h_win : update_window t_win (t_m2 0%R) = Ok h_w.
Proof. pose proof (proj1 (t_win2_ok 0%R qid)) as E. rewrite h_posed in E. exact E. Qed.
Definition h_P (q : quat R) (p : nat) : v3 R := match hp_cells (wn_heap h_w) !! p with Some ft => qrot q (t_Y (ft_id ft)) | None => v3zero end.
Lemma h_unsolved : cells_ok (fun ft => ft_status ft <> FSolved) (wn_heap h_w) (wn_mgr h_w).
Proof.
  refine (update_window_ok _ t_win _ (t_m2 0%R) _ _ _ h_win); [discriminate|intros f o _ H; unfold add_observe; destruct (osize o =? 0)%Z; exact H|].
  refine (update_window_ok _ window0 t_win t_m1 _ _ _ (proj1 t_win_ok)); [discriminate|intros f o _ H; unfold add_observe; destruct (osize o =? 0)%Z; exact H|].
  split; [exact (wi_filed _ _ _ winv_empty)|]. intros p f E. discriminate E.
Qed.
Lemma h_frames2 : exists f g, wn_frames h_w = [f; g] /\ fr_id f = 1%Z /\ fr_ts f = f64_of_Z 1 /\ fr_id g = 2%Z /\ fr_ts g = f64_of_Z 2.
Proof. destruct (t_win2_ok 0%R qid) as (_ & _ & f & g & E & K). exists (with_pose f qid v3zero v3zero), (with_pose g qid v3zero v3zero). split; [exact E|exact K]. Qed.
Lemma h_obs_exact : forall q k, exact_obs i_exts q v3zero (qrot q (t_Y (Z.of_nat k))) (t_ob (INR k - 0)%R).
Proof.
  intros q k cam z H. destruct (t_seen q (INR k) 0%R cam z H) as (e & E1 & c & E2 & E3). exists e. split; [exact E1|]. exists c. split; [|exact E3]. unfold t_Y. rewrite <- INR_IZR_INZ, E2.
  f_equal. destruct q. vunf. apply v3_ext; rops; ring.
Qed.
Lemma h_units : List.Forall (fun e => qnorm2 (ex_q e) = 1%R) i_exts.
Proof. assert (Q : qnorm2 (qid (T := R)) = 1%R) by (vunf; ring). constructor; [exact Q|constructor; [exact Q|constructor]]. Qed.
Lemma h_pair : forall q f g, qunit q -> wn_frames h_w = [f; g] -> fr_id f = 1%Z -> fr_id g = 2%Z -> exact_pair i_exts (wn_heap h_w) f g (h_P q) q q v3zero.
Proof.
  intros q f g Hq Ef If Ig.
  assert (Tr : forall h p, (h = f \/ h = g) -> linked h p -> exists k ft, k < 10 /\ hp_cells (wn_heap h_w) !! p = Some ft /\ ft_id ft = Z.of_nat k /\ ft_first ft = 1%Z /\ ft_obs ft = [t_ob (INR k - 0)%R; t_ob (INR k - 0)%R]).
  { intros h p Hh (id & Hp). assert (Hn : exists i, nth_error (wn_frames h_w) i = Some h) by (rewrite Ef; destruct Hh as [->| ->]; [exists 0|exists 1]; reflexivity). destruct Hn as (i & Hi).
    destruct (t_tracks 0%R qid _ _ _ _ Hi Hp) as (k & ft & K1 & K2 & _ & K3 & K4 & K5 & K6). exists k, ft. rewrite K4. auto. }
  split.
  - exact Hq.
  - exact h_units.
  - rewrite If, Ig. split; lia.
  - intros p Hp. destruct (Tr f p (or_introl eq_refl) Hp) as (k & ft & K1 & K3 & K4 & K5 & K6). exists ft, (t_ob (INR k - 0)%R). split; [exact K3|]. split; [split; [rewrite K6; discriminate|rewrite K5, K6; cbn; lia]|].
    split; [unfold observed; rewrite K5, K6, If; reflexivity|]. unfold h_P. rewrite K3, K4. split; [apply h_obs_exact|]. split.
    + exists 0%Z, (V2 ((INR k - 0) / 4)%R (1 / 4)%R), (Extrinsic qid v3zero), 1%Z, (V2 ((INR k - 0 - 1) / 4)%R (1 / 4)%R), (Extrinsic qid (V3 1%R 0%R 0%R)).
      split; [apply t_ob_0|]. split; [apply t_ob_1|]. split; [reflexivity|]. split; [reflexivity|]. cbn [ex_q v2x v2y]. rewrite !qrot_id. unfold v3cross, v3zero. cbn [v3x v3y v3z].
      intros E. injection E as _ E _. rops. cbn in E. lra.
    + rewrite (qrot_dot q _ _ Hq). unfold v3dot, t_Y. rewrite <- INR_IZR_INZ. cbn [v3x v3y v3z]. rops.
      assert (B : (0 <= INR k <= INR 10)%R) by (split; [apply pos_INR|apply le_INR; lia]). replace (INR 10) with 10%R in B by (cbn; lra). cbn. nra.
  - intros p Hp. destruct (Tr g p (or_intror eq_refl) Hp) as (k & ft & K1 & K3 & K4 & K5 & K6). exists ft. split; [exact K3|]. split; [split; [rewrite K6; discriminate|rewrite K5, K6; cbn; lia]|]. split.
    + intros ob z Ho Hz. unfold observed in Ho. rewrite K5, K6, Ig in Ho. injection Ho as <-. unfold h_P. rewrite K3, K4. exact (h_obs_exact q k 0%Z z Hz).
    + intros C. destruct (proj2 h_unsolved p ft K3 C).
Qed.
Lemma h_usable : forall f g, wn_frames h_w = [f; g] -> fr_id g = 2%Z -> forall id, In id (map Z.of_nat (seq 0 10)) <-> usable (wn_heap h_w) f g id.
Proof.
  intros f g Ef Ig id. assert (F0 : nth_error (wn_frames h_w) 0 = Some f) by (rewrite Ef; reflexivity). assert (F1 : nth_error (wn_frames h_w) 1 = Some g) by (rewrite Ef; reflexivity). split.
  - intros H. apply in_map_iff in H as (k & <- & Hk). apply in_seq in Hk. destruct (t_has 0%R qid _ _ k F1 ltac:(lia)) as (p & Hp). destruct (t_tracks 0%R qid _ _ _ _ F1 Hp) as (j & ft & J1 & J2 & J3 & J4 & J5 & J6 & J7).
    apply Nat2Z.inj in J2. subst j. exists p, ft, (t_ob (INR k - 0)%R). split; [exact Hp|]. split; [exact J4|]. split.
    + left. destruct (t_has 0%R qid _ _ k F0 ltac:(lia)) as (p' & Hp'). exists (Z.of_nat k). destruct (t_tracks 0%R qid _ _ _ _ F0 Hp') as (_ & _ & _ & _ & M & _). rewrite J3 in M. injection M as ->. exact Hp'.
    + split; [unfold observed; rewrite J6, J7, Ig; reflexivity|]. rewrite t_ob_0. eauto.
  - intros (p & ft & ob & Hp & _). destruct (t_tracks 0%R qid _ _ _ _ F1 Hp) as (k & _ & Hk & -> & _). apply in_map_iff. exists k. split; [reflexivity|]. apply in_seq. lia.
Qed.
Lemma h_att : exists q, qunit q /\ att_get h_a2 (f64_of_Z 1) (f64_mul t_thr f64_0_55) = Ok (Some q).
Proof.
  destruct h_a2_items as (i & j & E & Ti & Tj). exists (ai_q i). split.
  - pose proof (run_unit h_c h_ops h_s0 h_s) as U. destruct U as (_ & _ & U & _); [repeat eexists|exact h_units|exact h_reach|]. cbn [h_s h_st b_att] in U. rewrite E in U. inversion U; assumption.
  - unfold att_get. rewrite E. cbn [back length obind front Nat.ltb Nat.leb andb]. rewrite Ti, Tj.
    replace (f64_leb (f64_of_Z 2) (f64_of_Z 1)) with false by (vm_compute; reflexivity). replace (f64_leb (f64_of_Z 1) (f64_of_Z 1)) with true by (vm_compute; reflexivity).
    replace (f64_ltb (f64_sub (f64_of_Z 1) (f64_of_Z 1)) (f64_mul t_thr f64_0_55)) with true by (vm_compute; reflexivity). reflexivity.
Qed.
Lemma h_runs : exists v v' pol, runs_update h_c h_o h_s (t_m2 0%R) (f64_of_Z 2) t_thr v v' pol.
Proof.
  destruct h_att as (q & Hq & Ea). destruct h_frames2 as (f & g & Ef & If & Tf & Ig & Tg). destruct h_o_ok as (O1 & O2 & O3 & O4 & O5 & O6 & O7).
  set (s1 := with_win (with_dl h_s (b_st h_s) (h_ld [])) h_w).
  destruct (initialize_safe h_c h_o 1 [t_m1; t_m2 0%R] s1 h_o_ok (proj1 (proj2 (t_win2_ok 0%R qid)))) as (s4 & r4 & E4 & Sw).
  destruct (initial_rest h_c h_o s1 f g [] q (h_P q) (map Z.of_nat (seq 0 10)) Ef) as (s5 & E5 & _ & _).
  { rewrite Tf, Tg. vm_compute. reflexivity. } { rewrite Tf. exact Ea. } { exact O4. } { exact O5. } { exact O6. } { exact i_svd_exact. } { intros H b Hb i _. apply Hb. }
  { exact (h_pair q f g Hq Ef If Ig). } { apply FinFun.Injective_map_NoDup; [intros a b; apply Nat2Z.inj|apply seq_NoDup]. } { exact (h_usable f g Ef Ig). } { cbn. lia. }
  rewrite E4 in E5. injection E5 as <- ->. pose proof (initialize_len _ _ _ _ _ E4) as (_ & _ & Ld & _ & Le & _). pose proof (initialize_pq _ _ _ _ _ E4) as (fi & rest & a & m & Efi & Hc & _ & Hp & _).
  assert (Hat : In (f64_of_Z 2) (map ai_ts (at_items a))).
  { destruct h_a2_items as (i & j & Ei & Ti & Tj). cbn [s1 with_win b_win] in Efi. rewrite Ef in Efi. injection Efi as <- _. unfold att_clean in Hc. change (b_att s1) with h_a2 in Hc. rewrite Ei in Hc. binv Hc. injection Hc as <-. cbn [at_items].
    rewrite Tf in E. cbn [clean_loop] in E. rewrite Ti, Tj in E. replace (is_old32 (f64_of_Z 1) (f64_to_f32 (dl_period (b_dl s1))) (f64_of_Z 1)) with false in E by (vm_compute; reflexivity). injection E as <-. right. left. exact Tj. }
  set (s2 := with_status s4 Initialized).
  destruct (vision_true (bo_vis h_o) h_c 1 [t_m1; t_m2 0%R] (VState (b_win s2) (b_ext s2) (b_pq s2)) (f64_of_Z 2) t_thr) as (v & pol & Ev); cbn [s2 with_status vs_ext vs_win vs_pq b_win b_ext b_pq].
  { rewrite Le. eapply win_side_same; [exact (proj1 (proj2 (t_win2_ok 0%R qid)))|exact Sw]. }
  { cbn. lia. } { rewrite Le. cbn. lia. } { exact O1. } { exact O2. } { exact O3. }
  { rewrite Hp, Le. assert (PQ0 : PQ 0 (with_init (b_pq s1) m)) by (repeat split; constructor).
    pose proof (replay_PQ (vc_grav h_c) (length (b_ext s1)) (at_items a) (with_init (b_pq s1) m) 0 PQ0) as K.
    destruct (at_items a) as [|i0 l0]; [destruct Hat|exact K]. }
  { rewrite Hp, replay_times. exists (f64_of_Z 2). split; [|exact (proj1 t_near)]. apply in_or_app. right. apply in_map_iff in Hat as (x & Ex & Hx). apply in_map_iff. eauto. }
  exists (VState (b_win s2) (b_ext s2) (b_pq s2)), v, pol. exists (with_dl h_s (b_st h_s) (h_ld [])), true, h_w, s2.
  split; [reflexivity|]. split; [reflexivity|]. split; [exact h_win|]. split; [unfold init_step; fold s1; replace (b_status s1) with NeedInit by reflexivity; rewrite E4; reflexivity|].
  split; [reflexivity|]. split; [reflexivity|]. split; [reflexivity|]. split; [|exact Ev]. cbn [s2 with_status b_dl]. rewrite Ld. reflexivity.
Qed.

(** ** The examples *)
Lemma h_example : h_s0 = b_new (DlStatics None None) t_thr i_exts v3zero v3zero 1%R 1%R 1%R 1%R /\
  List.Forall (fun e => qnorm2 (ex_q e) = 1%R) i_exts /\ good_tracks (length i_exts) (pushed_feat h_ops) /\
  (Z.of_nat (length (pushed_feat h_ops)) < 4294967294)%Z /\ sizes_ok h_c (length i_exts) /\ (zero_thr < vc_noise h_c * vc_noise h_c)%R /\
  List.Forall oracle_ok (oracles h_ops) /\ List.Forall (fun o => exact_solver (vo_saes (bo_vis o))) (oracles h_ops) /\
  oracle_ok h_o /\ exact_solver (vo_saes (bo_vis h_o)) /\ exact_qr (bo_vis h_o) /\
  b_hist h_c h_s0 h_ops = Ok h_s /\ exists v v' pol, runs_update h_c h_o h_s (t_m2 0%R) (f64_of_Z 2) t_thr v v' pol.
Proof.
  split; [reflexivity|]. split; [exact h_units|]. split; [exact h_tracks|]. split; [cbn; lia|]. split; [exact h_sizes|]. split; [exact h_noise|].
  split; [repeat (constructor; [exact h_o_ok|]); constructor|]. split; [repeat (constructor; [exact r_exact|]); constructor|].
  split; [exact h_o_ok|]. split; [exact r_exact|]. split; [exact h_qr|]. split; [exact h_reach|exact h_runs].
Qed.
(** Two frames that see a point from different places, and a point seen once. *)
Definition h_once : feature R := Feature 7 1 [{[0%Z := V2 0%R 0%R]}] 2 (V3 0%R 0%R (1 / 3)%R) FSolved.
Lemma h_parallax : List.Forall (fun e => qnorm2 (ex_q e) = 1%R) [n_e] /\ List.Forall (fun f => qnorm2 (fr_q f) = 1%R) [n_f0; n_f1] /\
  parallax (vo_nord bl_o) 1 [n_e] [n_f0; n_f1] n_f /\ ~ parallax (vo_nord bl_o) 1 [n_e] [n_f0; n_f1] h_once.
Proof.
  assert (U1 : List.Forall (fun e => qnorm2 (ex_q e) = 1%R) [n_e]) by (constructor; [apply qid_unit|constructor]).
  assert (U2 : List.Forall (fun f => qnorm2 (fr_q f) = 1%R) [n_f0; n_f1]) by (constructor; [apply qid_unit|constructor; [apply qid_unit|constructor]]).
  split; [exact U1|]. split; [exact U2|]. split.
  - apply locatable_parallax; [exact U1|exact U2|]. eapply bu_loc; [intros m; reflexivity|reflexivity..].
  - intros (m1 & m2 & c1 & c2 & H1 & H2 & (e1 & f1 & A1 & A2 & _ & ->) & (e2 & f2 & B1 & B2 & _ & ->) & N).
    assert (M : meas_of (vo_nord bl_o) 1 h_once = [(0, 0, V2 0%R 0%R)]).
    { unfold meas_of. cbn [h_once ft_obs ft_first]. reflexivity. }
    rewrite M in H1, H2. destruct H1 as [<-|[]], H2 as [<-|[]]. cbn [fst snd] in *. rewrite A1 in B1. rewrite A2 in B2. injection B1 as <-. injection B2 as <-. apply N.
    generalize (v3sub (ft_pw h_once) (cam_centre e1 f1)). intros [x y z]. unfold v3cross. cbn [v3x v3y v3z]. rops. f_equal; ring.
Qed.
