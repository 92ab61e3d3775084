(** Resets and new initializations of a filter at rest on exact data (C84). *)
From Coq Require Import ZArith Reals List Bool Lia Lra Arith.
From stdpp Require Import gmap list.
From Verif Require Import Fp Scalar Base LinAlg Msg DataLoader FeatureManager FrameManager Window MathLib Attitude Propagator
  Triangulate Pnp VisionUpdate Backend WindowSpec QueueSpec UpdSpec GeoSpec BackendSpec MatFacts QuatFacts TriFacts PnpFacts FrameFacts FeatureFacts
  UpdCovFacts SafeFacts SelectFacts AttitudeFacts MotionFacts UnitFacts BackLenFacts BackDimFacts InitFacts InitSpec TruthSpec TruthFacts TruthRunFacts.
Import ListNotations.
Local Open Scope R_scope.

Section Reset.
Context (c : vcfg R) (exts : list (extrinsic R)) (Y : Z -> v3 R) (q : quat R) (a : v3 R).
Context (Hq : qunit q) (Hg : qrot q a = vc_grav c) (He : List.Forall (fun e => qunit (ex_q e)) exts).
Notation sight := (sight_ft exts Y q).
Definition base (s : bstate R) : Prop :=
  b_ext s = exts /\ pq_ba (b_pq s) = v3zero /\ pq_bg (b_pq s) = v3zero /\ att_rest q a (b_att s) /\
  List.Forall (rest_item q v3zero a v3zero) (pq_items (b_pq s)) /\ (b_status s = Initialized -> pq_items (b_pq s) <> []) /\
  cells_ok sight (wn_heap (b_win s)) (wn_mgr (b_win s)) /\ load_ok (rest_sample a v3zero) (fun m => exact_msg exts Y m /\ first_camera m) (b_dl s).
Definition open (s : bstate R) : Prop :=
  match b_status s with
  | NeedInit => (length (wn_frames (b_win s)) <= 1)%nat
  | Initialized => exists l f, wn_frames (b_win s) = l ++ [f] /\ List.Forall (rest_frame q v3zero) l /\ qunit (fr_q f)
  end.
Definition after (s : bstate R) : Prop := List.Forall (rest_frame q v3zero) (wn_frames (b_win s)) \/ b_status s = NeedInit /\ (length (wn_frames (b_win s)) <= 1)%nat.
Lemma settled_base : forall s, settled (vc_grav c) exts Y q a s <-> base s /\ after s.
Proof.
  intros s. split.
  - intros [_ _ H3 _ (H5 & H6 & H7 & H8 & H9) (H10 & H11) (H12 & H13) H14 (H15 & H16) H17 ((H18 & H19) & H20)]. split; [|exact H14].
    split; [exact H3|]. split; [exact H5|]. split; [exact H6|]. split; [repeat split; assumption|]. split; [exact H10|]. split; [exact H11|]. split.
    + split; [exact H15|]. intros p f E. destruct (H17 p f E) as [K1 K2]. split; [exact (H16 p f E)|]. split; assumption.
    + split; [exact H18|]. rewrite List.Forall_forall in *. auto.
  - intros ((H3 & H5 & H6 & (H7 & H8 & H9 & H12 & H13) & H10 & H11 & (H15 & H16) & H18 & H19) & H14). constructor; [exact Hq|exact Hg|exact H3|exact He|repeat split; assumption|split; assumption|split; assumption|exact H14| | |].
    + split; [exact H15|]. intros p ft E. exact (proj1 (H16 p ft E)).
    + intros p ft E. exact (proj2 (H16 p ft E)).
    + split; [split; [exact H18|]|]; rewrite List.Forall_forall in *; intros m Hm; apply H19, Hm.
Qed.

Lemma initialize_rest : forall o s s' ok l nf, base s -> b_status s = NeedInit -> wn_frames (b_win s) = l ++ [nf] ->
  (List.Forall (rest_frame q v3zero) l \/ (length l <= 1)%nat) -> (forall l' g, l = l' ++ [g] -> fr_q nf = fr_q g) ->
  valid_norder (vo_nord (bo_init o)) -> exact_svd (vo_svd (bo_init o)) -> zero_solver (bo_ldlt o) -> initialize c o s = Ok (s', ok) ->
  base (with_status s' (if ok then Initialized else NeedInit)) /\ b_status s' = NeedInit /\
  (ok = true -> exists l f, wn_frames (b_win s') = l ++ [f] /\ List.Forall (rest_frame q v3zero) l /\ qunit (fr_q f)).
Proof.
  intros o s s' ok l nf B St Ew Hl Hnf Hn Hs Hz H. unfold initialize in H.
  assert (F : base (with_status s NeedInit)) by (destruct B as (B1 & B2 & B3 & B4 & B5 & B6 & B7 & B8); unfold base; cbn; intuition discriminate).
  destruct (wn_frames (b_win s)) as [|fi [|fj rest]] eqn:Efs; [injection H as <- <-; split; [exact F|split; [exact St|discriminate]]..|].
  destruct (f64_ltb _ _); [injection H as <- <-; split; [exact F|split; [exact St|discriminate]]|].
  binv H. destruct x as [q0|]; [|injection H as <- <-; split; [exact F|split; [exact St|discriminate]]].
  destruct B as (B1 & B2 & B3 & B4 & B5 & B6 & B7 & B8). pose proof (att_get_rest c q a Hq Hg _ _ _ _ B4 E) as ->. rewrite B1 in H. binv H.
  assert (Cx : cells_ok sight x (wn_mgr (b_win s))) by (refine (tri_loop_rest exts Y q Hq He (bo_init o) _ _ Hn Hs _ _ _ _ _ B7 E0); reflexivity).
  cbv zeta in H. binv H. destruct x0 as [[q1 p1]|].
  2:{ injection H as <- <-. split; [|split; [exact St|discriminate]]. unfold base. cbn. rewrite B1. intuition discriminate. }
  assert (Er : (q1, p1) = (q, v3zero)) by (refine (pose_rest exts Y q Hq He o x (wn_mgr (b_win s)) _ _ Hz Cx _ _ E1); reflexivity). injection Er as -> ->. cbn [with_pose fr_q fr_p fr_v fr_ts] in H.
  assert (Ev : forall k : R, v3div (v3sub v3zero v3zero) k = v3zero) by (intros k; vunf; apply v3_ext; rops; unfold Rdiv; ring). rewrite Ev in H.
  binv H. binv H. injection H as <- <-. unfold init_propagator in E2. binv E2. injection E2 as <-. cbn [with_win with_att b_att b_dl b_ext b_pq b_win b_st b_status wn_frames with_pq with_status] in *.
  pose proof (att_clean_rest q a _ _ _ _ B4 E4) as (A1 & A2 & A3 & A4 & A5).
  destruct (replay_rest c q a Hq Hg (length (b_ext s)) (at_items _) (with_init (b_pq s) (Motion v3zero v3zero q)) A4 B2 B3 B5 eq_refl) as (R1 & R2 & R3).
  split; [|split; [exact St|]].
  - unfold base. cbn [with_win with_att b_att b_dl b_ext b_pq b_win b_st b_status wn_frames with_pq with_status wn_heap wn_mgr]. rewrite B1 in *. split; [reflexivity|]. split; [exact R1|]. split; [exact R2|]. split; [repeat split; assumption|]. split; [exact R3|].
    split; [|split; [exact Cx|exact B8]]. intros _ C. rewrite C in E3. discriminate.
  - intros _. destruct (back_cases _ rest) as [[-> _]|(r' & y & -> & _)].
    + eexists [_], _. split; [reflexivity|]. split; [constructor; [repeat split|constructor]|exact Hq].
    + assert (El : l = fi :: fj :: r' /\ y = nf) by (change (fi :: fj :: r' ++ [y]) with ((fi :: fj :: r') ++ [y]) in Ew; apply app_inj_tail in Ew as [<- <-]; auto). destruct El as [-> ->].
      destruct Hl as [Hl|Hl]; [|cbn in Hl; lia]. inversion Hl as [|? ? L1 L2]. inversion L2 as [|? ? L3 L4].
      eexists (_ :: _ :: r'), nf. split; [reflexivity|]. split; [constructor; [repeat split|constructor; [repeat split|exact L4]]|].
      destruct (back_cases _ (fi :: fj :: r')) as [[e _]|(l' & g & e & _)]; [discriminate|]. rewrite (Hnf l' g e). assert (Ig : In g (fi :: fj :: r')) by (rewrite e; apply in_or_app; right; left; reflexivity).
      rewrite List.Forall_forall in Hl. destruct (Hl g Ig) as (G & _). rewrite G. exact Hq.
Qed.

Lemma init_step_rest : forall o s s' l nf, base s -> wn_frames (b_win s) = l ++ [nf] ->
  (List.Forall (rest_frame q v3zero) l \/ b_status s = NeedInit /\ (length l <= 1)%nat) -> (forall l' g, l = l' ++ [g] -> fr_q nf = fr_q g) -> qunit (fr_q nf) \/ b_status s = NeedInit ->
  valid_norder (vo_nord (bo_init o)) -> exact_svd (vo_svd (bo_init o)) -> zero_solver (bo_ldlt o) -> init_step c o s = Ok s' -> base s' /\ open s'.
Proof.
  intros o s s' l nf B Ew Hl Hnf Hu Hn Hs Hz H. unfold init_step in H. destruct (b_status s) eqn:St.
  - binv H. destruct x as [s1 ok]. cbn [fst snd] in H.
    destruct (initialize_rest o s s1 ok l nf B St Ew) as (I1 & I2 & I3); auto; [destruct Hl as [Hl|[_ Hl]]; auto|]. destruct ok.
    + injection H as <-. split; [exact I1|]. unfold open. cbn. exact (I3 eq_refl).
    + binv H. injection H as <-. destruct I1 as (B1 & B2 & B3 & B4 & B5 & B6 & B7 & B8). cbn in *. split.
      * unfold base. cbn. rewrite I2. split; [exact B1|]. split; [exact B2|]. split; [exact B3|]. split; [exact B4|]. split; [exact B5|]. split; [discriminate|]. split; [|exact B8].
        eapply shrink_ok; [apply sight_shorter|exact B7|exact E0].
      * unfold open. cbn. rewrite I2. eapply shrink_one; [|exact E0]. apply le_n.
  - injection H as <-. split; [exact B|]. unfold open. rewrite St. exists l, nf. split; [exact Ew|]. destruct Hl as [Hl|[C _]]; [|discriminate]. destruct Hu as [Hu|C]; [|discriminate]. auto.
Qed.

Lemma update_step_rest : forall o ts s s', base s -> open s -> valid_norder (vo_nord (bo_vis o)) -> exact_svd (vo_svd (bo_vis o)) -> update_step c o ts s = Ok s' -> base s' /\ after s'.
Proof.
  intros o ts s s' B O Hn Hs H. unfold update_step in H. unfold open in O. destruct (b_status s) eqn:St; [injection H as <-; split; [exact B|right; auto]|].
  binv H. destruct x as [[v ok] pol]. destruct O as (l & f & Ew & Hl & Hf). destruct B as (B1 & B2 & B3 & B4 & B5 & B6 & B7 & B8).
  assert (Hg0 : qrot q (v3sub a v3zero) = vc_grav c) by (rewrite v3sub_0; exact Hg).
  destruct (update_rest sight (bo_vis o) c exts Y q v3zero a v3zero v3zero Hs Hn Hq Hg0 He (fun f H => proj1 H) (fun fs f g Hfs Hf' S Hft => sight_solved exts Y q Hq He (bo_vis o) fs f g Hn Hfs Hf' S Hft)
    (VState (b_win s) (b_ext s) (b_pq s)) _ _ _ _ _ l f B1 Ew Hl Hf B2 B3 B5 B7 E) as (V1 & V2 & V3 & V4 & V5 & V6).
  destruct ok; binv H; injection H as <-.
  - destruct (V6 eq_refl) as (V7 & V8). split.
    + unfold base. cbn. split; [exact V1|]. split; [exact V2|]. split; [exact V3|]. split; [destruct B4 as (_ & _ & A3 & A4 & A5); split; [exact V2|]; split; [exact V3|]; auto|]. split; [exact V4|]. split; [auto|]. split; [|exact B8].
      eapply marginalize_ok; [apply sight_shorter|exact V5|exact E0].
    + left. cbn. eapply marginalize_P; [apply rest_id|exact E0|exact V8].
  - split.
    + unfold base. cbn. split; [exact V1|]. split; [exact V2|]. split; [exact V3|]. split; [exact B4|]. split; [exact V4|]. split; [discriminate|]. split; [|exact B8].
      eapply shrink_ok; [apply sight_shorter|exact V5|exact E0].
    + right. cbn. split; [reflexivity|]. eapply shrink_one; [|exact E0]. apply le_n.
Qed.
Lemma clean_step_rest : forall s s', base s -> after s -> clean_step s = Ok s' -> base s' /\ after s'.
Proof.
  intros s s' B A H. unfold clean_step in H. destruct (Nat.ltb _ _); [|injection H as <-; auto]. binv H. binv H. injection H as <-. split; [|exact A].
  destruct B as (B1 & B2 & B3 & B4 & B5 & B6 & B7 & B8). unfold base. cbn. pose proof (att_clean_rest q a _ _ _ _ B4 E0) as A'. auto 12.
Qed.
Lemma settled_step : forall op s s', settled (vc_grav c) exts Y q a s -> settled_op exts Y a op -> b_step c s op = Ok s' -> settled (vc_grav c) exts Y q a s'.
Proof.
  intros op s s' H Hop E. rewrite settled_base in *. destruct H as (B & A). destruct op as [m|m|o| |]; cbn [b_step settled_op] in *.
  - injection E as <-. split; [|exact A]. destruct B as (B1 & B2 & B3 & B4 & B5 & B6 & B7 & B8). unfold base.
    pose proof (push_imu_ok _ (fun m => exact_msg exts Y m /\ first_camera m) (sample_ts a v3zero) s m B8 Hop) as L. auto 12.
  - assert (Es : s' = fst (b_feat s m)) by congruence. subst s'. destruct B as (B1 & B2 & B3 & B4 & B5 & B6 & B7 & B8).
    pose proof (push_feat_ok (rest_sample a v3zero) (fun m => exact_msg exts Y m /\ first_camera m) (fun m t H => H) s m B8 Hop) as L.
    unfold b_feat in *. destruct (dl_push_feat _ _ _) as [[[st l] m'] r]. split; [|exact A]. unfold base. cbn in *. auto 12.
  - destruct Hop as (Hn & Hs & Hn' & Hs' & Hz). binv E. injection E as <-. unfold run_once in E0. destruct (dl_pop_one (b_dl s)) as [[[l m] ok] d] eqn:Ep.
    destruct B as (B1 & B2 & B3 & B4 & B5 & B6 & B7 & B8). destruct (pop_ok _ _ _ _ _ _ _ B8 Ep) as (L & Li & Lf).
    assert (B : base (with_dl s (b_st s) l)) by (unfold base; cbn; auto 12). destruct ok; cbn [negb] in E0.
    2:{ injection E0 as <-. split; [exact B|exact A]. }
    destruct (match cm_imu m with [] => (_, true) | i :: _ => imu_step c _ i end) as [s1 r1] eqn:E1.
    assert (R1 : base s1 /\ after s1).
    { destruct (cm_imu m) as [|i l0]; [injection E1 as <- _; split; [exact B|exact A]|]. inversion Li as [|? ? (I1 & I2) _]. unfold imu_step in E1. rewrite I1, I2 in E1. cbn [with_dl b_att] in E1.
      pose proof (att_propagate_rest c q a Hq Hg (b_att s) (im_ts i) B4) as At. destruct (att_propagate _ _ _ _ _) as [at' r]. cbn [fst] in At.
      cbn [with_dl with_att b_status b_pq b_ext] in E1. unfold after in *. destruct (b_status s) eqn:St; injection E1 as <- _; cbn; rewrite ?St; (split; [|exact A]); unfold base; cbn; rewrite ?St; [auto 12|].
      assert (Hg0 : qrot q (v3sub a v3zero) = vc_grav c) by (rewrite v3sub_0; exact Hg).
      destruct (propagate_rest (vc_grav c) (length (b_ext s)) q v3zero a v3zero v3zero (b_pq s) (im_ts i) Hq Hg0 B2 B3 B5) as (P1 & P2 & _ & P3 & P4); [intros C; destruct (B6 eq_refl C)|]. auto 12. }
    destruct (cm_feat m) as [f|] eqn:Ef; [|injection E0 as <-; exact R1]. destruct (Lf f eq_refl) as (Lx & Lc). binv E0. injection E0 as <-. cbn [fst] in *. clear E1 L Li B1 B2 B3 B4 B5 B6 B7 B8 B A.
    destruct R1 as ((B1 & B2 & B3 & B4 & B5 & B6 & B7 & B8) & A). unfold feat_step in E. binv E. binv E. binv E.
    pose proof (update_window_ok sight _ _ _ (fun id fr o' Hin => sight_new exts Y q f id fr o' Lx Lc Hin) (fun g o' Hin => sight_add exts Y q f g o' Lx Lc Hin) B7 E0) as Ck.
    destruct (update_window_frames _ _ _ E0) as (nf & Ew & Hnf).
    assert (B : base (with_win s1 x)) by (unfold base; cbn; auto 12).
    destruct (init_step_rest o (with_win s1 x) x1 (wn_frames (b_win s1)) nf B Ew) as (C1 & C2); auto.
    { intros l' g Eg. destruct Hnf as [(N & _)|(l2 & g2 & Eg2 & N)]; [rewrite N in Eg; destruct l'; discriminate|]. rewrite Eg in Eg2. apply app_inj_tail in Eg2 as [_ <-]. exact N. }
    { destruct A as [A|[A _]]; [|right; exact A]. left. destruct Hnf as [(_ & ->)|(l2 & g2 & Eg2 & ->)]; [exact qid_unit|]. rewrite Eg2 in A. apply List.Forall_app in A as [_ A]. inversion A as [|? ? (G & _) _]. rewrite G. exact Hq. }
    destruct (update_step_rest o _ _ _ C1 C2 Hn Hs E2) as (D1 & D2). exact (clean_step_rest _ _ D1 D2 E).
  - injection E as <-. unfold run_once_test. destruct (dl_pop_one (b_dl s)) as [[[l m] ok] d] eqn:Ep. destruct B as (B1 & B2 & B3 & B4 & B5 & B6 & B7 & B8). destruct (pop_ok _ _ _ _ _ _ _ B8 Ep) as (L & _). split; [|exact A]. unfold base. cbn. auto 12.
  - injection E as <-. destruct B as (B1 & B2 & B3 & B4 & B5 & B6 & B7 & B8). split; [unfold base; cbn; intuition discriminate|]. unfold after in *. cbn. destruct A as [A|[_ A]]; auto.
Qed.
End Reset.
Theorem settled_run : forall c exts Y q a ops s0 s, settled (vc_grav c) exts Y q a s0 -> List.Forall (settled_op exts Y a) ops -> b_hist c s0 ops = Ok s -> settled (vc_grav c) exts Y q a s.
Proof.
  intros c exts Y q a. induction ops as [|op ops IH]; intros s0 s H Hop E; cbn [b_hist] in E; [injection E as <-; exact H|].
  binv E. inversion Hop as [|? ? O1 O2]; subst. apply (IH x s); [|exact O2|exact E]. exact (settled_step c exts Y q a (st_q _ _ _ _ _ _ H) (st_grav _ _ _ _ _ _ H) (st_exts _ _ _ _ _ _ H) op s0 x H O1 E0).
Qed.
Theorem settled_published : forall grav exts Y q a s, settled grav exts Y q a s ->
  (forall m ba bg t, b_publish_oldest s = Some (m, ba, bg, t) \/ b_publish_newest s = Some (m, ba, bg, t) -> m = Motion v3zero v3zero q /\ ba = v3zero /\ bg = v3zero) /\
  (b_status s = Initialized -> b_publish_oldest s <> None /\ b_publish_newest s <> None).
Proof.
  intros grav exts Y q a s [_ _ _ _ (E1 & E2 & _) (Hqu & Hne) _ _ _ _ _]. unfold b_publish_newest, b_publish_oldest, pq_publish_newest, pq_publish_oldest. rewrite List.Forall_forall in Hqu. split.
  - intros m ba bg t [H|H].
    + destruct (pq_items (b_pq s)) as [|x r]; [discriminate|]. cbn [front] in H. unfold pq_publish in H. injection H as <- <- <- _. destruct (Hqu x (or_introl eq_refl)) as (K & _). auto.
    + destruct (back_cases _ (pq_items (b_pq s))) as [[e Eb]|(k & y & e & Eb)]; rewrite Eb in H; [discriminate|]. unfold pq_publish in H. injection H as <- <- <- _. destruct (Hqu y) as (K & _); [rewrite e; apply in_or_app; right; left; reflexivity|]. auto.
  - intros St. specialize (Hne St). destruct (back_cases _ (pq_items (b_pq s))) as [[e Eb]|(k & y & e & Eb)]; [destruct (Hne e)|]. rewrite Eb. destruct (pq_items (b_pq s)); [destruct (Hne eq_refl)|]. cbn [front]. split; discriminate.
Qed.
