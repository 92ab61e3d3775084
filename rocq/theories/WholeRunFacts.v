(** Every vision update of a run of the back end is the one of the specification (C96). *)
From Coq Require Import ZArith Reals List Bool Lia Lra Arith.
From stdpp Require Import gmap list.
From Verif Require Import Fp Scalar Base LinAlg MathLib MatFacts Msg DataLoader FeatureManager FrameManager Window Attitude Propagator VisionUpdate Backend
  LoaderSpec WindowSpec QueueSpec UpdSpec NumSpec RunSpec DerivSpec KalmanFacts InjectSpec BackendSpec TruthSpec BundleSpec WholeSpec
  LoaderFacts FeatureFacts FrameFacts WindowFacts BackLenFacts SafeFacts BackSafeFacts BackDimFacts CovFacts UnitRunFacts CovRunFacts WholeFacts.
Import ListNotations.
Local Open Scope nat_scope.

Theorem whole_run : forall c ops (s0 s : bstate R) st period exts ba bg na ng nwa nwg o m ts thr v v' pol,
  s0 = b_new st period exts ba bg na ng nwa nwg -> (0 <= na)%R -> (0 <= ng)%R -> (0 <= nwa)%R -> (0 <= nwg)%R ->
  List.Forall (fun e => qnorm2 (ex_q e) = 1%R) exts -> good_tracks (length exts) (pushed_feat ops) ->
  (Z.of_nat (length (pushed_feat ops)) < 4294967294)%Z -> sizes_ok c (length exts) -> (zero_thr < vc_noise c * vc_noise c)%R ->
  List.Forall oracle_ok (oracles ops) -> List.Forall (fun o => exact_solver (vo_saes (bo_vis o))) (oracles ops) ->
  oracle_ok o -> exact_solver (vo_saes (bo_vis o)) -> exact_qr (bo_vis o) ->
  b_hist c s0 ops = Ok s -> runs_update c o s m ts thr v v' pol ->
  exists b A, (A ++ [m]) `sublist_of` map feat_shifted (pushed_feat ops) /\ updated (vo_nord (bo_vis o)) (vo_rand (bo_vis o)) c b (A ++ [m]) ts thr v v' pol.
Proof.
  intros c ops s0 s st period exts ba bg na ng nwa nwg o m ts thr v v' pol E0 Na Ng Nwa Nwg Hu Hg HL Hz Hno Hos Hes Ho He Hq Hh HR.
  assert (Hmw : (0 <= vc_maxwin c < 4294967295)%Z) by (destruct Hz as (Z1 & Z2 & Z3); unfold win_bound in Z3; nia).
  pose proof (shifted_tracks _ _ Hg HL) as HM. set (M := map feat_shifted (pushed_feat ops)) in *. set (ne := length exts) in *.
  assert (Hfr : BackendSpec.fresh s0) by (subst s0; repeat eexists).
  assert (Hw0 : win_ok c s0) by (subst s0; split; [cbn; lia|discriminate]).
  assert (HC : CQ (b_pq s)).
  { eapply hist_CQ; [exact Hmw|exact Hw0|exact Hes|exact Hh|]. subst s0. split; [repeat split|]. split; [apply noise_Q_psd; assumption|]. exists 0. split; [reflexivity|]. split; [reflexivity|constructor]. }
  assert (HU : unit_attitudes s) by (eapply run_unit; [exact Hfr| |exact Hh]; subst s0; exact Hu).
  destruct (b_hist_safe c ne M ops s0 Hos Hz HM) as (s9 & E9 & HB).
  { subst s0. exists 1%Z, [], 0. cbn.
    split; [split; [apply winv_empty|]; split; [intros id f e; discriminate|]; split; [constructor|cbn; lia]|].
    split; [reflexivity|]. split; [unfold M; rewrite map_length; lia|]. split; [split; [cbn; lia|discriminate]|]. split; [reflexivity|]. split; [reflexivity|].
    split; [repeat split; constructor|]. split; [|constructor]. split; [exact Logic.I|]. split; [auto|]. discriminate. }
  rewrite Hh in E9. injection E9 as <-. destruct HB as (b & A & n & HW & HS & HL' & Hw & Hne & Hoff & HP & HA & Hi).
  destruct HR as (s1 & r & w & s2 & Hnf & E1 & Ew & Ei & Est & -> & -> & -> & Ev).
  pose proof (pop_one_conserve (b_dl s)) as Hc. unfold next_feat in Hnf.
  destruct (dl_pop_one (b_dl s)) as [[[l mm] ok] d] eqn:Ep. cbn [fst snd] in *. destruct Hc as [Hc1 Hc2]. rewrite Hnf in Hc2. cbn [app] in Hc2.
  assert (K : b_win s1 = b_win s /\ b_status s1 = b_status s /\ b_ext s1 = b_ext s /\ CQ (b_pq s1) /\ unit_attitudes s1).
  { destruct (cm_imu mm) as [|i x]; [injection E1 as <- <-; auto 10|].
    pose proof (imu_step_win _ _ _ _ _ E1) as (W1 & W2 & W3 & W4 & W5).
    pose proof (imu_step_CQ c (with_dl s (b_st s) l) i HC) as C1. pose proof (imu_step_unit c (with_dl s (b_st s) l) i HU) as C2. rewrite E1 in C1, C2. cbn in *. auto 10. }
  destruct K as (K1 & K2 & K3 & K4 & K5).
  rewrite <- Hc2 in HS, HL'. cbn [app length] in HS, HL'. rewrite app_nil_r in HS. cbn [length] in HL'.
  destruct HM as (M1 & M2 & M3 & M4). destruct Hz as (Z1 & Z2 & Z3).
  pose proof HW as (I & N & HCm & HB'). pose proof (proj1 Hw) as Hwb. unfold n_frames in Hwb. rewrite (wi_len _ _ _ I) in Hwb.
  assert (HS1 : (A ++ [m]) `sublist_of` M).
  { etransitivity; [|exact HS]. apply sublist_app; [reflexivity|]. apply sublist_skip. apply sublist_nil_l. }
  assert (Hin : In m M) by (eapply in_sublist; [exact HS1|apply in_or_app; right; left; reflexivity]).
  rewrite List.Forall_forall in M1, M2. rewrite K1 in Ew.
  destruct (update_window_inv b A (b_win s) m I (M1 m Hin) (contiguous_sub _ _ HS1 M3) ltac:(lia)) as (w' & b1 & Ew' & I1 & L1 & _).
  assert (w' = w) by congruence. subst w'.
  assert (HW1 : win_side ne b1 (A ++ [m]) w).
  { split; [exact I1|]. split; [|split; [|lia]].
    - eapply nums_update; [exact (wi_filed _ _ _ I)| |exact N|exact Ew]. intros f Hf. eapply win_ids; [exact HW|].
      apply back_ok_nth in Hf as [Hf _]. eapply nth_error_In. exact Hf.
    - apply List.Forall_app. split; [exact HCm|]. constructor; [|constructor]. exact (M2 m Hin). }
  assert (LA : length (A ++ [m]) = length A + 1) by (rewrite app_length; reflexivity).
  set (s1' := with_win s1 w) in *.
  assert (Hb0 : (Z.of_nat (n_frames s1') < 4294967296)%Z).
  { unfold n_frames, s1'. cbn [with_win b_win]. rewrite (wi_len _ _ _ I1). pose proof (wi_b _ _ _ I1). lia. }
  pose proof (init_step_len _ _ _ _ Hb0 Ei) as (I2 & I3 & I4). rewrite Est in I4. destruct I4 as [I4 I5].
  assert (Hs2 : win_side ne b1 (A ++ [m]) (b_win s2)).
  { unfold init_step in Ei. destruct (b_status s1') eqn:Es.
    - destruct (initialize_safe c o b1 (A ++ [m]) s1' Ho) as (s3 & r3 & E3 & Sw); [cbn [s1' with_win b_ext b_win]; rewrite K3, Hne; exact HW1|].
      rewrite E3 in Ei. cbn [obind fst snd] in Ei. destruct r3.
      + injection Ei as <-. eapply win_side_same; [exact HW1|exact Sw].
      + binv Ei. injection Ei as <-. cbn [with_win b_status] in Est. destruct (initialize_len _ _ _ _ _ E3) as (_ & e & _). rewrite e, Es in Est. discriminate.
    - injection Ei as <-. exact HW1. }
  assert (H2 : 2 <= length (A ++ [m])).
  { unfold n_frames in I4, I5. pose proof (wi_len _ _ _ (proj1 Hs2)) as Ln. rewrite <- Ln, I4. destruct (b_status s1') eqn:Es; [exact (I5 eq_refl)|].
    cbn [s1' with_win b_win]. rewrite (wi_len _ _ _ I1), LA. destruct Hw as [_ Hw]. cbn [s1' with_win b_status] in Es. rewrite K2 in Es. specialize (Hw Es). unfold n_frames in Hw. rewrite (wi_len _ _ _ I) in Hw. lia. }
  assert (He2 : length (b_ext s2) = ne) by (rewrite I2; cbn [s1' with_win b_ext]; rewrite K3; exact Hne).
  assert (U2 : unit_attitudes s2).
  { eapply init_step_unit; [exact Ei|]. destruct K5 as (V1 & V2 & V3). split; [exact V1|]. split; [|exact V3]. eapply update_window_units; [exact Ew|]. rewrite <- K1. exact V2. }
  exists b1, A. split; [exact HS1|].
  destruct Ho as (O1 & O2 & O3 & _).
  apply (update_whole (bo_vis o)); cbn [vs_ext vs_win vs_pq].
  - rewrite He2. exact Hs2.
  - exact H2.
  - rewrite He2. rewrite LA.
    assert (Hl : (Z.of_nat (length A + 1) <= Z.of_nat (win_bound c) + 1)%Z) by lia. assert (Hn' : (Z.of_nat ne <= Z.of_nat (Nat.max 1 ne))%Z) by lia.
    revert Z3 Hl Hn'. generalize (Z.of_nat (win_bound c) + 1)%Z (Z.of_nat (Nat.max 1 ne)). intros x y Z3 Hl Hn'.
    assert (Hxy : (Z.of_nat (length A + 1) * Z.of_nat ne <= x * y)%Z) by (apply Z.mul_le_mono_nonneg; lia).
    assert (Hxy0 : (0 <= x * y)%Z) by (apply Z.mul_nonneg_nonneg; lia). nia.
  - exact O1.
  - exact O2.
  - exact Hq.
  - exact He.
  - exact Hno.
  - eapply init_step_CQ; [exact Ei|exact K4].
  - destruct U2 as (V1 & V2 & _ & V4). split; [exact V1|]. split; [exact V2|exact V4].
  - exact Ev.
Qed.
