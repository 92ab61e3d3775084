(** The back end step by step: window size, results, initial state (C30, C35, C36). *)
From Coq Require Import ZArith List Bool Lia Arith.
From stdpp Require Import gmap list.
From Verif Require Import Fp Scalar Base LinAlg Msg DataLoader FeatureManager FrameManager Window MathLib Attitude Propagator
  Triangulate Pnp VisionUpdate Backend LoaderSpec WindowSpec QueueSpec UpdSpec BackendSpec FrameFacts UpdCovFacts.
Import ListNotations.
Local Open Scope nat_scope.

Lemma obind_ok : forall (A B : Type) (m : out A) (k : A -> out B) y, obind m k = Ok y -> exists x, m = Ok x /\ k x = Ok y.
Proof. intros A B m k y H. destruct m as [x|]; [exists x; auto|discriminate]. Qed.

Ltac binv H := let x := fresh "x" in let E := fresh "E" in apply obind_ok in H as (x & E & H).

Lemma set_last_len : forall (A : Type) (l : list A) x, l <> [] -> length (set_last l x) = length l.
Proof.
  intros A l x H. unfold set_last. rewrite app_length. cbn [length]. destruct (exists_last H) as (a & y & ->).
  rewrite removelast_last, app_length. reflexivity.
Qed.

Section Back.
Context {T : Type} {S : SOps T}.

(** ** Windows *)
Lemma update_window_len : forall (w w' : window T) m, update_window w m = Ok w' ->
  length (wn_frames w') = Datatypes.S (length (wn_frames w)).
Proof.
  intros w w' m H. unfold update_window in H. destruct (add_new_frame_spec (wn_frames w) (new_frame (fm_ts m))) as (nf & E & _).
  destruct (add_new_frame _ _) as [fs b]. cbn [fst] in E. subst fs. binv H. binv H. destruct x0 as [[[h mg] ch] bb]. binv H.
  injection H as <-. cbn [wn_frames]. rewrite set_last_len by (destruct (wn_frames w); discriminate).
  rewrite app_length. cbn [length]. lia.
Qed.

Lemma marginalize_len : forall ord (w w' : window T) p, 2 <= length (wn_frames w) ->
  (Z.of_nat (length (wn_frames w)) < 4294967296)%Z -> marginalize ord w p = Ok w' ->
  length (wn_frames w') = left_after p (length (wn_frames w)).
Proof.
  intros ord w w' p H1 H2 H. rewrite <- kept_length by exact H1. exact (proj1 (marginalize_frames T S ord w w' p H1 H2 H)).
Qed.

Lemma shrink_len : forall fuel ord k (w w' : window T), (Z.of_nat (length (wn_frames w)) < 4294967296)%Z ->
  length (wn_frames w) <= Datatypes.S fuel -> shrink fuel ord k w = Ok w' ->
  length (wn_frames w') = Nat.min 1 (length (wn_frames w)).
Proof.
  induction fuel as [|n IH]; intros ord k w w' Hb Hl H; cbn [shrink] in H; destruct (Nat.ltb_spec 1 (length (wn_frames w))) as [L|L].
  - lia.
  - injection H as <-. lia.
  - binv H. pose proof (marginalize_len _ _ _ _ L Hb E) as Hx. cbn [left_after] in Hx.
    rewrite (IH ord (Datatypes.S k) x w'); [lia|lia|lia|exact H].
  - injection H as <-. lia.
Qed.
Lemma shrink_all_len : forall ord (w w' : window T), (Z.of_nat (length (wn_frames w)) < 4294967296)%Z ->
  shrink_all ord w = Ok w' -> length (wn_frames w') = Nat.min 1 (length (wn_frames w)).
Proof. intros ord w w' Hb H. unfold shrink_all in H. eapply shrink_len; [exact Hb| |exact H]. lia. Qed.

(** ** Vision update *)
Lemma correct_frames_len : forall dx off n m (l l' : list (frame T)) i, correct_frames dx off i n m l = Ok l' -> length l' = length l.
Proof.
  intros dx off n m. induction l as [|f r IH]; intros l' i H; cbn [correct_frames] in H; [injection H as <-; reflexivity|].
  destruct (_ =? _)%Z; [injection H as <-; reflexivity|]. binv H. binv H. binv H. injection H as <-.
  cbn [length]. f_equal. eapply IH. exact E1.
Qed.
Lemma correct_ext_len : forall dx (l l' : list (extrinsic T)) i, correct_ext dx i l = Ok l' -> length l' = length l.
Proof.
  intros dx. induction l as [|f r IH]; intros l' i H; cbn [correct_ext] in H; [injection H as <-; reflexivity|].
  binv H. binv H. binv H. injection H as <-. cbn [length]. f_equal. eapply IH. exact E1.
Qed.
Lemma apply_delta_len : forall dx (s s' : vstate T), apply_delta dx s = Ok s' ->
  length (wn_frames (vs_win s')) = length (wn_frames (vs_win s)) /\ length (vs_ext s') = length (vs_ext s).
Proof.
  intros dx s s' H. unfold apply_delta in H. do 7 binv H. injection H as <-. cbn [vs_win wn_frames vs_ext].
  split; [|eapply correct_ext_len; eassumption].
  destruct (wn_frames (vs_win s)) as [|f r] eqn:Ef; [injection E5 as <-; reflexivity|]. binv E5.
  eapply correct_frames_len; eassumption.
Qed.

Lemma vision_update_len : forall (o : voracle T) c s ts thr s' b pol, vision_update o c s ts thr = Ok (s', b, pol) ->
  length (wn_frames (vs_win s')) = length (wn_frames (vs_win s)) /\ length (vs_ext s') = length (vs_ext s) /\
  (b = true -> decide_policy c (vo_ord o) (wn_heap (vs_win s)) (wn_frames (vs_win s)) = Ok pol).
Proof.
  intros o c s ts thr s' b pol H. unfold vision_update in H. destruct (pq_reset_origin _ _ _) as [q found].
  destruct (negb found); [injection H as <- <- <-; repeat split; discriminate|].
  binv H. rename x into pol'. binv H. destruct x as [P|]; [|injection H as <- <- <-; repeat split; discriminate].
  binv H. destruct x as [fs|]; [|injection H as <- <- <-; repeat split; discriminate].
  binv H. rename x into sel.
  assert (Lf : length fs = length (wn_frames (vs_win s))).
  { unfold update_newest in E1. destruct (wn_frames (vs_win s)) as [|f r] eqn:Ef; [discriminate|]. binv E1. binv E1.
    injection E1 as <-. apply set_last_len. discriminate. }
  assert (Fin : forall P' sx s2, finish_update o c pol' P' sx = Ok s2 ->
     length (wn_frames (vs_win s2)) = length (wn_frames (vs_win sx)) /\ length (vs_ext s2) = length (vs_ext sx)).
  { intros P' sx s2 Hf. unfold finish_update in Hf. binv Hf. binv Hf. binv Hf. injection Hf as <-. auto. }
  destruct (snd sel) as [|p0 r0].
  - binv H. injection H as <- <- <-. apply Fin in E3 as [Ea Eb]. cbn [vs_win wn_frames vs_ext] in Ea, Eb.
    rewrite Ea, Eb. auto.
  - binv H. destruct x as [Hr|]; [|injection H as <- <- <-; cbn [vs_win wn_frames vs_ext]; repeat split; [exact Lf|discriminate]].
    binv H. binv H. injection H as <- <- <-. apply Fin in E5 as [Ea Eb]. rewrite Ea, Eb.
    unfold update_state in E4. binv E4. destruct x1 as [[K dx] P']. binv E4. injection E4 as <-. cbn [snd].
    apply apply_delta_len in E6 as [Ec Ed]. cbn [vs_win wn_frames vs_ext] in Ec, Ed. rewrite Ec, Ed. auto.
Qed.

Lemma decide_policy_cases : forall (c : vcfg T) ord h fs pol, decide_policy c ord h fs = Ok pol ->
  (pol = NoMarg /\ (Z.of_nat (length fs) <= vc_maxwin c)%Z) \/
  ((vc_maxwin c < Z.of_nat (length fs))%Z /\ (pol = MargOldest \/ pol = MargSubnew /\ 3 <= length fs)).
Proof.
  intros c ord h fs pol H. unfold decide_policy, need_marginalize in H. destruct (Z.ltb_spec (vc_maxwin c) (Z.of_nat (length fs))) as [L|L].
  - right. split; [exact L|]. destruct (Nat.ltb_spec (length fs) 2); [discriminate|]. binv H. injection H as <-.
    destruct x; [auto|]. right. split; [reflexivity|]. destruct (Nat.eq_dec (length fs) 2) as [e|]; [|lia].
    rewrite e in E. cbn [Nat.sub is_keyframe] in E. destruct (nth_error fs 0); discriminate.
  - left. injection H as <-. auto.
Qed.

(** ** Initialization *)
Lemma initialize_len : forall c o (s s' : bstate T) r, initialize c o s = Ok (s', r) ->
  n_frames s' = n_frames s /\ b_status s' = b_status s /\ b_dl s' = b_dl s /\ b_st s' = b_st s /\ b_ext s' = b_ext s /\
  (r = true -> 2 <= n_frames s).
Proof.
  intros c o s s' r H. unfold initialize in H. unfold n_frames.
  destruct (wn_frames (b_win s)) as [|fi [|fj rest]] eqn:Ef; try (injection H as <- <-; rewrite ?Ef; repeat split; discriminate).
  destruct (f64_ltb _ _); [injection H as <- <-; rewrite Ef; repeat split; discriminate|].
  binv H. destruct x as [q0|]; [|injection H as <- <-; rewrite Ef; repeat split; discriminate].
  binv H. binv H. destruct x0 as [[q1 p1]|]; [|injection H as <- <-; cbn [b_win with_win wn_frames]; repeat split; discriminate].
  binv H. binv H. injection H as <- <-. unfold init_propagator in E2. binv E2. injection E2 as <-.
  cbn [b_win with_pq with_att with_win wn_frames b_status b_dl b_st b_ext length]. repeat split; lia.
Qed.

Lemma init_step_len : forall c o (s s' : bstate T), (Z.of_nat (n_frames s) < 4294967296)%Z -> init_step c o s = Ok s' ->
  b_ext s' = b_ext s /\ b_dl s' = b_dl s /\
  match b_status s' with
  | Initialized => n_frames s' = n_frames s /\ (b_status s = NeedInit -> 2 <= n_frames s)
  | NeedInit => b_status s = NeedInit /\ n_frames s' = Nat.min 1 (n_frames s)
  end.
Proof.
  intros c o s s' Hb H. unfold init_step in H. destruct (b_status s) eqn:Es.
  - binv H. destruct x as [s1 r]. cbn [fst snd] in H. apply initialize_len in E as (E1 & E2 & E3 & _ & E5 & E6).
    destruct r.
    + injection H as <-. cbn [with_status b_status b_ext b_dl]. unfold n_frames in *. cbn [with_status b_win]. auto.
    + binv H. injection H as <-. cbn [with_win b_status b_ext b_dl]. rewrite E2, Es. repeat split; auto.
      unfold n_frames in *. cbn [with_win b_win]. rewrite <- E1. eapply shrink_all_len; [|exact E]. rewrite E1. exact Hb.
  - injection H as <-. rewrite Es. repeat split; auto. discriminate.
Qed.

Lemma update_step_len : forall c o ts (s s' : bstate T), (Z.of_nat (n_frames s) < 4294967296)%Z ->
  (b_status s = Initialized -> 2 <= n_frames s) -> update_step c o ts s = Ok s' ->
  match b_status s' with
  | Initialized => b_status s = Initialized /\
      ((n_frames s' = n_frames s /\ (Z.of_nat (n_frames s) <= vc_maxwin c)%Z) \/
       (n_frames s' = n_frames s - 1 /\ (vc_maxwin c < Z.of_nat (n_frames s))%Z))
  | NeedInit => match b_status s with NeedInit => s' = s | Initialized => n_frames s' = 1 end
  end.
Proof.
  intros c o ts s s' Hb H2 H. unfold update_step in H. destruct (b_status s) eqn:Es; [injection H as <-; rewrite Es; reflexivity|].
  specialize (H2 eq_refl). binv H. destruct x as [[v ok] pol]. apply vision_update_len in E as (E1 & E2 & E3).
  cbn [vs_win vs_ext] in E1, E2, E3. unfold n_frames in *. destruct ok.
  - specialize (E3 eq_refl). binv H. injection H as <-. cbn [with_att with_win b_status b_win]. split; [reflexivity|].
    apply marginalize_len in E; [|lia|lia]. rewrite E, E1. apply decide_policy_cases in E3 as [[-> Hm]|[Hm [->|[-> H3]]]].
    + left. cbn [left_after]. lia.
    + right. cbn [left_after]. lia.
    + right. cbn [left_after]. lia.
  - binv H. injection H as <-. cbn [with_win with_status b_status b_win]. apply shrink_all_len in E; lia.
Qed.

Lemma clean_step_same : forall (s s' : bstate T), clean_step s = Ok s' ->
  n_frames s' = n_frames s /\ b_status s' = b_status s /\ b_win s' = b_win s /\ b_ext s' = b_ext s /\ b_pq s' = b_pq s /\ b_dl s' = b_dl s.
Proof.
  intros s s' H. unfold clean_step in H. destruct (Nat.ltb _ _); [|injection H as <-; auto 10].
  binv H. binv H. injection H as <-. unfold n_frames. cbn. auto 10.
Qed.

(** ** C30 *)
Definition win_ok (c : vcfg T) (s : bstate T) : Prop :=
  n_frames s <= win_bound c /\ (b_status s = Initialized -> 1 <= n_frames s).

Lemma imu_step_win : forall c (s s' : bstate T) m r, imu_step c s m = (s', r) ->
  b_win s' = b_win s /\ b_status s' = b_status s /\ b_dl s' = b_dl s /\ b_st s' = b_st s /\ b_ext s' = b_ext s.
Proof.
  intros c s s' m r H. unfold imu_step in H. destruct (att_propagate _ _ _ _ _) as [a x]. destruct (b_status s) eqn:Es;
    injection H as <- <-; cbn; auto.
Qed.

Lemma feat_step_win : forall c o (s s' : bstate T) m, (0 <= vc_maxwin c < 4294967295)%Z -> win_ok c s ->
  feat_step c o s m = Ok s' ->
  (1 <= n_frames s' <= win_bound c) /\ (b_status s' = NeedInit -> n_frames s' = 1) /\
  (forall w s1, update_window (b_win s) m = Ok w -> init_step c o (with_win s w) = Ok s1 -> b_status s1 = Initialized -> 2 <= n_frames s1).
Proof.
  intros c o s s' m Hm [Hw Hi] H. unfold feat_step in H. binv H. binv H. binv H. rename x into w, x0 into s1, x1 into s2.
  pose proof (update_window_len _ _ _ E) as Lw. unfold win_bound in *.
  assert (N0 : n_frames (with_win s w) = Datatypes.S (n_frames s)) by exact Lw.
  assert (B0 : (Z.of_nat (n_frames (with_win s w)) < 4294967296)%Z) by (rewrite N0; lia).
  pose proof (init_step_len _ _ _ _ B0 E0) as (_ & _ & Hs1).
  assert (N1 : b_status s1 = Initialized -> 2 <= n_frames s1 /\ n_frames s1 = Datatypes.S (n_frames s)).
  { intros e. rewrite e in Hs1. destruct Hs1 as [Ha Hb]. rewrite Ha, N0. split; [|reflexivity].
    destruct (b_status s) eqn:Es; [specialize (Hb Es); lia|]. specialize (Hi eq_refl). lia. }
  assert (B1 : (Z.of_nat (n_frames s1) < 4294967296)%Z).
  { destruct (b_status s1); [destruct Hs1 as [_ Hs1]; rewrite Hs1; lia|destruct (N1 eq_refl); lia]. }
  pose proof (update_step_len c o (fm_ts m) s1 s2 B1 (fun e => proj1 (N1 e)) E1) as Hs2.
  apply clean_step_same in H as (Hc1 & Hc2 & _).
  split; [|split].
  - rewrite Hc1. destruct (b_status s2) eqn:Es2.
    + destruct (b_status s1) eqn:Es1; [subst s2; destruct Hs1 as [_ Hs1]; rewrite Hs1; lia|]. lia.
    + destruct Hs2 as [es Hs2]. destruct (N1 es). lia.
  - rewrite Hc2, Hc1. intros e. rewrite e in Hs2. destruct (b_status s1) eqn:Es1; [|exact Hs2].
    subst s2. destruct Hs1 as [_ Hs1]. rewrite Hs1. lia.
  - intros w' s1' Ew Ei Est. assert (w' = w) by congruence. subst w'. assert (s1' = s1) by congruence. subst s1'. exact (proj1 (N1 Est)).
Qed.

Lemma pop_one_run : forall c o (s : bstate T) p, run_once c o s = Ok p ->
  let l := fst (fst (fst (dl_pop_one (b_dl s)))) in
  exists s1 r, (match cm_imu (snd (fst (fst (dl_pop_one (b_dl s))))) with [] => (with_dl s (b_st s) l, true) | i :: _ => imu_step c (with_dl s (b_st s) l) i end) = (s1, r) /\
   (if snd (fst (dl_pop_one (b_dl s))) then
      match next_feat s with None => p = (s1, r) | Some f => exists s2, feat_step c o s1 f = Ok s2 /\ p = (s2, true) end
    else p = (with_dl s (b_st s) l, false)).
Proof.
  intros c o s p H. unfold run_once in H. unfold next_feat. destruct (dl_pop_one (b_dl s)) as [[[l m] ok] d]. cbn [fst snd].
  destruct (cm_imu m) as [|i r0] eqn:Ei.
  - exists (with_dl s (b_st s) l), true. split; [reflexivity|]. destruct ok; cbn [negb] in H; [|congruence].
    destruct (cm_feat m); [binv H; eexists; split; [eassumption|congruence]|congruence].
  - destruct (imu_step c (with_dl s (b_st s) l) i) as [s1 r] eqn:E1. exists s1, r. split; [reflexivity|].
    destruct ok; cbn [negb] in H; [|congruence].
    destruct (cm_feat m); [binv H; eexists; split; [eassumption|congruence]|congruence].
Qed.

Lemma run_once_win : forall c o (s s' : bstate T) r, (0 <= vc_maxwin c < 4294967295)%Z -> win_ok c s -> run_once c o s = Ok (s', r) ->
  win_ok c s' /\ match next_feat s with
  | Some _ => 1 <= n_frames s' /\ (b_status s' = NeedInit -> n_frames s' = 1)
  | None => n_frames s' = n_frames s /\ b_status s' = b_status s
  end.
Proof.
  intros c o s s' r Hm Hw H. apply pop_one_run in H as (s1 & r1 & E1 & H). cbn zeta in E1.
  set (l := fst (fst (fst (dl_pop_one (b_dl s))))) in *.
  assert (W1 : b_win s1 = b_win s /\ b_status s1 = b_status s).
  { destruct (cm_imu _) as [|i x]; [injection E1 as <- <-; auto|]. apply imu_step_win in E1 as (-> & -> & _). auto. }
  destruct W1 as [W1 W2].
  assert (Hw1 : win_ok c s1) by (unfold win_ok, n_frames in *; rewrite W1, W2; exact Hw).
  unfold next_feat in *.
  destruct (snd (fst (dl_pop_one (b_dl s)))) eqn:Eok.
  - destruct (cm_feat _) as [f|] eqn:Ef.
    + destruct H as (s2 & E2 & H). injection H as -> ->. pose proof (feat_step_win c o s1 s2 f Hm Hw1 E2) as (A & B & _).
      split; [split; [lia|intros _; lia]|split; [lia|exact B]].
    + injection H as -> ->. split; [exact Hw1|]. unfold n_frames. rewrite W1, W2. auto.
  - injection H as -> ->. assert (Ef : cm_feat (snd (fst (fst (dl_pop_one (b_dl s))))) = None).
    { unfold dl_pop_one in *. destruct (dl_imu (b_dl s)), (dl_feat (b_dl s)); cbn in *; try discriminate; try reflexivity.
      destruct (f64_leb _ _); [destruct (f64_ltb _ _)|]; cbn in *; discriminate. }
    rewrite Ef. split; [exact Hw|]. split; reflexivity.
Qed.

Lemma b_step_win : forall c (s s' : bstate T) op, (0 <= vc_maxwin c < 4294967295)%Z -> win_ok c s -> b_step c s op = Ok s' -> win_ok c s'.
Proof.
  intros c s s' op Hm Hw H. destruct op as [m|m|o| |]; cbn [b_step] in H.
  - injection H as <-. unfold b_imu. destruct (dl_push_imu (b_st s) (b_dl s) m) as [[[st l] m'] r]. exact Hw.
  - injection H as <-. unfold b_feat. destruct (dl_push_feat (b_st s) (b_dl s) m) as [[[st l] m'] r]. exact Hw.
  - binv H. destruct x as [s1 r]. injection H as <-. exact (proj1 (run_once_win _ _ _ _ _ Hm Hw E)).
  - injection H as <-. unfold run_once_test. destruct (dl_pop_one (b_dl s)) as [[[l m] ok] d]. exact Hw.
  - injection H as <-. destruct Hw as [A B]. split; [exact A|discriminate].
Qed.
Lemma b_hist_win : forall c ops (s s' : bstate T), (0 <= vc_maxwin c < 4294967295)%Z -> win_ok c s -> b_hist c s ops = Ok s' -> win_ok c s'.
Proof.
  intros c ops. induction ops as [|op r IH]; intros s s' Hm Hw H; cbn [b_hist] in H; [injection H as <-; exact Hw|].
  binv H. eapply IH; [exact Hm| |exact H]. eapply b_step_win; eassumption.
Qed.
Lemma fresh_win : forall c (s : bstate T), fresh s -> win_ok c s.
Proof. intros c s (st & per & ex & ba & bg & na & ng & nwa & nwg & ->). split; [cbn; lia|discriminate]. Qed.

Theorem window_bounded : forall c ops (s0 s : bstate T), (0 <= vc_maxwin c < 4294967295)%Z -> fresh s0 -> b_hist c s0 ops = Ok s ->
  n_frames s <= win_bound c /\ (b_status s = Initialized -> 1 <= n_frames s) /\
  forall o s' r, run_once c o s = Ok (s', r) ->
    n_frames s' <= win_bound c /\
    match next_feat s with
    | Some _ => 1 <= n_frames s' /\ (b_status s' = NeedInit -> n_frames s' = 1)
    | None => n_frames s' = n_frames s /\ b_status s' = b_status s
    end.
Proof.
  intros c ops s0 s Hm Hf H. pose proof (b_hist_win c ops s0 s Hm (fresh_win c s0 Hf) H) as Hw. split; [exact (proj1 Hw)|].
  split; [exact (proj2 Hw)|]. intros o s' r Hr. pose proof (run_once_win c o s s' r Hm Hw Hr) as [A B]. split; [exact (proj1 A)|exact B].
Qed.
Lemma feat_step_grows : forall c o (s s' : bstate T) m, (0 <= vc_maxwin c < 4294967295)%Z -> win_ok c s -> feat_step c o s m = Ok s' ->
  b_status s' = Initialized -> n_frames s' = if (Z.of_nat (n_frames s) <? vc_maxwin c)%Z then n_frames s + 1 else n_frames s.
Proof.
  intros c o s s' m Hm [Hw Hi] H Hst. unfold feat_step in H. binv H. binv H. binv H. rename x into w, x0 into s1, x1 into s2.
  pose proof (update_window_len _ _ _ E) as Lw. unfold win_bound in *.
  assert (N0 : n_frames (with_win s w) = Datatypes.S (n_frames s)) by exact Lw.
  assert (B0 : (Z.of_nat (n_frames (with_win s w)) < 4294967296)%Z) by (rewrite N0; lia).
  pose proof (init_step_len _ _ _ _ B0 E0) as (_ & _ & Hs1). apply clean_step_same in H as (Hc1 & Hc2 & _). rewrite Hc2 in Hst. rewrite Hc1.
  destruct (b_status s1) eqn:Es1; [unfold update_step in E1; rewrite Es1 in E1; injection E1 as <-; congruence|]. destruct Hs1 as [N1 N2].
  assert (H2 : 2 <= n_frames s1) by (rewrite N1, N0; destruct (b_status s) eqn:Es; [specialize (N2 Es); lia|specialize (Hi eq_refl); lia]).
  assert (B1 : (Z.of_nat (n_frames s1) < 4294967296)%Z) by lia.
  pose proof (update_step_len c o (fm_ts m) s1 s2 B1 (fun _ => H2) E1) as Hs2. rewrite Hst in Hs2. destruct Hs2 as [_ Hs2].
  destruct (Z.ltb_spec (Z.of_nat (n_frames s)) (vc_maxwin c)); lia.
Qed.
(** No frame is dropped before the window is full. *)
Theorem window_grows : forall c ops (s0 s : bstate T), (0 <= vc_maxwin c < 4294967295)%Z -> fresh s0 -> b_hist c s0 ops = Ok s ->
  forall o s' r f, run_once c o s = Ok (s', r) -> next_feat s = Some f -> b_status s' = Initialized ->
  n_frames s' = if (Z.of_nat (n_frames s) <? vc_maxwin c)%Z then n_frames s + 1 else n_frames s.
Proof.
  intros c ops s0 s Hm Hf H o s' r f Hr Hn Hst. pose proof (b_hist_win c ops s0 s Hm (fresh_win c s0 Hf) H) as Hw.
  apply pop_one_run in Hr as (s1 & r1 & E1 & Hr). cbn zeta in E1.
  assert (K : b_win s1 = b_win s /\ b_status s1 = b_status s).
  { destruct (cm_imu _) as [|i x]; [injection E1 as <- <-; auto|]. apply imu_step_win in E1 as (W1 & W2 & _). auto. }
  destruct K as [K1 K2]. rewrite Hn in Hr. unfold next_feat in Hn.
  destruct (snd (fst (dl_pop_one (b_dl s)))) eqn:Eok.
  - destruct Hr as (s2 & Es & e). injection e as -> ->. assert (Hw1 : win_ok c s1) by (unfold win_ok, n_frames in *; rewrite K1, K2; exact Hw).
    pose proof (feat_step_grows c o s1 s2 f Hm Hw1 Es Hst) as G. unfold n_frames in *. rewrite K1 in G. exact G.
  - exfalso. unfold dl_pop_one in *. destruct (dl_imu (b_dl s)), (dl_feat (b_dl s)); cbn in *; try discriminate.
    destruct (f64_leb _ _); [destruct (f64_ltb _ _)|]; cbn in *; discriminate.
Qed.

Theorem update_two_frames : forall c ops (s0 s : bstate T), (0 <= vc_maxwin c < 4294967295)%Z -> fresh s0 -> b_hist c s0 ops = Ok s ->
  forall o s' f w s1, feat_step c o s f = Ok s' -> update_window (b_win s) f = Ok w -> init_step c o (with_win s w) = Ok s1 ->
  b_status s1 = Initialized -> 2 <= n_frames s1.
Proof.
  intros c ops s0 s Hm Hf H o s' f w s1 Hs. pose proof (b_hist_win c ops s0 s Hm (fresh_win c s0 Hf) H) as Hw.
  exact (proj2 (proj2 (feat_step_win c o s s' f Hm Hw Hs)) w s1).
Qed.

(** ** C36 *)
Theorem run_once_result : forall c o (s s' : bstate T) r, run_once c o s = Ok (s', r) ->
  r = match dl_imu (b_dl s), dl_feat (b_dl s) with
      | [], [] => false
      | imu :: _, [] => match b_status s with
          | Initialized => true
          | NeedInit => snd (att_propagate (vc_grav c) (b_att s) (im_accel imu) (im_gyro imu) (im_ts imu)) end
      | [], _ :: _ => true
      | imu :: _, feat :: _ =>
          if f64_leb (fm_ts feat) (im_ts imu) then true
          else match b_status s with
          | Initialized => true
          | NeedInit => snd (att_propagate (vc_grav c) (b_att s) (im_accel imu) (im_gyro imu) (im_ts imu)) end
      end.
Proof.
  intros c o s s' r H. apply pop_one_run in H as (s1 & r1 & E1 & H). cbn zeta in E1. unfold next_feat in H.
  assert (Im : forall l i, imu_step c (with_dl s (b_st s) l) i = (s1, r1) -> r1 = match b_status s with
          | Initialized => true
          | NeedInit => snd (att_propagate (vc_grav c) (b_att s) (im_accel i) (im_gyro i) (im_ts i)) end).
  { intros l i Hi. unfold imu_step in Hi. cbn [with_dl b_att b_status] in Hi. destruct (att_propagate _ _ _ _ _) as [a x].
    destruct (b_status s); injection Hi as _ <-; reflexivity. }
  unfold dl_pop_one in *. destruct (dl_imu (b_dl s)) as [|i is], (dl_feat (b_dl s)) as [|f fs]; cbn [fst snd cm_imu cm_feat comb_empty] in *.
  - congruence.
  - destruct H as (s2 & _ & H). congruence.
  - injection H as -> ->. eauto.
  - destruct (f64_leb _ _); [destruct (f64_ltb _ _)|]; cbn [fst snd cm_imu cm_feat] in *.
    + destruct H as (s2 & _ & H). congruence.
    + destruct H as (s2 & _ & H). congruence.
    + injection H as -> ->. eauto.
Qed.

(** A call that processes a features message returns true, whatever happens. *)
Theorem features_true : forall c o (s s' : bstate T) r f, run_once c o s = Ok (s', r) -> next_feat s = Some f -> r = true.
Proof.
  intros c o s s' r f H Hn. rewrite (run_once_result c o s s' r H). unfold next_feat, dl_pop_one in Hn.
  destruct (dl_imu (b_dl s)) as [|i is], (dl_feat (b_dl s)) as [|f0 fs]; cbn in Hn; try discriminate; [reflexivity|].
  destruct (f64_leb _ _); [reflexivity|discriminate].
Qed.

(** ** C35 *)
Lemma pq_propagate_items : forall grav n (q : pqueue T) a g t, exists it,
  pq_items (pq_propagate grav n q a g t) = pq_items q ++ [it] /\ meas it = (a, g, t) /\
  pq_init (pq_propagate grav n q a g t) = pq_init q /\ pq_ba (pq_propagate grav n q a g t) = pq_ba q /\ pq_bg (pq_propagate grav n q a g t) = pq_bg q /\
  (pq_items q = [] -> pi_mo it = pq_init q).
Proof.
  intros grav n q a g t. unfold pq_propagate, prop_item, nominal_step. destruct (back (pq_items q)) as [it0|] eqn:E.
  - eexists. cbn. repeat split. intros e. rewrite e in E. discriminate.
  - eexists. cbn. repeat split.
Qed.
Lemma replay_items : forall grav n (l : list (att_item T)) (q : pqueue T), exists l',
  pq_items (replay grav n q l) = pq_items q ++ l' /\ map meas l' = map (fun i => (ai_a i, ai_g i, ai_ts i)) l /\
  pq_ba (replay grav n q l) = pq_ba q /\ pq_bg (replay grav n q l) = pq_bg q /\
  (pq_items q = [] -> forall x r, l' = x :: r -> pi_mo x = pq_init q).
Proof.
  intros grav n l. unfold replay. induction l as [|i r IH]; intros q.
  - exists []. cbn. rewrite app_nil_r. repeat split. discriminate.
  - cbn [fold_left]. destruct (pq_propagate_items grav n q (ai_a i) (ai_g i) (ai_ts i)) as (it & A1 & A2 & A3 & A3b & A3c & A4).
    destruct (IH (pq_propagate grav n q (ai_a i) (ai_g i) (ai_ts i))) as (l' & B1 & B2 & B2b & B2c & B3). exists (it :: l').
    rewrite B1, A1, <- app_assoc. cbn [app map]. rewrite A2, B2, B2b, B2c. repeat split; auto.
    intros e x r' E. injection E as -> ->. auto.
Qed.

Theorem initial_state : forall c o (s s' : bstate T), initialize c o s = Ok (s', true) ->
  exists f0 fs, wn_frames (b_win s') = f0 :: fs /\
  match pq_items (b_pq s) with
  | [] => exists it r, pq_items (b_pq s') = it :: r /\ pi_mo it = Motion (fr_p f0) (fr_v f0) (fr_q f0)
  | it :: _ => exists r, pq_items (b_pq s') = it :: r
  end.
Proof.
  intros c o s s' H. unfold initialize in H. destruct (wn_frames (b_win s)) as [|fi [|fj rest]] eqn:Ef; try discriminate.
  destruct (f64_ltb _ _); [discriminate|]. binv H. destruct x as [q0|]; [|discriminate].
  binv H. binv H. destruct x0 as [[q1 p1]|]; [|discriminate].
  binv H. binv H. injection H as <-. unfold init_propagator in E2. binv E2. injection E2 as <-.
  cbn [b_win with_pq with_att with_win wn_frames b_pq] in *. eexists _, _. split; [reflexivity|].
  match goal with |- context [replay ?g ?n ?q ?l] => destruct (replay_items g n l q) as (l' & R1 & R2 & _ & _ & R3) end.
  cbn [with_init pq_items b_pq with_att with_win] in *. rewrite R1 in E3 |- *. destruct (pq_items (b_pq s)) as [|it r].
  - cbn [app] in *. destruct l' as [|it r]; [discriminate|]. exists it, r. split; [reflexivity|]. rewrite (R3 eq_refl it r eq_refl). reflexivity.
  - eexists. reflexivity.
Qed.
End Back.
