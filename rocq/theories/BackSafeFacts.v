(** Every call of the back end is free of undefined behaviour under the front-end contract. *)
From Coq Require Import ZArith List Bool Lia Arith.
From stdpp Require Import gmap list.
From Verif Require Import Fp FpFacts Scalar Base LinAlg Msg DataLoader FeatureManager FrameManager Window MathLib Attitude Propagator
  Triangulate Pnp VisionUpdate Backend LoaderSpec WindowSpec QueueSpec UpdSpec BackendSpec LoaderFacts AttitudeFacts FrameFacts FeatureFacts
  WindowFacts UpdCovFacts MeasFacts SelectFacts BackLenFacts SafeFacts NarrowFacts BackDimFacts.
Import ListNotations.
Local Open Scope nat_scope.

Section BackSafe.
Context {T : Type} {S : SOps T}.

Lemma nltb_leb : forall x y, f64_isnan x = false -> f64_isnan y = false -> f64_ltb x y = false -> f64_leb y x = true.
Proof. intros x y Nx Ny H. apply f64_ltb_false_iff in H; [|assumption|assumption]. apply f64_leb_iff. auto. Qed.

(** ** Attitude queue against propagation queue *)
Definition att_inv (s : bstate T) : Prop :=
  time_sorted (map ai_ts (at_items (b_att s))) /\
  (at_items (b_att s) = [] -> b_status s = NeedInit /\ pq_items (b_pq s) = []) /\
  (forall x, back (at_items (b_att s)) = Ok x -> forall t, In t (map pi_ts (pq_items (b_pq s))) -> f64_leb t (ai_ts x) = true).

Lemma att_clean_inv : forall (st : att T) t thr a, att_clean st t thr = Ok a ->
  (exists pre, at_items st = pre ++ at_items a) /\ (at_items st <> [] -> at_items a <> []) /\
  at_ba a = at_ba st /\ at_bg a = at_bg st /\ at_err a = at_err st.
Proof.
  intros st t thr a H. unfold att_clean in H. destruct (at_items st) as [|i l] eqn:E.
  - injection H as <-. rewrite E. split; [exists []; reflexivity|]. auto.
  - binv H. injection H as <-. cbn [at_items at_ba at_bg at_err].
    destruct (clean_loop_spec t thr (i :: l)) as [[_ G]|(l' & G & Hn & pre & D & _)]; [congruence|]. assert (l' = x) by congruence. subst l'.
    split; [exists pre; exact D|]. auto.
Qed.
Lemma back_suffix : forall (A : Type) (pre l : list A), l <> [] -> back (pre ++ l) = back l.
Proof.
  intros A pre l H. destruct (exists_last H) as (a & y & ->). rewrite app_assoc, !back_snoc. reflexivity.
Qed.
Lemma att_clean_ok : forall (st : att T) t thr x, In x (at_items st) -> f32_ltb thr (f64_to_f32 (f64_sub t (ai_ts x))) = false ->
  exists a, att_clean st t thr = Ok a.
Proof.
  intros st t thr x Hx Hf. destruct (clean_old_exact st t thr) as [_ C2]. destruct C2 as (l & E & _); [|eauto].
  intros [_ F]. rewrite List.Forall_forall in F. specialize (F x Hx). unfold older32 in F. congruence.
Qed.

Lemma sorted_back : forall (l : list (att_item T)) x t, time_sorted (map ai_ts l) -> back l = Ok x -> In t (map ai_ts l) -> f64_leb t (ai_ts x) = true.
Proof.
  intros l x t H Hb Ht. destruct (back_cases _ l) as [[-> _]|(l' & y & -> & E)]; [destruct Ht|]. rewrite E in Hb. injection Hb as ->.
  rewrite map_app in *. cbn [map] in *. apply sorted_app in H as (_ & H2 & H3). apply in_app_or in Ht as [Ht|[<-|[]]]; [apply H3; [exact Ht|left; reflexivity]|].
  destruct H2 as [H2 _]. apply f64_leb_refl. exact H2.
Qed.
Lemma suffix_sorted : forall (pre l : list (att_item T)), time_sorted (map ai_ts (pre ++ l)) -> time_sorted (map ai_ts l).
Proof. intros pre l H. rewrite map_app in H. apply sorted_app in H. tauto. Qed.

Lemma att_inv_imu : forall c (s s' : bstate T) m r, f64_isnan (im_ts m) = false -> att_inv s -> imu_step c s m = (s', r) -> att_inv s'.
Proof.
  intros c s s' m r Hn (H1 & H2 & H3) H. unfold imu_step in H.
  pose proof (att_propagate_sorted (vc_grav c) (b_att s) (im_accel m) (im_gyro m) (im_ts m) Hn H1) as Hs.
  pose proof (att_propagate_rule (vc_grav c) (b_att s) (im_accel m) (im_gyro m) (im_ts m)) as Hr.
  destruct (att_propagate (vc_grav c) (b_att s) (im_accel m) (im_gyro m) (im_ts m)) as [a rr]. cbn [fst] in Hs.
  assert (K : (at_items (b_att s) = [] /\ (a = b_att s \/ at_items a <> [])) \/
    exists b, back (at_items (b_att s)) = Ok b /\
    ((f64_ltb (im_ts m) (ai_ts b) = true /\ a = b_att s) \/
     (f64_ltb (im_ts m) (ai_ts b) = false /\ exists x, at_items a = at_items (b_att s) ++ [x] /\ ai_ts x = im_ts m))).
  { destruct (back_cases _ (at_items (b_att s))) as [[E _]|(l' & b & E & Eb)].
    - left. split; [exact E|]. rewrite E in Hr. cbn [rev] in Hr. destruct (sgt64 _ _); [left; congruence|right]. destruct Hr as (q & Hr). injection Hr as -> _. discriminate.
    - right. exists b. split; [exact Eb|]. rewrite E, rev_app_distr in Hr. cbn [rev app] in Hr. rewrite <- E in Hr. destruct (f64_ltb _ _).
      + left. split; [reflexivity|congruence].
      + right. split; [reflexivity|]. destruct Hr as (q & e & Hr). injection Hr as -> _. cbn [at_items]. eexists. split; [reflexivity|reflexivity]. }
  clear Hr. destruct K as [[E K]|(b & Eb & K)].
  - destruct (H2 E) as [S1 S2]. rewrite S1 in H. injection H as <- <-. unfold att_inv. cbn [with_att b_att b_status b_pq]. split; [exact Hs|].
    split; [auto|]. rewrite S2. intros x _ t [].
  - assert (Hpq : forall t, In t (map pi_ts (pq_items (b_pq s'))) -> In t (map pi_ts (pq_items (b_pq s))) \/ t = im_ts m).
    { destruct (b_status s); injection H as <- <-; cbn; [auto|]. intros t.
      destruct (pq_propagate_items (vc_grav c) (length (b_ext s)) (b_pq s) (im_accel m) (im_gyro m) (im_ts m)) as (it & -> & Hm & _).
      rewrite map_app. intros Ht. apply in_app_or in Ht as [Ht|[<-|[]]]; [auto|]. right. unfold meas in Hm. congruence. }
    assert (Ha : b_att s' = a) by (destruct (b_status s); injection H as <- <-; reflexivity).
    unfold att_inv. rewrite Ha. split; [exact Hs|].
    assert (Hne : at_items (b_att s) <> []) by (intros e; rewrite e in Eb; discriminate).
    assert (Nb : f64_isnan (ai_ts b) = false).
    { apply (sorted_notnan (map ai_ts (at_items (b_att s)))); [exact H1|]. apply in_map. destruct (back_cases _ (at_items (b_att s))) as [[e _]|(l' & y & e & E)];
        [destruct (Hne e)|]. rewrite e. apply in_or_app. right. left. congruence. }
    destruct K as [[L ->]|[L (x & Ex & Hx)]].
    + split; [intros e; destruct (Hne e)|]. intros y Ey t Ht. assert (y = b) by congruence. subst y.
      destruct (Hpq t Ht) as [Ht'| ->]; [exact (H3 b Eb t Ht')|]. apply f64_ltb_leb. exact L.
    + rewrite Ex. split; [intros e; destruct (at_items (b_att s)); discriminate|]. intros y Ey t Ht. rewrite back_snoc in Ey. injection Ey as <-. rewrite Hx.
      destruct (Hpq t Ht) as [Ht'| ->]; [|apply f64_leb_refl; exact Hn]. eapply f64_leb_trans; [exact (H3 b Eb t Ht')|]. apply nltb_leb; assumption.
Qed.

Lemma att_inv_clean : forall (s s' : bstate T), att_inv s -> b_status s' = b_status s -> b_pq s' = b_pq s ->
  (exists pre, at_items (b_att s) = pre ++ at_items (b_att s')) -> (at_items (b_att s) <> [] -> at_items (b_att s') <> []) -> att_inv s'.
Proof.
  intros s s' (H1 & H2 & H3) e1 e2 (pre & Hp) Hn. unfold att_inv. rewrite e1, e2. split; [|split].
  - rewrite Hp in H1. exact (suffix_sorted _ _ H1).
  - intros E. destruct (at_items (b_att s)) as [|i l] eqn:Ei; [auto|]. destruct (Hn ltac:(discriminate) E).
  - intros x Hx t Ht. apply (H3 x); [|exact Ht]. rewrite Hp, back_suffix; [exact Hx|]. intros e. rewrite e in Hx. discriminate.
Qed.

Lemma replay_times : forall grav n (l : list (att_item T)) (q : pqueue T), map pi_ts (pq_items (replay grav n q l)) = map pi_ts (pq_items q) ++ map ai_ts l.
Proof.
  intros grav n l q. destruct (replay_items grav n l q) as (l' & -> & Hm & _). rewrite map_app. f_equal.
  apply (f_equal (map (fun x : v3 T * v3 T * f64 => snd x))) in Hm. rewrite !map_map in Hm. exact Hm.
Qed.
Lemma att_inv_init : forall c o (s s' : bstate T), att_inv s -> init_step c o s = Ok s' -> att_inv s'.
Proof.
  intros c o s s' HA H. unfold init_step in H. destruct (b_status s) eqn:Es; [|injection H as <-; exact HA].
  binv H. destruct x as [s1 r]. cbn [fst snd] in H. pose proof (initialize_pq _ _ _ _ _ E) as Hi. pose proof (initialize_len _ _ _ _ _ E) as (_ & J & _).
  destruct r.
  - injection H as <-. destruct Hi as (fi & rest & a & m & _ & Hc & <- & Hq & Hne). destruct HA as (H1 & H2 & H3).
    destruct (att_clean_inv _ _ _ _ Hc) as ((pre & Hp) & Hn & _).
    assert (Ht : map pi_ts (pq_items (b_pq s1)) = map pi_ts (pq_items (b_pq s)) ++ map ai_ts (at_items (b_att s1))).
    { rewrite Hq. rewrite replay_times. reflexivity. }
    assert (N1 : at_items (b_att s) <> []).
    { intros e. destruct (H2 e) as [_ e2]. rewrite e2 in Ht. assert (e3 : at_items (b_att s1) = []).
      { rewrite e in Hp. symmetry in Hp. apply app_eq_nil in Hp. tauto. } rewrite e3 in Ht. cbn in Ht. apply map_eq_nil in Ht. destruct (Hne Ht). }
    unfold att_inv. cbn [with_status b_att b_status b_pq]. rewrite Hp in H1. pose proof (suffix_sorted _ _ H1) as H1'. split; [exact H1'|].
    split; [intros e; destruct (Hn N1 e)|]. intros x Hx t. rewrite Ht. intros Hin. apply in_app_or in Hin as [Hin|Hin].
    + apply (H3 x); [|exact Hin]. rewrite Hp, back_suffix by exact (Hn N1). exact Hx.
    + eapply sorted_back; eassumption.
  - binv H. injection H as <-. destruct Hi as [e1 e2]. unfold att_inv in *. cbn [with_win b_att b_status b_pq]. rewrite e1, e2, J. exact HA.
Qed.
Lemma att_inv_update : forall c o ts (s s' : bstate T) n, 2 <= n_frames s -> (Z.of_nat (n_frames s) < 4294967296)%Z -> PQ n (b_pq s) ->
  att_inv s -> update_step c o ts s = Ok s' -> att_inv s'.
Proof.
  intros c o ts s s' n H2 Hb HP HA H. destruct (b_status s) eqn:Es; [unfold update_step in H; rewrite Es in H; injection H as <-; exact HA|].
  destruct (update_step_inv c o ts s s' n Es H2 Hb HP H) as (U1 & _ & _ & _ & (pre & U5) & _). destruct HA as (H1 & H3 & H4).
  unfold att_inv. rewrite U1. split; [exact H1|]. split; [intros e; destruct (H3 e) as [e1 _]; congruence|].
  intros x Hx t Ht. apply (H4 x Hx). rewrite U5. apply in_or_app. right. exact Ht.
Qed.
Lemma att_inv_clean_step : forall (s s' : bstate T), att_inv s -> clean_step s = Ok s' -> att_inv s'.
Proof.
  intros s s' HA H. pose proof (clean_step_same _ _ H) as (_ & C2 & _ & _ & C5 & _). unfold clean_step in H.
  destruct (Nat.ltb _ _); [|injection H as <-; exact HA]. binv H. binv H. injection H as <-. destruct (att_clean_inv _ _ _ _ E0) as (A1 & A2 & _).
  eapply att_inv_clean; [exact HA|reflexivity|reflexivity|exact A1|exact A2].
Qed.

(** ** Window side of one features message *)
Definition win_side (ne : nat) (b : Z) (A : list (feat_msg T)) (w : window T) : Prop :=
  WInv b A w /\ nums_ok w /\ List.Forall (fun m => List.Forall (cam_ok ne) (fm_obs m)) A /\ (b + Z.of_nat (length A) < 4294967296)%Z.

Lemma win_side_same : forall ne b A w w', win_side ne b A w -> same_win w w' -> win_side ne b A w'.
Proof.
  intros ne b A w w' (H1 & H2 & H3 & H4) Hs. split; [eapply winv_same; eassumption|]. split; [|auto].
  eapply nums_same; [exact (wi_filed _ _ _ H1)|exact H2|exact Hs].
Qed.
Lemma win_ids : forall ne b A w f, win_side ne b A w -> In f (wn_frames w) -> (0 <= fr_id f < 4294967296)%Z.
Proof.
  intros ne b A w f (H1 & _ & _ & H4) Hf. apply In_nth_error in Hf as [i Hi]. rewrite (wi_ids _ _ _ H1 i f Hi). pose proof (wi_b _ _ _ H1).
  assert (i < length (wn_frames w)) by (apply nth_error_Some; congruence). rewrite (wi_len _ _ _ H1) in *. lia.
Qed.
Lemma win_side_marg : forall ne b A w ord p, valid_order ord -> win_side ne b A w -> marg_ok A (WMarg p) ->
  exists w' b', marginalize ord w p = Ok w' /\ win_side ne b' (a_step A (WMarg p)) w' /\
    (b' + Z.of_nat (length (a_step A (WMarg p))) <= b + Z.of_nat (length A))%Z.
Proof.
  intros ne b A w ord p Ho HW Hm. pose proof HW as (H1 & H2 & H3 & H4).
  destruct (marginalize_inv ord b A w p Ho H1 H4 Hm) as (w' & b' & E & I & L & _). exists w', b'. split; [exact E|]. split; [|exact L].
  split; [exact I|]. split; [|split; [|lia]].
  - eapply nums_marg; [exact Ho|exact (wi_filed _ _ _ H1)| |exact H2|exact E]. intros f Hf. eapply win_ids; eassumption.
  - apply List.Forall_forall. intros m Hin. rewrite List.Forall_forall in H3. apply H3. apply elem_of_list_In. 
    eapply elem_of_submseteq; [apply elem_of_list_In; exact Hin|]. apply sublist_submseteq. apply a_step_sublist.
Qed.
Lemma win_side_shrink : forall ne ord fuel k b A w, (forall i, valid_order (ord i)) -> win_side ne b A w ->
  exists w' b' A', shrink fuel ord k w = Ok w' /\ win_side ne b' A' w' /\ A' `sublist_of` A /\ (b' + Z.of_nat (length A') <= b + Z.of_nat (length A))%Z.
Proof.
  intros ne ord. induction fuel as [|n IH]; intros k b A w Ho HW; cbn [shrink]; destruct (Nat.ltb_spec 1 (length (wn_frames w))) as [L|L];
    try (exists w, b, A; split; [reflexivity|]; split; [exact HW|]; split; [reflexivity|lia]).
  destruct (win_side_marg ne b A w (ord k) MargOldest (Ho k) HW) as (w1 & b1 & -> & HW1 & L1).
  { cbn. rewrite (wi_len _ _ _ (proj1 HW)) in L. lia. }
  cbn [obind]. destruct (IH (Datatypes.S k) b1 _ w1 Ho HW1) as (w2 & b2 & A2 & -> & HW2 & S2 & L2). exists w2, b2, A2. split; [reflexivity|].
  split; [exact HW2|]. split; [etransitivity; [exact S2|apply (a_step_sublist A MargOldest)]|lia].
Qed.

(** ** Initialization *)
Lemma tri_loop_ok : forall (o : voracle T) exts f l (h : heap T) (D : nat -> Prop), valid_norder (vo_nord o) ->
  let G := fun ft : feature T => exists ob, at_ (ft_obs ft) (Z.to_nat (u32 (fr_id f - ft_first ft))) = Ok ob /\ cam_ok (length exts) ob in
  live D G h -> List.Forall (fun kp => D (snd kp)) l -> exists h', tri_loop o exts f l h = Ok h' /\ same_heap h h'.
Proof.
  intros o exts f l h D Hn G. revert h. induction l as [|[id p] r IH]; intros h L HD; cbn [tri_loop]; [exists h; split; [reflexivity|apply same_heap_refl]|].
  inversion HD as [|? ? Hp Hr]; subst. cbn [snd] in Hp. destruct (L p Hp) as (ft & Ef & ob & Eo & Hc).
  unfold tri_one. rewrite (hget_ok h p ft Ef). cbn [obind]. rewrite Eo. cbn [obind].
  destruct (cam_views_ok exts (fr_q f) (fr_p f) (vo_nord o ob)) as (vs & -> & _).
  { apply List.Forall_forall. intros [c z] Hin. cbn [fst]. apply (Hc c z). apply (proj1 (elem_of_map_to_list (M := gmap Z) (ob : gmap Z (v2 T)) c z)). rewrite <- (Hn ob). apply elem_of_list_In. exact Hin. }
  cbn [obind]. destruct (solve_feature_ok (vo_svd o) ft vs) as (g & b & -> & Sg & _). cbn [obind fst].
  assert (Sh : same_heap h (hset h p g)) by (eapply same_heap_set; eassumption).
  destruct (IH (hset h p g)) as (h' & E & S'); [|exact Hr|exists h'; split; [exact E|eapply same_heap_trans; eassumption]].
  eapply live_same; [|exact Sh|exact L]. intros a b' (ob' & A1 & A2) (_ & e1 & e2 & _). exists ob'. rewrite e1, e2. auto.
Qed.
Lemma pose_points_ok : forall (h : heap T) f ne l (D : nat -> Prop), live D (fun ft => List.Forall (cam_ok ne) (ft_obs ft)) h ->
  List.Forall (fun kp : Z * nat => D (snd kp)) l -> exists pts, pose_points h f l = Ok pts /\ (pts <> [] -> 1 <= ne).
Proof.
  intros h f ne l D L HD. induction HD as [|[id p] r Hp Hr IH]; cbn [pose_points]; [exists []; split; [reflexivity|intros e; destruct (e eq_refl)]|].
  cbn [snd] in Hp. destruct (L p Hp) as (ft & Ef & Hc). rewrite (hget_ok h p ft Ef). cbn [obind]. destruct IH as (pts & -> & Hpts). cbn [obind].
  destruct (ft_status ft); try (eexists; split; [reflexivity|exact Hpts]).
  destruct (get_norm ft (fr_id f) 0) as [z|] eqn:Ez; [|eexists; split; [reflexivity|exact Hpts]]. eexists. split; [reflexivity|]. intros _.
  unfold get_norm in Ez. destruct (_ <? _)%Z; [|discriminate]. destruct (nth_error _ _) as [ob|] eqn:Eo; [|discriminate].
  rewrite List.Forall_forall in Hc. specialize (Hc ob (nth_error_In _ _ Eo)). unfold observe_get in Ez. specialize (Hc 0%Z z Ez). lia.
Qed.

Lemma with_pose_same : forall (f : frame T) q p v, same_frame f (with_pose f q p v).
Proof. intros. repeat split. Qed.

Lemma initialize_safe : forall c o b A (s : bstate T), oracle_ok o -> win_side (length (b_ext s)) b A (b_win s) ->
  exists s' r, initialize c o s = Ok (s', r) /\ same_win (b_win s) (b_win s').
Proof.
  intros c o b A s (_ & _ & _ & O1 & O2 & O3 & _) HW. pose proof HW as (I & N & HA & HL). set (ne := length (b_ext s)) in *.
  unfold initialize. destruct (wn_frames (b_win s)) as [|fi [|fj rest]] eqn:Ef; try (exists s, false; split; [reflexivity|apply same_win_refl]).
  destruct (f64_ltb _ _); [exists s, false; split; [reflexivity|apply same_win_refl]|].
  destruct (get_attitude_nearest (b_att s) (fr_ts fi) (f64_mul (dl_period (b_dl s)) f64_0_55)) as (aq & -> & Hq). cbn [obind].
  destruct aq as [q0|]; [|exists s, false; split; [reflexivity|apply same_win_refl]].
  destruct (Hq q0 eq_refl) as (it & Hit & _ & Hnear & _). clear Hq.
  assert (HM : forall f id p, In f (wn_frames (b_win s)) -> fr_feats f !! id = Some p -> exists ft, hp_cells (wn_heap (b_win s)) !! p = Some ft /\
    win_managed (b_win s) id = Some ft /\ tgood ne b (length A) ft).
  { intros f id p Hf Hp. pose proof (winv_links b A _ f id p I Hf Hp) as Hm. destruct (wi_filed _ _ _ I id p Hm) as (_ & ft & E & _).
    assert (M : win_managed (b_win s) id = Some ft) by (unfold win_managed, managed; rewrite Hm; exact E).
    exists ft. split; [exact E|]. split; [exact M|]. eapply winv_tgood; eassumption. }
  set (fi1 := with_pose fi q0 v3zero (fr_v fi)).
  destruct (tri_loop_ok (bo_init o) (b_ext s) fi1 (vo_ord (bo_init o) (fr_feats fi1)) (wn_heap (b_win s)) (fun p => exists id, fr_feats fi !! id = Some p) O2) as (h & E1 & Sh).
  { intros p (id & Hp). destruct (HM fi id p) as (ft & E & M & G); [rewrite Ef; left; reflexivity|exact Hp|]. exists ft. split; [exact E|].
    assert (Li : nth_error (wn_frames (b_win s)) 0 = Some fi) by (rewrite Ef; reflexivity).
    assert (La : 0 < length A) by (rewrite <- (wi_len _ _ _ I), Ef; cbn; lia).
    destruct (nth_error A 0) as [m0|] eqn:Em; [|apply nth_error_None in Em; lia].
    pose proof (wi_links _ _ _ I 0 fi m0 id Li Em) as Hl. rewrite Hp in Hl.
    destruct (reported m0 id) as [ob|] eqn:Er; [|discriminate]. pose proof (wi_obs _ _ _ I id 0 m0 Em) as Ho. rewrite Er, M in Ho.
    change (Z.of_nat 0) with 0%Z in Ho. symmetry in Ho. pose proof (obs_at_in ft _ _ Ho) as Hr. unfold obs_at in Ho. destruct (Z.leb_spec (ft_first ft) (b + 0)) as [L0|L0]; [|discriminate Ho].
    exists ob. assert (Hid : fr_id fi1 = (b + 0)%Z) by (exact (wi_ids _ _ _ I 0 fi Li)). rewrite Hid.
    destruct (wi_range _ _ _ I id ft M) as (_ & R2 & _). rewrite u32_small by lia. unfold at_. rewrite Ho. split; [reflexivity|].
    destruct G as (_ & _ & G). rewrite List.Forall_forall in G. apply G. eapply nth_error_In. exact Ho. }
  { apply List.Forall_forall. intros [id p] Hin. exists id. cbn [snd]. apply elem_of_map_to_list. change (fr_feats fi1) with (fr_feats fi) in Hin. rewrite <- (O1 (fr_feats fi)). apply elem_of_list_In. exact Hin. }
  unfold tri_multi_view. rewrite E1. cbn [obind].
  set (fj1 := with_pose fj (fr_q fi1) (fr_p fi1) (fr_v fj)). unfold estimate_pose.
  destruct (pose_points_ok h fj1 ne (bo_pord o (fr_feats fj1)) (fun p => exists id, fr_feats fj !! id = Some p)) as (pts & -> & Hpts).
  { intros p (id & Hp). destruct (HM fj id p) as (ft & E & _ & _ & _ & G); [rewrite Ef; right; left; reflexivity|exact Hp|].
    destruct (proj2 Sh p ft E) as (g & Eg & _ & _ & eo & _). exists g. split; [exact Eg|]. rewrite eo. exact G. }
  { apply List.Forall_forall. intros [id p] Hin. exists id. cbn [snd]. apply elem_of_map_to_list. change (fr_feats fj1) with (fr_feats fj) in Hin. rewrite <- (O3 (fr_feats fj)). apply elem_of_list_In. exact Hin. }
  cbn [obind].
  assert (SW : forall fa fb, same_frame fi fa -> same_frame fj fb -> same_win (b_win s) (Window h (wn_mgr (b_win s)) (fa :: fb :: rest))).
  { intros fa fb S1 S2. split; [exact Sh|]. split; [reflexivity|]. cbn [wn_frames]. rewrite Ef. constructor; [exact S1|]. constructor; [exact S2|apply same_frames_refl]. }
  destruct (Nat.ltb_spec (length pts) 10) as [L|L].
  { cbn [obind]. eexists _, _. split; [reflexivity|]. apply SW; apply with_pose_same. }
  destruct (at_ok _ (b_ext s) 0) as (e & -> & _); [apply Hpts; intros e; rewrite e in L; cbn in L; lia|]. cbn [obind].
  destruct (po_ok _); cbn [obind].
  2:{ eexists _, _. split; [reflexivity|]. apply SW; apply with_pose_same. }
  unfold init_propagator. cbn [with_win b_att b_dl b_ext b_pq].
  pose proof (within_period _ _ _ Hnear) as Hw. apply narrow_mono in Hw.
  destruct (att_clean_ok (b_att s) (fr_ts fi) (f64_to_f32 (dl_period (b_dl s))) it Hit Hw) as (a & Ea).
  destruct (att_clean_inv _ _ _ _ Ea) as (_ & Hne & _).
  match goal with |- context [att_clean (b_att s) ?t ?p] => change t with (fr_ts fi) end. rewrite Ea. cbn [obind with_pq with_att b_pq].
  match goal with |- context [front (pq_items (replay ?g ?n ?q ?l))] => destruct (replay_items g n l q) as (l' & El & Hm & _) end.
  assert (Hl' : l' <> []).
  { intros e1. subst l'. symmetry in Hm. apply map_eq_nil in Hm. apply Hne; [|exact Hm]. intros e2. rewrite e2 in Hit. destruct Hit. }
  match goal with |- context [front ?x] => destruct x as [|x0 xs] eqn:Ex end.
  { exfalso. destruct (pq_items (with_init _ _)); [|discriminate]. cbn [app] in El. congruence. }
  cbn [front obind]. eexists _, _. split; [reflexivity|]. apply SW; repeat split.
Qed.

(** ** One features message *)
Lemma msg_times : forall b A (w : window T) f m, WInv b A w -> back (wn_frames w) = Ok f -> back A = Ok m -> fr_ts f = fm_ts m.
Proof.
  intros b A w f m I Hf Hm. apply back_ok_nth in Hf as [Hf _], Hm as [Hm _]. eapply (wi_ts _ _ _ I); [exact Hf|].
  rewrite (wi_len _ _ _ I). exact Hm.
Qed.

Definition rest_ok (ne : nat) (M : list (feat_msg T)) : Prop :=
  List.Forall good_msg M /\ List.Forall (cams_known ne) M /\ contiguous M /\ (Z.of_nat (length M) < 4294967294)%Z.

(** The whole invariant: [A] are the messages of the frames, [R] the messages still to come, [M] all messages. *)
Definition back_inv (c : vcfg T) (ne : nat) (M R : list (feat_msg T)) (s : bstate T) : Prop :=
  exists b A n, win_side ne b A (b_win s) /\ (A ++ dl_feat (b_dl s) ++ R) `sublist_of` M /\
    (b + Z.of_nat (length A) + Z.of_nat (length (dl_feat (b_dl s))) + Z.of_nat (length R) <= 1 + Z.of_nat (length M))%Z /\
    win_ok c s /\ length (b_ext s) = ne /\ off_ok (b_dl s) /\ PQ n (b_pq s) /\ att_inv s /\
    List.Forall (fun i => f64_isnan (im_ts i) = false) (dl_imu (b_dl s)).

Lemma in_sublist : forall (X : Type) (l k : list X) x, l `sublist_of` k -> In x l -> In x k.
Proof. intros X l k x H Hx. apply elem_of_list_In. eapply elem_of_submseteq; [apply elem_of_list_In; exact Hx|]. apply sublist_submseteq. exact H. Qed.

Lemma feat_step_safe : forall c o ne M b A n (s : bstate T) m Q, oracle_ok o -> sizes_ok c ne -> rest_ok ne M ->
  win_side ne b A (b_win s) -> (A ++ m :: Q) `sublist_of` M -> (b + Z.of_nat (length A) + 1 + Z.of_nat (length Q) <= 1 + Z.of_nat (length M))%Z ->
  win_ok c s -> length (b_ext s) = ne -> PQ n (b_pq s) -> att_inv s ->
  exists s' b' A' n', feat_step c o s m = Ok s' /\ win_side ne b' A' (b_win s') /\ (A' ++ Q) `sublist_of` M /\
    (b' + Z.of_nat (length A') + Z.of_nat (length Q) <= 1 + Z.of_nat (length M))%Z /\
    win_ok c s' /\ length (b_ext s') = ne /\ b_dl s' = b_dl s /\ PQ n' (b_pq s') /\ att_inv s'.
Proof.
  intros c o ne M b A n s m Q Ho (Z1 & Z2 & Z3) (M1 & M2 & M3 & M4) HW HS HL Hw He HP HA.
  assert (Hmw : (0 <= vc_maxwin c < 4294967295)%Z) by (unfold win_bound in Z3; nia).
  pose proof HW as (I & N & HC & HB). pose proof (proj1 Hw) as Hwb. unfold n_frames in Hwb. rewrite (wi_len _ _ _ I) in Hwb.
  assert (HS1 : (A ++ [m]) `sublist_of` M).
  { etransitivity; [|exact HS]. apply sublist_app; [reflexivity|]. apply sublist_skip. apply sublist_nil_l. }
  assert (Hin : In m M) by (eapply in_sublist; [exact HS1|apply in_or_app; right; left; reflexivity]).
  rewrite List.Forall_forall in M1, M2.
  destruct (update_window_inv b A (b_win s) m I (M1 m Hin) (contiguous_sub _ _ HS1 M3) ltac:(lia)) as (w & b1 & Ew & I1 & L1 & _).
  assert (HW1 : win_side ne b1 (A ++ [m]) w).
  { split; [exact I1|]. split; [|split; [|lia]].
    - eapply nums_update; [exact (wi_filed _ _ _ I)| |exact N|exact Ew]. intros f Hf. eapply win_ids; [exact HW|].
      apply back_ok_nth in Hf as [Hf _]. eapply nth_error_In. exact Hf.
    - apply List.Forall_app. split; [exact HC|]. constructor; [|constructor]. exact (M2 m Hin). }
  clear I1 N HC HB I. assert (LA : length (A ++ [m]) = length A + 1) by (rewrite app_length; reflexivity).
  assert (Hfeat : forall s', feat_step c o s m = Ok s' -> win_ok c s').
  { intros s' Es. destruct (feat_step_win c o s s' m Hmw Hw Es) as (F1 & F2 & _). split; [lia|lia]. }
  unfold feat_step in *. rewrite Ew in *. cbn [obind] in *. set (s0 := with_win s w) in *.
  assert (Hb0 : (Z.of_nat (n_frames s0) < 4294967296)%Z).
  { unfold n_frames, s0. cbn [with_win b_win]. rewrite (wi_len _ _ _ (proj1 HW1)). destruct HW1 as (I1 & _ & _ & L). pose proof (wi_b _ _ _ I1). lia. }
  (* initialization *)
  assert (Init : exists s1 b2 A2, init_step c o s0 = Ok s1 /\ win_side ne b2 A2 (b_win s1) /\ A2 `sublist_of` (A ++ [m]) /\
    (b2 + Z.of_nat (length A2) <= b1 + Z.of_nat (length (A ++ [m])))%Z /\ (b_status s1 = Initialized -> A2 = A ++ [m])).
  { unfold init_step. destruct (b_status s0) eqn:Es.
    - destruct (initialize_safe c o b1 (A ++ [m]) s0 Ho) as (s2 & r & E & Sw); [cbn [s0 with_win b_ext b_win]; rewrite He; exact HW1|].
      rewrite E. cbn [obind fst snd]. apply win_side_same with (ne := ne) (b := b1) (A := A ++ [m]) in Sw; [|exact HW1]. destruct r.
      + exists (with_status s2 Initialized), b1, (A ++ [m]). split; [reflexivity|]. split; [exact Sw|]. split; [reflexivity|]. split; [lia|auto].
      + destruct Ho as (_ & _ & _ & _ & _ & _ & Hmo).
        destruct (win_side_shrink ne (bo_marg o) (length (wn_frames (b_win s2))) 0 b1 (A ++ [m]) (b_win s2) Hmo Sw) as (w2 & b2 & A2 & E2 & HW2 & S2 & L2).
        unfold shrink_all. rewrite E2. cbn [obind]. exists (with_win s2 w2), b2, A2. split; [reflexivity|]. split; [exact HW2|]. split; [exact S2|].
        split; [exact L2|]. cbn [with_win b_status]. destruct (initialize_len _ _ _ _ _ E) as (_ & e & _). rewrite e, Es. discriminate.
    - exists s0, b1, (A ++ [m]). split; [reflexivity|]. split; [exact HW1|]. split; [reflexivity|]. split; [lia|auto]. }
  destruct Init as (s1 & b2 & A2 & E1 & HW2 & S2 & L2 & Hst). pose proof (init_step_len _ _ _ _ Hb0 E1) as (I1 & I2 & I3).
  pose proof (att_inv_init c o s0 s1 HA E1) as HA1.
  assert (HP1 : exists n1, PQ n1 (b_pq s1)).
  { unfold init_step in E1. destruct (b_status s0); [|injection E1 as <-; exists n; exact HP]. binv E1. destruct x as [s2 r]. cbn [fst snd] in E1.
    pose proof (initialize_pq _ _ _ _ _ E) as Hi. destruct r.
    - injection E1 as <-. destruct Hi as (_ & _ & a & m0 & _ & _ & _ & Hq & _). cbn [with_status b_pq]. rewrite Hq. eexists. apply replay_PQ. exact HP.
    - binv E1. injection E1 as <-. cbn [with_win b_pq]. destruct Hi as [_ ->]. exists n. exact HP. }
  destruct HP1 as (n1 & HP1). rewrite E1 in *. cbn [obind] in *.
  assert (He1 : length (b_ext s1) = ne) by (rewrite I1; exact He).
  assert (Hd1 : b_dl s1 = b_dl s) by (rewrite I2; reflexivity).
  destruct (b_status s1) eqn:Es1.
  - (* no update *)
    assert (E2 : update_step c o (fm_ts m) s1 = Ok s1) by (unfold update_step; rewrite Es1; reflexivity). rewrite E2 in *. cbn [obind] in *.
    assert (E3 : clean_step s1 = Ok s1). { unfold clean_step. destruct I3 as [_ I3]. unfold n_frames in I3. destruct (Nat.ltb_spec 1 (length (wn_frames (b_win s1)))); [lia|reflexivity]. }
    rewrite E3 in *. exists s1, b2, A2, n1. split; [reflexivity|]. split; [exact HW2|]. split; [|split; [lia|split; [exact (Hfeat s1 eq_refl)|auto]]].
    etransitivity; [|exact HS]. replace (A ++ m :: Q) with ((A ++ [m]) ++ Q) by (rewrite <- app_assoc; reflexivity). apply sublist_app; [exact S2|reflexivity].
  - specialize (Hst eq_refl). subst A2. pose proof HW2 as (J1 & J2 & J3 & J4).
    assert (H2 : 2 <= length (A ++ [m])).
    { destruct I3 as [I3 I4]. unfold n_frames in I3, I4. rewrite <- (wi_len _ _ _ J1), I3. destruct (b_status s0) eqn:E0; [exact (I4 eq_refl)|].
      cbn [s0 with_win b_win]. rewrite (wi_len _ _ _ (proj1 HW1)), LA. destruct Hw as [_ Hw]. specialize (Hw E0). unfold n_frames in Hw. rewrite (wi_len _ _ _ (proj1 HW)) in Hw. lia. }
    assert (Hnf : n_frames s1 = length (A ++ [m])) by (unfold n_frames; apply (wi_len _ _ _ J1)).
    assert (Hu : forall s2, update_step c o (fm_ts m) s1 = Ok s2 -> att_inv s2).
    { intros s2 Eu. eapply att_inv_update; [| |exact HP1|exact HA1|exact Eu]; rewrite Hnf; [exact H2|]. pose proof (wi_b _ _ _ J1). lia. }
    destruct Ho as (O1 & O2 & O3 & _ & _ & _ & O4).
    destruct (vision_update_safe (bo_vis o) c b2 (A ++ [m]) (VState (b_win s1) (b_ext s1) (b_pq s1)) (fm_ts m) (dl_period (b_dl s1)) n1)
      as (v & ok & pol & Ev & Sv & Lv & (pre & Tv) & Hv); cbn [vs_win vs_ext vs_pq] in *; [exact J1|exact J2|rewrite He1; exact J3|exact H2|exact J4| |exact O1|exact O2|exact O3|exact HP1|].
    { rewrite He1. rewrite LA. eapply Z.le_lt_trans; [|exact Z3]. apply Z.mul_le_mono_nonneg_l; [lia|].
      assert (Z.of_nat (length A + 1) <= Z.of_nat (win_bound c) + 1)%Z by lia. nia. }
    apply win_side_same with (ne := ne) (b := b2) (A := A ++ [m]) in Sv; [|exact HW2].
    pose proof (vision_update_len _ _ _ _ _ _ _ _ Ev) as (_ & _ & Hpol). cbn [vs_win] in Hpol.
    unfold update_step in *. rewrite Es1, Ev in *. cbn [obind] in *. destruct ok.
    + (* update succeeded *)
      assert (Hmo : marg_ok (A ++ [m]) (WMarg pol) /\ (pol = NoMarg \/ pol = MargOldest \/ pol = MargSubnew)).
      { apply decide_policy_cases in Hpol; [|reflexivity]. rewrite (wi_len _ _ _ J1) in Hpol. destruct Hpol as [[-> _]|[_ [-> |[-> L3]]]]; cbn; (split; [lia || exact I|auto]). }
      destruct Hmo as [Hmo Hp3].
      destruct (win_side_marg ne b2 (A ++ [m]) (vs_win v) (bo_marg o 0) pol (O4 0) Sv Hmo) as (w3 & b3 & E3 & HW3 & L3).
      rewrite E3 in *. cbn [obind] in *. destruct Hv as (_ & _ & HP3 & it & r & Eit & Hold).
      set (s2 := with_att _ _) in *. specialize (Hu s2 eq_refl).
      assert (Hsub : (a_step (A ++ [m]) (WMarg pol) ++ Q) `sublist_of` M).
      { etransitivity; [|exact HS]. replace (A ++ m :: Q) with ((A ++ [m]) ++ Q) by (rewrite <- app_assoc; reflexivity). apply sublist_app; [apply a_step_sublist|reflexivity]. }
      assert (Clean : exists s3, clean_step s2 = Ok s3).
      { unfold clean_step. destruct (Nat.ltb_spec 1 (length (wn_frames (b_win s2)))) as [L|]; [|eauto].
        change (b_win s2) with w3 in *. destruct (back_ex (wn_frames w3)) as [f Hf]; [intros e; rewrite e in L; cbn in L; lia|].
        assert (Hm3 : back (a_step (A ++ [m]) (WMarg pol)) = Ok m).
        { destruct Hp3 as [->|[->| ->]]; cbn [a_step] in *.
          - apply back_snoc.
          - unfold erase_at. cbn [firstn app]. destruct A as [|a0 A0]; [cbn in H2; lia|]. cbn [skipn app]. apply back_snoc.
          - unfold erase_at. rewrite LA. cbn in Hmo. rewrite LA in Hmo. replace (Datatypes.S (length A + 1 - 2)) with (length A) by lia.
            rewrite skipn_app, skipn_all2, Nat.sub_diag by lia. cbn [skipn app]. apply back_snoc. }
        rewrite Hf. cbn [obind]. rewrite (msg_times _ _ _ _ _ (proj1 HW3) Hf Hm3). change (b_dl s2) with (b_dl s1).
        destruct Hu as (_ & U2 & U3). change (pq_items (b_pq s2)) with (pq_items (vs_pq v)) in *.
        destruct (at_items (b_att s2)) as [|x0 xs] eqn:Ex; [destruct (U2 eq_refl) as [_ e]; congruence|].
        destruct (back_ex (x0 :: xs)) as [x Hx]; [discriminate|].
        destruct (att_clean_ok (b_att s2) (fm_ts m) (f64_to_f32 (dl_period (b_dl s1))) x) as (a & ->); [| |cbn [obind]; eauto].
        - rewrite Ex. apply back_ok_nth in Hx as [Hx _]. eapply nth_error_In. exact Hx.
        - eapply not_old_later; [|exact Hold]. apply (U3 x Hx). rewrite Eit. left. reflexivity. }
      destruct Clean as (s3 & E4). rewrite E4 in *. pose proof (att_inv_clean_step _ _ Hu E4) as Hc3. pose proof (clean_step_same _ _ E4) as (C1 & C2 & C3 & C4 & C5 & C6).
      exists s3, b3, (a_step (A ++ [m]) (WMarg pol)), (6 * (length (b_ext s1) + left_after pol (length (A ++ [m])))). split; [reflexivity|].
      rewrite C3, C4, C5, C6. split; [exact HW3|]. split; [exact Hsub|]. split; [lia|]. split; [exact (Hfeat s3 eq_refl)|].
      split; [rewrite <- He1; exact Lv|]. split; [exact Hd1|]. split; [exact HP3|exact Hc3].
    + (* update failed *)
      destruct (win_side_shrink ne (bo_marg o) (length (wn_frames (vs_win v))) 0 b2 (A ++ [m]) (vs_win v) O4 Sv) as (w3 & b3 & A3 & E3 & HW3 & S3 & L3).
      assert (E3' : shrink_all (bo_marg o) (vs_win v) = Ok w3) by exact E3. rewrite E3' in *. cbn [obind] in *. match goal with |- context [clean_step ?x] => set (s2 := x) in * end.
      specialize (Hu s2 eq_refl). apply shrink_all_len in E3'; [|rewrite (wi_len _ _ _ (proj1 Sv)); pose proof (wi_b _ _ _ J1); lia].
      assert (E4 : clean_step s2 = Ok s2).
      { unfold clean_step. change (b_win s2) with w3. destruct (Nat.ltb_spec 1 (length (wn_frames w3))); [lia|reflexivity]. }
      rewrite E4 in *. exists s2, b3, A3, n1. split; [reflexivity|]. split; [exact HW3|]. split; [|split; [lia|split; [exact (Hfeat s2 eq_refl)|]]].
      { etransitivity; [|exact HS]. replace (A ++ m :: Q) with ((A ++ [m]) ++ Q) by (rewrite <- app_assoc; reflexivity).
        apply sublist_app; [etransitivity; [exact S3|reflexivity]|reflexivity]. }
      split; [rewrite <- He1; exact Lv|]. split; [exact Hd1|]. split; [exact (proj1 Hv)|exact Hu].
Qed.

(** ** One call *)
Lemma imu_step_inv : forall c (s s' : bstate T) m r, f64_isnan (im_ts m) = false -> imu_step c s m = (s', r) -> att_inv s -> forall n, PQ n (b_pq s) ->
  att_inv s' /\ exists n', PQ n' (b_pq s').
Proof.
  intros c s s' m r Hn H HA n HP. split; [eapply att_inv_imu; eassumption|]. unfold imu_step in H. destruct (att_propagate _ _ _ _ _).
  destruct (b_status s); injection H as <- <-; cbn; [exists n; exact HP|]. eexists. apply propagate_PQ. exact HP.
Qed.

Lemma run_once_safe : forall c o ne M R (s : bstate T), oracle_ok o -> sizes_ok c ne -> rest_ok ne M -> back_inv c ne M R s ->
  exists s' r, run_once c o s = Ok (s', r) /\ back_inv c ne M R s'.
Proof.
  intros c o ne M R s Ho Hz HM (b & A & n & HW & HS & HL & Hw & He & Hoff & HP & HA & Hi). unfold run_once.
  pose proof (pop_one_off _ Hoff) as Hoff'. pose proof (pop_one_conserve (b_dl s)) as Hc.
  destruct (dl_pop_one (b_dl s)) as [[[l m] ok] d] eqn:Ep. cbn [fst] in Hoff'. destruct Hc as [Hc1 Hc2].
  rewrite <- Hc1 in Hi. apply List.Forall_app in Hi as [Hi1 Hi2].
  set (s0 := with_dl s (b_st s) l).
  assert (Base : forall s2 : bstate T, b_win s2 = b_win s -> b_status s2 = b_status s -> b_ext s2 = b_ext s -> b_dl s2 = l -> att_inv s2 -> (exists n', PQ n' (b_pq s2)) ->
     cm_feat m = None -> back_inv c ne M R s2).
  { intros s2 e1 e2 e3 e4 HA2 (n2 & HP2) ef. rewrite ef in Hc2. cbn [app] in Hc2. exists b, A, n2. rewrite e1, e3, e4. unfold win_ok, n_frames in *. rewrite e1, e2.
    rewrite Hc2. auto 10. }
  destruct ok; cbn [negb].
  2:{ exists s0, false. split; [reflexivity|]. apply Base; try reflexivity; [exact HA|exists n; exact HP|].
      unfold dl_pop_one in Ep. destruct (dl_imu (b_dl s)), (dl_feat (b_dl s)); try discriminate; [injection Ep as <- <- _; reflexivity|].
      destruct (f64_leb _ _); [destruct (f64_ltb _ _)|]; discriminate. }
  destruct (match cm_imu m with [] => (s0, true) | i :: _ => imu_step c s0 i end) as [s1 r] eqn:E1.
  assert (K : b_win s1 = b_win s /\ b_status s1 = b_status s /\ b_ext s1 = b_ext s /\ b_dl s1 = l /\ att_inv s1 /\ exists n', PQ n' (b_pq s1)).
  { destruct (cm_imu m) as [|i x]; [injection E1 as <- <-; cbn; eauto 10|]. apply List.Forall_inv in Hi1.
    pose proof (imu_step_win _ _ _ _ _ E1) as (W1 & W2 & W3 & W4 & W5). destruct (imu_step_inv _ _ _ _ _ Hi1 E1 HA n HP) as [X Y]. cbn in *. auto 10. }
  destruct K as (K1 & K2 & K3 & K4 & K5 & n1 & K6).
  destruct (cm_feat m) as [f|] eqn:Ef.
  - cbn [app] in Hc2. rewrite <- Hc2 in HS, HL. cbn [app length] in HS, HL.
    destruct (feat_step_safe c o ne M b A n1 s1 f (dl_feat l ++ R) Ho Hz HM) as (s2 & b2 & A2 & n2 & -> & R1 & R2 & R3 & R4 & R5 & R6 & R7 & R8).
    + rewrite K1. exact HW.
    + exact HS.
    + rewrite app_length. lia.
    + unfold win_ok, n_frames in *. rewrite K1, K2. exact Hw.
    + rewrite K3. exact He.
    + exact K6.
    + exact K5.
    + cbn [obind]. exists s2, true. split; [reflexivity|]. exists b2, A2, n2. rewrite R6, K4. rewrite app_length in R3. split; [exact R1|]. split; [exact R2|].
      split; [lia|]. auto 10.
  - exists s1, r. split; [reflexivity|]. apply Base; eauto.
Qed.

Lemma b_step_safe : forall c ne M R (s : bstate T) op, (forall o, op = BRun o -> oracle_ok o) -> sizes_ok c ne -> rest_ok ne M ->
  back_inv c ne M (map feat_shifted (pushed_feat [op]) ++ R) s -> exists s', b_step c s op = Ok s' /\ back_inv c ne M R s'.
Proof.
  intros c ne M R s op Ho Hz HM H. destruct op as [m|m|o| |]; cbn [b_step pushed_feat flat_map map app] in *.
  - eexists. split; [reflexivity|]. destruct H as (b & A & n & HW & HS & HL & Hw & He & Hoff & HP & HA & Hi). unfold b_imu. rewrite push_imu_eq by exact Hoff. cbn [fst].
    exists b, A, n. cbn. split; [exact HW|]. split; [exact HS|]. split; [exact HL|]. split; [exact Hw|]. split; [exact He|]. split; [reflexivity|]. split; [exact HP|]. split; [exact HA|].
    destruct (f64_ltb _ _) eqn:E; [|exact Hi]. apply List.Forall_app. split; [exact Hi|]. constructor; [|constructor].
    apply f64_ltb_iff in E. tauto.
  - eexists. split; [reflexivity|]. destruct H as (b & A & n & HW & HS & HL & Hw & He & Hoff & HP & HA & Hi). unfold b_feat. rewrite push_feat_eq by exact Hoff.
    assert (Drop : (A ++ dl_feat (b_dl s) ++ R) `sublist_of` M).
    { etransitivity; [|exact HS]. apply sublist_app; [reflexivity|]. apply sublist_app; [reflexivity|]. apply sublist_cons. reflexivity. }
    cbn [length] in HL.
    destruct (well_sized m); cbn [fst]; exists b, A, n; cbn; (split; [exact HW|]); [|split; [exact Drop|]; split; [lia|]; repeat (split; [assumption|]); exact Hi].
    destruct (f64_ltb _ _).
    + rewrite <- app_assoc, app_length. cbn [app length]. split; [exact HS|]. split; [lia|]. repeat (split; [assumption||reflexivity|]). exact Hi.
    + split; [exact Drop|]. split; [lia|]. repeat (split; [assumption||reflexivity|]). exact Hi.
  - destruct (run_once_safe c o ne M R s (Ho o eq_refl) Hz HM H) as (s' & r & -> & H'). cbn [obind fst]. eauto.
  - eexists. split; [reflexivity|]. destruct H as (b & A & n & HW & HS & HL & Hw & He & Hoff & HP & HA & Hi). unfold run_once_test.
    pose proof (pop_one_off _ Hoff) as Hoff'. pose proof (pop_one_conserve (b_dl s)) as Hc. destruct (dl_pop_one (b_dl s)) as [[[l x] ok] d]. cbn [fst] in *. destruct Hc as [Hc1 Hc2].
    rewrite <- Hc1 in Hi. apply List.Forall_app in Hi as [_ Hi]. exists b, A, n. cbn. split; [exact HW|].
    split; [etransitivity; [|exact HS]; rewrite <- Hc2; apply sublist_app; [reflexivity|]; apply sublist_app; [apply sublist_inserts_l; reflexivity|reflexivity]|].
    split; [rewrite <- Hc2, app_length in HL; lia|]. auto 10.
  - eexists. split; [reflexivity|]. destruct H as (b & A & n & HW & HS & HL & [Hw1 Hw2] & He & Hoff & HP & (H1 & H2 & H3) & Hi).
    exists b, A, n. cbn. repeat (split; [assumption|]). split; [split; [exact Hw1|discriminate]|]. repeat (split; [assumption|]).
    split; [|exact Hi]. split; [exact H1|]. split; [|exact H3]. intros e. split; [reflexivity|exact (proj2 (H2 e))].
Qed.

Lemma sublist_map_inv : forall (X Y : Type) (g : X -> Y) l k, k `sublist_of` map g l -> exists k', k = map g k' /\ k' `sublist_of` l.
Proof.
  intros X Y g l. induction l as [|x r IH]; intros k H; cbn [map] in H; [apply sublist_nil_r in H; subst; exists []; split; [reflexivity|constructor]|].
  apply sublist_cons_r in H as [H|(k1 & -> & H)]; destruct (IH _ H) as (k2 & -> & S2).
  - exists k2. split; [reflexivity|]. apply sublist_cons. exact S2.
  - exists (x :: k2). split; [reflexivity|]. apply sublist_skip. exact S2.
Qed.
Lemma shifted_tracks : forall ne (P : list (feat_msg T)), good_tracks ne P -> (Z.of_nat (length P) < 4294967294)%Z -> rest_ok ne (map feat_shifted P).
Proof.
  intros ne P (H1 & H2 & H3) HL. split; [|split; [|split]].
  - rewrite List.Forall_map. exact H1.
  - rewrite List.Forall_map. exact H2.
  - intros id x y z Hs. apply sublist_map_inv in Hs as (k & E & Hs). destruct k as [|x' [|y' [|z' [|]]]]; try discriminate. injection E as -> -> ->.
    exact (H3 id x' y' z' Hs).
  - rewrite map_length. exact HL.
Qed.

Lemma pushed_feat_cons : forall (op : b_op T) r, pushed_feat (op :: r) = pushed_feat [op] ++ pushed_feat r.
Proof. intros op r. unfold pushed_feat. cbn [flat_map]. rewrite app_nil_r. reflexivity. Qed.

Lemma b_hist_safe : forall c ne M ops (s : bstate T), List.Forall oracle_ok (oracles ops) -> sizes_ok c ne -> rest_ok ne M ->
  back_inv c ne M (map feat_shifted (pushed_feat ops)) s -> exists s', b_hist c s ops = Ok s' /\ back_inv c ne M [] s'.
Proof.
  intros c ne M. induction ops as [|op r IH]; intros s Ho Hz HM H; cbn [b_hist]; [eauto|].
  rewrite pushed_feat_cons, map_app in H.
  destruct (b_step_safe c ne M (map feat_shifted (pushed_feat r)) s op) as (s1 & -> & H1); [|exact Hz|exact HM|exact H|].
  { intros o ->. cbn in Ho. exact (List.Forall_inv Ho). }
  cbn [obind]. apply IH; [|exact Hz|exact HM|exact H1]. unfold oracles in *. cbn [flat_map] in Ho. apply List.Forall_app in Ho. tauto.
Qed.

(** C31 *)
Theorem backend_safe : forall c ops (s0 : bstate T), fresh s0 -> good_tracks (length (b_ext s0)) (pushed_feat ops) ->
  List.Forall oracle_ok (oracles ops) -> sizes_ok c (length (b_ext s0)) -> (Z.of_nat (length (pushed_feat ops)) < 4294967294)%Z ->
  exists s, b_hist c s0 ops = Ok s.
Proof.
  intros c ops s0 Hf Hg Ho Hz HL. destruct (b_hist_safe c (length (b_ext s0)) (map feat_shifted (pushed_feat ops)) ops s0 Ho Hz (shifted_tracks _ _ Hg HL)) as (s & E & _); [|eauto].
  destruct Hf as (st & per & ex & ba & bg & na & ng & nwa & nwg & ->). exists 1%Z, [], 0. cbn.
  split; [split; [apply winv_empty|]; split; [intros id f e; discriminate|]; split; [constructor|cbn; lia]|].
  split; [reflexivity|]. split; [lia|]. split; [split; [cbn; lia|discriminate]|]. split; [reflexivity|]. split; [reflexivity|].
  split; [repeat split; constructor|]. split; [|constructor]. split; [exact I|]. split; [auto|]. discriminate.
Qed.
End BackSafe.
