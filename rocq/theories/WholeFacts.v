(** A vision update from its inputs to its results (C96). *)
From Coq Require Import ZArith Reals List Bool Arith Lia Lra.
From stdpp Require Import gmap list.
From Verif Require Import Fp Scalar Base LinAlg MathLib MatFacts Msg DataLoader FeatureManager FrameManager Window Attitude Propagator Triangulate Pnp VisionUpdate Backend
  WindowSpec QueueSpec UpdSpec NumSpec DerivSpec KalmanFacts InjectSpec BackendSpec TruthSpec ProcSpec RunSpec BlindSpec BundleSpec WholeSpec
  FeatureFacts FrameFacts WindowFacts UpdCovFacts MeasFacts QuatFacts SafeFacts SelectFacts BackLenFacts BackDimFacts BackSafeFacts InjectFacts UnitFacts CovRunFacts BundleFacts
  AttitudeFacts TruthFacts TruthRunFacts ParallaxFacts.
Import ListNotations.
Local Open Scope R_scope.

(** ** Finishing *)
Lemma reprop_coherent : forall grav ba bg Q l F G (it0 : pitem R), coherent grav ba bg (it0 :: fst (fst (reprop_loop grav ba bg Q F G it0 l))).
Proof.
  intros grav ba bg Q. induction l as [|it1 l IH]; intros F G it0; [exact I|]. cbn [reprop_loop].
  destruct (prop_item grav ba bg F G Q it0 (pi_a it1) (pi_g it1) (pi_ts it1)) as [[it1' F'] G'] eqn:E.
  specialize (IH F' G' it1'). destruct (reprop_loop grav ba bg Q F' G' it1' l) as [[r' F''] G'']. cbn [fst] in *.
  change (midpoint grav ba bg it0 it1' /\ coherent grav ba bg (it1' :: r')). split; [|exact IH].
  unfold prop_item in E. unfold nominal_step in E. cbv zeta in E. injection E as <- _ _. unfold midpoint. cbn [pi_ts pi_mo pi_a pi_g mo_q mo_v mo_p].
  change (step_dt (pi_ts it0) (pi_ts it1)) with (sof32 (f64_to_f32 (f64_sub (pi_ts it1) (pi_ts it0))) : R). change (shalf (T := R)) with (1 / 2). repeat split.
Qed.
Lemma finish_whole : forall (o : voracle R) c pol P s s' it r, let ne := length (vs_ext s) in let nf := length (wn_frames (vs_win s)) in
  finish_update o c pol P s = Ok s' -> (2 <= nf)%nat -> pq_items (vs_pq s) = it :: r ->
  mr P = err_size ne (nf - 1) -> mc P = err_size ne (nf - 1) -> fsym (err_size ne (nf - 1)) (me P) -> fpsd (err_size ne (nf - 1)) (me P) ->
  vs_win s' = vs_win s /\ vs_ext s' = vs_ext s /\ pq_ba (vs_pq s') = pq_ba (vs_pq s) /\ pq_bg (vs_pq s') = pq_bg (vs_pq s) /\
  exists it' r', pq_items (vs_pq s') = it' :: r' /\ pi_mo it' = pi_mo it /\ map sample (it' :: r') = map sample (it :: r) /\
    coherent (vc_grav c) (pq_ba (vs_pq s')) (pq_bg (vs_pq s')) (it' :: r') /\
    (forall i j, (i < err_size ne (length (kept pol nf)))%nat -> (j < err_size ne (length (kept pol nf)))%nat ->
       full_cov (pi_cov it') (pi_ecov it') (pq_ecc (vs_pq s')) i j = me P (reindex ne nf pol i) (reindex ne nf pol j)).
Proof.
  intros o c pol P s s' it r ne nf H H2 Hi P1 P2 HS HP. unfold finish_update in H. fold ne nf in H. binv H. binv H. binv H. injection H as <-. cbn [vs_pq vs_win vs_ext].
  destruct (expand_clones (vo_junk o) ne nf P ltac:(lia) P1 P2 HS) as (P' & E' & A1 & A2 & A3 & _ & A5).
  assert (P' = x) by congruence. subst P'. specialize (A5 HP).
  destruct (reduce_keeps (vo_junk o) pol ne nf x H2 A1 A2 (proj1 A5)) as (P' & E'' & B1 & B2 & B3 & _ & _).
  assert (P' = x0) by congruence. subst P'. set (k := length (kept pol nf)) in *.
  unfold update_cov in E1. change imu_size with 15%nat in E1. destruct (Nat.ltb_spec (mc x0) 15); [discriminate|]. rewrite Hi in E1. cbn [front obind] in E1.
  binv E1. binv E1. binv E1. binv E1. injection E1 as <-. unfold with_head in E5. rewrite Hi in E5. injection E5 as <-.
  unfold pq_repropagate. cbn [with_ecc with_items pq_items pq_ba pq_bg pq_Q pq_F pq_G].
  match goal with |- context [reprop_loop ?g ?a ?b ?Q ?F ?G ?i ?l] => pose proof (reprop_coherent g a b Q l F G i) as K; pose proof (reprop_spec g a b Q l F G i) as K2; destruct (reprop_loop g a b Q F G i l) as [[r' F'] G'] end.
  cbn [fst] in K, K2. cbn [pq_items pq_ba pq_bg pq_init pq_ecc]. do 4 (split; [reflexivity|]). eexists _, _. split; [reflexivity|].
  split; [reflexivity|]. split; [|split; [exact K|]].
  { cbn [map]. f_equal. exact (proj1 K2). }
  intros i j Li Lj. unfold reindex.
  assert (Rng : forall i, (i < err_size ne k)%nat -> (keep_of (15 + 6 * ne) (kept pol nf) i < err_size ne nf)%nat).
  { clear - H2. intros i Hi. unfold keep_of, err_size in *. destruct (Nat.ltb_spec i (15 + 6 * ne)); [lia|].
    set (d := ((i - (15 + 6 * ne)) / 6)%nat). assert (Hd : (d < k)%nat) by (apply Nat.div_lt_upper_bound; lia).
    assert (Hn : (nth d (kept pol nf) 0 < nf)%nat).
    { pose proof (nth_In (kept pol nf) 0%nat Hd) as Hin. revert Hin. generalize (nth d (kept pol nf) 0%nat). clear - H2. intros q Hin.
      destruct pol; cbn [kept] in Hin; [| |apply in_app_or in Hin; destruct Hin as [Hin|[Hin|[]]]; [|lia]|]; apply in_seq in Hin; lia. }
    pose proof (Nat.mod_upper_bound (i - (15 + 6 * ne)) 6 ltac:(lia)). lia. }
  rewrite <- A3 by (apply Rng; assumption). rewrite <- B3 by assumption.
  assert (Blk : forall i0 j0 a b' (y : mat R), block x0 i0 j0 a b' = Ok y -> forall u v, me y u v = me x0 (i0 + u)%nat (j0 + v)%nat).
  { intros i0 j0 a b' y Eb u v. unfold block in Eb. destruct (in_block _ _ _ _ _); [|discriminate]. injection Eb as <-. reflexivity. }
  assert (Sy : fsym (err_size ne k) (me x0)).
  { destruct (reduce_keeps (vo_junk o) pol ne nf x H2 A1 A2 (proj1 A5)) as (P'' & F1 & _ & _ & _ & F2 & _). assert (P'' = x0) by congruence. subst P''. exact F2. }
  unfold full_cov. cbn [pi_cov pi_ecov].
  destruct (Nat.ltb_spec i 15), (Nat.ltb_spec j 15).
  - rewrite (Blk _ _ _ _ _ E2). reflexivity.
  - rewrite (Blk _ _ _ _ _ E3). f_equal; lia.
  - rewrite (Blk _ _ _ _ _ E3). replace (0 + j)%nat with j by lia. replace (15 + (i - 15))%nat with i by lia. apply Sy; assumption.
  - rewrite (Blk _ _ _ _ _ E4). f_equal; lia.
Qed.

(** ** The problem depends on the covariance only inside its size *)
Lemma misfit_ext : forall exts (fs : list (frame R)) pw m r dp x y, (forall j, (j < err_size (length exts) (length fs - 1))%nat -> x j = y j) ->
  misfit exts fs pw m r dp x = misfit exts fs pw m r dp y.
Proof. intros. unfold misfit. f_equal. apply rsum_ext. intros j Hj. rewrite H by exact Hj. reflexivity. Qed.
Lemma tracks_cost_ext : forall nord b exts (fs : list (frame R)) fl dps x y, (forall j, (j < err_size (length exts) (length fs - 1))%nat -> x j = y j) ->
  tracks_cost nord b exts fs fl dps x = tracks_cost nord b exts fs fl dps y.
Proof.
  intros nord b exts fs fl dps x y H. revert dps. induction fl as [|f fl IH]; intros dps; [reflexivity|]. cbn [tracks_cost]. rewrite IH. f_equal.
  unfold track_cost. induction (meas_of nord b f) as [|m l IHl]; [reflexivity|]. cbn [fold_right]. rewrite IHl, !(misfit_ext exts fs _ _ _ _ x y H). reflexivity.
Qed.
Lemma qform_feq : forall n P F y, feq n n P F -> qform n P y = qform n F y.
Proof. intros n P F y H. unfold qform. apply rsum_ext. intros i Hi. apply rsum_ext. intros j Hj. rewrite (feq_at H i j) by assumption. reflexivity. Qed.
Lemma bundle_feq : forall nord b exts (fs : list (frame R)) P F noise fl y dps, feq (err_size (length exts) (length fs - 1)) (err_size (length exts) (length fs - 1)) P F ->
  bundle_cost nord b exts fs P noise fl y dps = bundle_cost nord b exts fs F noise fl y dps.
Proof.
  intros. unfold bundle_cost. rewrite (qform_feq _ P F) by assumption. f_equal. f_equal. apply tracks_cost_ext. intros j Hj. eapply mvec_feq; eassumption.
Qed.
Lemma estimate_feq : forall nord b exts (fs : list (frame R)) P F noise fl dx P', let n := err_size (length exts) (length fs - 1) in feq n n P F ->
  estimate n (bundle_cost nord b exts fs P noise fl) P dx P' -> estimate n (bundle_cost nord b exts fs F noise fl) F dx P'.
Proof.
  intros nord b exts fs P F noise fl dx P' n HF (y0 & d0 & H1 & H2 & H3 & H4).
  assert (Cst : forall y d, bundle_cost nord b exts fs P noise fl y d = bundle_cost nord b exts fs F noise fl y d) by (intros; apply bundle_feq; exact HF).
  assert (Mv : forall y i, (i < n)%nat -> mvec n P y i = mvec n F y i) by (intros; eapply mvec_feq; eassumption).
  exists y0, d0. split; [|split; [|split]].
  - intros i Hi. rewrite <- Mv by exact Hi. apply H1. exact Hi.
  - intros y d. rewrite <- !Cst. apply H2.
  - intros y d E i Hi. rewrite <- !Cst in E. rewrite <- Mv by exact Hi. apply (H3 y d E i Hi).
  - intros z. destruct (H4 z) as (y & d & A & B & C). exists y, d. split; [intros i Hi; rewrite <- Mv by exact Hi; apply A; exact Hi|].
    split; [intros d'; rewrite <- !Cst; apply B|]. rewrite <- !Cst. exact C.
Qed.
(** Without tracks the estimate is no correction. *)
Lemma mvec_0 : forall n (P : fmat) i, mvec n P (fun _ => 0) i = 0.
Proof. intros. apply rsum_0. intros. apply Rmult_0_r. Qed.
Lemma qform_0 : forall n (P : fmat), qform n P (fun _ => 0) = 0.
Proof. intros. unfold qform. apply rsum_0. intros i _. apply rsum_0. intros. ring. Qed.
Lemma estimate_none : forall nord b exts (fs : list (frame R)) P noise (dx : mat R), let n := err_size (length exts) (length fs - 1) in fpsd n P ->
  (forall i, me dx i 0%nat = 0) -> estimate n (bundle_cost nord b exts fs P noise []) P dx P.
Proof.
  intros nord b exts fs P noise dx n HP Hd. assert (C : forall y d, bundle_cost nord b exts fs P noise [] y d = qform n P y).
  { intros. unfold bundle_cost. cbn [tracks_cost]. unfold Rdiv. rewrite Rmult_0_l. fold n. ring. }
  exists (fun _ => 0), (fun _ => V3 0 0 0). split; [|split; [|split]].
  - intros i _. rewrite Hd, mvec_0. reflexivity.
  - intros y d. rewrite !C, qform_0. apply (proj2 HP).
  - intros y d E i Hi. rewrite !C, qform_0 in E. rewrite Hd. exact (psd_kernel n P y HP E i Hi).
  - intros z. exists z, (fun _ => V3 0 0 0). split; [intros i _; rewrite Hd; ring|]. split; [intros d'; rewrite !C; lra|]. rewrite !C, qform_0. ring.
Qed.

(** ** Tracks *)
Lemma track_meas_in : forall (nord : observe R -> list (Z * v2 R)), valid_norder nord -> forall obs k0 k cam z,
  In (k, cam, z) (track_meas nord k0 obs) <-> exists j (ob : observe R) cz, nth_error obs j = Some ob /\ k = (k0 + j)%nat /\ (ob : gmap Z (v2 R)) !! cz = Some z /\ cam = Z.to_nat cz.
Proof.
  intros nord Hn. induction obs as [|o obs IH]; intros k0 k cam z; cbn [track_meas].
  - split; [intros []|]. intros (j & ob & cz & E & _). destruct j; discriminate.
  - rewrite in_app_iff, IH, in_map_iff. split.
    + intros [([cz z'] & E & Hin)|(j & ob & cz & E & -> & A & ->)].
      * cbn [fst snd] in E. injection E as <- <- <-. exists 0%nat, o, cz. split; [reflexivity|]. split; [lia|]. split; [|reflexivity].
        apply (proj1 (elem_of_map_to_list (M := gmap Z) (o : gmap Z (v2 R)) cz z')). rewrite <- (Hn o). apply elem_of_list_In. exact Hin.
      * exists (S j), ob, cz. split; [exact E|]. split; [lia|]. auto.
    + intros (j & ob & cz & E & -> & A & ->). destruct j as [|j].
      * injection E as ->. left. exists (cz, z). cbn [fst snd]. rewrite Nat.add_0_r. split; [reflexivity|]. apply elem_of_list_In. rewrite (Hn ob).
        apply (proj2 (elem_of_map_to_list (M := gmap Z) (ob : gmap Z (v2 R)) cz z)). exact A.
      * right. exists j, ob, cz. split; [exact E|]. split; [lia|]. auto.
Qed.
Lemma window_follows : forall nord ne b A (w : window R) id ft, valid_norder nord -> win_side ne b A w -> win_managed w id = Some ft -> ft_id ft = id ->
  follows_messages nord b A ft.
Proof.
  intros nord ne b A w id ft Hn (I & _ & HA & _) M Hid k cam z. unfold meas_of. rewrite (track_meas_in nord Hn).
  destruct (wi_range _ _ _ I id ft M) as (R1 & R2 & R3). rewrite Hid. split.
  - intros (j & ob & cz & E & -> & A1 & ->). assert (Lj : (j < length (ft_obs ft))%nat) by (apply nth_error_Some; congruence).
    set (k := (Z.to_nat (ft_first ft - b) + j)%nat). destruct (nth_error A k) as [m|] eqn:Em; [|apply nth_error_None in Em; unfold k in Em; lia].
    assert (Hr : reported m id = Some ob).
    { rewrite (wi_obs _ _ _ I id k m Em), M. unfold obs_at. rewrite (proj2 (Z.leb_le _ _)) by lia. replace (Z.to_nat (b + Z.of_nat k - ft_first ft)) with j by (unfold k; lia). exact E. }
    exists m, ob. split; [reflexivity|]. split; [exact Hr|].
    assert (Hc : (0 <= cz)%Z).
    { rewrite List.Forall_forall in HA. specialize (HA m (nth_error_In _ _ Em)). rewrite List.Forall_forall in HA. unfold reported in Hr.
      assert (In ob (fm_obs m)). { apply assoc_some_in in Hr. apply in_combine_r in Hr. exact Hr. }
      specialize (HA ob H cz z A1). lia. }
    rewrite Z2Nat.id by exact Hc. exact A1.
  - intros (m & ob & Em & Hr & Hz). rewrite (wi_obs _ _ _ I id k m Em), M in Hr. pose proof (obs_at_in ft _ _ Hr) as Hrange. unfold obs_at in Hr.
    rewrite (proj2 (Z.leb_le _ _)) in Hr by lia. exists (Z.to_nat (b + Z.of_nat k - ft_first ft)), ob, (Z.of_nat cam). split; [exact Hr|]. split; [lia|]. split; [exact Hz|]. rewrite Nat2Z.id. reflexivity.
Qed.

(** ** One update *)
Lemma origin_image : forall ts thr (l l' : list (pitem R)), origin_loop ts thr l = Some l' -> from_image ts thr l l'.
Proof.
  intros ts thr. induction l as [|x l IH]; intros l' H; cbn [origin_loop] in H; [discriminate|]. destruct (f64_ltb thr (f64_sub ts (pi_ts x))) eqn:E.
  - destruct (IH l' H) as (pre & it & r & -> & -> & Hp & Hi). exists (x :: pre), it, r. split; [reflexivity|]. split; [reflexivity|]. split; [constructor; assumption|exact Hi].
  - injection H as <-. exists [], x, l. split; [reflexivity|]. split; [reflexivity|]. split; [constructor|exact E].
Qed.
Lemma consecutive_alone : forall b (fs : list (frame R)), consecutive b fs -> newest_alone fs.
Proof. intros b fs H i f g Hf Hg E. rewrite (H i f Hf), (H _ g Hg) in E. lia. Qed.
Lemma Forall2_cells : forall (h : heap R) l, (forall p, In p l -> exists f, hp_cells h !! p = Some f) -> exists fl, Forall2 (fun p f => hp_cells h !! p = Some f) l fl.
Proof.
  intros h. induction l as [|p l IH]; intros H; [exists []; constructor|]. destruct (H p (or_introl eq_refl)) as [f Hf]. destruct IH as [fl Hfl]; [intros q Hq; apply H; right; exact Hq|].
  exists (f :: fl). constructor; assumption.
Qed.
Lemma zero_pad : forall n, exists dx : mat R, mr dx = n /\ mc dx = 1%nat /\ forall k, me dx k 0%nat = 0.
Proof. intros n. exists (Mat n 1 (fun _ _ => 0)). repeat split. Qed.
Lemma update_whole : forall (o : voracle R) c b A s ts thr s' pol, win_side (length (vs_ext s)) b A (vs_win s) -> (2 <= length A)%nat ->
  (2 * (Z.of_nat (length A) * Z.of_nat (length (vs_ext s))) < 4294967296)%Z ->
  valid_order (vo_ord o) -> valid_norder (vo_nord o) -> exact_qr o -> exact_solver (vo_saes o) -> zero_thr < vc_noise c * vc_noise c ->
  CQ (vs_pq s) -> all_unit s -> vision_update o c s ts thr = Ok (s', true, pol) -> updated (vo_nord o) (vo_rand o) c b A ts thr s s' pol.
Proof.
  intros o c b A s ts thr s' pol HW H2 Hsz Ho Hn Hqr He Hnoise (Hp & HQ & n & N1 & N2 & N3) (U1 & U2 & _ & U4) H. pose proof HW as (I & N & HA & Hb).
  unfold vision_update, pq_reset_origin in H.
  destruct (origin_loop ts thr (pq_items (vs_pq s))) as [l'|] eqn:Eor; cbn [negb] in H; [|discriminate]. pose proof (origin_image _ _ _ _ Eor) as Him.
  pose proof Him as (pre & it & r & Hl & -> & _). binv H. rename x into pol'.
  set (q := with_items (vs_pq s) (it :: r)) in *. set (ne := length (vs_ext s)) in *.
  pose proof (wi_len b A _ I) as Ln. pose proof (wi_b b A _ I) as Hb1. pose proof (wi_ids b A _ I) as Hid. rewrite Ln in H.
  rewrite Hl in N3. apply List.Forall_app in N3 as [_ N3]. rewrite Hl in U4. apply List.Forall_app in U4 as [_ U4].
  inversion N3 as [|? ? [Hs Hh] _]; subst. binv H. destruct x as [P|]; [|discriminate].
  destruct (construct_full ne (length A) q (mr (pq_ecc (vs_pq s))) it r P eq_refl ltac:(lia) eq_refl N2 Hs E0) as (En & P1 & P2 & P3).
  binv H. destruct x as [fs|]; [|discriminate]. pose proof (newest_spec _ _ q it r eq_refl E1) as Hnew.
  assert (Sf : Forall2 same_frame (wn_frames (vs_win s)) fs).
  { destruct Hnew as (l & f & -> & ->). apply Forall2_app; [apply same_frames_refl|]. constructor; [repeat split|constructor]. }
  assert (Lfs : length fs = length A) by (rewrite <- Ln; symmetry; eapply Forall2_length; exact Sf).
  assert (Cfs : consecutive b fs).
  { intros i f Hi. destruct (same_frames_nth _ _ _ _ Sf Hi) as (f1 & Ef1 & e & _). rewrite e. exact (Hid i f1 Ef1). }
  assert (Ufs : List.Forall (fun f => qunit (fr_q f)) fs).
  { destruct Hnew as (l & f & El & ->). rewrite El in U2. apply List.Forall_app in U2 as [U2 _]. apply List.Forall_app. split; [exact U2|].
    constructor; [|constructor]. cbn [fr_q]. inversion U4; assumption. }
  binv H. destruct x as [h' l]. cbn [fst snd] in H.
  destruct (back_ex fs) as (nb & Hnb); [intros e; rewrite e in Lfs; cbn in Lfs; lia|].
  set (D := fun p => exists id, wn_mgr (vs_win s) !! id = Some p).
  assert (Lv : live D (tgood ne b (length fs)) (wn_heap (vs_win s))).
  { intros p [id Hpp]. destruct (filed_managed _ _ id p (wi_filed b A _ I) Hpp) as (f & E' & M & _). exists f. split; [exact E'|].
    rewrite Lfs. exact (winv_tgood ne b A (vs_win s) id f I N HA M). }
  assert (Hlk : forall id p, fr_feats nb !! id = Some p -> wn_mgr (vs_win s) !! id = Some p).
  { intros id p Hpp. pose proof Hnb as Hnb'. apply back_ok_nth in Hnb' as [Hnb' _]. destruct (same_frames_nth _ _ _ _ Sf Hnb') as (f1 & Ef1 & _ & _ & e).
    rewrite e in Hpp. eapply winv_links; [exact I|eapply nth_error_In; exact Ef1|exact Hpp]. }
  destruct (select_good_ok o c (vs_ext s) fs b D (wn_heap (vs_win s)) nb Hn Ho Hb1 Cfs ltac:(lia) Hnb Lv) as (h'' & l'' & Es' & Sh & Ll & Hsel).
  { intros id p Hpp. exists id. apply Hlk. exact Hpp. }
  rewrite E2 in Es'. injection Es' as <- <-.
  assert (Inj : forall i j p, fr_feats nb !! i = Some p -> fr_feats nb !! j = Some p -> i = j).
  { intros i j p Hi Hj. apply Hlk in Hi, Hj. destruct (wi_filed b A _ I i p Hi) as (_ & f & F1 & F2). destruct (wi_filed b A _ I j p Hj) as (_ & g & G1 & G2). congruence. }
  destruct (selection_exact o c (vs_ext s) fs (wn_heap (vs_win s)) nb h' l Ho Hnb Inj E2) as (ND & _ & Hs2 & _ & _ & _ & Hall).
  set (s1 := VState (Window h' (wn_mgr (vs_win s)) fs) (vs_ext s) q) in *.
  assert (Sw1 : same_win (vs_win s) (vs_win s1)) by (split; [exact Sh|split; [reflexivity|exact Sf]]).
  pose proof (win_side_same _ _ _ _ _ HW Sw1) as HW1. pose proof HW1 as (I1 & N1' & _ & _).
  (* the chosen tracks *)
  destruct (Forall2_cells h' l) as [fl Hfl]; [intros p Hpp; destruct (Hsel p Hpp) as (_ & f & F & _); eauto|].
  assert (Hch : forall p f, In p l -> hp_cells h' !! p = Some f -> win_managed (vs_win s1) (ft_id f) = Some f /\ fr_feats nb !! ft_id f = Some p /\ ft_status f = FSolved /\ (2 <= total_obs (ft_obs f))%Z).
  { intros p f Hpp F. destruct (Hs2 p Hpp) as ((id & Lk) & (f1 & F1 & F2)). assert (f1 = f) by congruence. subst f1.
    destruct (filed_managed _ _ id p (wi_filed b A _ I1) (Hlk id p Lk)) as (f1 & G1 & G2 & G3). cbn [s1 vs_win wn_heap] in G1. assert (f1 = f) by congruence. subst f1.
    destruct (Hsel p Hpp) as (_ & f2 & F3 & F4). assert (f2 = f) by congruence. subst f2 id. auto. }
  assert (Hin : forall f, In f fl -> exists p, In p l /\ hp_cells h' !! p = Some f).
  { clear - Hfl. induction Hfl as [|p f l fl Hp _ IH]; intros g [].
    - subst g. exists p. split; [left; reflexivity|exact Hp].
    - destruct (IH g H) as (p' & A1 & A2). exists p'. split; [right; exact A1|exact A2]. }
  assert (Use : List.Forall (usable ne b (length fs)) fl).
  { apply List.Forall_forall. intros f Hf. destruct (Hin f Hf) as (p & Hpl & Hc). destruct (Hch p f Hpl Hc) as (M & _ & _ & T2).
    pose proof (winv_tgood ne b A (vs_win s1) (ft_id f) f I1 N1' HA M) as G. pose proof (tgood_total _ _ _ _ G) as Tt. destruct G as (G1 & G2 & G3).
    rewrite u32_small in G2 by lia. split; [rewrite Lfs; exact G1|]. split; [exact G2|]. split; [lia|]. split; [lia|exact G3]. }
  assert (Cand : List.Forall (candidate (vo_nord o) b A (vs_win s1)) fl).
  { apply List.Forall_forall. intros f Hf. destruct (Hin f Hf) as (p & Hpl & Hc). destruct (Hch p f Hpl Hc) as (M & Lk & St & _).
    split; [exact M|]. split; [exact St|]. split; [|eapply window_follows; [exact Hn|exact HW1|exact M|reflexivity]].
    apply back_ok_nth in Hnb as [Hnb _]. rewrite Lfs in Hnb. destruct (nth_error A (length A - 1)) as [m|] eqn:Em; [|apply nth_error_None in Em; lia].
    pose proof (wi_links _ _ _ I1 (length A - 1) nb m (ft_id f) Hnb Em) as K. rewrite Lk in K. destruct (reported m (ft_id f)) as [ob|] eqn:Er; [|discriminate]. exists m, ob. auto. }
  assert (NDi : List.NoDup (map ft_id fl)).
  { assert (NDl : forall l1 fl1, Forall2 (fun p f => hp_cells h' !! p = Some f) l1 fl1 -> List.NoDup l1 -> (forall p, In p l1 -> In p l) -> List.NoDup (map ft_id fl1)).
    { intros l1 fl1 F. induction F as [|p f l1 fl1 Hc F IH]; intros Hnd Hsub; cbn [map]; [constructor|]. apply NoDup_cons_iff in Hnd as [Hnd1 Hnd2]. constructor.
      - intros Hx. apply in_map_iff in Hx as (g & Eg & Hg).
        assert (exists p', In p' l1 /\ hp_cells h' !! p' = Some g) as (p' & Hp' & Hc').
        { clear - F Hg. induction F as [|p f l1 fl1 Hp _ IH]; [destruct Hg|]. destruct Hg as [->|Hg]; [exists p; split; [left; reflexivity|exact Hp]|].
          destruct (IH Hg) as (p' & A1 & A2). exists p'. split; [right; exact A1|exact A2]. }
        destruct (Hch p f (Hsub p (or_introl eq_refl)) Hc) as (_ & K1 & _). destruct (Hch p' g (Hsub p' (or_intror Hp')) Hc') as (_ & K2 & _).
        rewrite Eg in K2. apply Hnd1. congruence.
      - apply IH; [exact Hnd2|]. intros p' Hp'. apply Hsub. right. exact Hp'. }
    apply (NDl l fl Hfl ND). auto. }
  assert (Lfl : (length fl <= Z.to_nat (vc_maxfeat c))%nat) by (apply Forall2_length in Hfl; lia).
  set (m := mr (pq_ecc (vs_pq s))) in *.
  assert (Em : (15 + m = err_size ne (length A - 1))%nat) by (unfold err_size; lia).
  assert (PP : fpsd (15 + m) (me P)) by (eapply fpsd_ext; [symmetry; exact P3|exact Hh]).
  rewrite Em in P1, P2, P3, PP.
  (* finishing *)
  assert (Fin : forall dx P' s2, mr P' = err_size ne (length A - 1) -> mc P' = err_size ne (length A - 1) -> fpsd (err_size ne (length A - 1)) (me P') ->
    corrected dx s1 s2 -> finish_update o c pol P' s2 = Ok s' -> pol = pol' ->
    (List.Forall (parallax (vo_nord o) b (vs_ext s) fs) fl -> estimate (err_size ne (length A - 1)) (bundle_cost (vo_nord o) b (vs_ext s) fs (me P) (vc_noise c) fl) (me P) dx (me P')) ->
    updated (vo_nord o) (vo_rand o) c b A ts thr s s' pol).
  { intros dx P' s2 Q1 Q2 Q3 Cor Ef _ Est. pose proof Cor as (it0 & r0 & C1 & C2 & C3 & _ & C5 & C6 & C7 & _). cbn [s1 vs_pq] in C1. injection C1 as <- <-.
    cbn [s1 vs_win vs_ext wn_frames wn_heap wn_mgr] in C3, C5, C6, C7. fold ne in C3. rewrite Lfs in C7.
    edestruct (finish_whole o c pol P' s2 s') as (W1 & W2 & W3 & W4 & it' & r' & W5 & W6 & W7 & W8 & W9); [exact Ef|rewrite C7; exact H2|rewrite C2; reflexivity| | | | |];
      rewrite ?C3, ?C7; [exact Q1|exact Q2|exact (proj1 Q3)|exact Q3|]. rewrite C3, C7 in W9.
    assert (Hh' : wn_heap (vs_win s') = h') by (rewrite W1; exact C5). assert (Hm' : wn_mgr (vs_win s') = wn_mgr (vs_win s)) by (rewrite W1; exact C6).
    exists it, r, fs, fl, dx, (me P'), s2, it', r'. cbv zeta. fold ne. split; [exact Him|]. split; [exact Hnew|]. split; [exact Lfs|]. split; [exact NDi|]. split; [exact Lfl|].
    split. { eapply List.Forall_impl; [|exact Cand]. intros f (K1 & K2). split; [|exact K2]. rewrite Hh', Hm'. exact K1. }
    split. { intros l1 f1 El1 Hsc Hmx ft (K1 & K2 & (m1 & ob & K3 & K4) & _). rewrite Hh', Hm' in K1. unfold managed in K1. destruct (wn_mgr (vs_win s) !! ft_id ft) as [p|] eqn:Em1; [|discriminate].
      assert (Hf1 : fr_feats f1 = fr_feats nb).
      { destruct Hnew as (l2 & f2 & G1 & G2). rewrite El1 in G1. apply app_inj_tail in G1 as [_ <-]. rewrite G2, back_snoc in Hnb. injection Hnb as <-. reflexivity. }
      rewrite Hf1 in Hsc, Hmx. assert (Lk : fr_feats nb !! ft_id ft = Some p).
      { apply back_ok_nth in Hnb as [Hnb _]. rewrite Lfs in Hnb. pose proof (wi_links _ _ _ I1 (length A - 1) nb m1 (ft_id ft) Hnb K3) as K. rewrite K4 in K. rewrite K. exact Em1. }
      assert (Hpl : In p l) by (apply (Hall Hsc Hmx); [exists (ft_id ft); exact Lk|exists ft; auto]).
      clear - Hfl Hpl K1. induction Hfl as [|p' f' l fl Hc _ IH]; [destruct Hpl|]. destruct Hpl as [-> |Hpl]; [left; congruence|right; auto]. }
    split. { intros Hpar. rewrite <- Lfs. eapply estimate_feq; [|rewrite Lfs; exact (Est Hpar)]. rewrite Lfs. exact P3. }
    split. { rewrite Hh'. exact Cor. }
    split; [exact W1|]. split; [exact W2|]. split; [exact W3|]. split; [exact W4|]. split; [exact W5|]. split.
    { intros x y Exy. rewrite W6. rewrite C2 in Exy. cbn [pq_items] in Exy. injection Exy as <- _. reflexivity. }
    split. { rewrite W7. reflexivity. }
    split; [exact W8|exact W9]. }
  assert (Alone : newest_alone (wn_frames (vs_win s1))) by (eapply consecutive_alone; exact Cfs).
  destruct l as [|p0 l0].
  - binv H. injection H as <- <-. destruct (zero_pad (err_size ne (length A - 1))) as (dx & D1 & _ & D3).
    destruct (apply_delta_ok dx s1 b it r Hb1 Cfs) as (s2 & Ea & _); [cbn [s1 vs_win wn_frames]; lia|reflexivity|cbn [s1 vs_win wn_frames vs_ext]; rewrite Lfs; exact D1|].
    assert (s2 = s1).
    { eapply apply_delta_still; [exact D3| |reflexivity| |exact Ea].
      - split; [exact U1|]. split; [exact Ufs|exact U4].
      - intros l1 f g El Hg Eid. cbn [s1 vs_win wn_frames] in El, Hg. destruct Hnew as (l2 & f2 & _ & Efs). rewrite El in Efs. apply app_inj_tail in Efs as [<- ->]. 
        apply In_nth_error in Hg as [k Hk]. assert (Hlast : nth_error fs (length fs - 1) = Some (Frame (fr_feats f2) (mo_q (pi_mo it)) (mo_p (pi_mo it)) (mo_v (pi_mo it)) (fr_id f2) (fr_ts f2))).
        { rewrite El, app_length, nth_error_app2 by (cbn; lia). cbn [length]. replace (length l1 + 1 - 1 - length l1)%nat with 0%nat by lia. reflexivity. }
        pose proof (Alone k g _ Hk Hlast Eid) as ->. cbn [s1 vs_win wn_frames] in Hk. rewrite Hlast in Hk. injection Hk as <-. reflexivity. }
    subst s2. inversion Hfl; subst fl. apply (Fin dx P s1); [exact P1|exact P2|exact PP|eapply apply_delta_corrected; [exact Ea|exact Alone]|exact E3|reflexivity|].
    intros _. rewrite <- Lfs. apply estimate_none; [rewrite Lfs; exact PP|exact D3].
  - binv H. destruct x as [Hr|]; [|discriminate].
    binv H. binv H. injection H as <- <-. unfold update_state in E4. binv E4. destruct x1 as [[K dx] P']. binv E4. injection E4 as <-. cbn [fst snd] in E5.
    pose proof (apply_delta_corrected _ _ _ E7 Alone) as Cor.
    pose proof (measurement_mc _ _ _ _ _ _ E3) as Emc. rewrite Lfs in Emc. fold ne in Emc. assert (Ec : mc Hr = (err_size ne (length A - 1) + 1)%nat) by (rewrite Emc; unfold hx_cols, err_size, imu_size; lia).
    destruct (kalman_contracts (vo_saes o) (vc_noise c) (err_size ne (length A - 1)) P Hr P1 P2 Ec PP) as (K' & dx' & P'' & Ek & _ & _ & _ & _ & K5 & K6 & _ & K8 & _).
    { eapply exact_innovation; [exact He|exact P1|exact P2|reflexivity|exact (proj1 PP)]. }
    assert (P'' = P') by congruence. subst P''.
    apply (Fin dx P' x1); [exact K5|exact K6|exact K8|exact Cor|exact E5|reflexivity|].
    intros Hpar. assert (Loc : List.Forall (locatable (vo_nord o) b (vs_ext s) fs) fl).
    { eapply List.Forall_impl; [|exact Hpar]. intros f Hf. apply locatable_parallax; [exact U1|exact Ufs|exact Hf]. }
    destruct (update_bundle o b (vs_ext s) fs h' (p0 :: l0) fl Hr (vc_noise c) P Hn Hqr He Hb1 Cfs ltac:(lia) ltac:(lia) Hfl Use Loc E3) as (K2 & dx2 & P2' & y0 & dps0 & B1 & _ & _ & _ & B5 & B6 & B7 & B8).
    + fold ne. rewrite Lfs. exact P1.
    + fold ne. rewrite Lfs. exact P2.
    + fold ne. rewrite Lfs. exact PP.
    + exact Hnoise.
    + assert (dx2 = dx /\ P2' = P') as [-> ->] by (split; congruence). fold ne in B5, B6, B7, B8. rewrite Lfs in B5, B7, B8. exists y0, dps0. auto.
Qed.
