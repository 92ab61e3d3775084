(** Ten points seen by two cameras, by a body at rest and by one moving at constant velocity, for the examples of C84. *)
From Coq Require Import ZArith Reals List Bool Lia Lra Arith.
From stdpp Require Import gmap list.
From Verif Require Import Fp Scalar Base LinAlg Msg DataLoader FeatureManager FrameManager Window MathLib Attitude Propagator
  Triangulate Pnp VisionUpdate Backend WindowSpec QueueSpec UpdSpec GeoSpec BackendSpec MatFacts QuatFacts PnpFacts WindowFacts SafeFacts
  BackLenFacts BackSafeFacts MotionFacts InitSpec InitFacts InitWitness BackDimFacts TruthSpec TruthFacts TruthRunFacts TruthResetFacts.
Import ListNotations.
Local Open Scope nat_scope.

(** The images of the point (x, 1, 4) in the body frame. *)
Definition t_ob (x : R) : observe R := <[0%Z := V2 (x / 4)%R (1 / 4)%R]> {[1%Z := V2 ((x - 1) / 4)%R (1 / 4)%R]}.
(** All ten images when the body has moved by [d]. *)
Definition t_msg (d : R) (ts : f64) : feat_msg R := FeatMsg (map Z.of_nat (seq 0 10)) (map (fun k => t_ob (INR k - d)%R) (seq 0 10)) [] ts.
Definition t_m1 : feat_msg R := t_msg 0%R (f64_of_Z 1).
Definition t_m2 (d : R) : feat_msg R := t_msg d (f64_of_Z 2).
(** The window after the first message. *)
Definition t_win : window R := match update_window window0 t_m1 with Ok w => w | Ub _ => window0 end.
(** The same window, the body at attitude [q]. *)
Definition t_posed (q : quat R) (w : window R) : window R := Window (wn_heap w) (wn_mgr w) (map (fun f => with_pose f q v3zero v3zero) (wn_frames w)).
(** Both messages. *)
Definition t_win2 (d : R) (q : quat R) : window R := match update_window (t_posed q t_win) (t_m2 d) with Ok w => w | Ub _ => window0 end.
Lemma t_win_eq : forall w, update_window window0 t_m1 = Ok w -> t_win = w.
Proof. intros w E. unfold t_win. rewrite E. reflexivity. Qed.
Lemma t_win2_eq : forall d q w, update_window (t_posed q t_win) (t_m2 d) = Ok w -> t_win2 d q = w.
Proof. intros d q w E. unfold t_win2. rewrite E. reflexivity. Qed.
#[local] Opaque t_win t_win2.

Lemma t_ob_in : forall x c z, t_ob x !! c = Some z -> c = 0%Z /\ z = V2 (x / 4)%R (1 / 4)%R \/ c = 1%Z /\ z = V2 ((x - 1) / 4)%R (1 / 4)%R.
Proof. intros x c z H. unfold t_ob, observe in H. apply lookup_insert_Some in H as [[<- <-]|[_ H]]; [auto|]. apply lookup_singleton_Some in H as [<- <-]. auto. Qed.
Lemma t_ob_0 : forall x, t_ob x !! 0%Z = Some (V2 (x / 4)%R (1 / 4)%R).
Proof. intros x. unfold t_ob, observe. apply lookup_insert. Qed.
Lemma t_ob_1 : forall x, t_ob x !! 1%Z = Some (V2 ((x - 1) / 4)%R (1 / 4)%R).
Proof. intros x. unfold t_ob, observe. rewrite lookup_insert_ne by lia. apply lookup_singleton. Qed.
Lemma t_in : forall d ts id ob, In (id, ob) (combine (fm_ids (t_msg d ts)) (fm_obs (t_msg d ts))) -> exists k, k < 10 /\ id = Z.of_nat k /\ ob = t_ob (INR k - d)%R.
Proof.
  intros d ts id ob. cbn [fm_ids fm_obs t_msg]. assert (G : forall l, In (id, ob) (combine (map Z.of_nat l) (map (fun k => t_ob (INR k - d)%R) l)) -> exists k, In k l /\ id = Z.of_nat k /\ ob = t_ob (INR k - d)%R).
  { induction l as [|k l IH]; [intros []|]. cbn [map combine]. intros [E|H]; [injection E as <- <-; exists k; cbn; auto|]. destruct (IH H) as (j & J1 & J2). exists j. cbn. auto. }
  intros H. destruct (G _ H) as (k & Hk & E). apply in_seq in Hk. exists k. split; [lia|exact E].
Qed.
Lemma t_reported : forall d ts id, match reported (t_msg d ts) id with Some ob => exists k, k < 10 /\ id = Z.of_nat k /\ ob = t_ob (INR k - d)%R | None => forall k, k < 10 -> id <> Z.of_nat k end.
Proof.
  intros d ts id. unfold reported. cbn [fm_ids fm_obs t_msg].
  assert (G : forall l, match assoc id (combine (map Z.of_nat l) (map (fun k => t_ob (INR k - d)%R) l)) with Some ob => exists k, In k l /\ id = Z.of_nat k /\ ob = t_ob (INR k - d)%R | None => forall k, In k l -> id <> Z.of_nat k end).
  { induction l as [|k l IH]; cbn [map combine assoc]; [intros k []|]. destruct (Z.eqb_spec (Z.of_nat k) id) as [<-|N]; [exists k; cbn; auto|].
    destruct (assoc id _); [destruct IH as (j & J1 & J2); exists j; cbn; auto|]. intros j [<-|J]; [auto|exact (IH j J)]. }
  specialize (G (seq 0 10)). destruct (assoc id _); [destruct G as (k & Hk & E); apply in_seq in Hk; exists k; split; [lia|exact E]|]. intros k Hk. apply G, in_seq. lia.
Qed.
Lemma t_good : forall d ts, good_msg (t_msg d ts).
Proof.
  intros d ts. split; [cbn [fm_ids fm_obs t_msg]; rewrite !map_length; reflexivity|]. split.
  - cbn [fm_ids t_msg]. apply FinFun.Injective_map_NoDup; [intros a b; apply Nat2Z.inj|apply seq_NoDup].
  - cbn [fm_obs t_msg]. apply List.Forall_forall. intros ob H. apply in_map_iff in H as (k & <- & _). unfold osize. intros C. assert (E : (t_ob (INR k - d)%R : gmap Z (v2 R)) = ∅) by (apply map_size_empty_inv, Nat2Z.inj; exact C).
    pose proof (t_ob_0 (INR k - d)%R) as K. unfold observe in *. rewrite E in K. rewrite lookup_empty in K. discriminate.
Qed.
Lemma t_cams : forall d ts, List.Forall (cam_ok 2) (fm_obs (t_msg d ts)).
Proof. intros d ts. cbn [fm_obs t_msg]. apply List.Forall_forall. intros ob H. apply in_map_iff in H as (k & <- & _). intros c z Hc. apply t_ob_in in Hc as [[-> _]|[-> _]]; lia. Qed.
Lemma short_contiguous : forall l : list (feat_msg R), length l <= 2 -> contiguous l.
Proof. intros l Hl id a b c S. apply sublist_length in S. cbn in S. lia. Qed.

Lemma t_win_ok : update_window window0 t_m1 = Ok t_win /\ win_side 2 1 [t_m1] t_win.
Proof.
  destruct (update_window_inv 1 [] window0 t_m1 winv_empty (t_good _ _) (short_contiguous ([] ++ [t_m1]) ltac:(cbn; lia)) ltac:(cbn; lia)) as (w & b & E & I & L & _).
  pose proof (t_win_eq _ E) as Ew. rewrite Ew. split; [exact E|]. pose proof (wi_b _ _ _ I) as Hb. cbn in L. assert (b = 1%Z) by lia. subst b.
  split; [exact I|]. split; [|split; [constructor; [apply t_cams|constructor]|cbn; lia]]. eapply nums_update; [exact (wi_filed _ _ _ winv_empty)| | |exact E]; [intros f Hf; discriminate|]. intros id f e. discriminate.
Qed.
Lemma with_pose_eta : forall (g : frame R) q p v, fr_q g = q -> fr_p g = p -> fr_v g = v -> g = with_pose g q p v.
Proof. intros [] q p v. cbn. intros <- <- <-. reflexivity. Qed.
Lemma posed_same : forall q w, same_win w (t_posed q w).
Proof. intros q w. split; [apply same_heap_refl|]. split; [reflexivity|]. cbn [t_posed wn_frames]. induction (wn_frames w) as [|f l IH]; cbn; [constructor|]. constructor; [repeat split|exact IH]. Qed.
Lemma t_posed_ok : forall q, win_side 2 1 [t_m1] (t_posed q t_win).
Proof. intros q. eapply win_side_same; [exact (proj2 t_win_ok)|apply posed_same]. Qed.
Lemma t_frames1 : forall q, exists f, wn_frames (t_posed q t_win) = [with_pose f q v3zero v3zero] /\ fr_id f = 1%Z /\ fr_ts f = f64_of_Z 1.
Proof.
  intros q. destruct (t_win_ok) as (_ & I & _). pose proof (wi_len _ _ _ I) as L. cbn in L. cbn [t_posed wn_frames]. destruct (wn_frames t_win) as [|f [|g r]] eqn:E; try discriminate L.
  exists f. split; [reflexivity|]. split.
  - exact (wi_ids _ _ _ I 0 f ltac:(rewrite E; reflexivity)).
  - exact (wi_ts _ _ _ I 0 f t_m1 ltac:(rewrite E; reflexivity) eq_refl).
Qed.
Lemma t_win2_ok : forall d q, update_window (t_posed q t_win) (t_m2 d) = Ok (t_win2 d q) /\ win_side 2 1 [t_m1; t_m2 d] (t_win2 d q) /\
  exists f g, wn_frames (t_win2 d q) = [with_pose f q v3zero v3zero; with_pose g q v3zero v3zero] /\ fr_id f = 1%Z /\ fr_ts f = f64_of_Z 1 /\ fr_id g = 2%Z /\ fr_ts g = f64_of_Z 2.
Proof.
  intros d q. destruct (t_posed_ok q) as (I & N & C & L). destruct (t_frames1 q) as (f & Ef & If & Tf).
  destruct (update_window_inv 1 [t_m1] (t_posed q t_win) (t_m2 d) I (t_good _ _) (short_contiguous ([t_m1] ++ [t_m2 d]) ltac:(cbn; lia)) ltac:(cbn; lia)) as (w & b & E & I2 & L2 & K1 & (nf & K2 & K3) & _).
  pose proof (t_win2_eq _ _ _ E) as Ew. rewrite Ew. split; [exact E|]. pose proof (wi_b _ _ _ I2) as Hb. cbn in L2. assert (b = 1%Z) by lia. subst b. split.
  - split; [exact I2|]. split; [|split; [constructor; [apply t_cams|constructor; [apply t_cams|constructor]]|cbn; lia]]. eapply nums_update; [exact (wi_filed _ _ _ I)| |exact N|exact E].
    intros x Hx. rewrite Ef in Hx. injection Hx as <-. cbn [with_pose fr_id]. rewrite If. lia.
  - pose proof (wi_len _ _ _ I2) as Ln. cbn in Ln, K2. destruct (wn_frames w) as [|x [|y [|z r]]] eqn:Efs; try discriminate Ln. cbn in K2. injection K2 as ->.
    specialize (K1 0 (with_pose f q v3zero v3zero)). rewrite Ef in K1. specialize (K1 eq_refl). cbn in K1. injection K1 as ->.
    destruct (K3 (with_pose f q v3zero v3zero)) as (P1 & P2 & P3); [rewrite Ef; reflexivity|]. cbn [with_pose fr_q fr_p fr_v] in P1, P2, P3. exists f, nf. split; [|split; [exact If|split; [exact Tf|split]]].
    + f_equal. f_equal. apply with_pose_eta; assumption.
    + exact (wi_ids _ _ _ I2 1 nf ltac:(rewrite Efs; reflexivity)).
    + exact (wi_ts _ _ _ I2 1 nf (t_m2 d) ltac:(rewrite Efs; reflexivity) eq_refl).
Qed.
(** The tracks of the two frames. *)
Lemma t_tracks : forall d q f i id p, nth_error (wn_frames (t_win2 d q)) i = Some f -> fr_feats f !! id = Some p ->
  exists k ft, k < 10 /\ id = Z.of_nat k /\ wn_mgr (t_win2 d q) !! id = Some p /\ hp_cells (wn_heap (t_win2 d q)) !! p = Some ft /\ ft_id ft = id /\ ft_first ft = 1%Z /\
    ft_obs ft = [t_ob (INR k - 0)%R; t_ob (INR k - d)%R].
Proof.
  intros d q f i id p Hf Hp. destruct (t_win2_ok d q) as (_ & (I & _) & _). assert (Hi : i < 2) by (pose proof (wi_len _ _ _ I) as L; cbn in L; rewrite <- L; apply nth_error_Some; congruence).
  assert (Hm : exists m, nth_error [t_m1; t_m2 d] i = Some m /\ (m = t_m1 \/ m = t_m2 d)) by (destruct i as [|[|i]]; [eexists; cbn; eauto..|lia]). destruct Hm as (m & Hm & Hmm).
  rewrite (wi_links _ _ _ I i f m id Hf Hm) in Hp. destruct (reported m id) eqn:Er; [|discriminate Hp]. assert (K : exists k, k < 10 /\ id = Z.of_nat k).
  { destruct Hmm as [-> | ->]; [pose proof (t_reported 0%R (f64_of_Z 1) id) as K; unfold t_m1 in Er|pose proof (t_reported d (f64_of_Z 2) id) as K; unfold t_m2 in Er]; rewrite Er in K; destruct K as (k & K1 & K2 & _); eauto. }
  destruct K as (k & Hk & ->). destruct (wi_filed _ _ _ I _ _ Hp) as (_ & ft & Ec & Ei). exists k, ft. split; [exact Hk|]. split; [reflexivity|]. split; [exact Hp|]. split; [exact Ec|]. split; [exact Ei|].
  assert (M : win_managed (t_win2 d q) (Z.of_nat k) = Some ft) by (unfold win_managed, managed; rewrite Hp; exact Ec).
  destruct (wi_range _ _ _ I _ _ M) as (R1 & R2 & R3). cbn in R3. pose proof (wi_obs _ _ _ I (Z.of_nat k) 0 t_m1 eq_refl) as O1. pose proof (wi_obs _ _ _ I (Z.of_nat k) 1 (t_m2 d) eq_refl) as O2. rewrite M in O1, O2.
  pose proof (t_reported 0%R (f64_of_Z 1) (Z.of_nat k)) as K1. pose proof (t_reported d (f64_of_Z 2) (Z.of_nat k)) as K2. fold t_m1 in K1. fold (t_m2 d) in K2. rewrite O1 in K1. rewrite O2 in K2.
  unfold FeatureFacts.obs_at in K1, K2. destruct (Z.leb_spec (ft_first ft) (1 + Z.of_nat 0)) as [L1|]; [|destruct (K1 k Hk eq_refl)]. assert (F : ft_first ft = 1%Z) by lia. rewrite F in *. split; [reflexivity|].
  cbn in K1, K2. destruct (ft_obs ft) as [|o1 [|o2 [|o3 r]]]; [congruence|destruct (K2 k Hk eq_refl)| |cbn in R3; lia]. cbn in K1, K2.
  destruct K1 as (k1 & _ & E1 & ->). destruct K2 as (k2 & _ & E2 & ->). apply Nat2Z.inj in E1, E2. subst. reflexivity.
Qed.
Lemma t_has : forall d q f i k, nth_error (wn_frames (t_win2 d q)) i = Some f -> k < 10 -> is_Some (fr_feats f !! Z.of_nat k).
Proof.
  intros d q f i k Hf Hk. destruct (t_win2_ok d q) as (_ & (I & _) & _). assert (Hi : i < 2) by (pose proof (wi_len _ _ _ I) as L; cbn in L; rewrite <- L; apply nth_error_Some; congruence).
  assert (Hm : exists m, nth_error [t_m1; t_m2 d] i = Some m /\ reported m (Z.of_nat k) <> None).
  { destruct i as [|[|i]]; [| |lia]; eexists; (split; [reflexivity|]); intros C; [pose proof (t_reported 0%R (f64_of_Z 1) (Z.of_nat k)) as K; fold t_m1 in K|pose proof (t_reported d (f64_of_Z 2) (Z.of_nat k)) as K; fold (t_m2 d) in K]; rewrite C in K; exact (K k Hk eq_refl). }
  destruct Hm as (m & Hm & Hr). rewrite (wi_links _ _ _ I i f m _ Hf Hm). pose proof (wi_obs _ _ _ I (Z.of_nat k) i m Hm) as O. destruct (reported m (Z.of_nat k)); [|congruence].
  unfold win_managed, managed in O. destruct (wn_mgr _ !! _); [eauto|discriminate O].
Qed.

(** ** The update succeeds when the queue reaches the image *)
Lemma vision_kept : forall (o : voracle R) c (s s' : vstate R) ts thr pol l, origin_loop ts thr (pq_items (vs_pq s)) = Some l -> l <> [] ->
  vision_update o c s ts thr = Ok (s', false, pol) -> pq_items (vs_pq s') <> [].
Proof.
  intros o c s s' ts thr pol l El Hl H. unfold vision_update, pq_reset_origin in H. rewrite El in H. cbn [negb] in H.
  binv H. binv H. destruct x0 as [P|]; [|injection H as <- _; exact Hl]. binv H. destruct x0 as [fs|]; [|injection H as <- _; exact Hl].
  binv H. destruct (snd x0).
  - binv H. discriminate H.
  - binv H. destruct x1 as [Hr|]; [|injection H as <- _; exact Hl]. binv H. binv H. discriminate H.
Qed.
Lemma origin_exists : forall ts thr (l : list (pitem R)), (exists t, In t (map pi_ts l) /\ f64_ltb thr (f64_sub ts t) = false) -> exists l', origin_loop ts thr l = Some l' /\ l' <> [].
Proof.
  intros ts thr. induction l as [|it r IH]; intros (t & Hin & Ht); [destruct Hin|]. cbn [origin_loop map] in *. destruct (f64_ltb thr (f64_sub ts (pi_ts it))) eqn:E.
  - apply IH. exists t. destruct Hin as [<-|Hin]; [congruence|auto].
  - eexists. split; [reflexivity|discriminate].
Qed.
Lemma vision_true : forall (o : voracle R) c b A s ts thr, win_side (length (vs_ext s)) b A (vs_win s) -> 2 <= length A ->
  (Z.max 1 (vc_maxfeat c) * (2 * (Z.of_nat (length A) * Z.of_nat (length (vs_ext s)))) < 4294967296)%Z ->
  valid_order (vo_ord o) -> valid_norder (vo_nord o) -> (forall a, mr (ed_vec (vo_saes o a)) = mr a /\ mc (ed_vec (vo_saes o a)) = mr a) ->
  PQ (6 * (length (vs_ext s) + length A - 1)) (vs_pq s) -> (exists t, In t (map pi_ts (pq_items (vs_pq s))) /\ f64_ltb thr (f64_sub ts t) = false) ->
  exists s' pol, vision_update o c s ts thr = Ok (s', true, pol).
Proof.
  intros o c b A s ts thr (I & N & HA & Hb) H2 Hs Ho Hn Hsa HP Ht. destruct (origin_exists _ _ _ Ht) as (l & El & Hl).
  destruct (vision_update_safe o c b A s ts thr _ I N HA H2 Hb Hs Ho Hn Hsa HP) as (s' & ok & pol & E & _ & _ & _ & K). destruct ok; [eauto|].
  destruct K as (_ & [K|K]); [|congruence]. destruct (vision_kept _ _ _ _ _ _ _ _ El Hl E K).
Qed.

(** ** The images are exact *)
Definition t_Y (id : Z) : v3 R := V3 (IZR id) 1%R 4%R.
Lemma t_seen : forall q x y, exact_obs i_exts q (qrot q (V3 y 0%R 0%R)) (qrot q (V3 x 1%R 4%R)) (t_ob (x - y)%R).
Proof.
  intros q x y cam z H. apply t_ob_in in H as [[-> ->]|[-> ->]]; eexists; (split; [reflexivity|]).
  - exists (V3 (x - y)%R 1%R 4%R). cbn [ex_q ex_p v3x v3y v3z]. rewrite qrot_id. split; [|split; [lra|reflexivity]]. rewrite <- qrot_add. f_equal. vunf. apply v3_ext; rops; ring.
  - exists (V3 (x - y - 1)%R 1%R 4%R). cbn [ex_q ex_p v3x v3y v3z]. rewrite qrot_id. split; [|split; [lra|reflexivity]]. rewrite <- qrot_add. f_equal. vunf. apply v3_ext; rops; ring.
Qed.
Lemma t_exact_msg : forall ts, exact_msg i_exts t_Y (t_msg 0%R ts).
Proof.
  intros ts id ob H. destruct (t_in _ _ _ _ H) as (k & _ & -> & ->). intros cam z Hz. apply t_ob_in in Hz. unfold t_Y. rewrite <- INR_IZR_INZ.
  destruct Hz as [[-> ->]|[-> ->]]; eexists; (split; [reflexivity|]).
  - exists (V3 (INR k - 0)%R 1%R 4%R). cbn [ex_q ex_p v3x v3y v3z]. rewrite qrot_id. split; [vunf; apply v3_ext; rops; ring|]. split; [lra|reflexivity].
  - exists (V3 (INR k - 0 - 1)%R 1%R 4%R). cbn [ex_q ex_p v3x v3y v3z]. rewrite qrot_id. split; [vunf; apply v3_ext; rops; ring|]. split; [lra|reflexivity].
Qed.
Lemma t_first_cam : forall d ts, first_camera (t_msg d ts).
Proof. intros d ts. unfold first_camera. cbn [fm_obs t_msg]. apply List.Forall_forall. intros ob H. apply in_map_iff in H as (k & <- & _). rewrite t_ob_0. eauto. Qed.
Lemma t_sight : cells_ok (sight_ft i_exts t_Y i_q) (wn_heap t_win) (wn_mgr t_win).
Proof.
  refine (update_window_ok _ window0 t_win t_m1 _ _ _ (proj1 t_win_ok)).
  - intros id fr o. apply sight_new; [apply t_exact_msg|apply t_first_cam].
  - intros f o. apply sight_add; [apply t_exact_msg|apply t_first_cam].
  - split; [exact (wi_filed _ _ _ winv_empty)|]. intros p f E. discriminate E.
Qed.

(** ** The estimator at rest *)
Definition t_a : v3 R := V3 0%R 0%R 10%R.
Definition t_c : vcfg R := VCfg 1%R 20 10 10 1%R (qrot i_q t_a).
Definition t_o : boracle R :=
  let v := VOracle map_to_list (fun o => map_to_list o) i_svd (fun _ _ _ => 0%R) (fun a => EigenDec (fun _ => 0%R) (Mat (mr a) (mr a) (fun _ _ => 0%R))) (fun _ _ => 0%R) (fun _ => 0%Z) in
  BOracle v v map_to_list (fun _ b i => me b i 0) (fun _ => map_to_list).
Definition t_item (m : motion R) (ts : Z) : pitem R := PItem m (midn 15) (mzero 15 18) t_a v3zero (f64_of_Z ts).
Definition t_rest : motion R := Motion v3zero v3zero i_q.
Definition t_pq (l : list (pitem R)) : pqueue R := PQueue l (midn 18) v3zero v3zero t_rest F_reset G_reset (noise_Q 1%R 1%R 1%R 1%R).
Definition t_thr : f64 := f64_lit 1 (-6).
Definition t_s : bstate R :=
  BState (DlStatics None None) (Loader [t_m2 0%R] [] (f64_of_Z (-1)) t_thr) (t_posed i_q t_win) i_exts
    (Att [AttItem i_q t_a v3zero (f64_of_Z 1); AttItem i_q t_a v3zero (f64_of_Z 2)] v3zero v3zero v3zero)
    (t_pq [t_item t_rest 1; t_item t_rest 2]) Initialized.

Lemma t_o_ok : oracle_ok t_o.
Proof. split; [intros m; reflexivity|]. split; [intros m; reflexivity|]. split; [intros a; split; reflexivity|]. split; [intros m; reflexivity|]. split; [intros m; reflexivity|]. split; [intros m; reflexivity|]. intros k m. reflexivity. Qed.
Lemma t_sizes : sizes_ok t_c 2.
Proof. repeat split; cbn; lia. Qed.
Lemma t_msgs : rest_ok 2 [t_m1; t_m2 0%R].
Proof.
  split; [constructor; [apply t_good|constructor; [apply t_good|constructor]]|]. split; [constructor; [apply (t_cams 0%R (f64_of_Z 1))|constructor; [apply (t_cams 0%R (f64_of_Z 2))|constructor]]|].
  split; [apply short_contiguous; cbn; lia|cbn; lia].
Qed.
Lemma t_inv : back_inv t_c 2 [t_m1; t_m2 0%R] [] t_s.
Proof.
  exists 1%Z, [t_m1], 18. split; [apply t_posed_ok|]. split; [reflexivity|]. split; [cbn; lia|]. split.
  { destruct (t_frames1 i_q) as (f & Ef & _). split; unfold n_frames; cbn [t_s b_win]; rewrite Ef; [vm_compute; lia|intros _; cbn; lia]. }
  split; [reflexivity|]. split; [reflexivity|]. split; [repeat constructor|]. split; [|constructor].
  split; [|split; [intros E; discriminate E|]].
  - cbn. split; [vm_compute; reflexivity|]. split; [intros x [<-|[]]; vm_compute; reflexivity|]. split; [vm_compute; reflexivity|]. split; [intros x []|exact Logic.I].
  - intros x Hx t Ht. cbn in Hx. injection Hx as <-. cbn in Ht. destruct Ht as [<-|[<-|[]]]; vm_compute; reflexivity.
Qed.
Lemma t_resting : resting (vc_grav t_c) i_exts t_Y i_q v3zero t_a v3zero v3zero t_s.
Proof.
  split.
  - exact i_qunit.
  - cbn [vc_grav t_c]. f_equal. vunf. apply v3_ext; rops; ring.
  - reflexivity.
  - assert (Q : qnorm2 (qid (T := R)) = 1%R) by (vunf; ring). constructor; [exact Q|constructor; [exact Q|constructor]].
  - split; reflexivity.
  - split; [|discriminate]. repeat constructor.
  - destruct (t_frames1 i_q) as (f & Ef & _). cbn [t_s b_win]. rewrite Ef. repeat constructor.
  - split; [exact (proj1 t_sight)|]. intros p ft E. exact (proj1 (proj2 t_sight p ft E)).
  - split; [constructor|]. constructor; [apply t_exact_msg|constructor].
Qed.
Lemma t_settled : settled (vc_grav t_c) i_exts t_Y i_q t_a t_s.
Proof.
  destruct t_resting as [R1 R2 R3 R4 R5 R6 R7 R8 R9]. split.
  - exact R1.
  - reflexivity.
  - exact R3.
  - exact R4.
  - repeat split.
  - split; [exact (proj1 R6)|]. discriminate.
  - split; [repeat constructor|discriminate].
  - left. exact R7.
  - exact R8.
  - intros p ft E. exact (proj2 (proj2 t_sight p ft E)).
  - split; [exact R9|]. constructor; [apply (t_first_cam 0%R (f64_of_Z 2))|constructor].
Qed.
Lemma t_op : settled_op i_exts t_Y t_a (BRun t_o).
Proof. split; [intros m; reflexivity|]. split; [exact i_svd_exact|]. split; [intros m; reflexivity|]. split; [exact i_svd_exact|]. intros H b Hb i _. apply Hb. Qed.

Lemma t_pop : dl_pop_one (b_dl t_s) = (Loader [] [] (f64_of_Z (-1)) t_thr, CombMsg (Some (t_m2 0%R)) [], true, false).
Proof. reflexivity. Qed.
Definition t_now (st : status) : bstate R :=
  BState (DlStatics None None) (Loader [] [] (f64_of_Z (-1)) t_thr) (t_win2 0%R i_q) i_exts (b_att t_s) (b_pq t_s) st.
Lemma t_near : f64_ltb t_thr (f64_sub (f64_of_Z 2) (f64_of_Z 2)) = false /\ f64_ltb t_thr (f64_sub (f64_of_Z 2) (f64_of_Z 1)) = true.
Proof. split; vm_compute; reflexivity. Qed.

(** The run with the second message from [t_s], with or without a reset before it. *)
Lemma t_step : forall st s', (let! r := run_once t_c t_o (with_status t_s st) in Ok (fst r)) = Ok s' ->
  exists s1 s2, init_step t_c t_o (t_now st) = Ok s1 /\ update_step t_c t_o (f64_of_Z 2) s1 = Ok s2 /\ clean_step s2 = Ok s'.
Proof.
  intros st s' H. unfold run_once in H. change (b_dl (with_status t_s st)) with (b_dl t_s) in H. rewrite t_pop in H. cbn [negb cm_imu cm_feat] in H.
  binv H. binv E. injection E as <-. injection H as <-. unfold feat_step in E0. cbn [with_dl with_status b_win t_s] in E0. rewrite (proj1 (t_win2_ok 0%R i_q)) in E0. cbn [obind] in E0.
  binv E0. binv E0. exists x, x1. split; [exact E|]. split; [exact E1|exact E0].
Qed.
Lemma t_update : forall s1 s2 s', win_side 2 1 [t_m1; t_m2 0%R] (b_win s1) -> length (b_ext s1) = 2 -> PQ 18 (b_pq s1) -> In (f64_of_Z 2) (map pi_ts (pq_items (b_pq s1))) ->
  dl_period (b_dl s1) = t_thr -> b_status s1 = Initialized -> update_step t_c t_o (f64_of_Z 2) s1 = Ok s2 -> clean_step s2 = Ok s' -> b_status s' = Initialized.
Proof.
  intros s1 s2 s' W L P T D S U C. unfold update_step in U. rewrite S, D in U. destruct t_o_ok as (O1 & O2 & O3 & _).
  destruct (vision_true (bo_vis t_o) t_c 1 [t_m1; t_m2 0%R] (VState (b_win s1) (b_ext s1) (b_pq s1)) (f64_of_Z 2) t_thr) as (v & pol & E); cbn [vs_ext vs_win vs_pq].
  { rewrite L. exact W. } { cbn. lia. } { rewrite L. cbn. lia. } { exact O1. } { exact O2. } { exact O3. } { rewrite L. exact P. } { exists (f64_of_Z 2). split; [exact T|exact (proj1 t_near)]. }
  rewrite E in U. cbn [obind] in U. binv U. injection U as <-. unfold clean_step in C. destruct (Nat.ltb _ _); [binv C; binv C|]; injection C as <-; reflexivity.
Qed.
Lemma t_run : exists s, b_hist t_c t_s [BRun t_o] = Ok s /\ b_status s = Initialized.
Proof.
  destruct (b_hist_safe t_c 2 [t_m1; t_m2 0%R] [BRun t_o] t_s) as (s & E & _); [constructor; [exact t_o_ok|constructor]|exact t_sizes|exact t_msgs|exact t_inv|].
  exists s. split; [exact E|]. cbn [b_hist b_step] in E. binv E. injection E as <-. apply (t_step Initialized) in E0 as (s1 & s2 & E1 & E2 & E3). injection E1 as <-.
  apply (t_update (t_now Initialized) s2 _ (proj1 (proj2 (t_win2_ok 0%R i_q))) eq_refl); [repeat constructor|right; left; reflexivity|reflexivity|reflexivity|exact E2|exact E3].
Qed.
Lemma t_stays : stays_initialized t_c t_s [BRun t_o].
Proof.
  intros pre post s E H. destruct pre as [|op pre]; [injection H as <-; reflexivity|]. injection E as <- E. symmetry in E. apply app_eq_nil in E as [-> ->].
  destruct t_run as (s' & E & S). rewrite E in H. injection H as <-. exact S.
Qed.

(** The initialization succeeds after a reset. *)
Definition t_P (w : window R) (p : nat) : v3 R := match hp_cells (wn_heap w) !! p with Some ft => qrot i_q (t_Y (ft_id ft)) | None => v3zero end.
Lemma t_unsolved : cells_ok (fun ft => ft_status ft <> FSolved) (wn_heap (t_win2 0%R i_q)) (wn_mgr (t_win2 0%R i_q)).
Proof.
  refine (update_window_ok _ (t_posed i_q t_win) _ (t_m2 0%R) _ _ _ (proj1 (t_win2_ok 0%R i_q))); [discriminate|intros f o _ H; unfold add_observe; destruct (osize o =? 0)%Z; exact H|].
  refine (update_window_ok _ window0 t_win t_m1 _ _ _ (proj1 t_win_ok)); [discriminate|intros f o _ H; unfold add_observe; destruct (osize o =? 0)%Z; exact H|].
  split; [exact (wi_filed _ _ _ winv_empty)|]. intros p f E. discriminate E.
Qed.
Lemma t_frames2 : exists f g, wn_frames (t_win2 0%R i_q) = [f; g] /\ fr_id f = 1%Z /\ fr_ts f = f64_of_Z 1 /\ fr_id g = 2%Z /\ fr_ts g = f64_of_Z 2.
Proof. destruct (t_win2_ok 0%R i_q) as (_ & _ & f & g & E & K). exists (with_pose f i_q v3zero v3zero), (with_pose g i_q v3zero v3zero). split; [exact E|exact K]. Qed.
Lemma t_obs_exact : forall k, exact_obs i_exts i_q v3zero (qrot i_q (t_Y (Z.of_nat k))) (t_ob (INR k - 0)%R).
Proof.
  intros k cam z H. destruct (t_seen i_q (INR k) 0%R cam z H) as (e & E1 & c & E2 & E3). exists e. split; [exact E1|]. exists c. split; [|exact E3]. unfold t_Y. rewrite <- INR_IZR_INZ, E2.
  f_equal. unfold i_q. vunf. apply v3_ext; rops; ring.
Qed.
Lemma t_pair : forall f g, wn_frames (t_win2 0%R i_q) = [f; g] -> fr_id f = 1%Z -> fr_id g = 2%Z -> exact_pair i_exts (wn_heap (t_win2 0%R i_q)) f g (t_P (t_win2 0%R i_q)) i_q i_q v3zero.
Proof.
  intros f g Ef If Ig.
  assert (Tr : forall h p, (h = f \/ h = g) -> linked h p -> exists k ft, k < 10 /\ hp_cells (wn_heap (t_win2 0%R i_q)) !! p = Some ft /\ ft_id ft = Z.of_nat k /\ ft_first ft = 1%Z /\ ft_obs ft = [t_ob (INR k - 0)%R; t_ob (INR k - 0)%R]).
  { intros h p Hh (id & Hp). assert (Hn : exists i, nth_error (wn_frames (t_win2 0%R i_q)) i = Some h) by (rewrite Ef; destruct Hh as [->| ->]; [exists 0|exists 1]; reflexivity). destruct Hn as (i & Hi).
    destruct (t_tracks _ _ _ _ _ _ Hi Hp) as (k & ft & K1 & K2 & _ & K3 & K4 & K5 & K6). exists k, ft. rewrite K4. auto. }
  split.
  - exact i_qunit.
  - exact (rs_exts _ _ _ _ _ _ _ _ _ t_resting).
  - rewrite If, Ig. split; lia.
  - intros p Hp. destruct (Tr f p (or_introl eq_refl) Hp) as (k & ft & K1 & K3 & K4 & K5 & K6). exists ft, (t_ob (INR k - 0)%R). split; [exact K3|]. split; [split; [rewrite K6; discriminate|rewrite K5, K6; cbn; lia]|].
    split; [unfold observed; rewrite K5, K6, If; reflexivity|]. unfold t_P. rewrite K3, K4. split; [apply t_obs_exact|]. split.
    + exists 0%Z, (V2 ((INR k - 0) / 4)%R (1 / 4)%R), (Extrinsic qid v3zero), 1%Z, (V2 ((INR k - 0 - 1) / 4)%R (1 / 4)%R), (Extrinsic qid (V3 1%R 0%R 0%R)).
      split; [apply t_ob_0|]. split; [apply t_ob_1|]. split; [reflexivity|]. split; [reflexivity|]. cbn [ex_q v2x v2y]. rewrite !qrot_id. unfold v3cross, v3zero. cbn [v3x v3y v3z].
      intros E. injection E as _ E _. rops. cbn in E. lra.
    + rewrite (qrot_dot i_q _ _ i_qunit). unfold v3dot, t_Y. rewrite <- INR_IZR_INZ. cbn [v3x v3y v3z]. rops.
      assert (B : (0 <= INR k <= INR 10)%R) by (split; [apply pos_INR|apply le_INR; lia]). replace (INR 10) with 10%R in B by (cbn; lra). cbn. nra.
  - intros p Hp. destruct (Tr g p (or_intror eq_refl) Hp) as (k & ft & K1 & K3 & K4 & K5 & K6). exists ft. split; [exact K3|]. split; [split; [rewrite K6; discriminate|rewrite K5, K6; cbn; lia]|]. split.
    + intros ob z Ho Hz. unfold observed in Ho. rewrite K5, K6, Ig in Ho. injection Ho as <-. unfold t_P. rewrite K3, K4. exact (t_obs_exact k 0%Z z Hz).
    + intros C. destruct (proj2 t_unsolved p ft K3 C).
Qed.
Lemma t_usable : forall f g, wn_frames (t_win2 0%R i_q) = [f; g] -> fr_id g = 2%Z ->
  forall id, In id (map Z.of_nat (seq 0 10)) <-> usable (wn_heap (t_win2 0%R i_q)) f g id.
Proof.
  intros f g Ef Ig id. assert (F0 : nth_error (wn_frames (t_win2 0%R i_q)) 0 = Some f) by (rewrite Ef; reflexivity). assert (F1 : nth_error (wn_frames (t_win2 0%R i_q)) 1 = Some g) by (rewrite Ef; reflexivity). split.
  - intros H. apply in_map_iff in H as (k & <- & Hk). apply in_seq in Hk. destruct (t_has _ _ _ _ k F1 ltac:(lia)) as (p & Hp). destruct (t_tracks _ _ _ _ _ _ F1 Hp) as (j & ft & J1 & J2 & J3 & J4 & J5 & J6 & J7).
    apply Nat2Z.inj in J2. subst j. exists p, ft, (t_ob (INR k - 0)%R). split; [exact Hp|]. split; [exact J4|]. split.
    + left. destruct (t_has _ _ _ _ k F0 ltac:(lia)) as (p' & Hp'). exists (Z.of_nat k). destruct (t_tracks _ _ _ _ _ _ F0 Hp') as (_ & _ & _ & _ & M & _). rewrite J3 in M. injection M as ->. exact Hp'.
    + split; [unfold observed; rewrite J6, J7, Ig; reflexivity|]. rewrite t_ob_0. eauto.
  - intros (p & ft & ob & Hp & _). destruct (t_tracks _ _ _ _ _ _ F1 Hp) as (k & _ & Hk & -> & _). apply in_map_iff. exists k. split; [reflexivity|]. apply in_seq. lia.
Qed.
Lemma t_att : att_get (b_att t_s) (f64_of_Z 1) (f64_mul t_thr f64_0_55) = Ok (Some i_q).
Proof.
  unfold att_get. cbn [t_s b_att at_items back length obind ai_ts ai_q front Nat.ltb Nat.leb andb].
  replace (f64_leb (f64_of_Z 2) (f64_of_Z 1)) with false by (vm_compute; reflexivity). replace (f64_leb (f64_of_Z 1) (f64_of_Z 1)) with true by (vm_compute; reflexivity).
  replace (f64_ltb (f64_sub (f64_of_Z 1) (f64_of_Z 1)) (f64_mul t_thr f64_0_55)) with true by (vm_compute; reflexivity). reflexivity.
Qed.
Lemma t_reset : exists s, b_hist t_c t_s [BReset; BRun t_o] = Ok s /\ b_status s = Initialized.
Proof.
  destruct (b_hist_safe t_c 2 [t_m1; t_m2 0%R] [BReset; BRun t_o] t_s) as (s & E & _); [constructor; [exact t_o_ok|constructor]|exact t_sizes|exact t_msgs|exact t_inv|].
  exists s. split; [exact E|]. cbn [b_hist b_step obind] in E. binv E. injection E as <-. apply (t_step NeedInit) in E0 as (s1 & s2 & E1 & E2 & E3).
  unfold init_step in E1. cbn [t_now b_status] in E1. fold (t_now NeedInit) in E1. binv E1. destruct x0 as [s3 r]. cbn [fst snd] in E1.
  destruct t_frames2 as (f & g & Ef & If & Tf & Ig & Tg). destruct t_o_ok as (O1 & O2 & O3 & O4 & O5 & O6 & O7).
  destruct (initialize_safe t_c t_o 1 [t_m1; t_m2 0%R] (t_now NeedInit) t_o_ok (proj1 (proj2 (t_win2_ok 0%R i_q)))) as (s4 & r4 & E4 & Sw). rewrite E in E4. injection E4 as <- <-.
  destruct (initial_rest t_c t_o (t_now NeedInit) f g [] i_q (t_P (t_win2 0%R i_q)) (map Z.of_nat (seq 0 10)) Ef) as (s5 & E5 & _ & _).
  { rewrite Tf, Tg. vm_compute. reflexivity. } { rewrite Tf. exact t_att. } { exact O4. } { exact O5. } { exact O6. } { exact i_svd_exact. } { intros H b Hb i _. apply Hb. }
  { exact (t_pair f g Ef If Ig). } { apply FinFun.Injective_map_NoDup; [intros a b; apply Nat2Z.inj|apply seq_NoDup]. } { exact (t_usable f g Ef Ig). } { cbn. lia. }
  rewrite E in E5. injection E5 as <- ->. cbn [fst snd] in E1. injection E1 as <-.
  pose proof (initialize_len _ _ _ _ _ E) as (_ & _ & Ld & _ & Le & _). pose proof (initialize_pq _ _ _ _ _ E) as (fi & rest & a & m & _ & Hc & _ & Hq & _).
  apply (t_update (with_status s3 Initialized) s2 _); cbn [with_status b_win b_ext b_pq b_dl b_status].
  - eapply win_side_same; [exact (proj1 (proj2 (t_win2_ok 0%R i_q)))|exact Sw].
  - rewrite Le. reflexivity.
  - rewrite Hq. pose proof (replay_PQ (vc_grav t_c) (length (b_ext (t_now NeedInit))) (at_items a) (with_init (b_pq (t_now NeedInit)) m) 18) as K. destruct (at_items a); apply K; repeat constructor.
  - rewrite Hq, replay_times. apply in_or_app. left. right. left. reflexivity.
  - rewrite Ld. reflexivity.
  - reflexivity.
  - exact E2.
  - exact E3.
Qed.

(** ** The body moving at constant velocity *)
Definition t_v : v3 R := qrot i_q (V3 1%R 0%R 0%R).
Definition t_dt : R := sof32 (f64_to_f32 (f64_sub (f64_of_Z 3) (f64_of_Z 2))).
Definition t_i2 : pitem R := t_item (Motion t_v t_v i_q) 2.
Definition t_i3 : pitem R := t_item (Motion (v3add t_v (v3scale t_v t_dt)) t_v i_q) 3.
Definition t_vs : vstate R := VState (t_win2 1%R i_q) i_exts (t_pq [t_item (Motion v3zero t_v i_q) 1; t_i2; t_i3]).
Lemma t_vs_unit : all_unit t_vs.
Proof.
  split; [exact (rs_exts _ _ _ _ _ _ _ _ _ t_resting)|]. split; [|split; [exact i_qunit|]].
  - destruct (t_win2_ok 1%R i_q) as (_ & _ & f & g & E & _). cbn [t_vs vs_win]. rewrite E. constructor; [exact i_qunit|constructor; [exact i_qunit|constructor]].
  - constructor; [exact i_qunit|constructor; [exact i_qunit|constructor; [exact i_qunit|constructor]]].
Qed.
Lemma t_from : from_image (f64_of_Z 2) t_thr (pq_items (vs_pq t_vs)) [t_i2; t_i3].
Proof. exists [t_item (Motion v3zero t_v i_q) 1], t_i2, [t_i3]. split; [reflexivity|]. split; [reflexivity|]. split; [constructor; [exact (proj2 t_near)|constructor]|exact (proj1 t_near)]. Qed.
Lemma t_vs_ok : exists s' pol, vision_update (bo_vis t_o) t_c t_vs (f64_of_Z 2) t_thr = Ok (s', true, pol).
Proof.
  destruct t_o_ok as (O1 & O2 & O3 & _). apply (vision_true (bo_vis t_o) t_c 1 [t_m1; t_m2 1%R]); [exact (proj1 (proj2 (t_win2_ok 1%R i_q)))|cbn; lia|cbn; lia|exact O1|exact O2|exact O3| |].
  - repeat constructor.
  - exists (f64_of_Z 2). split; [right; left; reflexivity|exact (proj1 t_near)].
Qed.
Lemma t_coherent : coherent (vc_grav t_c) (pq_ba (vs_pq t_vs)) (pq_bg (vs_pq t_vs)) [t_i2; t_i3].
Proof.
  split; [|exact Logic.I]. unfold midpoint. cbn [t_i2 t_i3 t_item t_vs vs_pq t_pq pq_ba pq_bg pi_ts pi_mo pi_a pi_g mo_q mo_v mo_p vc_grav t_c].
  fold t_dt. generalize t_dt as dt. intros dt. split; [|split].
  - symmetry. replace (v3scale (v3sub (v3scale (v3add v3zero v3zero) (1 / 2)%R) v3zero) dt) with (v3zero (T := R)) by (vunf; apply v3_ext; rops; ring). replace (qmul i_q (delta_q v3zero)) with i_q; [apply qnormalize_of_unit, i_qunit|]. unfold i_q. vunf. apply q_ext; rops; field.
  - generalize t_v as v. intros v. unfold t_a, i_q. vunf. apply v3_ext; rops; field.
  - generalize t_v as v. intros v. vunf. apply v3_ext; rops; field.
Qed.
Lemma t_newest : exists f g fs', wn_frames (t_win2 1%R i_q) = [with_pose f i_q v3zero v3zero; g] /\ fr_id f = 1%Z /\ fr_id g = 2%Z /\
  fs' = [with_pose f i_q v3zero v3zero; with_pose g i_q t_v t_v] /\ newest_at (wn_frames (vs_win t_vs)) (pi_mo t_i2) fs'.
Proof.
  destruct (t_win2_ok 1%R i_q) as (_ & _ & f & g & E & If & _ & Ig & _). exists f, (with_pose g i_q v3zero v3zero). eexists. split; [exact E|]. split; [exact If|]. split; [exact Ig|]. split; [reflexivity|].
  exists [with_pose f i_q v3zero v3zero], (with_pose g i_q v3zero v3zero). split; [exact E|reflexivity].
Qed.
Lemma t_moving : exists fs', newest_at (wn_frames (vs_win t_vs)) (pi_mo t_i2) fs' /\
  forall l f id p ft, wn_frames (vs_win t_vs) = l ++ [f] -> fr_feats f !! id = Some p -> hp_cells (wn_heap (vs_win t_vs)) !! p = Some ft -> exists X, exact_track (vs_ext t_vs) fs' X ft.
Proof.
  destruct t_newest as (f & g & fs' & E & If & Ig & Efs & Hn). exists fs'. split; [exact Hn|]. intros l h id p ft El Hp Hc. cbn [t_vs vs_win vs_ext] in *. rewrite E in El.
  change [with_pose f i_q v3zero v3zero; g] with ([with_pose f i_q v3zero v3zero] ++ [g]) in El. apply app_inj_tail in El as [_ <-].
  destruct (t_tracks 1%R i_q g 1 id p) as (k & ft' & _ & _ & _ & K1 & _ & K2 & K3); [rewrite E; reflexivity|exact Hp|]. rewrite Hc in K1. injection K1 as <-.
  exists (qrot i_q (V3 (INR k) 1%R 4%R)). intros j ob fr Ej Hin Hid. rewrite K2 in Hid. rewrite K3 in Ej. rewrite Efs in Hin. destruct Hin as [<-|[<-|[]]]; cbn [with_pose fr_id fr_q fr_p] in *.
  - rewrite If in Hid. destruct j as [|[|[|j]]]; [|discriminate Hid|discriminate Ej|discriminate Ej]. injection Ej as <-. pose proof (t_seen i_q (INR k) 0%R) as K. replace (qrot i_q (V3 0%R 0%R 0%R)) with (v3zero (T := R)) in K; [exact K|]. unfold i_q. vunf. apply v3_ext; rops; ring.
  - rewrite Ig in Hid. destruct j as [|[|[|j]]]; [discriminate Hid| |discriminate Ej|discriminate Ej]. injection Ej as <-. exact (t_seen i_q (INR k) 1%R).
Qed.

(** ** The examples *)
Lemma t_update_example : exists fs' s' pol,
  valid_order (vo_ord (bo_vis t_o)) /\ valid_norder (vo_nord (bo_vis t_o)) /\ exact_svd (vo_svd (bo_vis t_o)) /\ all_unit t_vs /\
  consecutive 1 (wn_frames (vs_win t_vs)) /\ length (wn_frames (vs_win t_vs)) = 2%nat /\
  from_image (f64_of_Z 2) t_thr (pq_items (vs_pq t_vs)) [t_i2; t_i3] /\ coherent (vc_grav t_c) (pq_ba (vs_pq t_vs)) (pq_bg (vs_pq t_vs)) [t_i2; t_i3] /\
  newest_at (wn_frames (vs_win t_vs)) (pi_mo t_i2) fs' /\
  (forall l f id p ft, wn_frames (vs_win t_vs) = l ++ [f] -> fr_feats f !! id = Some p -> hp_cells (wn_heap (vs_win t_vs)) !! p = Some ft -> exists X, exact_track (vs_ext t_vs) fs' X ft) /\
  vision_update (bo_vis t_o) t_c t_vs (f64_of_Z 2) t_thr = Ok (s', true, pol).
Proof.
  destruct t_moving as (fs' & Hn & Hex). destruct t_vs_ok as (s' & pol & E). exists fs', s', pol. split; [intros m; reflexivity|]. split; [intros m; reflexivity|]. split; [exact i_svd_exact|]. split; [exact t_vs_unit|].
  destruct (t_win2_ok 1%R i_q) as (_ & (I & _) & _). split; [exact (wi_ids _ _ _ I)|]. split; [exact (wi_len _ _ _ I)|]. split; [exact t_from|]. split; [exact t_coherent|]. split; [exact Hn|]. split; [exact Hex|exact E].
Qed.
Lemma t_run_example : resting (vc_grav t_c) i_exts t_Y i_q v3zero t_a v3zero v3zero t_s /\ List.Forall (rest_op i_exts t_Y t_a v3zero) [BRun t_o] /\
  stays_initialized t_c t_s [BRun t_o] /\ exists s, b_hist t_c t_s [BRun t_o] = Ok s.
Proof.
  split; [exact t_resting|]. split; [constructor; [split; [intros m; reflexivity|exact i_svd_exact]|constructor]|]. split; [exact t_stays|]. destruct t_run as (s & E & _). eauto.
Qed.
Lemma t_reset_example : settled (vc_grav t_c) i_exts t_Y i_q t_a t_s /\ List.Forall (settled_op i_exts t_Y t_a) [BReset; BRun t_o] /\
  exists s, b_hist t_c t_s [BReset; BRun t_o] = Ok s /\ b_status s = Initialized.
Proof. split; [exact t_settled|]. split; [constructor; [exact Logic.I|constructor; [exact t_op|constructor]]|exact t_reset]. Qed.
