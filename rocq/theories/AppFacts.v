(** Proofs about the test program (C72-C75). *)
From Coq Require Import ZArith Reals Lra Lia List Bool Arith.
From stdpp Require Import gmap list.
From Verif Require Import Fp FpFacts Scalar Base LinAlg Msg DataLoader FeatureManager FrameManager Window MathLib Attitude Propagator
  Triangulate Pnp VisionUpdate Backend LoaderSpec WindowSpec QueueSpec UpdSpec BackendSpec LoaderFacts AttitudeFacts WindowFacts BackLenFacts BackSafeFacts BackTimeFacts QuatFacts App AppSpec.
Import ListNotations.
Local Open Scope nat_scope.

Section AppFacts.
Context {T : Type} {S : SOps T}.

Lemma hist_app : forall (c : vcfg T) a b s, b_hist c s (a ++ b) = let! s' := b_hist c s a in b_hist c s' b.
Proof. intros c. induction a as [|op a IH]; intros b s; [reflexivity|]. cbn [app b_hist]. destruct (b_step c s op); [apply IH|reflexivity]. Qed.

(** ** Reading lines *)
Lemma imu_line_said : forall l (v : imu_vars T) m, imu_said l = Some m -> let v' := imu_line l v in ImuMsg (iv_gyr v') (iv_acc v') (iv_ts v') = m.
Proof.
  intros l v m H. unfold imu_said in H.
  do 14 (destruct l as [|[? ?|? ?] l]; [discriminate H| |discriminate H]; cbn [numbers] in H). injection H as <-. reflexivity.
Qed.
Lemma cam_line_said : forall l (v : cam_vars T) t q p, cam_said l = Some (t, q, p) -> cam_line l v = CamVars t q p.
Proof.
  intros l v t q p H. unfold cam_said in H.
  do 8 (destruct l as [|[? ?|? ?] l]; [discriminate H| |discriminate H]; cbn [numbers] in H). injection H as <- <- <-. reflexivity.
Qed.
Lemma pts_loop_said : forall f ps (j : v3 T), map pt_said (file_lines f) = map Some ps -> pts_loop f j = ps.
Proof.
  induction f as [|[l|] f IH]; intros ps j H; cbn [file_lines map] in H; [|destruct ps as [|p ps]; [discriminate|]|].
  - destruct ps; [reflexivity|discriminate].
  - injection H as H1 H2. cbn [pts_loop]. assert (E : snd (get3 (l, false) j) = p).
    { unfold pt_said in H1. do 3 (destruct l as [|[? ?|? ?] l]; [discriminate H1| |discriminate H1]; cbn [numbers] in H1). injection H1 as <-. reflexivity. }
    destruct (get3 (l, false) j) as [s0 p']. cbn [snd] in E. subst p'. f_equal. apply IH. exact H2.
  - destruct ps; [reflexivity|discriminate].
Qed.

(** ** The loops as histories *)
Lemma imu_loop_hist : forall c f (v : imu_vars T) s n, exists ms, b_hist c s (map BImu ms) = Ok (fst (imu_loop f v s n)) /\
  length ms <= length (file_lines f).
Proof.
  intros c. induction f as [|[l|] f IH]; intros v s n; cbn [imu_loop file_lines]; [exists []; cbn; auto| |exists []; cbn; auto].
  set (m := ImuMsg _ _ _). destruct (dl_push_imu (b_st s) (b_dl s) m) as [[[st dl] m'] r] eqn:E.
  assert (Es : fst (b_imu s m) = with_dl s st dl) by (unfold b_imu; rewrite E; reflexivity).
  destruct (f64_ltb app_max (im_ts m')).
  - exists [m]. cbn [map b_hist b_step fst length]. rewrite Es. split; [reflexivity|lia].
  - destruct (IH (imu_line l v) (with_dl s st dl) ((n + 1) mod 4294967296)%Z) as (ms & H1 & H2). exists (m :: ms). cbn [map b_hist b_step length].
    rewrite Es. split; [exact H1|lia].
Qed.
Lemma cam_loop_hist : forall c pts f (v : cam_vars T) s, exists vs, b_hist c s (map (fun v => BFeat (app_msg pts v)) vs) = Ok (cam_loop_app pts f v s) /\
  length vs <= length (file_lines f).
Proof.
  intros c pts. induction f as [|[l|] f IH]; intros v s; cbn [cam_loop_app file_lines]; [exists []; cbn; auto| |exists []; cbn; auto].
  set (v' := cam_line l v). destruct (dl_push_feat (b_st s) (b_dl s) (app_msg pts v')) as [[[st dl] m'] r] eqn:E.
  assert (Es : fst (b_feat s (app_msg pts v')) = with_dl s st dl) by (unfold b_feat; rewrite E; reflexivity).
  destruct (f64_ltb app_max (fm_ts m')).
  - exists [v']. cbn [map b_hist b_step fst length]. rewrite Es. split; [reflexivity|lia].
  - destruct (IH v' (with_dl s st dl)) as (vs & H1 & H2). exists (v' :: vs). cbn [map b_hist b_step length]. rewrite Es. split; [exact H1|lia].
Qed.
Lemma feat_hist : forall c jp jc fp fc (s : bstate T), exists pts vs, b_hist c s (map (fun v => BFeat (app_msg pts v)) vs) = Ok (app_feat jp jc fp fc s) /\
  length vs <= length (opt_lines fc).
Proof.
  intros c jp jc [fp|] [fc|] s; cbn [app_feat opt_lines]; [|exists [], []; cbn; split; [reflexivity|lia]..].
  destruct (cam_loop_hist c (pts_loop fp jp) fc jc s) as (vs & H1 & H2). eauto.
Qed.

(** The messages of the program keep the contract. *)
Lemma app_msg_fields : forall pts (v : cam_vars T), app_msg pts v = FeatMsg (map Z.of_nat (seq 0 (length pts))) (map (app_obs v) pts) (map (fun _ => 0%Z) pts) (cv_ts v).
Proof. intros pts v. unfold app_msg, feat_msg_make. rewrite !map_length, seq_length, Nat.eqb_refl. reflexivity. Qed.
Lemma obs_lookup : forall (v : cam_vars T) p c, app_obs v p !! c =
  if (c =? 1)%Z then Some (app_project (app_q1 v) (app_p1 v) p) else if (c =? 0)%Z then Some (app_project (cv_q v) (cv_p v) p) else None.
Proof.
  intros v p c. unfold app_obs, observe. destruct (Z.eqb_spec c 1) as [->|n]; [apply lookup_insert|]. rewrite lookup_insert_ne by auto.
  destruct (Z.eqb_spec c 0) as [->|n0]; [apply lookup_singleton|]. apply lookup_singleton_ne. auto.
Qed.
Lemma assoc_some : forall id (l : list (Z * observe T)), assoc id l <> None <-> In id (map fst l).
Proof.
  intros id l. induction l as [|[i o] l IH]; cbn [assoc map fst In]; [tauto|]. destruct (Z.eqb_spec i id) as [->|n]; [split; [auto|discriminate]|].
  rewrite IH. tauto.
Qed.
Lemma combine_fst : forall (A B : Type) (l : list A) (k : list B), length l = length k -> map fst (combine l k) = l.
Proof. intros A B l. induction l as [|x l IH]; intros [|y k] H; cbn in *; try discriminate; [reflexivity|]. f_equal. apply IH. lia. Qed.
Lemma app_reported : forall pts (v : cam_vars T) id, reported (app_msg pts v) id <> None <-> In id (map Z.of_nat (seq 0 (length pts))).
Proof.
  intros pts v id. rewrite app_msg_fields. unfold reported. cbn [fm_ids fm_obs]. rewrite assoc_some, combine_fst; [tauto|].
  rewrite !map_length, seq_length. reflexivity.
Qed.
Lemma app_good : forall pts (v : cam_vars T), good_msg (app_msg pts v).
Proof.
  intros pts v. rewrite app_msg_fields. split; cbn [fm_ids fm_obs]; [rewrite !map_length, seq_length; reflexivity|]. split.
  - apply FinFun.Injective_map_NoDup; [intros a b; apply Nat2Z.inj|apply seq_NoDup].
  - rewrite List.Forall_forall. intros o Ho E. apply in_map_iff in Ho as (p & <- & _). unfold osize in E.
    assert (Hs : size (app_obs v p : gmap Z (v2 T)) = 0) by (apply Nat2Z.inj; exact E).
    apply map_size_empty_inv in Hs. pose proof (obs_lookup v p 1%Z) as H. unfold observe in *. rewrite Hs, lookup_empty in H. discriminate.
Qed.
Lemma app_cams : forall ne pts (v : cam_vars T), 2 <= ne -> cams_known ne (app_msg pts v).
Proof.
  intros ne pts v H. unfold cams_known. rewrite app_msg_fields. cbn [fm_obs]. rewrite List.Forall_forall. intros o Ho.
  apply in_map_iff in Ho as (p & <- & _). intros c z Hc. rewrite obs_lookup in Hc.
  destruct (Z.eqb_spec c 1); [lia|]. destruct (Z.eqb_spec c 0); [lia|discriminate].
Qed.
Lemma sublist_elem : forall (A : Type) (x : A) l k, l `sublist_of` k -> x ∈ l -> x ∈ k.
Proof. intros A x l k H. induction H as [|y l k H IH|y l k H IH]; intros Hx; [exact Hx| |]; rewrite ?elem_of_cons in *; tauto. Qed.
Lemma app_tracks : forall ne pts (vs : list (cam_vars T)), 2 <= ne -> good_tracks ne (map (app_msg pts) vs).
Proof.
  intros ne pts vs H. split; [|split].
  - rewrite List.Forall_forall. intros m Hm. apply in_map_iff in Hm as (v & <- & _). apply app_good.
  - rewrite List.Forall_forall. intros m Hm. apply in_map_iff in Hm as (v & <- & _). apply app_cams. exact H.
  - intros id a b c Hs Ha Hc. assert (In a (map (app_msg pts) vs) /\ In b (map (app_msg pts) vs)) as [Ia Ib].
    { split; apply elem_of_list_In; (eapply sublist_elem; [exact Hs|]); rewrite !elem_of_cons; auto. }
    apply in_map_iff in Ia as (va & <- & _), Ib as (vb & <- & _). rewrite app_reported in *. exact Ha.
Qed.

Lemma pushed_parts : forall (ms : list (imu_msg T)) pts vs os, let ops := map BImu ms ++ map (fun v => BFeat (app_msg pts v)) vs ++ map (@BRun T) os in
  pushed_feat ops = map (app_msg pts) vs /\ pushed_imu ops = ms /\ oracles ops = os.
Proof.
  intros ms pts vs os. cbv zeta. unfold pushed_feat, pushed_imu, oracles. rewrite !flat_map_app.
  assert (H1 : forall f : imu_msg T -> list (feat_msg T), (forall x, f x = []) -> flat_map f ms = []) by (intros f Hf; induction ms as [|x r IH]; cbn; [reflexivity|rewrite Hf; exact IH]).
  rewrite !flat_map_concat_map, !map_map. 
  assert (E : forall (A B : Type) (l : list A), concat (map (fun _ => []) l) = @nil B) by (intros A B l; induction l as [|x r IH]; cbn; auto).
  assert (U : forall (A B : Type) (g : A -> B) (l : list A), concat (map (fun x => [g x]) l) = map g l) by (intros A B g l; induction l as [|x r IH]; cbn; [reflexivity|f_equal; exact IH]).
  rewrite !E, !U, ?app_nil_r, ?map_id. cbn [app]. auto.
Qed.

(** ** The main loop *)
Definition runs (os : nat -> boracle T) (k : nat) : list (b_op T) := map (fun i => BRun (os i)) (seq 0 k).
Lemma runs_S : forall os k, runs os (Datatypes.S k) = runs os k ++ [BRun (os k)].
Proof. intros os k. unfold runs. rewrite seq_S, map_app. reflexivity. Qed.
(** The loop is a history of RunOnce calls. *)
Lemma app_loop_hist : forall c os s0 pre n k s last res s' k' res', b_hist c s0 (pre ++ runs os k) = Ok s ->
  app_loop c os n k s last res = Ok (s', k', res') -> k <= k' <= k + n /\ b_hist c s0 (pre ++ runs os k') = Ok s'.
Proof.
  intros c os s0 pre. induction n as [|n IH]; intros k s last res s' k' res' Hs H; cbn [app_loop] in H.
  - injection H as <- <- <-. split; [lia|exact Hs].
  - destruct (run_once c (os k) s) as [r|] eqn:E; [|discriminate]. cbn [obind] in H.
    assert (Hs' : b_hist c s0 (pre ++ runs os (Datatypes.S k)) = Ok (fst r)).
    { rewrite runs_S, app_assoc, hist_app, Hs. cbn [obind b_hist b_step]. rewrite E. reflexivity. }
    assert (K : forall last res, app_loop c os n (Datatypes.S k) (fst r) last res = Ok (s', k', res') -> k <= k' <= k + Datatypes.S n /\ b_hist c s0 (pre ++ runs os k') = Ok s').
    { intros la re Hl. destruct (IH _ _ _ _ _ _ _ Hs' Hl) as [L1 L2]. split; [lia|exact L2]. }
    destruct (b_publish_newest (fst r)) as [[[[m ba] bg] t]|]; [|eapply K; exact H].
    destruct (sisnan (v3x (mo_p m))); [injection H as <- <- <-; split; [lia|exact Hs']|].
    destruct (f64_ltb t last); [injection H as <- <- <-; split; [lia|exact Hs']|]. eapply K; exact H.
Qed.
(** It is defined when the histories are. *)
Lemma app_loop_ok : forall c os s0 pre, (forall k, exists s, b_hist c s0 (pre ++ runs os k) = Ok s) ->
  forall n k s last res, b_hist c s0 (pre ++ runs os k) = Ok s -> exists r, app_loop c os n k s last res = Ok r.
Proof.
  intros c os s0 pre Hok. induction n as [|n IH]; intros k s last res Hs; cbn [app_loop]; [eauto|].
  destruct (Hok (Datatypes.S k)) as (s1 & H1). pose proof H1 as H1'. rewrite runs_S, app_assoc, hist_app, Hs in H1. cbn [obind b_hist b_step] in H1.
  destruct (run_once c (os k) s) as [r|] eqn:E; [|discriminate]. cbn [obind] in *. injection H1 as <-.
  destruct (b_publish_newest (fst r)) as [[[[m ba] bg] t]|]; [|apply IH; exact H1'].
  destruct (sisnan _); [eauto|]. destruct (f64_ltb t last); [eauto|]. apply IH. exact H1'.
Qed.

(** C72 *)
Theorem app_safe : forall ji jp jc c os fs (s0 : bstate T), BackendSpec.fresh s0 -> 2 <= length (b_ext s0) -> sizes_ok c (length (b_ext s0)) ->
  (forall k, oracle_ok (os k)) -> (Z.of_nat (length (opt_lines (af_cam fs))) < 4294967294)%Z ->
  exists s k res, app_main ji jp jc c os fs s0 = Ok (s, k, res).
Proof.
  intros ji jp jc c os fs s0 Hf He Hz Ho Hl. unfold app_main.
  destruct (app_imu ji (af_imu fs) s0) as [s1 cnt] eqn:E1.
  assert (exists ms, b_hist c s0 (map BImu ms) = Ok s1) as (ms & H1).
  { unfold app_imu in E1. destruct (af_imu fs) as [f|]; [|exists []; injection E1 as <- _; reflexivity].
    destruct (imu_loop_hist c f ji s0 0) as (ms & H & _). rewrite E1 in H. eauto. }
  destruct (feat_hist c jp jc (af_pts fs) (af_cam fs) s1) as (pts & vs & H2 & H3). set (s2 := app_feat _ _ _ _ s1) in *.
  set (pre := map BImu ms ++ map (fun v => BFeat (app_msg pts v)) vs).
  assert (Hp : b_hist c s0 pre = Ok s2) by (unfold pre; rewrite hist_app, H1; exact H2).
  assert (Hok : forall k, exists s, b_hist c s0 (pre ++ runs os k) = Ok s).
  { intros k. destruct (pushed_parts ms pts vs (map os (seq 0 k))) as (P1 & P2 & P3). rewrite !map_map in *. fold (runs os k) in *.
    unfold pre. rewrite <- app_assoc. apply backend_safe; [exact Hf| | |exact Hz|].
    - rewrite P1. apply app_tracks. exact He.
    - rewrite P3. rewrite List.Forall_forall. intros o Hin. apply in_map_iff in Hin as (i & <- & _). apply Ho.
    - rewrite P1, map_length. lia. }
  destruct (app_loop_ok c os s0 pre Hok (Z.to_nat cnt) 0 s2 f64_nan []) as ([[s3 k] res] & ->); [cbn; rewrite app_nil_r; exact Hp|].
  cbn [obind]. eauto.
Qed.

(** ** Loading *)
Lemma imu_loop_said : forall f ms (v : imu_vars T) s n prev, map imu_said (file_lines f) = map Some ms -> off_ok (b_dl s) ->
  st_imu (b_st s) = option_map shift prev -> (0 <= n < 4294967296)%Z ->
  let used := upto (fun m => too_late (im_ts m)) ms in
  exists st dl, imu_loop f v s n = (with_dl s st dl, ((n + Z.of_nat (length used)) mod 4294967296)%Z) /\
    dl_imu dl = dl_imu (b_dl s) ++ accepted_imu prev 0 (map (PushI 0) used) /\ dl_feat dl = dl_feat (b_dl s) /\ off_ok dl /\ st_feat st = st_feat (b_st s).
Proof.
  induction f as [|[l|] f IH]; intros ms v s n prev H Ho Hp Hn; cbn [file_lines map] in H.
  1,3: destruct ms; [|discriminate]; exists (b_st s), (b_dl s); cbn [imu_loop upto length map accepted_imu Z.of_nat]; rewrite Z.add_0_r, Z.mod_small, app_nil_r by exact Hn; destruct s; auto.
  destruct ms as [|m ms]; [discriminate|]. injection H as H1 H2. cbn [imu_loop upto map accepted_imu length].
  rewrite (imu_line_said l v m H1). rewrite push_imu_eq by exact Ho.
  change (f64_ltb app_max (im_ts (imu_shifted m))) with (too_late (im_ts m)).
  set (dl := Loader _ _ _ _). set (st := DlStatics _ _).
  assert (Ed : dl_imu dl = dl_imu (b_dl s) ++ (if accepts prev (im_ts m) then [imu_shifted m] else [])).
  { subst dl. cbn [dl_imu]. rewrite Hp. unfold accepts. destruct prev; cbn [option_map]; destruct (f64_ltb _ _); rewrite ?app_nil_r; reflexivity. }
  cbn [Nat.eqb andb]. destruct (too_late (im_ts m)).
  - exists st, dl. cbn [map length accepted_imu]. rewrite app_nil_r. repeat split; auto.
  - destruct (IH ms (imu_line l v) (with_dl s st dl) ((n + 1) mod 4294967296)%Z (Some (im_ts m)) H2) as (st' & dl' & E & F1 & F2 & F3 & F4); [reflexivity|reflexivity|apply Z.mod_pos_bound; lia|].
    exists st', dl'. rewrite E. split.
    + f_equal. rewrite Zplus_mod_idemp_l, Nat2Z.inj_succ. f_equal. lia.
    + rewrite F1, F2, F4. cbn [with_dl b_dl b_st]. rewrite Ed, <- app_assoc. auto.
Qed.

Lemma app_sized : forall pts (v : cam_vars T), well_sized (app_msg pts v) = true.
Proof. intros. unfold well_sized. apply Nat.eqb_eq. apply app_good. Qed.
Lemma cam_loop_said : forall pts f vs (v : cam_vars T) s prev, map cam_said (file_lines f) = map Some vs -> off_ok (b_dl s) ->
  st_feat (b_st s) = option_map shift prev ->
  let used := map (fun v => app_msg pts (CamVars (fst (fst v)) (snd (fst v)) (snd v))) (upto (fun v => too_late (fst (fst v))) vs) in
  exists st dl, cam_loop_app pts f v s = with_dl s st dl /\
    dl_feat dl = dl_feat (b_dl s) ++ accepted_feat prev 0 (map (PushF 0) used) /\ dl_imu dl = dl_imu (b_dl s).
Proof.
  intros pts. induction f as [|[l|] f IH]; intros vs v s prev H Ho Hp; cbn [file_lines map] in H.
  1,3: destruct vs; [|discriminate]; exists (b_st s), (b_dl s); cbn [cam_loop_app upto map accepted_feat]; rewrite app_nil_r; destruct s; auto.
  destruct vs as [|[[t q] p] vs]; [discriminate|]. injection H as H1 H2. cbn [cam_loop_app upto map accepted_feat fst snd].
  rewrite (cam_line_said l v t q p H1). set (m := app_msg pts (CamVars t q p)). assert (Hz : well_sized m = true) by apply app_sized.
  rewrite push_feat_eq by auto.
  assert (Et : fm_ts m = t) by (unfold m; rewrite app_msg_fields; reflexivity).
  rewrite Et.
  set (dl := Loader _ _ _ _). set (st := DlStatics _ _).
  assert (Ed : dl_feat dl = dl_feat (b_dl s) ++ (if accepts prev t then [feat_shifted m] else [])).
  { subst dl. cbn [dl_feat]. rewrite Hp. unfold accepts. destruct prev; cbn [option_map]; destruct (f64_ltb _ _); rewrite ?app_nil_r; reflexivity. }
  rewrite Hz. replace (fm_ts (feat_shifted m)) with (shift t) by (unfold feat_shifted; cbn; rewrite Et; reflexivity).
  change (f64_ltb app_max (shift t)) with (too_late t). destruct (too_late t); cbn [Nat.eqb andb].
  - exists st, dl. cbn [map accepted_feat]. rewrite app_nil_r. repeat split; auto.
  - destruct (IH vs (CamVars t q p) (with_dl s st dl) (Some t) H2) as (st' & dl' & E & F1 & F2); [reflexivity|reflexivity|].
    exists st', dl'. rewrite E. split; [reflexivity|]. rewrite F1, F2. cbn [with_dl b_dl b_st]. rewrite Ed, <- app_assoc. auto.
Qed.
Lemma app_shows : forall pts (v : cam_vars T), shows pts (cv_ts v) (app_msg pts v).
Proof.
  intros pts v. rewrite app_msg_fields. unfold shows. cbn [fm_ts fm_ids fm_obs]. rewrite map_length. repeat split; auto.
  rewrite List.Forall_forall. intros o Ho c. apply in_map_iff in Ho as (p & <- & _). rewrite obs_lookup.
  destruct (Z.eqb_spec c 1); [split; [auto|discriminate]|]. destruct (Z.eqb_spec c 0); [split; [auto|discriminate]|]. split; [congruence|tauto].
Qed.

(** C73 *)
Theorem app_loads : forall ji jp jc fs (s0 s1 : bstate T) cnt ms ps vs, BackendSpec.fresh s0 -> b_st s0 = statics0 ->
  says imu_said (af_imu fs) ms -> says pt_said (af_pts fs) ps -> says cam_said (af_cam fs) vs -> af_pts fs <> None ->
  app_imu ji (af_imu fs) s0 = (s1, cnt) ->
  let s2 := app_feat jp jc (af_pts fs) (af_cam fs) s1 in
  let used := upto (fun m => too_late (im_ts m)) ms in
  cnt = (Z.of_nat (length used) mod 4294967296)%Z /\
  dl_imu (b_dl s2) = accepted_imu None 0 (map (PushI 0) used) /\
  exists fms, List.Forall2 (fun v m => shows ps (fst (fst v)) m) (upto (fun v => too_late (fst (fst v))) vs) fms /\
    dl_feat (b_dl s2) = accepted_feat None 0 (map (PushF 0) fms).
Proof.
  intros ji jp jc [fi fp fc] s0 s1 cnt ms ps vs Hf Hst Hi Hp Hc Hn H s2 used. unfold says, opt_lines in *. cbn [af_imu af_pts af_cam] in *.
  assert (H0 : off_ok (b_dl s0) /\ dl_imu (b_dl s0) = [] /\ dl_feat (b_dl s0) = []).
  { destruct Hf as (st & per & ex & ba & bg & na & ng & nwa & nwg & ->). repeat split; reflexivity. }
  destruct H0 as (O & I0 & F0).
  assert (exists st dl, s1 = with_dl s0 st dl /\ cnt = (Z.of_nat (length used) mod 4294967296)%Z /\ dl_imu dl = accepted_imu None 0 (map (PushI 0) used) /\
    dl_feat dl = [] /\ off_ok dl /\ st_feat st = None) as (st & dl & -> & Ec & Ei & Ef & Eo & Es).
  { unfold app_imu in H. destruct fi as [f|].
    - destruct (imu_loop_said f ms ji s0 0 None Hi O) as (st & dl & E & G1 & G2 & G3 & G4); [rewrite Hst; reflexivity|lia|].
      rewrite E in H. injection H as <- <-. exists st, dl. rewrite I0 in G1. rewrite G2, G4, Hst. auto 10.
    - destruct ms; [|discriminate]. injection H as <- <-. exists (b_st s0), (b_dl s0). rewrite Hst, I0, F0. split; [destruct s0; cbn in *; subst; reflexivity|]. split; [reflexivity|]. auto. }
  split; [exact Ec|]. unfold s2, app_feat. destruct fp as [fp|]; [|congruence]. rewrite (pts_loop_said fp ps jp Hp).
  destruct fc as [fc|].
  - destruct (cam_loop_said ps fc vs jc (with_dl s0 st dl) None Hc Eo) as (st' & dl' & E & G1 & G2); [cbn [with_dl b_st]; rewrite Es; reflexivity|].
    rewrite E. cbn [with_dl b_dl] in *. rewrite G2, G1, Ef. split; [exact Ei|]. eexists. split; [|reflexivity].
    generalize (upto (fun v : f64 * quat T * v3 T => too_late (fst (fst v))) vs). intros l. induction l as [|[[t q] p] l IH]; cbn [map]; constructor; [|exact IH].
    exact (app_shows ps (CamVars t q p)).
  - destruct vs; [|discriminate]. cbn [with_dl b_dl]. split; [exact Ei|]. exists []. rewrite Ef. split; [constructor|reflexivity].
Qed.

(** ** The run *)
Lemma feat_step_dl : forall c o (s s' : bstate T) m, feat_step c o s m = Ok s' -> b_dl s' = b_dl s.
Proof.
  intros c o s s' m H. unfold feat_step in H. binv H. binv H. binv H. rename x into w, x0 into s1, x1 into s2.
  apply clean_step_same in H as (_ & _ & _ & _ & _ & ->).
  transitivity (b_dl s1).
  - unfold update_step in E1. destruct (b_status s1); [injection E1 as <-; reflexivity|]. binv E1. destruct x as [[v ok] pol]. destruct ok; binv E1; injection E1 as <-; reflexivity.
  - unfold init_step in E0. cbn [with_win b_status] in E0. destruct (b_status s); [|injection E0 as <-; reflexivity]. binv E0. destruct x as [s3 r]. cbn [fst snd] in E0.
    apply initialize_len in E2 as (_ & _ & E2 & _). destruct r; [injection E0 as <-; exact E2|]. binv E0. injection E0 as <-. exact E2.
Qed.
Lemma run_once_waiting : forall c o (s : bstate T) p, run_once c o s = Ok p -> waiting (fst p) <= waiting s - 1.
Proof.
  intros c o s p H. apply pop_one_run in H as (s1 & r & E1 & H). pose proof (pop_one_result (b_dl s)) as P. unfold waiting, pending in *.
  destruct (dl_pop_one (b_dl s)) as [[[l m] ok] d] eqn:Ep. unfold next_feat in H. rewrite Ep in H. cbn [fst snd] in *. destruct P as (P1 & P2 & P3).
  assert (D1 : b_dl s1 = l). { destruct (cm_imu m); [injection E1 as <- _; reflexivity|]. apply imu_step_win in E1 as (_ & _ & -> & _). reflexivity. }
  destruct ok.
  - specialize (P2 eq_refl). assert (b_dl (fst p) = l); [|subst l; rewrite H0; lia].
    destruct (cm_feat m); [destruct H as (s2 & E & ->); apply feat_step_dl in E; cbn [fst]; congruence|subst p; exact D1].
  - subst p. cbn [fst with_dl b_dl]. rewrite (P3 eq_refl). assert (~ (length (dl_imu (b_dl s)) + length (dl_feat (b_dl s)) <> 0)) by (intros e; apply P1 in e; discriminate). lia.
Qed.
Lemma runs_plus : forall os j k, j <= k -> exists r, runs os k = runs os j ++ r /\ pushed_imu r = [].
Proof.
  intros os j k H. exists (map (fun i => BRun (os i)) (seq j (k - j))). unfold runs. rewrite <- map_app. split.
  - f_equal. rewrite <- (Nat.add_0_l j) at 2. rewrite <- seq_app. f_equal. lia.
  - generalize (seq j (k - j)). intros l. induction l; cbn; auto.
Qed.

(** The records are in order of time, and the loop ends early only for a position that is not a number. *)
Lemma app_loop_run : forall c os s0 pre, (0 <= vc_maxwin c < 4294967295)%Z -> BackendSpec.fresh s0 -> time_sorted (map im_ts (pushed_imu pre)) ->
  forall n k s last res s' k' res', b_hist c s0 (pre ++ runs os k) = Ok s ->
  List.Forall (fun r : saved T => sisnan (v3x (mo_p (snd (fst (fst r))))) = false /\
    exists j sj m ba bg, j <= k /\ b_hist c s0 (pre ++ runs os j) = Ok sj /\ b_publish_newest sj = Some (m, ba, bg, fst (fst (fst r)))) res ->
  last = match res with [] => f64_nan | r :: _ => fst (fst (fst r)) end ->
  time_sorted (map (fun r => fst (fst (fst r))) (rev res)) ->
  app_loop c os n k s last res = Ok (s', k', res') ->
  k <= k' <= k + n /\ (k' < k + n -> nan_published s') /\ time_sorted (map (fun r => fst (fst (fst r))) (rev res')) /\
  List.Forall (fun r : saved T => sisnan (v3x (mo_p (snd (fst (fst r))))) = false) res' /\ length res' <= length res + (k' - k) /\
  waiting s' <= waiting s - (k' - k).
Proof.
  intros c os s0 pre Hm Hf Hs. induction n as [|n IH]; intros k s last res s' k' res' Hh Hr Hl Ht H; cbn [app_loop] in H.
  { injection H as <- <- <-. split; [lia|]. split; [lia|]. split; [exact Ht|]. split; [|lia]. eapply List.Forall_impl; [|exact Hr]. intros a [Ha _]. exact Ha. }
  destruct (run_once c (os k) s) as [r|] eqn:E; [|discriminate]. cbn [obind] in H.
  pose proof (run_once_waiting _ _ _ _ E) as Hw.
  assert (Hs' : b_hist c s0 (pre ++ runs os (Datatypes.S k)) = Ok (fst r)).
  { rewrite runs_S, app_assoc, hist_app, Hh. cbn [obind b_hist b_step]. rewrite E. reflexivity. }
  assert (Hr' : List.Forall (fun r : saved T => sisnan (v3x (mo_p (snd (fst (fst r))))) = false /\
    exists j sj m ba bg, j <= Datatypes.S k /\ b_hist c s0 (pre ++ runs os j) = Ok sj /\ b_publish_newest sj = Some (m, ba, bg, fst (fst (fst r)))) res).
  { eapply List.Forall_impl; [|exact Hr]. intros a (Ha & j & sj & m & ba & bg & Hj & Hx). split; [exact Ha|]. exists j, sj, m, ba, bg. split; [lia|exact Hx]. }
  assert (Hp' : forall l, pushed_imu l = [] -> pushed_imu (pre ++ l) = pushed_imu pre).
  { intros l e. unfold pushed_imu in *. rewrite flat_map_app, e, app_nil_r. reflexivity. }
  assert (Hnil : forall j, pushed_imu (runs os j) = []).
  { intros j. unfold runs. generalize (seq 0 j). intros l. induction l; cbn; auto. }
  assert (Mono : forall j sj m ba bg t m' ba' bg' t', j <= Datatypes.S k -> b_hist c s0 (pre ++ runs os j) = Ok sj -> b_publish_newest sj = Some (m, ba, bg, t) ->
    b_publish_newest (fst r) = Some (m', ba', bg', t') -> f64_leb t t' = true).
  { intros j sj m ba bg t m' ba' bg' t' Hj H1 H2 H3. destruct (runs_plus os j _ Hj) as (rest & Er & Ep).
    eapply (publish_monotone c (pre ++ runs os j) rest s0 sj (fst r)); [exact Hm|exact Hf| |exact H1| |exact H2|exact H3].
    - rewrite <- app_assoc, <- Er, Hp' by apply Hnil. exact Hs.
    - rewrite Er, app_assoc, hist_app, H1 in Hs'. exact Hs'. }
  destruct (b_publish_newest (fst r)) as [[[[m ba] bg] t]|] eqn:Ep.
  - destruct (sisnan (v3x (mo_p m))) eqn:En.
    { injection H as <- <- <-. split; [lia|]. split; [intros _; exists m, ba, bg, t; auto|]. split; [exact Ht|].
      split; [eapply List.Forall_impl; [|exact Hr]; intros a [Ha _]; exact Ha|]. lia. }
    assert (Hle : forall y, In y (map (fun r : saved T => fst (fst (fst r))) (rev res)) -> f64_leb y t = true).
    { intros y Hy. apply in_map_iff in Hy as (a & <- & Ha). apply in_rev in Ha. rewrite List.Forall_forall in Hr'. destruct (Hr' a Ha) as (_ & j & sj & m1 & b1 & b2 & Hj & H1 & H2).
      eapply Mono; [exact Hj|exact H1|exact H2|reflexivity]. }
    assert (El : f64_ltb t last = false).
    { destruct res as [|a res]; [subst last; unfold f64_nan; destruct t; reflexivity|]. subst last. destruct (f64_ltb t (fst (fst (fst a)))) eqn:El; [|reflexivity]. apply f64_ltb_leb_false in El. rewrite <- El. symmetry. apply Hle. apply in_map_iff. exists a. split; [reflexivity|]. apply in_rev. rewrite rev_involutive. left. reflexivity. }
    rewrite El in H.
    assert (Htt : f64_isnan t = false). { assert (G : f64_leb t t = true) by (eapply (Mono (Datatypes.S k)); [lia|exact Hs'|exact Ep|reflexivity]). destruct t; try reflexivity. discriminate G. }
    eapply IH in H; [|exact Hs'| |reflexivity|].
    + destruct H as (L1 & L2 & L3 & L4 & L5 & L6). split; [lia|]. split; [intros; apply L2; lia|]. split; [exact L3|]. split; [exact L4|]. cbn [length] in L5. lia.
    + constructor; [|exact Hr']. cbn [fst snd]. split; [exact En|]. exists (Datatypes.S k), (fst r), m, ba, bg. auto.
    + cbn [rev]. rewrite map_app. apply sorted_snoc; [exact Ht|exact Htt|exact Hle].
  - eapply IH in H; [|exact Hs'|exact Hr'|exact Hl|exact Ht].
    destruct H as (L1 & L2 & L3 & L4 & L5 & L6). split; [lia|]. split; [intros; apply L2; lia|]. split; [exact L3|]. split; [exact L4|]. lia.
Qed.

Lemma imu_loop_used : forall c f ms (v : imu_vars T) s n, map imu_said (file_lines f) = map Some ms -> off_ok (b_dl s) ->
  b_hist c s (map BImu (upto (fun m => too_late (im_ts m)) ms)) = Ok (fst (imu_loop f v s n)).
Proof.
  intros c. induction f as [|[l|] f IH]; intros ms v s n H Ho; cbn [file_lines map] in H; [destruct ms; [reflexivity|discriminate]| |destruct ms; [reflexivity|discriminate]].
  destruct ms as [|m ms]; [discriminate|]. injection H as H1 H2. cbn [imu_loop upto map b_hist b_step].
  rewrite (imu_line_said l v m H1). unfold b_imu. rewrite push_imu_eq by exact Ho. cbn [fst obind].
  change (f64_ltb app_max (im_ts (imu_shifted m))) with (too_late (im_ts m)). destruct (too_late (im_ts m)); [reflexivity|]. apply IH; [exact H2|reflexivity].
Qed.
Lemma upto_in : forall (A : Type) (late : A -> bool) l x, In x (upto late l) -> In x l.
Proof. intros A late. induction l as [|y l IH]; intros x H; [exact H|]. cbn [upto] in H. destruct H as [H|H]; [left; exact H|]. destruct (late y); [destruct H|right; auto]. Qed.
Lemma upto_sorted : forall (A : Type) (g : A -> f64) late l, time_sorted (map g l) -> time_sorted (map g (upto late l)).
Proof.
  intros A g late. induction l as [|y l IH]; intros H; [exact I|]. cbn [map time_sorted upto] in *. destruct H as (H1 & H2 & H3). split; [exact H1|].
  destruct (late y); [split; [intros z []|exact I]|]. split; [|auto]. intros z Hz. apply H2. apply in_map_iff in Hz as (w & <- & Hw). apply in_map. eapply upto_in. exact Hw.
Qed.
Lemma upto_length : forall (A : Type) (late : A -> bool) l, length (upto late l) <= length l.
Proof. intros A late. induction l as [|y l IH]; cbn; [lia|]. destruct (late y); cbn; lia. Qed.

Lemma b_imu_waiting : forall (s : bstate T) m, waiting (fst (b_imu s m)) <= Datatypes.S (waiting s).
Proof.
  intros s m. unfold b_imu, dl_push_imu, waiting. cbv zeta. cbn [fst with_dl b_dl dl_imu dl_feat].
  destruct (f64_ltb _ _); rewrite ?app_length; cbn [length]; lia.
Qed.
Lemma b_feat_waiting : forall (s : bstate T) m, waiting (fst (b_feat s m)) <= Datatypes.S (waiting s).
Proof.
  intros s m. unfold b_feat, dl_push_feat, waiting. destruct (negb _); [cbn; lia|]. cbv zeta. cbn [fst with_dl b_dl dl_imu dl_feat].
  destruct (f64_ltb _ _); rewrite ?app_length; cbn [length]; lia.
Qed.
Lemma push_waiting : forall c ops (s s' : bstate T), List.Forall (fun op => match op with BImu _ | BFeat _ => True | _ => False end) ops ->
  b_hist c s ops = Ok s' -> waiting s' <= waiting s + length ops.
Proof.
  intros c. induction ops as [|op ops IH]; intros s s' Hf H; [injection H as <-; lia|]. apply List.Forall_cons_iff in Hf as [Ho Hf].
  destruct op as [m|m|o| |]; try destruct Ho; cbn [b_hist b_step obind] in H; apply IH in H; auto; cbn [length].
  - pose proof (b_imu_waiting s m). lia.
  - pose proof (b_feat_waiting s m). lia.
Qed.

Lemma imu_loop_count : forall f ms (v : imu_vars T) s n, map imu_said (file_lines f) = map Some ms -> off_ok (b_dl s) -> (0 <= n)%Z ->
  (n + Z.of_nat (length ms) < 4294967296)%Z -> snd (imu_loop f v s n) = (n + Z.of_nat (length (upto (fun m => too_late (im_ts m)) ms)))%Z.
Proof.
  induction f as [|[l|] f IH]; intros ms v s n H Ho H0 Hn; cbn [file_lines map] in H; [destruct ms; [cbn; lia|discriminate]| |destruct ms; [cbn; lia|discriminate]].
  destruct ms as [|m ms]; [discriminate|]. injection H as H1 H2. cbn [imu_loop upto length]. cbn [length] in Hn.
  rewrite (imu_line_said l v m H1), push_imu_eq by exact Ho. change (f64_ltb app_max (im_ts (imu_shifted m))) with (too_late (im_ts m)).
  destruct (too_late (im_ts m)); [cbn [snd length]; rewrite Z.mod_small by lia; reflexivity|].
  rewrite Z.mod_small by lia. rewrite IH with (ms := ms); [lia|exact H2|reflexivity|lia|lia].
Qed.

(** C75 *)
Theorem app_runs : forall ji jp jc c os fs (s0 s : bstate T) ms k res, (0 <= vc_maxwin c < 4294967295)%Z -> BackendSpec.fresh s0 ->
  says imu_said (af_imu fs) ms -> (Z.of_nat (length ms) < 4294967296)%Z -> time_sorted (map im_ts ms) ->
  app_main ji jp jc c os fs s0 = Ok (s, k, res) ->
  let cnt := length (upto (fun m => too_late (im_ts m)) ms) in
  k <= cnt /\ (k < cnt -> nan_published s) /\ length res <= k /\ time_sorted (map (fun r => fst (fst (fst r))) res) /\
  List.Forall (fun r : saved T => sisnan (v3x (mo_p (snd (fst (fst r))))) = false) res /\
  (k = cnt -> waiting s <= length (opt_lines (af_cam fs))).
Proof.
  intros ji jp jc c os fs s0 s ms k res Hm Hf Hi Hn Hs H cnt. unfold app_main in H.
  assert (H0 : off_ok (b_dl s0) /\ waiting s0 = 0).
  { pose proof Hf as (st & per & ex & ba & bg & na & ng & nwa & nwg & ->). split; reflexivity. }
  destruct H0 as [O W0]. set (used := upto (fun m => too_late (im_ts m)) ms) in *.
  assert (Lu : length used <= length ms) by apply upto_length.
  destruct (app_imu ji (af_imu fs) s0) as [s1 n1] eqn:E1.
  assert (X1 : b_hist c s0 (map BImu used) = Ok s1 /\ n1 = Z.of_nat (length used)).
  { unfold app_imu in E1. unfold says, opt_lines in Hi. destruct (af_imu fs) as [f|].
    - pose proof (imu_loop_used c f ms ji s0 0 Hi O) as G. rewrite E1 in G. split; [exact G|]. clear G.
      pose proof (imu_loop_count f ms ji s0 0%Z Hi O ltac:(lia) ltac:(lia)) as G. rewrite E1 in G. exact G.
    - destruct ms; [|discriminate]. injection E1 as <- <-. split; reflexivity. }
  destruct X1 as [X1 ->]. destruct (feat_hist c jp jc (af_pts fs) (af_cam fs) s1) as (pts & vs & X2 & X3). set (s2 := app_feat _ _ _ _ s1) in *.
  set (pre := map BImu used ++ map (fun v => BFeat (app_msg pts v)) vs).
  assert (Hp : b_hist c s0 pre = Ok s2) by (unfold pre; rewrite hist_app, X1; exact X2).
  assert (Ep : pushed_imu pre = used).
  { pose proof (pushed_parts used pts vs []) as (_ & P2 & _). cbn [map] in P2. rewrite app_nil_r in P2. exact P2. }
  assert (Wp : waiting s2 <= length used + length vs).
  { assert (G : waiting s2 <= waiting s0 + length pre); [|unfold pre in G; rewrite app_length, !map_length in G; lia].
    eapply push_waiting; [|exact Hp]. rewrite List.Forall_forall. intros op Ho. unfold pre in Ho. rewrite in_app_iff, !in_map_iff in Ho. destruct Ho as [(x & <- & _)|(x & <- & _)]; exact I. }
  binv H. destruct x as [[s3 k3] res3]. injection H as <- <- <-. rewrite Nat2Z.id in E.
  eapply (app_loop_run c os s0 pre) in E; [|exact Hm|exact Hf|rewrite Ep; apply upto_sorted; exact Hs|cbn; rewrite app_nil_r; exact Hp|constructor|reflexivity|exact I].
  destruct E as (L1 & L2 & L3 & L4 & L5 & L6). cbn [length] in *. fold cnt in L1, L2. rewrite rev_length.
  split; [lia|]. split; [exact L2|]. split; [lia|]. split; [exact L3|]. split.
  - rewrite List.Forall_forall in *. intros r Hr. apply L4. apply in_rev. exact Hr.
  - intros Hk. subst k3. assert (Ec : cnt = length used) by reflexivity. lia.
Qed.
End AppFacts.

Lemma qmul_assoc : forall a b c : quat R, qmul a (qmul b c) = qmul (qmul a b) c.
Proof. intros. apply q_ext; vunf; ring. Qed.
Lemma qmul_id_r : forall a : quat R, qmul a qid = a.
Proof. intros. apply q_ext; vunf; ring. Qed.
Lemma qconj_mul : forall a b : quat R, qconj (qmul a b) = qmul (qconj b) (qconj a).
Proof. intros. apply q_ext; vunf; ring. Qed.
Lemma qrot_sub : forall (q : quat R) a b, qrot q (v3sub a b) = v3sub (qrot q a) (qrot q b).
Proof. intros. apply v3_ext; vunf; ring. Qed.

(** C74 *)
Theorem app_exact : forall (pts : list (v3 R)) t q p f i pt o c z, qunit q -> qunit (fr_q f) -> mounted app_bc0 f q p ->
  nth_error pts i = Some pt -> nth_error (fm_obs (app_msg pts (CamVars t q p))) i = Some o -> o !! c = Some z ->
  exists e, nth_error [app_bc0; app_bc1] (Z.to_nat c) = Some e /\ meas_res e f pt z = V2 0%R 0%R.
Proof.
  intros pts t q p f i pt o c z Uq Uf [Mq Mp] Hi Ho Hz. rewrite app_msg_fields in Ho. cbn [fm_obs] in Ho. rewrite nth_error_map, Hi in Ho. cbn [option_map] in Ho.
  injection Ho as <-. rewrite obs_lookup in Hz. cbn [cv_q cv_p] in Hz.
  assert (U0 : qunit (ex_q (app_bc0 (T := R)))) by (unfold qunit, app_bc0; cbn [ex_q]; vunf; field).
  assert (U1 : ex_q (app_bc1 (T := R)) = ex_q (app_bc0 (T := R))) by reflexivity.
  assert (Eq : app_qwb (CamVars t q p) = fr_q f).
  { unfold app_qwb. cbn [cv_q]. rewrite <- Mq, qinv_unit by exact U0. rewrite <- qmul_assoc, qmul_conj_r by exact U0. apply qmul_id_r. }
  assert (Ep : app_pwb (CamVars t q p) = fr_p f).
  { unfold app_pwb. rewrite Eq. cbn [cv_p]. rewrite <- Mp. generalize (qrot (fr_q f) (ex_p app_bc0)). intros u. apply v3_ext; vunf; ring. }
  assert (K : forall e, qunit (ex_q e) -> app_project (qmul (fr_q f) (ex_q e)) (v3add (qrot (fr_q f) (ex_p e)) (fr_p f)) pt =
     let c := meas_pc e f pt in V2 (v3x c / v3z c)%R (v3y c / v3z c)%R).
  { intros e Ue. unfold app_project. cbv zeta. replace (qrot (qinv (qmul (fr_q f) (ex_q e))) (v3sub pt (v3add (qrot (fr_q f) (ex_p e)) (fr_p f)))) with (meas_pc e f pt); [reflexivity|].
    unfold meas_pc, meas_pb, meas_Rcb, meas_Rbw. rewrite <- !qrot_mat.
    assert (E1 : v3sub (qrot (qinv (fr_q f)) (v3sub pt (fr_p f))) (ex_p e) = qrot (qinv (fr_q f)) (v3sub pt (v3add (qrot (fr_q f) (ex_p e)) (fr_p f)))).
    { assert (E2 : ex_p e = qrot (qinv (fr_q f)) (qrot (fr_q f) (ex_p e))) by (rewrite qrot_inv_l by exact Uf; reflexivity).
      rewrite E2 at 1. rewrite <- qrot_sub. f_equal. apply v3_ext; vunf; ring. }
    rewrite E1, !qinv_unit by (try apply qmul_unit; assumption). rewrite qconj_mul, qrot_mul by (apply qconj_unit; assumption). reflexivity. }
  assert (Z0 : forall e, app_project (qmul (fr_q f) (ex_q e)) (v3add (qrot (fr_q f) (ex_p e)) (fr_p f)) pt = z -> qunit (ex_q e) -> meas_res e f pt z = V2 0%R 0%R).
  { intros e He Ue. rewrite K in He by exact Ue. subst z. unfold meas_res. cbv zeta. unfold v2sub. cbn [v2x v2y]. f_equal; vunf; ring. }
  destruct (Z.eqb_spec c 1) as [->|n1].
  - exists app_bc1. split; [reflexivity|]. apply Z0; [|rewrite U1; exact U0]. injection Hz as <-. unfold app_q1, app_p1. rewrite Eq, Ep. reflexivity.
  - destruct (Z.eqb_spec c 0) as [->|n0]; [|discriminate]. exists app_bc0. split; [reflexivity|]. apply Z0; [|exact U0]. injection Hz as <-. rewrite Mq, Mp. reflexivity.
Qed.
