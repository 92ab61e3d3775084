(** Concrete histories for C99. *)
From Coq Require Import ZArith List Bool Lia.
From stdpp Require Import gmap list.
From Flocq Require Import IEEE754.BinarySingleNaN.
From Verif Require Import Fp FpFacts Scalar Base LinAlg Msg DataLoader FeatureManager FrameManager Window MathLib Attitude Propagator
  Triangulate Pnp VisionUpdate Backend LoaderSpec WindowSpec QueueSpec UpdSpec BackendSpec NumSpec NanSpec NanImageSpec NanImageFacts BackWitness NanWitness.
Import ListNotations.
Local Open Scope nat_scope.

(** The two cameras again, the second with a NaN column. *)
Definition ni_ob : observe f32 := <[0%Z := V2 s0 s0]> {[1%Z := V2 B754_nan s0]}.
Definition ni_msg (t : Z) : feat_msg f32 := w_msg w_ids ni_ob t.
(** External behaviour with which no feature can be located in an update. *)
Definition ni_vis : voracle f32 := VOracle (vo_ord w_vis) (vo_nord w_vis) (fun _ _ => s0) (vo_qr w_vis) (vo_saes w_vis) (vo_junk w_vis) (vo_rand w_vis).
Definition ni_o : boracle f32 := BOracle ni_vis w_vis (bo_pord w_o) (bo_ldlt w_o) (bo_marg w_o).
Definition ni_round (t : Z) : list (b_op f32) := [BImu (w_imu t); BFeat (w_msg w_ids w_ob t); BRun ni_o].
(** One good image, then the bad one, which initializes; a Reset and three more good ones. *)
Definition ni_before : list (b_op f32) := w_ops 1 ++ [BImu (w_imu 1); BFeat (ni_msg 1)].
Definition ni_after : list (b_op f32) := BReset :: flat_map ni_round [2; 3; 4]%Z.
(** The same with a good second image. *)
Definition ni_fine : list (b_op f32) := w_ops 1 ++ [BImu (w_imu 1); BFeat (w_msg w_ids w_ob 1)].

Definition pixb (z : v2 f32) : bool := f32_isnan (v2x z) || f32_isnan (v2y z).
Definition measuredb (exts : list (extrinsic f32)) (fs : list (frame f32)) (f : feature f32) (i : nat) (cam : Z) : bool :=
  match nth_error (ft_obs f) i with
  | Some ob => match ob !! cam with
    | Some z => pixb z && match get_frame fs (u32 (Z.of_nat i + ft_first f)) with
      | Some k => match nth_error fs k, nth_error exts (Z.to_nat cam) with
        | Some fr, Some e => sltb szero (sabs (v3z (meas_pc e fr (ft_pw f))))
        | _, _ => false end
      | None => false end
    | None => false end
  | None => false end.
Lemma measuredb_ex : forall exts fs f i cam, measuredb exts fs f i cam = true -> nan_measured lm0 exts fs f.
Proof.
  intros exts fs f i cam H. unfold measuredb in H. destruct (nth_error (ft_obs f) i) as [ob|] eqn:E1; [|discriminate H]. destruct (ob !! cam) as [z|] eqn:E2; [|discriminate H].
  apply andb_true_iff in H as [H1 H]. destruct (get_frame _ _) as [k|] eqn:E3; [|discriminate H]. destruct (nth_error fs k) as [fr|] eqn:E4; [|discriminate H]. destruct (nth_error exts _) as [e|] eqn:E5; [|discriminate H].
  exists i, ob, cam, z, k, fr, e. split; [exact E1|]. split; [exact E2|]. split; [unfold pixb in H1; apply orb_true_iff in H1; exact H1|]. split; [exact E3|]. split; [exact E4|]. split; [exact E5|exact H].
Qed.
Definition updateb (o : voracle f32) (c : vcfg f32) (s : vstate f32) (ts thr : f64) : bool :=
  let '(q, found) := pq_reset_origin (vs_pq s) ts thr in
  found && chk (fun r => match r with Some fs => chk (fun hl => match snd hl with p :: _ => chk (fun f => existsb (fun i => measuredb (vs_ext s) fs f i 1%Z) (seq 0 (length (ft_obs f)))) (hget (fst hl) p) | [] => false end)
    (select_good o c (vs_ext s) fs (wn_heap (vs_win s))) | None => false end) (update_newest (wn_frames (vs_win s)) q).
Lemma updateb_ex : forall o c s ts thr, updateb o c s ts thr = true -> nan_update lm0 o c s ts thr.
Proof.
  intros o c s ts thr H. unfold updateb in H. destruct (pq_reset_origin (vs_pq s) ts thr) as [q found] eqn:E1. apply andb_true_iff in H as [-> H]. apply chk_ex in H as (r & E2 & H). destruct r as [fs|]; [|discriminate H].
  apply chk_ex in H as ([h l] & E3 & H). cbn [fst snd] in H. destruct l as [|p l]; [discriminate H|]. apply chk_ex in H as (f & E4 & H). apply existsb_exists in H as (i & _ & H). apply measuredb_ex in H.
  exists q, fs, h, (p :: l), p, f. split; [exact E1|]. split; [exact E2|]. split; [exact E3|]. split; [left; reflexivity|]. split; [exact E4|exact H].
Qed.
(** The state in which the update of the next image starts, with its result. *)
Definition imageb (c : vcfg f32) (o : boracle f32) (s : bstate f32) (P : feat_msg f32 -> vstate f32 -> f64 -> bool) : bool :=
  let '(l, cm, _, _) := dl_pop_one (b_dl s) in
  match cm_feat cm with
  | Some m =>
      let '(s1, _) := match cm_imu cm with [] => (with_dl s (b_st s) l, true) | i :: _ => imu_step c (with_dl s (b_st s) l) i end in
      chk (fun w => chk (fun s2 => is_init s2 && P m (VState (b_win s2) (b_ext s2) (b_pq s2)) (dl_period (b_dl s2)) &&
        chk (fun u => snd (fst u)) (vision_update (bo_vis o) c (VState (b_win s2) (b_ext s2) (b_pq s2)) (fm_ts m) (dl_period (b_dl s2)))) (init_step c o (with_win s1 w))) (update_window (b_win s1) m)
  | None => false end.
Lemma imageb_ex : forall c o s P, imageb c o s P = true -> exists m v thr, image_update lm0 c o s m v thr /\ P m v thr = true.
Proof.
  intros c o s P H. unfold imageb in H. destruct (dl_pop_one (b_dl s)) as [[[l cm] ok] d] eqn:E0. destruct (cm_feat cm) as [m|] eqn:E1; [|discriminate H].
  destruct (match cm_imu cm with [] => _ | _ => _ end) as [s1 r] eqn:E2. apply chk_ex in H as (w & E3 & H). apply chk_ex in H as (s2 & E4 & H). bools. apply chk_ex in H0 as ([[v' k] pol] & E5 & H0). cbn [fst snd] in H0. subst k.
  exists m, (VState (b_win s2) (b_ext s2) (b_pq s2)), (dl_period (b_dl s2)). split; [|assumption]. exists s1, r, w, s2, v', pol. rewrite E0. cbn [fst snd]. auto 10.
Qed.
Definition ni_check (s : bstate f32) : bool :=
  imageb (w_c 1) w_o s (fun m v thr => updateb (bo_vis w_o) (w_c 1) v (fm_ts m) thr && (if decide (NoDup (map fr_id (wn_frames (vs_win v)))) then true else false) && match fm_obs m with ob :: _ => match ob !! 1%Z with Some z => pixb z | None => false end | [] => false end) &&
  chk (fun p => snd p && chk (fun s2 => is_init s2 && pub_nanb s2 && Nat.eqb (length (pq_items (b_pq s2))) 2) (b_hist (w_c 1) (fst p) ni_after)) (run_once (w_c 1) w_o s).
Lemma ni_norder : valid_norder (vo_nord (bo_vis w_o)).
Proof. intros m. reflexivity. Qed.
Lemma ni_forever : exists s s1 s2 m v thr, fresh w_s0 /\ b_hist (w_c 1) w_s0 ni_before = Ok s /\
  valid_norder (vo_nord (bo_vis w_o)) /\ run_once (w_c 1) w_o s = Ok (s1, true) /\ image_update lm0 (w_c 1) w_o s m v thr /\ nan_image m /\ nan_update lm0 (bo_vis w_o) (w_c 1) v (fm_ts m) thr /\
  List.NoDup (map fr_id (wn_frames (vs_win v))) /\ b_hist (w_c 1) s1 ni_after = Ok s2 /\ b_status s2 = Initialized /\ 2 <= length (pq_items (b_pq s2)) /\ published_nan (b_publish_newest s2).
Proof.
  destruct (chk_ex _ ni_check (b_hist (w_c 1) w_s0 ni_before)) as (s & E & H); [vm_compute; reflexivity|]. unfold ni_check in H. apply andb_true_iff in H as [H1 H0].
  apply imageb_ex in H1 as (m & v & thr & I & H1). apply andb_true_iff in H1 as [H1 H3]. apply andb_true_iff in H1 as [H1 H2]. apply updateb_ex in H1. destruct (decide (NoDup (map fr_id (wn_frames (vs_win v))))) as [N|]; [|discriminate H2].
  apply chk_ex in H0 as ([s1 r] & E1 & H0). cbn [fst snd] in H0. apply andb_true_iff in H0 as [-> H0]. apply chk_ex in H0 as (s2 & E2 & H0). apply andb_true_iff in H0 as [H0 H4]. apply andb_true_iff in H0 as [H0 H5].
  apply pub_nanb_ex in H5. apply is_init_true in H0. apply Nat.eqb_eq in H4.
  exists s, s1, s2, m, v, thr. split; [exact w_fresh|]. split; [exact E|]. split; [exact ni_norder|]. split; [exact E1|]. split; [exact I|].
  split. { destruct (fm_obs m) as [|ob k] eqn:Eo; [discriminate H3|]. destruct (ob !! 1%Z) as [z|] eqn:Ez; [|discriminate H3]. exists ob, 1%Z, z. rewrite Eo. split; [left; reflexivity|]. split; [exact Ez|]. unfold pixb in H3. apply orb_true_iff in H3. exact H3. }
  split; [exact H1|]. split; [apply NoDup_ListNoDup; exact N|]. split; [exact E2|]. split; [exact H0|]. split; [lia|exact H5].
Qed.
(** With a good pixel instead the estimate is finite. *)
Lemma ni_good : exists s s1, b_hist (w_c 1) w_s0 ni_fine = Ok s /\ run_once (w_c 1) w_o s = Ok (s1, true) /\ b_status s1 = Initialized /\ pub_okb s1 = true.
Proof.
  destruct (chk_ex _ (fun s => chk (fun p => snd p && is_init (fst p) && pub_okb (fst p)) (run_once (w_c 1) w_o s)) (b_hist (w_c 1) w_s0 ni_fine)) as (s & E & H); [vm_compute; reflexivity|].
  apply chk_ex in H as ([s1 r] & E1 & H). cbn [fst snd] in H. apply andb_true_iff in H as [H H2]. apply andb_true_iff in H as [-> H1]. apply is_init_true in H1. exists s, s1. auto.
Qed.
(** A feature whose point is not a number. *)
Definition ni_ft : feature f32 := Feature 7 1 [w_ob; w_ob] 4 (V3 s0 B754_nan (num 4)) FSolved.
Definition ni_fr (id : Z) : frame f32 := Frame ∅ qid v3zero v3zero id (f64_of_Z id).
Lemma ni_point : v3_some_nan (ft_pw ni_ft) /\ (forall i j, is_finite (vo_qr w_vis (mzero (rows_of ni_ft) 3) i j) = true) /\
  exists B, meas_feature w_vis [w_ext; w_ext] [ni_fr 1; ni_fr 2] (hx_cols 2 2) ni_ft = Ok (Some B) /\ mr B = 5.
Proof.
  split; [right; left; reflexivity|]. split; [intros i j; cbn [w_vis vo_qr]; destruct (Nat.eqb i j); reflexivity|].
  destruct (chk_ex _ (fun b => match b with Some B => Nat.eqb (mr B) 5 | None => false end) (meas_feature w_vis [w_ext; w_ext] [ni_fr 1; ni_fr 2] (hx_cols 2 2) ni_ft)) as (b & E & H); [vm_compute; reflexivity|].
  destruct b as [B|]; [|discriminate H]. apply Nat.eqb_eq in H. exists B. auto.
Qed.
