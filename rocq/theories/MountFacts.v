(** C70: what a configuration directory means for the back end, in exact arithmetic. *)
From Coq Require Import ZArith Reals List Bool Lia Lra Arith.
From stdpp Require Import gmap list.
From Verif Require Import Fp Scalar Base LinAlg Msg DataLoader FeatureManager FrameManager Window MathLib Attitude Propagator VisionUpdate
  Backend BackendSpec Config ConfigSpec ConfigFacts QuatFacts RotFacts.
Import ListNotations.
Local Open Scope nat_scope.

(** Camera [k] carries camera coordinates to body coordinates as the matrix of its file does. *)
Lemma camera_means : forall (t : nat -> nat -> R), rotation t ->
  qunit (quat_of_mat (Mat 4 4 t)) /\ forall x, v3add (qrot (quat_of_mat (Mat 4 4 t)) x) (column3 t) = carried t x.
Proof.
  intros t H. destruct (rotation_quat 4 4 t H) as [U E]. split; [exact U|]. intros x. rewrite qrot_mat.
  pose proof (E 0 0 ltac:(lia) ltac:(lia)) as E00. pose proof (E 0 1 ltac:(lia) ltac:(lia)) as E01. pose proof (E 0 2 ltac:(lia) ltac:(lia)) as E02.
  pose proof (E 1 0 ltac:(lia) ltac:(lia)) as E10. pose proof (E 1 1 ltac:(lia) ltac:(lia)) as E11. pose proof (E 1 2 ltac:(lia) ltac:(lia)) as E12.
  pose proof (E 2 0 ltac:(lia) ltac:(lia)) as E20. pose proof (E 2 1 ltac:(lia) ltac:(lia)) as E21. pose proof (E 2 2 ltac:(lia) ltac:(lia)) as E22.
  clear E U H. destruct (qmat (quat_of_mat (Mat 4 4 t))) as [m00 m01 m02 m10 m11 m12 m20 m21 m22]. cbn in E00, E01, E02, E10, E11, E12, E20, E21, E22.
  unfold carried, column3. rewrite <- E00, <- E01, <- E02, <- E10, <- E11, <- E12, <- E20, <- E21, <- E22.
  destruct x. unfold m33mulv, v3add. cbn. f_equal; ring.
Qed.

(** Uniform motion: the sensors measure the gravity reaction and their biases. *)
Lemma uniform_step : forall (g : R) ba bg (m : motion R) dt, qunit (mo_q m) ->
  let a := v3add (qrot (qconj (mo_q m)) (V3 0%R 0%R g)) ba in
  fst (fst (nominal_step (V3 0%R 0%R g) ba bg m a bg a bg dt)) = Motion (v3add (mo_p m) (v3scale (mo_v m) dt)) (mo_v m) (mo_q m).
Proof.
  intros g ba bg [p v q] dt U a. cbn [mo_q mo_p mo_v] in *. unfold nominal_step. cbn [fst mo_p mo_v mo_q].
  assert (Z : v3sub (v3scale (v3add bg bg) shalf) bg = v3zero) by (destruct bg; vunf; rops; cbn; f_equal; lra).
  rewrite Z.
  assert (Q : qnormalize (qmul q (delta_q (v3scale v3zero dt))) = q).
  { replace (qmul q (delta_q (v3scale v3zero dt))) with q; [apply qnormalize_of_unit, U|]. clear. destruct q. vfield. }
  rewrite Q.
  assert (A : v3sub a ba = qrot (qinv q) (V3 0%R 0%R g)).
  { unfold a. rewrite qinv_unit by exact U. destruct (qrot (qconj q) (V3 0%R 0%R g)) as [r0 r1 r2], ba as [b0 b1 b2]. clear. vring. }
  rewrite A, qrot_inv_r by exact U. clear. destruct p as [p0 p1 p2], v as [v0 v1 v2].
  assert (V : v3add (V3 v0 v1 v2) (v3scale (v3sub (v3scale (v3add (V3 0%R 0%R g) (V3 0%R 0%R g)) shalf) (V3 0%R 0%R g)) dt) = V3 v0 v1 v2) by vfield.
  rewrite V. f_equal. vfield.
Qed.

Theorem configured_means : forall u32 wide junk (d : cdir R) (c : config R) (m : mat R) (s : bstate R) tf tn tb tg tc tw tv tk,
  told 1 1 (cd_file d FFreq) (Some tf) -> told 1 4 (cd_file d FNoise) (Some tn) -> told 2 3 (cd_file d FBias) (Some tb) -> told 1 1 (cd_file d FGrav) (Some tg) ->
  cameras d tc -> (Z.of_nat (length tc) < 4294967296)%Z -> List.Forall rotation tc ->
  told 1 1 (cd_file d FWin) (Some tw) -> told 1 1 (cd_file d FVis) (Some tv) -> told 1 3 (cd_file d FKey) (Some tk) ->
  u32 (tw 0 0) <> None -> u32 (tk 0 0) <> None ->
  exists c' m', read_config u32 junk d c m = Ok (c', m', true) /\
    let s' := apply_config wide c' s in let v := apply_vcfg c' in
    length (b_ext s') = length tc /\
    (forall k t, nth_error tc k = Some t -> exists e, nth_error (b_ext s') k = Some e /\ qunit (ex_q e) /\
      forall x, v3add (qrot (ex_q e) x) (ex_p e) = carried t x) /\
    (forall mo dt, qunit (mo_q mo) ->
      let a := v3add (qrot (qconj (mo_q mo)) (V3 0%R 0%R (tg 0 0))) (V3 (tb 0 0) (tb 0 1) (tb 0 2)) in
      let w := V3 (tb 1 0) (tb 1 1) (tb 1 2) in
      fst (fst (nominal_step (vc_grav v) (pq_ba (b_pq s')) (pq_bg (b_pq s')) mo a w a w dt)) =
        Motion (v3add (mo_p mo) (v3scale (mo_v mo) dt)) (mo_v mo) (mo_q mo)) /\
    (mr (pq_Q (b_pq s')) = 12 /\ mc (pq_Q (b_pq s')) = 12 /\
     forall i j, i < 12 -> j < 12 -> me (pq_Q (b_pq s')) i j = if Nat.eqb i j then tn 0 (i / 3) else 0%R) /\
    dl_period (b_dl s') = wide (Rdiv 1 (tf 0 0)) /\ vc_noise v = tv 0 0 /\ Some (vc_maxwin v) = u32 (tw 0 0) /\
    Some (vc_mintrack v) = u32 (tk 0 0) /\ vc_maxtrans v = tk 0 2 /\ vc_maxfeat v = cf_maxfeat c /\
    b_win s' = b_win s /\ b_att s' = b_att s /\ b_status s' = b_status s /\ b_st s' = b_st s /\
    dl_feat (b_dl s') = dl_feat (b_dl s) /\ dl_imu (b_dl s') = dl_imu (b_dl s) /\ dl_offset (b_dl s') = dl_offset (b_dl s) /\
    pq_items (b_pq s') = pq_items (b_pq s) /\ pq_ecc (b_pq s') = pq_ecc (b_pq s) /\ pq_init (b_pq s') = pq_init (b_pq s).
Proof.
  intros u32 wide junk d c m s tf tn tb tg tc tw tv tk H1 H2 H3 H4 H5 Hl Hr H6 H7 H8 Uw Uk.
  destruct (read_complete u32 junk d c m (Some tf) (Some tn) (Some tb) (Some tg) tc (Some tw) (Some tv) (Some tk) H1 H2 H3 H4 H5 Hl H6 H7 H8)
    as (c' & m' & E & K); [intros t [= <-]; exact Uw|intros t [= <-]; exact Uk|].
  exists c', m'. split; [exact E|]. clear E. cbv zeta. cbn [or_old] in K.
  destruct K as (Kp & Kna & Kng & Kwa & Kwg & Kba & Kbg & Kg & _ & Kcp & Kcq & Kw & Ks & Kt & _ & Km & Kf).
  assert (Lq : length (cf_q c') = length tc) by (rewrite Kcq, map_length; reflexivity).
  assert (Lp : length (cf_p c') = length tc) by (rewrite Kcp, map_length; reflexivity).
  split; [cbn [apply_config b_ext]; rewrite zip_with_length; lia|].
  split.
  { intros k t Hk. rewrite List.Forall_forall in Hr. destruct (camera_means t (Hr t (nth_error_In _ _ Hk))) as [U C].
    exists (Extrinsic (quat_of_mat (Mat 4 4 t)) (column3 t)). split; [|split; [exact U|exact C]].
    cbn [apply_config b_ext]. rewrite Kcq, Kcp. clear - Hk. revert k Hk. induction tc as [|t0 tc IH]; intros [|k] Hk; try discriminate Hk.
    - injection Hk as <-. reflexivity.
    - exact (IH k Hk). }
  split.
  { intros mo dt U. cbv zeta. cbn [apply_config apply_vcfg vc_grav b_pq pq_ba pq_bg]. rewrite Kba, Kbg, Kg. apply uniform_step. exact U. }
  split.
  { split; [reflexivity|]. split; [reflexivity|]. intros i j Hi Hj. cbn [apply_config b_pq pq_Q noise_Q me]. rewrite Kna, Kng, Kwa, Kwg.
    destruct (Nat.eqb i j) eqn:Eij; [|reflexivity].
    do 12 (destruct i as [|i]; [cbn; try (rops; ring)|]). lia. }
  cbn [apply_config apply_vcfg b_dl dl_period vc_noise vc_maxwin vc_mintrack vc_maxtrans vc_maxfeat b_win b_att b_status b_st dl_feat dl_imu dl_offset b_pq pq_items pq_ecc pq_init].
  repeat split; try assumption; try reflexivity. rewrite Kp. reflexivity.
Qed.

(** ** A directory with one camera, in real numbers *)
Definition rtext (rows cols : nat) (t : nat -> nat -> R) : cfile R := map (fun i => Some (map (fun j => TNum (t i j)) (seq 0 cols))) (seq 0 rows).
Lemma rtext_complete : forall rows cols t, complete rows cols (rtext rows cols t) t.
Proof.
  intros rows cols t. assert (D : forall l, data_lines (map (fun i => Some (map (fun j => TNum (t i j)) (seq 0 cols))) l) = map (fun i => map (fun j => TNum (t i j)) (seq 0 cols)) l).
  { induction l as [|r l IH]; [reflexivity|]. cbn [map data_lines]. rewrite IH. reflexivity. }
  assert (V : forall i l, values (map (fun j => TNum (t i j)) l) = map (t i) l) by (intros i l; induction l as [|x r IH]; [reflexivity|cbn; rewrite IH; reflexivity]).
  unfold complete, entry, rtext. rewrite D. split; [rewrite map_length, seq_length; reflexivity|]. intros i j Hi Hj.
  rewrite nth_error_map. rewrite (nth_error_nth' (seq 0 rows) 0) by (rewrite seq_length; exact Hi). rewrite seq_nth by exact Hi. cbn [option_map plus].
  rewrite V, nth_error_map. rewrite (nth_error_nth' (seq 0 cols) 0) by (rewrite seq_length; exact Hj). rewrite seq_nth by exact Hj. reflexivity.
Qed.
(** Frequency 200, noises 0.1, 0.2, 0.3, 0.4, biases, gravity 9.8, window size 6, vision noise 0.01, keyframe policy 30, 0.1, 0.5. *)
Definition x_freq (_ _ : nat) : R := 200%R.
Definition x_noise (_ j : nat) : R := (INR (j + 1) / 10)%R.
Definition x_bias (i j : nat) : R := (INR (i + j) / 100)%R.
Definition x_grav (_ _ : nat) : R := (98 / 10)%R.
Definition x_win (_ _ : nat) : R := 6%R.
Definition x_vis (_ _ : nat) : R := (1 / 100)%R.
Definition x_key (_ j : nat) : R := match j with 0 => 30%R | 1 => (1 / 10)%R | _ => (1 / 2)%R end.
Definition x_dir : cdir R := CDir (fun n => match n with FFreq => Some (rtext 1 1 x_freq) | FNoise => Some (rtext 1 4 x_noise) | FBias => Some (rtext 2 3 x_bias)
  | FGrav => Some (rtext 1 1 x_grav) | FWin => Some (rtext 1 1 x_win) | FVis => Some (rtext 1 1 x_vis) | FKey => Some (rtext 1 3 x_key) | FCam _ => None end)
  {[0%Z := rtext 4 4 t_bc0]}.
Lemma x_told : told 1 1 (cd_file x_dir FFreq) (Some x_freq) /\ told 1 4 (cd_file x_dir FNoise) (Some x_noise) /\ told 2 3 (cd_file x_dir FBias) (Some x_bias) /\
  told 1 1 (cd_file x_dir FGrav) (Some x_grav) /\ cameras x_dir [t_bc0] /\ List.Forall rotation [t_bc0] /\
  told 1 1 (cd_file x_dir FWin) (Some x_win) /\ told 1 1 (cd_file x_dir FVis) (Some x_vis) /\ told 1 3 (cd_file x_dir FKey) (Some x_key).
Proof.
  repeat match goal with |- _ /\ _ => split end; try exact (rtext_complete _ _ _).
  - split; [|reflexivity]. intros [|k] t H; [|destruct k; discriminate]. injection H as <-. exists (rtext 4 4 t_bc0). split; [reflexivity|exact (rtext_complete _ _ _)].
  - constructor; [exact t_bc0_rotation|constructor].
Qed.
