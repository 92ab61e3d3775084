(** Properties C66, C69 and C70: configuration. *)
From Coq Require Import ZArith Reals Bool List.
From Flocq Require Import Core BinarySingleNaN.
From stdpp Require Import gmap.
From Verif Require Import Fp Scalar Base LinAlg Msg DataLoader FeatureManager FrameManager Window MathLib Attitude Propagator
  Triangulate Pnp VisionUpdate Backend BackendSpec Config ConfigSpec ConfigFacts RotFacts QuatFacts BackWitness ConfigWitness MountFacts AppLineFacts.
Import ListNotations.
Local Open Scope nat_scope.

(** C66: a missing file changes nothing ... *)
Theorem C66_missing : forall (T : Type) junk rows cols (m : mat T), load_matrix junk None rows cols m = Ok (m, false).
Proof. exact @load_missing. Qed.
Print Assumptions C66_missing.
(** ... and this is everything LoadMatrix does with a file that can be opened. *)
Theorem C66_file : forall (T : Type) junk (f : cfile T) rows cols (m : mat T), 0 < cols ->
  if length (data_lines f) <=? rows then
    exists m', load_matrix junk (Some f) rows cols m = Ok (m', true) /\ mr m' = rows /\ mc m' = cols /\
    forall i j, i < rows -> j < cols -> me m' i j =
      match entry f i j with
      | Some x => x
      | None => if mr m * mc m =? rows * cols then me m ((i + j * rows) mod mr m) ((i + j * rows) / mr m) else junk i j
      end
  else load_matrix junk (Some f) rows cols m = Ub UbIndex.
Proof. exact @load_file. Qed.
Print Assumptions C66_file.
(** Complete files are stored exactly. *)
Theorem C66_complete : forall (T : Type) junk (f : cfile T) rows cols t (m : mat T), 0 < cols -> complete rows cols f t ->
  exists m', load_matrix junk (Some f) rows cols m = Ok (m', true) /\ mr m' = rows /\ mc m' = cols /\ forall i j, i < rows -> j < cols -> me m' i j = t i j.
Proof. exact @load_complete. Qed.
Print Assumptions C66_complete.
(** ReadConfigParams with complete or missing files: every parameter is the one of its file, or keeps its value; the
    cameras are those of the files 0, 1, ... up to the first missing one. *)
Theorem C66_parameters : forall (T : Type) (S : SOps T) (u32 : T -> option Z) junk (d : cdir T) (c : config T) (m : mat T) tf tn tb tg tc tw tv tk,
  told 1 1 (cd_file d FFreq) tf -> told 1 4 (cd_file d FNoise) tn -> told 2 3 (cd_file d FBias) tb -> told 1 1 (cd_file d FGrav) tg ->
  cameras d tc -> (Z.of_nat (length tc) < 4294967296)%Z ->
  told 1 1 (cd_file d FWin) tw -> told 1 1 (cd_file d FVis) tv -> told 1 3 (cd_file d FKey) tk ->
  (forall t, tw = Some t -> u32 (t 0 0) <> None) -> (forall t, tk = Some t -> u32 (t 0 0) <> None) ->
  exists c' m', read_config u32 junk d c m = Ok (c', m', true) /\
    cf_period c' = or_old tf (fun t => sdiv s1 (t 0 0)) (cf_period c) /\
    cf_na c' = or_old tn (fun t => t 0 0) (cf_na c) /\ cf_ng c' = or_old tn (fun t => t 0 1) (cf_ng c) /\
    cf_nwa c' = or_old tn (fun t => t 0 2) (cf_nwa c) /\ cf_nwg c' = or_old tn (fun t => t 0 3) (cf_nwg c) /\
    cf_ba c' = or_old tb (fun t => V3 (t 0 0) (t 0 1) (t 0 2)) (cf_ba c) /\ cf_bg c' = or_old tb (fun t => V3 (t 1 0) (t 1 1) (t 1 2)) (cf_bg c) /\
    cf_grav c' = or_old tg (fun t => t 0 0) (cf_grav c) /\
    cf_ncam c' = Z.of_nat (length tc) /\ cf_p c' = map column3 tc /\ cf_q c' = map (fun t => quat_of_mat (Mat 4 4 t)) tc /\
    Some (cf_maxframe c') = or_old tw (fun t => u32 (t 0 0)) (Some (cf_maxframe c)) /\
    cf_sigma c' = or_old tv (fun t => t 0 0) (cf_sigma c) /\
    Some (cf_mintrack c') = or_old tk (fun t => u32 (t 0 0)) (Some (cf_mintrack c)) /\
    cf_minpar c' = or_old tk (fun t => t 0 1) (cf_minpar c) /\ cf_maxtrans c' = or_old tk (fun t => t 0 2) (cf_maxtrans c) /\
    cf_maxfeat c' = cf_maxfeat c.
Proof. exact @read_complete. Qed.
Print Assumptions C66_parameters.
(** The directory /repo/eskf_vio_backend/config. *)
Example C66_parameters_example : (told 1 1 (cd_file repo_dir FFreq) (Some (cell r_freq)) /\ told 1 4 (cd_file repo_dir FNoise) (Some (cell r_noise)) /\
  told 2 3 (cd_file repo_dir FBias) (Some (cell r_bias)) /\ told 1 1 (cd_file repo_dir FGrav) (Some (cell r_grav)) /\
  cameras repo_dir [cell r_cam0; cell r_cam1] /\
  told 1 1 (cd_file repo_dir FWin) (Some (cell r_win)) /\ told 1 1 (cd_file repo_dir FVis) (Some (cell r_vis)) /\
  told 1 3 (cd_file repo_dir FKey) (Some (cell r_key))) /\
  f32_u32 (cell r_win 0 0) = Some 6%Z /\ f32_u32 (cell r_key 0 0) = Some 30%Z.
Proof. exact (conj repo_told repo_u32). Qed.
(** No undefined behaviour when no file has too many lines and the two counts are given and convert. *)
Theorem C66_safe : forall (T : Type) (S : SOps T) (u32 : T -> option Z) junk (d : cdir T) (c : config T) (m : mat T) n,
  fits 1 (cd_file d FFreq) -> fits 1 (cd_file d FNoise) -> fits 2 (cd_file d FBias) -> fits 1 (cd_file d FGrav) -> fits 1 (cd_file d FWin) ->
  fits 1 (cd_file d FVis) -> fits 1 (cd_file d FKey) ->
  (forall i, i < n -> exists f, cd_cams d !! Z.of_nat i = Some f /\ fits 4 (Some f)) -> cd_cams d !! Z.of_nat n = None -> (Z.of_nat n < 4294967296)%Z ->
  (cd_file d FWin = None \/ exists x z, said (cd_file d FWin) 0 0 = Some x /\ u32 x = Some z) ->
  (cd_file d FKey = None \/ exists x z, said (cd_file d FKey) 0 0 = Some x /\ u32 x = Some z) ->
  exists c' m', read_config u32 junk d c m = Ok (c', m', true) /\ cf_ncam c' = Z.of_nat n /\ length (cf_q c') = n /\ length (cf_p c') = n.
Proof. exact @read_safe. Qed.
Print Assumptions C66_safe.
Example C66_safe_example : List.Forall (fun p => fits (fst p) (cd_file repo_dir (snd p))) [(1, FFreq); (1, FNoise); (2, FBias); (1, FGrav); (1, FWin); (1, FVis); (1, FKey)] /\
  (forall i, i < 2 -> exists f, cd_cams repo_dir !! Z.of_nat i = Some f /\ fits 4 (Some f)) /\ cd_cams repo_dir !! Z.of_nat 2 = None /\
  (exists x, said (cd_file repo_dir FWin) 0 0 = Some x /\ f32_u32 x = Some 6%Z) /\ exists x, said (cd_file repo_dir FKey) 0 0 = Some x /\ f32_u32 x = Some 30%Z.
Proof. exact repo_fits. Qed.
(** Which floats convert to a count, and to which. *)
Theorem C66_count : forall x z, f32_u32 x = Some z <-> is_finite x = true /\ (-1 < B2R x < 4294967296)%R /\ z = Ztrunc (B2R x).
Proof. exact u32_trunc. Qed.
Print Assumptions C66_count.
(** 6.75, -0.5 and 2^32. *)
Example C66_count_example : f32_u32 (f32_lit 0xd80000 (-21)) = Some 6%Z /\ f32_u32 (f32_lit (-0x800000) (-24)) = Some 0%Z /\ f32_u32 (f32_lit 0x800000 9) = None.
Proof. exact three_counts. Qed.
(** ReadConfigParams never reports a failure ... *)
Theorem C66_always_true : forall (T : Type) (S : SOps T) (u32 : T -> option Z) junk (d : cdir T) (c : config T) m c' m' r,
  read_config u32 junk d c m = Ok (c', m', r) -> r = true.
Proof. exact @read_true. Qed.
Print Assumptions C66_always_true.
(** ... although an empty file sets its parameter to the contents of fresh memory, ... *)
Theorem C66_empty_refuted : exists (lm : libm32) (d : cdir f32) junk c m, cd_file d FGrav = Some [] /\
  read_config (S := ops_f32 lm) f32_u32 junk d (cfg0 (S := ops_f32 lm)) (mzero (S := ops_f32 lm) 0 0) = Ok (c, m, true) /\ f32_is 7 (cf_grav c) = true.
Proof. destruct empty_file as (c & m & H). exists lm0, (only FGrav []), no_junk, c, m. exact (conj eq_refl H). Qed.
Print Assumptions C66_empty_refuted.
(** ... an empty measurement-noise file sets the noise to the window size, ... *)
Theorem C66_stale_refuted : exists (lm : libm32) (d : cdir f32), cd_file d FVis = Some [] /\ forall junk, exists c m,
  read_config (S := ops_f32 lm) f32_u32 junk d (cfg0 (S := ops_f32 lm)) (mzero (S := ops_f32 lm) 0 0) = Ok (c, m, true) /\
  f32_is 6 (cf_sigma c) = true /\ cf_maxframe c = 6%Z.
Proof. exists lm0, d_stale. exact (conj eq_refl stale_file). Qed.
Print Assumptions C66_stale_refuted.
(** ... text that is no number makes the sample period infinite, ... *)
Theorem C66_text_refuted : exists (lm : libm32) (d : cdir f32), forall junk, exists c m,
  read_config (S := ops_f32 lm) f32_u32 junk d (cfg0 (S := ops_f32 lm)) (mzero (S := ops_f32 lm) 0 0) = Ok (c, m, true) /\ f32_isinf (cf_period c) = true.
Proof. exists lm0, (only FFreq [Some [TBad (f32_of_Z 0)]]). exact text_file. Qed.
Print Assumptions C66_text_refuted.
(** ... a second line, even of blanks, writes out of bounds, and a negative window size is undefined behaviour. *)
Theorem C66_long_refuted : exists (lm : libm32) (d d' d'' : cdir f32), forall junk,
  read_config (S := ops_f32 lm) f32_u32 junk d (cfg0 (S := ops_f32 lm)) (mzero (S := ops_f32 lm) 0 0) = Ub UbIndex /\
  read_config (S := ops_f32 lm) f32_u32 junk d' (cfg0 (S := ops_f32 lm)) (mzero (S := ops_f32 lm) 0 0) = Ub UbIndex /\
  read_config (S := ops_f32 lm) f32_u32 junk d'' (cfg0 (S := ops_f32 lm)) (mzero (S := ops_f32 lm) 0 0) = Ub UbConv.
Proof. eexists lm0, _, _, _. intros junk. exact (conj (long_file junk) (conj (blank_file junk) (negative_file junk))). Qed.
Print Assumptions C66_long_refuted.
(** A second directory does not bring back the defaults. *)
Theorem C66_singleton_refuted : exists (lm : libm32) (d1 d2 : cdir f32), (cd_file d2 FGrav = None) /\ forall junk, exists c1 m1 c2 m2,
  read_config (S := ops_f32 lm) f32_u32 junk d1 (cfg0 (S := ops_f32 lm)) (mzero (S := ops_f32 lm) 0 0) = Ok (c1, m1, true) /\
  read_config (S := ops_f32 lm) f32_u32 junk d2 c1 m1 = Ok (c2, m2, true) /\ f32_is 3 (cf_grav c2) = true.
Proof. exists lm0, (only FGrav [Some [TNum (f32_of_Z 3)]]), (only FWin (text r_win)). exact (conj eq_refl second_dir). Qed.
Print Assumptions C66_singleton_refuted.

(** C69: in exact arithmetic the quaternion of a rotation matrix is a unit quaternion with that matrix. *)
Theorem C69_rotation : forall n m a, rotation a ->
  let q := quat_of_mat (Mat n m a) in qunit q /\ forall i j, i < 3 -> j < 3 -> m33get (qmat q) i j = a i j.
Proof. exact rotation_quat. Qed.
Print Assumptions C69_rotation.
(** The camera of T_bc0.txt, with trace 0. *)
Example C69_rotation_example : rotation t_bc0.
Proof. exact t_bc0_rotation. Qed.

(** C70: configuring a new back end. *)
Theorem C70_fresh : forall (T : Type) (S : SOps T) wide (c : config T) st, length (cf_q c) = length (cf_p c) ->
  fresh (apply_config wide c (b_blank st)) /\ length (b_ext (apply_config wide c (b_blank st))) = length (cf_q c) /\
  dl_period (b_dl (apply_config wide c (b_blank st))) = wide (cf_period c).
Proof. exact @config_fresh. Qed.
Print Assumptions C70_fresh.
Example C70_fresh_example : forall junk st, exists c m, read_config f32_u32 junk repo_dir cfg0 ConfigWitness.m00 = Ok (c, m, true) /\
  length (cf_q c) = length (cf_p c) /\ length (cf_q c) = 2 /\ vc_maxwin (apply_vcfg c) = 6%Z /\ fresh (apply_config f32_to_f64 c (b_blank st)).
Proof. exact repo_backend. Qed.
(** What the files mean for the back end, whatever its state, in exact arithmetic: camera k is mounted as the matrix of its file says; a body
    that moves uniformly and measures the reaction to the gravity of the file, plus the biases of the file, is propagated uniformly; the
    noise parameters lie on the diagonal of the process noise in the order of the file; nothing else changes. *)
Theorem C70_meaning : forall u32 wide junk (d : cdir R) (c : config R) (m : mat R) (s : bstate R) tf tn tb tg tc tw tv tk,
  told 1 1 (cd_file d FFreq) (Some tf) -> told 1 4 (cd_file d FNoise) (Some tn) -> told 2 3 (cd_file d FBias) (Some tb) -> told 1 1 (cd_file d FGrav) (Some tg) ->
  cameras d tc -> (Z.of_nat (length tc) < 4294967296)%Z -> List.Forall rotation tc ->
  told 1 1 (cd_file d FWin) (Some tw) -> told 1 1 (cd_file d FVis) (Some tv) -> told 1 3 (cd_file d FKey) (Some tk) ->
  u32 (tw 0 0) <> None -> u32 (tk 0 0) <> None ->
  exists c' m', read_config u32 junk d c m = Ok (c', m', true) /\
    let s' := apply_config wide c' s in let v := apply_vcfg c' in
    length (b_ext s') = length tc /\
    (forall k t, nth_error tc k = Some t -> exists e, nth_error (b_ext s') k = Some e /\ qunit (ex_q e) /\
      forall x, v3add (qrot (ex_q e) x) (ex_p e) = carried t x) /\
    (forall mo dt, qunit (mo_q mo) ->
      let a := v3add (qrot (qconj (mo_q mo)) (V3 0%R 0%R (tg 0 0))) (V3 (tb 0 0) (tb 0 1) (tb 0 2)) in
      let w := V3 (tb 1 0) (tb 1 1) (tb 1 2) in
      fst (fst (nominal_step (vc_grav v) (pq_ba (b_pq s')) (pq_bg (b_pq s')) mo a w a w dt)) =
        Motion (v3add (mo_p mo) (v3scale (mo_v mo) dt)) (mo_v mo) (mo_q mo)) /\
    (mr (pq_Q (b_pq s')) = 12 /\ mc (pq_Q (b_pq s')) = 12 /\
     forall i j, i < 12 -> j < 12 -> me (pq_Q (b_pq s')) i j = if Nat.eqb i j then tn 0 (i / 3) else 0%R) /\
    dl_period (b_dl s') = wide (Rdiv 1 (tf 0 0)) /\ vc_noise v = tv 0 0 /\ Some (vc_maxwin v) = u32 (tw 0 0) /\
    Some (vc_mintrack v) = u32 (tk 0 0) /\ vc_maxtrans v = tk 0 2 /\ vc_maxfeat v = cf_maxfeat c /\
    b_win s' = b_win s /\ b_att s' = b_att s /\ b_status s' = b_status s /\ b_st s' = b_st s /\
    dl_feat (b_dl s') = dl_feat (b_dl s) /\ dl_imu (b_dl s') = dl_imu (b_dl s) /\ dl_offset (b_dl s') = dl_offset (b_dl s) /\
    pq_items (b_pq s') = pq_items (b_pq s) /\ pq_ecc (b_pq s') = pq_ecc (b_pq s) /\ pq_init (b_pq s') = pq_init (b_pq s).
Proof. exact configured_means. Qed.
Print Assumptions C70_meaning.
Example C70_meaning_example : told 1 1 (cd_file x_dir FFreq) (Some x_freq) /\ told 1 4 (cd_file x_dir FNoise) (Some x_noise) /\ told 2 3 (cd_file x_dir FBias) (Some x_bias) /\
  told 1 1 (cd_file x_dir FGrav) (Some x_grav) /\ cameras x_dir [t_bc0] /\ List.Forall rotation [t_bc0] /\
  told 1 1 (cd_file x_dir FWin) (Some x_win) /\ told 1 1 (cd_file x_dir FVis) (Some x_vis) /\ told 1 3 (cd_file x_dir FKey) (Some x_key).
Proof. exact x_told. Qed.
(** False for a back end that is already running: with fewer cameras the next update fails, and C34 applies. *)
Theorem C70_running_refuted : exists (lm : libm32) (c : vcfg f32) (s0 s s' : bstate f32) (cfg : config f32) ops ops', fresh (S := ops_f32 lm) s0 /\
  b_hist (S := ops_f32 lm) c s0 ops = Ok s /\ b_status s = Initialized /\
  b_hist (S := ops_f32 lm) c (apply_config (S := ops_f32 lm) f32_to_f64 cfg s) ops' = Ok s' /\ stuck s'.
Proof. destruct recfg_stuck as (s & s' & H). exists lm0, (w_c 0), w_s0, s, s', one_cam, (w_ops 4), (w_round w_ids ob0 4). exact (conj w_fresh H). Qed.
Print Assumptions C70_running_refuted.
