(** Concrete data files for the examples and refutations about the test program (C72-C75). *)
From Coq Require Import ZArith Reals Lra List Bool Lia Arith.
From stdpp Require Import gmap list.
From Verif Require Import Fp FpFacts Scalar Base LinAlg Msg DataLoader FeatureManager FrameManager Window MathLib Attitude Propagator
  Triangulate Pnp VisionUpdate Backend LoaderSpec WindowSpec QueueSpec UpdSpec BackendSpec BackWitness Config ConfigSpec ConfigFacts ConfigWitness
  QuatFacts App AppSpec AppFacts.
Import ListNotations.
Local Open Scope nat_scope.

(** A number that is whole. *)
Definition an (z : Z) : atok f32 := ANum (f64_of_Z z) (f32_of_Z z).
Definition imu_text (t : Z) : list (atok f32) := map an [t; 1; 0; 0; 0; 0; 0; 0; 0; 0; 0; 0; 10; 0]%Z.
Definition pt_text (i : Z) : list (atok f32) := map an [i; 1; 4]%Z.
Definition cam_text (t : Z) : list (atok f32) := map an [t; 1; 0; 0; 0; 0; 0; 0]%Z.
Definition a_times : list Z := [0; 1; 2; 3]%Z.
Definition a_points : list Z := [0; 1; 2; 3; 4; 5; 6; 7; 8; 9]%Z.
(** Four samples, ten points, four images; then an empty line, and lines that are not read. *)
Definition a_files : afiles f32 :=
  AFiles (Some (map (fun t => Some (imu_text t)) a_times ++ [None; Some [an 5]])) (Some (map (fun i => Some (pt_text i)) a_points))
         (Some (map (fun t => Some (cam_text t)) a_times)).
Definition a_ji : imu_vars f32 := ImuVars (f64_of_Z 7) qid v3zero v3zero v3zero.
Definition a_jc : cam_vars f32 := CamVars (f64_of_Z 7) qid v3zero.

(** ** C72, C73, C75 *)
Lemma a_run : exists s res, app_main a_ji v3zero a_jc (w_c 0) (fun _ => w_o) a_files w_s0 = Ok (s, 4, res) /\ b_status s = Initialized /\ n_frames s = 3 /\
  length res = 3.
Proof.
  destruct (chk_ex _ (fun r => is_init (fst (fst r)) && Nat.eqb (n_frames (fst (fst r))) 3 && Nat.eqb (snd (fst r)) 4 && Nat.eqb (length (snd r)) 3)
    (app_main a_ji v3zero a_jc (w_c 0) (fun _ => w_o) a_files w_s0)) as ([[s k] res] & E & H); [vm_compute; reflexivity|].
  cbn [fst snd] in H. bools. subst k. exists s, res. auto.
Qed.
Lemma a_said : exists ms ps vs, says imu_said (af_imu a_files) ms /\ says pt_said (af_pts a_files) ps /\ says cam_said (af_cam a_files) vs /\
  length ms = 4 /\ length ps = 10 /\ length vs = 4 /\ time_sorted (map im_ts ms) /\ b_st w_s0 = statics0.
Proof.
  eexists (map (fun t => ImuMsg _ _ (f64_of_Z t)) a_times), (map (fun i => V3 _ _ _) a_points), (map (fun t => (f64_of_Z t, _, _)) a_times).
  split; [reflexivity|]. split; [reflexivity|]. split; [reflexivity|]. repeat (split; [reflexivity|]). split; [|reflexivity].
  repeat (split; [reflexivity|]; split; [intros y Hy; repeat (destruct Hy as [<-|Hy]; [vm_compute; reflexivity|]); destruct Hy|]). exact I.
Qed.
(** What is loaded from these files. *)
Lemma a_loaded : let '(s1, cnt) := app_imu a_ji (af_imu a_files) w_s0 in let s2 := app_feat v3zero a_jc (af_pts a_files) (af_cam a_files) s1 in
  cnt = 4%Z /\ length (dl_imu (b_dl s2)) = 4 /\ length (dl_feat (b_dl s2)) = 4.
Proof.
  destruct (app_imu a_ji (af_imu a_files) w_s0) as [s1 cnt] eqn:E.
  assert (H : (let '(s1, cnt) := app_imu a_ji (af_imu a_files) w_s0 in let s2 := app_feat v3zero a_jc (af_pts a_files) (af_cam a_files) s1 in
    (cnt =? 4)%Z && Nat.eqb (length (dl_imu (b_dl s2))) 4 && Nat.eqb (length (dl_feat (b_dl s2))) 4) = true) by (vm_compute; reflexivity).
  rewrite E in H. cbv zeta in *. bools. apply Z.eqb_eq in H. auto.
Qed.

(** The directory of the repository (C70) gives a back end for which the test program is safe. *)
Lemma repo_app : forall junk st, exists c m, read_config f32_u32 junk repo_dir cfg0 ConfigWitness.m00 = Ok (c, m, true) /\
  let s0 := apply_config f32_to_f64 c (b_blank st) in
  BackendSpec.fresh s0 /\ 2 <= length (b_ext s0) /\ sizes_ok (apply_vcfg c) (length (b_ext s0)).
Proof.
  intros junk st. destruct (repo_backend junk st) as (c & m & E & L1 & L2 & Hw & Hf). exists c, m. split; [exact E|]. cbv zeta. split; [exact Hf|].
  destruct (config_fresh f32_to_f64 c st L1) as (_ & Le & _). rewrite Le, L2. split; [lia|].
  assert (Hk : vc_maxfeat (apply_vcfg c) = 30%Z).
  { destruct repo_told as (H1 & H2 & H3 & H4 & H5 & H6 & H7 & H8).
    destruct (read_complete f32_u32 junk repo_dir cfg0 ConfigWitness.m00 _ _ _ _ _ _ _ _ H1 H2 H3 H4 H5 eq_refl H6 H7 H8) as (c' & m' & E' & K).
    { intros t e. injection e as <-. rewrite (proj1 repo_u32). discriminate. }
    { intros t e. injection e as <-. rewrite (proj2 repo_u32). discriminate. }
    rewrite E in E'. injection E' as <- _. decompose [and] K. cbn [apply_vcfg vc_maxfeat].
    match goal with Hx : cf_maxfeat c = _ |- _ => rewrite Hx end. reflexivity. }
  unfold sizes_ok, win_bound. rewrite Hw, Hk. split; [lia|]. split; [lia|]. vm_compute. reflexivity.
Qed.

(** ** C73: refutations *)
(** Two samples, at 99.5 and 100 seconds. *)
Definition a_995 : f64 := f64_div (f64_of_Z 199) (f64_of_Z 2).
Definition late_ms : list (imu_msg f32) := [ImuMsg v3zero v3zero a_995; ImuMsg v3zero v3zero (f64_of_Z 100)].
Definition late_file : afile f32 := map (fun m => Some (ANum (im_ts m) s0 :: map an [0; 0; 0; 0; 0; 0; 0; 0; 0; 0; 0; 0; 0]%Z)) late_ms.
Lemma late_lost : says imu_said (Some late_file) late_ms /\ time_sorted (map im_ts late_ms) /\
  List.Forall (fun m => f64_leb (im_ts m) (f64_of_Z 100) = true) late_ms /\ length late_ms = 2 /\
  forall ji, length (dl_imu (b_dl (fst (app_imu ji (Some late_file) w_s0)))) = 1.
Proof.
  split; [reflexivity|]. split; [|split; [|split; [reflexivity|]]].
  - split; [reflexivity|]. split; [intros y [<-|[]]; vm_compute; reflexivity|]. split; [reflexivity|]. split; [intros y []|exact I].
  - repeat constructor.
  - intros ji. vm_compute. reflexivity.
Qed.
(** A line with a time only. *)
Definition short_file : afile f32 := [Some [an 1]].
Lemma short_junk : imu_said [an 1] = None /\ forall ji, exists m, dl_imu (b_dl (fst (app_imu ji (Some short_file) w_s0))) = [m] /\
  im_accel m = iv_acc ji /\ im_gyro m = iv_gyr ji.
Proof.
  split; [reflexivity|]. intros ji. cbn [app_imu short_file imu_loop]. rewrite LoaderFacts.push_imu_eq by reflexivity.
  change (f64_ltb (match st_imu (b_st w_s0) with Some t => t | None => _ end) _) with true at 1.
  destruct (f64_ltb app_max _); (eexists; split; [reflexivity|]); destruct ji as [t q p [gx gy gz] [ax ay az]]; split; reflexivity.
Qed.

(** ** C75: refutation *)
Definition early_files : afiles f32 :=
  AFiles (Some (map (fun t => Some (imu_text t)) [5; 6]%Z)) (Some (map (fun i => Some (pt_text i)) a_points)) (Some (map (fun t => Some (cam_text t)) [0; 1]%Z)).
Lemma early_left : exists s res, app_main a_ji v3zero a_jc (w_c 0) (fun _ => w_o) early_files w_s0 = Ok (s, 2, res) /\ res = [] /\ length (dl_imu (b_dl s)) = 2.
Proof.
  destruct (chk_ex _ (fun r => Nat.eqb (snd (fst r)) 2 && Nat.eqb (length (snd r)) 0 && Nat.eqb (length (dl_imu (b_dl (fst (fst r))))) 2)
    (app_main a_ji v3zero a_jc (w_c 0) (fun _ => w_o) early_files w_s0)) as ([[s k] res] & E & H); [vm_compute; reflexivity|].
  cbn [fst snd] in H. bools. subst k. destruct res; [|discriminate]. exists s, []. auto.
Qed.

(** ** C74 *)
(** Camera 0 at the origin, looking along z, and the body that carries it. *)
Definition body : frame R := Frame ∅ (qconj (ex_q app_bc0)) (v3opp (qrot (qconj (ex_q app_bc0)) (ex_p app_bc0))) v3zero 0 (f64_of_Z 0).
Lemma body_mounted : qunit (qid (T := R)) /\ qunit (fr_q body) /\ mounted app_bc0 body qid v3zero /\ v3z (meas_pc app_bc0 body (V3 1 1 4)%R) = 4%R.
Proof.
  assert (U0 : qunit (ex_q (app_bc0 (T := R)))) by (unfold qunit, app_bc0; cbn [ex_q]; vunf; field).
  split; [apply qid_unit|]. split; [apply qconj_unit; exact U0|]. split.
  - split; [cbn [body fr_q]; apply qmul_conj_l; exact U0|]. cbn [body fr_q fr_p]. generalize (qrot (qconj (ex_q (app_bc0 (T := R)))) (ex_p app_bc0)). intros u. apply v3_ext; vunf; ring.
  - unfold meas_pc, meas_pb, meas_Rcb, meas_Rbw. rewrite <- !qrot_mat. cbn [body fr_q fr_p]. rewrite !qinv_unit by (try apply qconj_unit; exact U0).
    generalize (ex_p (app_bc0 (T := R))). intros u. cbn [app_bc0 ex_q]. vunf. field.
Qed.
(** The shipped camera files describe the same mounting. *)
Definition same32 (a b : f32) : bool := f32_leb a b && f32_leb b a.
Definition same_ext (a b : extrinsic f32) : bool :=
  same32 (qw (ex_q a)) (qw (ex_q b)) && same32 (qx (ex_q a)) (qx (ex_q b)) && same32 (qy (ex_q a)) (qy (ex_q b)) && same32 (qz (ex_q a)) (qz (ex_q b)) &&
  same32 (v3x (ex_p a)) (v3x (ex_p b)) && same32 (v3y (ex_p a)) (v3y (ex_p b)) && same32 (v3z (ex_p a)) (v3z (ex_p b)).
Lemma repo_mounting : exists c m, read_config f32_u32 no_junk repo_dir cfg0 ConfigWitness.m00 = Ok (c, m, true) /\
  exists e0 e1, b_ext (apply_config f32_to_f64 c (b_blank statics0)) = [e0; e1] /\ same_ext e0 app_bc0 = true /\ same_ext e1 app_bc1 = true.
Proof.
  destruct (chk_ex _ (fun r => snd r && match b_ext (apply_config f32_to_f64 (fst (fst r)) (b_blank statics0)) with [e0; e1] => same_ext e0 app_bc0 && same_ext e1 app_bc1 | _ => false end)
    (read_config f32_u32 no_junk repo_dir cfg0 ConfigWitness.m00)) as ([[c m] r] & E & H); [vm_compute; reflexivity|].
  cbn [fst snd] in H. apply andb_true_iff in H as [-> H]. exists c, m. split; [exact E|]. destruct (b_ext _) as [|e0 [|e1 [|? ?]]]; try discriminate. apply andb_true_iff in H as [H1 H2]. exists e0, e1. auto.
Qed.
