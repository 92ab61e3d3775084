(** Configuration directories in float arithmetic, for the examples and refutations of C66 and C70. *)
From Coq Require Import ZArith List Bool Lia Arith.
From Flocq Require Import IEEE754.BinarySingleNaN.
From stdpp Require Import gmap list.
From Verif Require Import Fp Scalar Base LinAlg Msg DataLoader FeatureManager FrameManager Window MathLib Attitude Propagator
  Triangulate Pnp VisionUpdate Backend BackendSpec Config ConfigSpec ConfigFacts BackWitness.
Import ListNotations.
Local Open Scope nat_scope.

(** ** The directory /repo/eskf_vio_backend/config *)
(** imu_frequence.txt *)
Definition r_freq : list (list f32) := [[(f32_of_Z (200))]].
(** imu_na_ng_nwa_nwg.txt *)
Definition r_noise : list (list f32) := [[(f32_lit (0x9ba5e3) (-29)); (f32_lit (0xf5c28f) (-30)); (f32_lit (0xd1b717) (-37)); (f32_lit (0xa7c5ac) (-40))]].
(** imu_bias_a_g_init.txt *)
Definition r_bias : list (list f32) := [[(f32_of_Z 0); (f32_of_Z 0); (f32_of_Z 0)]; [(f32_of_Z 0); (f32_of_Z 0); (f32_of_Z 0)]].
(** gravity_norm.txt *)
Definition r_grav : list (list f32) := [[(f32_lit (0x9cf5c3) (-20))]].
(** window_size.txt *)
Definition r_win : list (list f32) := [[(f32_of_Z (6))]].
(** vision_measure_noise.txt *)
Definition r_vis : list (list f32) := [[(f32_lit (0x8e77fd) (-32))]].
(** keyframe_policy.txt *)
Definition r_key : list (list f32) := [[(f32_of_Z (30)); (f32_lit (0xcccccd) (-26)); (f32_lit (0xcccccd) (-28))]].
(** T_bc0.txt *)
Definition r_cam0 : list (list f32) := [[(f32_of_Z 0); (f32_of_Z 0); (f32_of_Z (-1)); (f32_lit (0xcccccd) (-28))]; [(f32_of_Z (-1)); (f32_of_Z 0); (f32_of_Z 0); (f32_lit (0xa3d70a) (-28))]; [(f32_of_Z 0); (f32_of_Z (1)); (f32_of_Z 0); (f32_lit (0xf5c28f) (-29))]; [(f32_of_Z 0); (f32_of_Z 0); (f32_of_Z 0); (f32_of_Z (1))]].
(** T_bc1.txt *)
Definition r_cam1 : list (list f32) := [[(f32_of_Z 0); (f32_of_Z 0); (f32_of_Z (-1)); (f32_lit (0xcccccd) (-28))]; [(f32_of_Z (-1)); (f32_of_Z 0); (f32_of_Z 0); (f32_lit (-0x8f5c29) (-26))]; [(f32_of_Z 0); (f32_of_Z (1)); (f32_of_Z 0); (f32_lit (0xf5c28f) (-29))]; [(f32_of_Z 0); (f32_of_Z 0); (f32_of_Z 0); (f32_of_Z (1))]].
Definition text (t : list (list f32)) : cfile f32 := map (fun r => Some (map TNum r)) t.
Definition cell (t : list (list f32)) (i j : nat) : f32 := nth j (nth i t []) (f32_of_Z 0).
Definition repo_file (n : fname) : option (cfile f32) :=
  match n with FFreq => Some (text r_freq) | FNoise => Some (text r_noise) | FBias => Some (text r_bias) | FGrav => Some (text r_grav)
  | FWin => Some (text r_win) | FVis => Some (text r_vis) | FKey => Some (text r_key) | FCam _ => None end.
Definition repo_dir : cdir f32 := CDir repo_file (<[0%Z := text r_cam0]> {[1%Z := text r_cam1]}).

Lemma text_complete : forall rows cols t, length t = rows -> List.Forall (fun r => length r = cols) t -> complete rows cols (text t) (cell t).
Proof.
  intros rows cols t Hl Hr. assert (D : forall t, data_lines (text t) = map (map TNum) t).
  { intros t0. unfold text. induction t0 as [|r t0 IH]; [reflexivity|]. cbn. rewrite IH. reflexivity. }
  assert (V : forall r : list f32, values (map TNum r) = r) by (intros r; induction r as [|x r IH]; [reflexivity|cbn; rewrite IH; reflexivity]).
  split; [rewrite D, map_length; exact Hl|]. intros i j Hi Hj. unfold entry, cell. rewrite D, nth_error_map.
  destruct (nth_error t i) as [r|] eqn:Er; [|apply nth_error_None in Er; lia]. cbn [option_map]. rewrite V.
  rewrite (nth_error_nth _ _ [] Er). apply nth_error_nth'. rewrite List.Forall_forall in Hr. rewrite (Hr r); [exact Hj|]. eapply nth_error_In; exact Er.
Qed.
Ltac rows := apply text_complete; [reflexivity|repeat constructor].
Lemma repo_told : told 1 1 (cd_file repo_dir FFreq) (Some (cell r_freq)) /\ told 1 4 (cd_file repo_dir FNoise) (Some (cell r_noise)) /\
  told 2 3 (cd_file repo_dir FBias) (Some (cell r_bias)) /\ told 1 1 (cd_file repo_dir FGrav) (Some (cell r_grav)) /\
  cameras repo_dir [cell r_cam0; cell r_cam1] /\
  told 1 1 (cd_file repo_dir FWin) (Some (cell r_win)) /\ told 1 1 (cd_file repo_dir FVis) (Some (cell r_vis)) /\
  told 1 3 (cd_file repo_dir FKey) (Some (cell r_key)).
Proof.
  repeat match goal with |- _ /\ _ => split end; try (cbn [cd_file repo_dir repo_file told]; rows).
  split; [|reflexivity]. intros [|[|k]] t H; cbn in H; try (injection H as <-); [| |destruct k; discriminate].
  - exists (text r_cam0). split; [reflexivity|rows].
  - exists (text r_cam1). split; [reflexivity|rows].
Qed.
(** The window size 6 and the 30 tracked features convert. *)
Lemma repo_u32 : f32_u32 (cell r_win 0 0) = Some 6%Z /\ f32_u32 (cell r_key 0 0) = Some 30%Z.
Proof. split; vm_compute; reflexivity. Qed.

(** ** Defective directories *)
Definition only (n : fname) (f : cfile f32) : cdir f32 :=
  CDir (fun k => match k, n with FFreq, FFreq | FNoise, FNoise | FBias, FBias | FGrav, FGrav | FWin, FWin | FVis, FVis | FKey, FKey => Some f | _, _ => None end) ∅.
Definition no_junk : fname -> nat -> nat -> f32 := fun _ _ _ => f32_of_Z 7.
Definition m00 : mat f32 := mzero 0 0.
Definition f32_is (z : Z) (x : f32) : bool := f32_leb x (f32_of_Z z) && f32_leb (f32_of_Z z) x.
(** An empty gravity file: the parameter becomes whatever the fresh memory contains. *)
Lemma empty_file : exists c m, read_config f32_u32 no_junk (only FGrav []) cfg0 m00 = Ok (c, m, true) /\ f32_is 7 (cf_grav c) = true.
Proof. eexists _, _. split; [reflexivity|]. vm_compute. reflexivity. Qed.
(** An empty vision noise file next to a window size of 6: the noise becomes 6. *)
Definition d_stale : cdir f32 := CDir (fun k => match k with FWin => Some (text r_win) | FVis => Some [] | _ => None end) ∅.
Lemma stale_file : forall junk, exists c m, read_config f32_u32 junk d_stale cfg0 m00 = Ok (c, m, true) /\ f32_is 6 (cf_sigma c) = true /\ cf_maxframe c = 6%Z.
Proof. intros junk. eexists _, _. split; [reflexivity|]. split; vm_compute; reflexivity. Qed.
(** A frequency that is no number: the period becomes infinite. *)
Lemma text_file : forall junk, exists c m, read_config f32_u32 junk (only FFreq [Some [TBad (f32_of_Z 0)]]) cfg0 m00 = Ok (c, m, true) /\ f32_isinf (cf_period c) = true.
Proof. intros junk. eexists _, _. split; [reflexivity|]. vm_compute. reflexivity. Qed.
(** One line too many. *)
Lemma long_file : forall junk, read_config f32_u32 junk (only FGrav [Some [TNum (f32_of_Z 9)]; Some [TNum (f32_of_Z 8)]]) cfg0 m00 = Ub UbIndex.
Proof. reflexivity. Qed.
(** A second line of blanks only, as in a file with carriage returns. *)
Lemma blank_file : forall junk, read_config f32_u32 junk (only FGrav [Some [TNum (f32_of_Z 9)]; Some []]) cfg0 m00 = Ub UbIndex.
Proof. reflexivity. Qed.
(** A negative window size. *)
Lemma negative_file : forall junk, read_config f32_u32 junk (only FWin [Some [TNum (f32_of_Z (-1))]]) cfg0 m00 = Ub UbConv.
Proof. reflexivity. Qed.
(** Reading a second directory keeps what only the first one had. *)
Lemma second_dir : forall junk, exists c1 m1 c2 m2, read_config f32_u32 junk (only FGrav [Some [TNum (f32_of_Z 3)]]) cfg0 m00 = Ok (c1, m1, true) /\
  read_config f32_u32 junk (only FWin (text r_win)) c1 m1 = Ok (c2, m2, true) /\ f32_is 3 (cf_grav c2) = true.
Proof. intros junk. eexists _, _, _, _. split; [reflexivity|]. split; [reflexivity|]. vm_compute. reflexivity. Qed.

(** ** ConfigParams on a running back end *)
Definition one_cam : config f32 := set_cams cfg0 1 [qid] [v3zero].
Definition ob0 : observe f32 := {[0%Z := V2 s0 s0]}.
Lemma recfg_stuck : exists s s', b_hist (w_c 0) w_s0 (w_ops 4) = Ok s /\ b_status s = Initialized /\
  b_hist (w_c 0) (apply_config f32_to_f64 one_cam s) (w_round w_ids ob0 4) = Ok s' /\ stuck s'.
Proof.
  destruct (chk_ex _ (fun s => is_init s && chk (fun s => negb (is_init s) && Nat.eqb (n_frames s) 1 && Nat.eqb (mr (pq_ecc (b_pq s))) 30 && Nat.eqb (mc (pq_ecc (b_pq s))) 30 &&
      Nat.eqb (length (b_ext s)) 1 && Nat.eqb (length (pq_items (b_pq s))) 1 && forallb (fun it => Nat.eqb (mc (pi_ecov it)) 30) (pq_items (b_pq s)))
    (b_hist (w_c 0) (apply_config f32_to_f64 one_cam s) (w_round w_ids ob0 4))) (b_hist (w_c 0) w_s0 (w_ops 4))) as (s & E & H); [vm_compute; reflexivity|].
  apply andb_true_iff in H as [H0 H]. apply chk_ex in H as (s' & E' & H). apply andb_true_iff in H as [H HF]. bools. exists s, s'. split; [exact E|]. split; [assumption|].
  split; [exact E'|]. split; [assumption|]. split; [lia|]. split; [intros e; rewrite e in *; discriminate|].
  exists 30. split; [|lia]. split; [assumption|]. split; [assumption|]. apply List.Forall_forall. intros it Hit. rewrite forallb_forall in HF. apply Nat.eqb_eq. exact (HF it Hit).
Qed.
(** The directory of the repository gives a fresh back end with two cameras and a window of six. *)
Lemma repo_backend : forall junk st, exists c m, read_config f32_u32 junk repo_dir cfg0 m00 = Ok (c, m, true) /\
  length (cf_q c) = length (cf_p c) /\ length (cf_q c) = 2 /\ vc_maxwin (apply_vcfg c) = 6%Z /\ fresh (apply_config f32_to_f64 c (b_blank st)).
Proof.
  intros junk st. destruct repo_told as (H1 & H2 & H3 & H4 & H5 & H6 & H7 & H8).
  destruct (read_complete f32_u32 junk repo_dir cfg0 m00 _ _ _ _ _ _ _ _ H1 H2 H3 H4 H5 eq_refl H6 H7 H8) as (c & m & E & K).
  { intros t e. injection e as <-. rewrite (proj1 repo_u32). discriminate. }
  { intros t e. injection e as <-. rewrite (proj2 repo_u32). discriminate. }
  exists c, m. split; [exact E|]. decompose [and] K. clear K.
  assert (Q : length (cf_q c) = 2) by (match goal with Hq : cf_q c = _ |- _ => rewrite Hq end; reflexivity).
  assert (P : length (cf_p c) = 2) by (match goal with Hq : cf_p c = _ |- _ => rewrite Hq end; reflexivity).
  split; [congruence|]. split; [exact Q|]. split; [|apply config_fresh; congruence].
  cbn [apply_vcfg vc_maxwin]. match goal with Hw : Some (cf_maxframe c) = _ |- _ => cbn [or_old] in Hw; rewrite (proj1 repo_u32) in Hw; injection Hw as -> end. reflexivity.
Qed.
Lemma repo_fits : List.Forall (fun p => fits (fst p) (cd_file repo_dir (snd p))) [(1, FFreq); (1, FNoise); (2, FBias); (1, FGrav); (1, FWin); (1, FVis); (1, FKey)] /\
  (forall i, i < 2 -> exists f, cd_cams repo_dir !! Z.of_nat i = Some f /\ fits 4 (Some f)) /\ cd_cams repo_dir !! Z.of_nat 2 = None /\
  (exists x, said (cd_file repo_dir FWin) 0 0 = Some x /\ f32_u32 x = Some 6%Z) /\ exists x, said (cd_file repo_dir FKey) 0 0 = Some x /\ f32_u32 x = Some 30%Z.
Proof.
  split; [|split; [|split; [reflexivity|]]].
  - repeat match goal with |- List.Forall _ [] => apply List.Forall_nil | |- List.Forall _ (_ :: _) => apply List.Forall_cons end; cbn; lia.
  - intros [|[|i]] Hi; [| |lia]; eexists; (split; [reflexivity|cbn; lia]).
  - split; eexists; (split; [reflexivity|]); apply repo_u32.
Qed.
