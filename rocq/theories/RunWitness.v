(** An exact eigen-solver and histories in exact arithmetic, for the examples of C76 and C77. *)
From Coq Require Import ZArith Reals Lra List Bool Lia Arith.
From stdpp Require Import gmap list.
From Verif Require Import Fp Scalar Base LinAlg Msg DataLoader FeatureManager FrameManager Window MathLib Attitude Propagator
  Triangulate Pnp VisionUpdate Backend LoaderSpec WindowSpec QueueSpec UpdSpec BackendSpec MatFacts NumSpec QuatFacts BackLenFacts BackSafeFacts JacobiFacts RunSpec.
Import ListNotations.
Local Open Scope nat_scope.

(** ** The solver: the symmetric part is decomposed *)
Definition sym_part (a : fmat) : fmat := fun i j => ((a i j + a j i) / 2)%R.
Lemma sym_part_sym : forall n a, fsym n (sym_part a).
Proof. intros n a. split. intros i j _ _. unfold ftr, sym_part. lra. Qed.
Definition r_saes (a : mat R) : eigen_dec R :=
  let x := spectral (mr a) (sym_part (me a)) (sym_part_sym (mr a) (me a)) in EigenDec (proj1_sig (projT2 x)) (Mat (mr a) (mr a) (projT1 x)).
Lemma r_exact : exact_solver r_saes.
Proof.
  intros a Hs Ha. split; [reflexivity|]. split; [reflexivity|]. unfold r_saes. cbn [ed_val ed_vec me].
  destruct (spectral _ _ _) as (v & d & O & E). cbn [projT1 projT2 proj1_sig]. split; [exact O|]. rewrite <- E. split. intros i j Hi Hj.
  pose proof (feq_at Ha i j Hi Hj) as Q. unfold ftr in Q. unfold sym_part. lra.
Qed.

(** ** Histories: maps in increasing order, points at depth 4, zero pose steps, exact eigen-decompositions *)
Definition r_vis : voracle R := VOracle map_to_list (fun o => map_to_list o)
  (fun _ i => match i with 2 => 4%R | 3 => 1%R | _ => 0%R end)
  (fun _ i j => if Nat.eqb i j then 1%R else 0%R) r_saes (fun _ _ => 0%R) (fun i => Z.of_nat i).
Definition r_o : boracle R := BOracle r_vis r_vis map_to_list (fun _ _ _ => 0%R) (fun _ => map_to_list).
Definition r_ext : extrinsic R := Extrinsic (Quat 0%R 1%R 0%R 0%R) v3zero.
Definition r_ob : observe R := <[0%Z := V2 0%R 0%R]> {[1%Z := V2 1%R 0%R]}.
Definition r_ids : list Z := [1; 2; 3; 4; 5; 6; 7; 8; 9; 10]%Z.
Definition r_msg (t : Z) : feat_msg R := FeatMsg r_ids (map (fun _ => r_ob) r_ids) (map (fun _ => 0%Z) r_ids) (f64_of_Z t).
Definition r_imu (t : Z) : imu_msg R := ImuMsg v3zero (V3 0%R 10%R 0%R) (f64_of_Z t).
Definition r_c : vcfg R := VCfg 1%R 1%Z 3%Z 20%Z 1%R (V3 0%R 0%R 10%R).
Definition r_s0 : bstate R := b_new (DlStatics None None) (f64_of_Z 1) [r_ext; r_ext] (V3 1%R 0%R 0%R) v3zero 1%R 1%R 1%R 1%R.
Definition r_round (t : Z) : list (b_op R) := [BImu (r_imu t); BFeat (r_msg t); BRun r_o].
Definition r_ops (n : nat) : list (b_op R) := flat_map (fun t => r_round (Z.of_nat t)) (seq 0 n).

Lemma r_fresh : BackendSpec.fresh r_s0.
Proof. repeat eexists. Qed.
Lemma r_o_ok : oracle_ok r_o.
Proof.
  assert (V : valid_order map_to_list) by (intros m; reflexivity). assert (N : valid_norder (fun o : observe R => map_to_list o)) by (intros m; reflexivity).
  split; [exact V|]. split; [exact N|]. split; [intros a; split; reflexivity|]. split; [exact V|]. split; [exact N|]. split; [exact V|]. intros k. exact V.
Qed.
Lemma r_sizes : sizes_ok r_c 2.
Proof. split; [cbn; lia|]. split; [cbn; lia|]. vm_compute. reflexivity. Qed.
Lemma r_pushed : forall n, List.Forall (fun m => exists t, m = r_msg t) (pushed_feat (r_ops n)) /\ length (pushed_feat (r_ops n)) = n /\ List.Forall (fun o => o = r_o) (oracles (r_ops n)).
Proof.
  intros n. unfold r_ops. generalize 0 as k. induction n as [|n IH]; intros k; [repeat split; constructor|]. destruct (IH (Datatypes.S k)) as (H1 & H2 & H3).
  cbn [seq flat_map]. unfold pushed_feat, oracles in *. rewrite 2 flat_map_app. cbn [r_round flat_map app]. split; [constructor; [eauto|exact H1]|].
  split; [cbn [length]; rewrite H2; reflexivity|constructor; [reflexivity|exact H3]].
Qed.
Lemma r_good : forall t, good_msg (r_msg t) /\ cams_known 2 (r_msg t).
Proof.
  intros t. split.
  - split; [cbn; reflexivity|]. split; [repeat constructor; cbn; lia|]. apply List.Forall_forall. intros o Ho. cbn [r_msg fm_obs] in Ho.
    apply in_map_iff in Ho as (x & <- & _). unfold osize, r_ob, observe. rewrite map_size_insert_None by (apply lookup_singleton_ne; lia). rewrite map_size_singleton. discriminate.
  - apply List.Forall_forall. intros o Ho. cbn [r_msg fm_obs] in Ho. apply in_map_iff in Ho as (x & <- & _). intros c z H. unfold r_ob, observe in H.
    apply lookup_insert_Some in H as [[<- _]|[_ H]]; [lia|]. apply lookup_singleton_Some in H as [<- _]. lia.
Qed.
Lemma r_tracks : forall n, good_tracks 2 (pushed_feat (r_ops n)).
Proof.
  intros n. destruct (r_pushed n) as (E & _ & _). split; [|split].
  - eapply List.Forall_impl; [|exact E]. intros m (t & ->). apply r_good.
  - eapply List.Forall_impl; [|exact E]. intros m (t & ->). apply r_good.
  - intros id a b c Hs Ha _. rewrite List.Forall_forall in E.
    assert (In' : forall x, In x [a; b; c] -> In x (pushed_feat (r_ops n))).
    { intros x Hx. apply elem_of_list_In. eapply elem_of_submseteq; [apply elem_of_list_In; exact Hx|]. apply sublist_submseteq. exact Hs. }
    destruct (E a (In' a ltac:(cbn; auto))) as [ta ->]. destruct (E b (In' b ltac:(cbn; auto))) as [tb ->]. exact Ha.
Qed.
(** Any number of rounds runs through. *)
Lemma r_runs : forall n, (Z.of_nat n < 4294967294)%Z -> BackendSpec.fresh r_s0 /\ List.Forall (fun e => qnorm2 (ex_q e) = 1%R) (b_ext r_s0) /\
  List.Forall (fun o => exact_solver (vo_saes (bo_vis o))) (oracles (r_ops n)) /\ exists s, b_hist r_c r_s0 (r_ops n) = Ok s.
Proof.
  intros n Hn. destruct (r_pushed n) as (_ & L & O). split; [exact r_fresh|]. split.
  { assert (Q : qnorm2 (Quat 0%R 1%R 0%R 0%R) = 1%R) by (unfold qnorm2; cbn; lra). constructor; [exact Q|constructor; [exact Q|constructor]]. }
  split; [eapply List.Forall_impl; [|exact O]; intros o ->; exact r_exact|].
  apply backend_safe; [exact r_fresh|exact (r_tracks n)| |exact r_sizes|rewrite L; exact Hn]. eapply List.Forall_impl; [|exact O]. intros o ->. exact r_o_ok.
Qed.
(** The first round makes a frame. *)
Lemma r_frame : exists s, b_hist r_c r_s0 (r_ops 1) = Ok s /\ 1 <= n_frames s.
Proof.
  destruct (r_runs 1 ltac:(lia)) as (_ & _ & _ & s & E). exists s. split; [exact E|].
  cbn [r_ops seq flat_map r_round app b_hist b_step obind] in E. apply obind_ok in E as (s2 & E2 & E). injection E as <-. apply obind_ok in E2 as ([s3 r] & E3 & E). injection E as <-.
  set (s1 := fst (b_feat (fst (b_imu r_s0 (r_imu (Z.of_nat 0)))) (r_msg (Z.of_nat 0)))) in *.
  assert (St : b_status s1 = NeedInit /\ n_frames s1 = 0 /\ match next_feat s1 with Some _ => true | None => false end = true) by (split; [reflexivity|]; split; [reflexivity|]; vm_compute; reflexivity).
  destruct St as (S1 & S2 & S3). assert (W : win_ok r_c s1) by (split; [rewrite S2; lia|rewrite S1; discriminate]).
  pose proof (run_once_win r_c r_o s1 s3 r ltac:(cbn; lia) W E3) as [_ H]. destruct (next_feat s1); [|discriminate]. destruct H as [H1 _].
  exact H1.
Qed.
