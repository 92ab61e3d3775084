(** Concrete histories of the back end in float arithmetic, for the examples and refutations of C30-C39. *)
From Coq Require Import ZArith Reals Lra List Bool Lia Arith.
From stdpp Require Import gmap list.
From Flocq Require Import IEEE754.BinarySingleNaN.
From Verif Require Import Fp FpFacts Scalar Base LinAlg Msg DataLoader FeatureManager FrameManager Window MathLib Attitude Propagator
  Triangulate Pnp VisionUpdate Backend LoaderSpec WindowSpec QueueSpec UpdSpec BackendSpec BiasSpec NumSpec BackBiasFacts.
Import ListNotations.
Local Open Scope nat_scope.

(** Some libm. *)
Definition lm0 : libm32 := {| lm_atan2 := fun _ _ => f32_of_Z 0; lm_log := fun x => x; lm_asin := fun x => x; lm_acos := fun x => x |}.
#[export] Instance f_ops : SOps f32 := ops_f32 lm0.
Definition num (n : Z) : f32 := f32_of_Z n.

(** External behaviour: maps in increasing order, all points at depth 4, identity decompositions, zero steps. *)
Definition w_vis : voracle f32 := VOracle map_to_list (fun o => map_to_list o)
  (fun _ i => match i with 2 => num 4 | 3 => s1 | _ => s0 end)
  (fun _ i j => if Nat.eqb i j then s1 else s0) (fun a => EigenDec (fun _ => s1) (midn (mr a))) (fun _ _ => s0) (fun i => Z.of_nat i).
Definition w_o : boracle f32 := BOracle w_vis w_vis map_to_list (fun _ _ _ => s0) (fun _ => map_to_list).
(** Two cameras, ten features seen by both. *)
Definition w_ext : extrinsic f32 := Extrinsic qid v3zero.
Definition w_ob : observe f32 := <[0%Z := V2 s0 s0]> {[1%Z := V2 s1 s0]}.
Definition w_ids : list Z := [1; 2; 3; 4; 5; 6; 7; 8; 9; 10]%Z.
Definition w_msg (ids : list Z) (ob : observe f32) (t : Z) : feat_msg f32 :=
  FeatMsg ids (map (fun _ => ob) ids) (map (fun _ => 0%Z) ids) (f64_of_Z t).
Definition w_imu (t : Z) : imu_msg f32 := ImuMsg v3zero (V3 s0 (num 10) s0) (f64_of_Z t).
(** Window of three frames, [mf] features per update. *)
Definition w_c (mf : Z) : vcfg f32 := VCfg s1 mf 3%Z 20%Z s1 (V3 s0 s0 (num 10)).
Definition w_s0 : bstate f32 := b_new (DlStatics None None) (f64_of_Z 1) [w_ext; w_ext] (V3 (num 1) s0 s0) v3zero s1 s1 s1 s1.
(** One sample, one features message and one RunOnce at time [t]. *)
Definition w_round (ids : list Z) (ob : observe f32) (t : Z) : list (b_op f32) := [BImu (w_imu t); BFeat (w_msg ids ob t); BRun w_o].
Definition w_ops (n : nat) : list (b_op f32) := flat_map (fun t => w_round w_ids w_ob (Z.of_nat t)) (seq 0 n).

(** ** Evaluation *)
Definition chk {A} (p : A -> bool) (r : out A) : bool := match r with Ok s => p s | Ub _ => false end.
Lemma chk_ex : forall (A : Type) (p : A -> bool) r, chk p r = true -> exists s, r = Ok s /\ p s = true.
Proof. intros A p [s|u] H; [exists s; auto|discriminate]. Qed.
Definition is_init (s : bstate f32) : bool := match b_status s with Initialized => true | NeedInit => false end.
Lemma is_init_true : forall s, is_init s = true -> b_status s = Initialized.
Proof. intros s. unfold is_init. destruct (b_status s); [discriminate|reflexivity]. Qed.
Lemma is_init_false : forall s, negb (is_init s) = true -> b_status s = NeedInit.
Proof. intros s. unfold is_init. destruct (b_status s); [reflexivity|discriminate]. Qed.
Definition ub_is (u : ub_reason) (r : out (bstate f32)) : bool :=
  match r, u with Ub UbNull, UbNull | Ub UbIndex, UbIndex => true | _, _ => false end.
Lemma ub_is_eq : forall u r, ub_is u r = true -> r = Ub u.
Proof. intros u [s|v] H; [discriminate|]. destruct v, u; try discriminate; reflexivity. Qed.
Ltac bools := repeat match goal with
  | H : (_ && _)%bool = true |- _ => apply andb_true_iff in H as [? ?]
  | H : Nat.eqb _ _ = true |- _ => apply Nat.eqb_eq in H
  | H : is_init _ = true |- _ => apply is_init_true in H
  | H : negb (is_init _) = true |- _ => apply is_init_false in H end.

(** ** Contracts of the histories *)
Lemma w_fresh : fresh w_s0.
Proof. repeat eexists. Qed.
Lemma w_o_ok : oracle_ok w_o.
Proof.
  assert (V : valid_order map_to_list) by (intros m; reflexivity). assert (N : valid_norder (fun o : observe f32 => map_to_list o)) by (intros m; reflexivity).
  split; [exact V|]. split; [exact N|]. split; [intros a; split; reflexivity|]. split; [exact V|]. split; [exact N|]. split; [exact V|]. intros k. exact V.
Qed.
Lemma w_sizes : forall mf, mf = 0%Z \/ mf = 1%Z -> sizes_ok (w_c mf) 2.
Proof. intros mf [->| ->]; split; [cbn; lia| |cbn; lia|]; (split; [cbn; lia|vm_compute; reflexivity]). Qed.
Lemma w_good : forall ids ob t, List.NoDup ids -> osize ob <> 0%Z -> good_msg (w_msg ids ob t).
Proof.
  intros ids ob t H1 H2. split; [cbn; rewrite map_length; reflexivity|]. split; [exact H1|]. apply List.Forall_forall. intros o Ho. cbn in Ho.
  apply in_map_iff in Ho as (x & <- & _). exact H2.
Qed.
Lemma w_known : forall ids t, cams_known 2 (w_msg ids w_ob t).
Proof.
  intros ids t. apply List.Forall_forall. intros o Ho. cbn in Ho. apply in_map_iff in Ho as (x & <- & _). intros c z H. unfold w_ob, observe in H.
  apply lookup_insert_Some in H as [[<- _]|[_ H]]; [lia|]. apply lookup_singleton_Some in H as [<- _]. lia.
Qed.
Lemma same_contiguous : forall (ms : list (feat_msg f32)) ids ob, List.Forall (fun m => fm_ids m = ids /\ fm_obs m = map (fun _ => ob) ids) ms -> contiguous ms.
Proof.
  intros ms ids ob H id a b c Hs Ha _. rewrite List.Forall_forall in H.
  assert (In' : forall x, In x [a; b; c] -> In x ms).
  { intros x Hx. apply elem_of_list_In. eapply elem_of_submseteq; [apply elem_of_list_In; exact Hx|]. apply sublist_submseteq. exact Hs. }
  destruct (H a (In' a ltac:(cbn; auto))) as [A1 A2]. destruct (H b (In' b ltac:(cbn; auto))) as [B1 B2].
  unfold reported in *. rewrite A1, A2 in Ha. rewrite B1, B2. exact Ha.
Qed.
Lemma w_ids_nodup : forall l, (if decide (NoDup l) then true else false) = true -> List.NoDup (l : list Z).
Proof. intros l H. destruct (decide (NoDup l)) as [N|]; [|discriminate]. apply NoDup_ListNoDup. exact N. Qed.
Lemma w_tracks : forall n, good_tracks 2 (pushed_feat (w_ops n)).
Proof.
  intros n. assert (E : List.Forall (fun m => exists t, m = w_msg w_ids w_ob t) (pushed_feat (w_ops n))).
  { apply List.Forall_forall. intros m Hm. unfold pushed_feat, w_ops in Hm. apply in_flat_map in Hm as (op & Hop & Hm). apply in_flat_map in Hop as (t & _ & Hop).
    cbn in Hop. destruct Hop as [<-|[<-|[<-|[]]]]; cbn in Hm; try destruct Hm as [<-|[]]; try destruct Hm. eauto. }
  split; [|split].
  - eapply List.Forall_impl; [|exact E]. intros m (t & ->). apply w_good; [apply w_ids_nodup; vm_compute; reflexivity|vm_compute; discriminate].
  - eapply List.Forall_impl; [|exact E]. intros m (t & ->). apply w_known.
  - apply (same_contiguous _ w_ids w_ob). eapply List.Forall_impl; [|exact E]. intros m (t & ->). split; reflexivity.
Qed.

(** ** C30, C31, C33: six messages, window of three *)
Lemma w_full : exists s, b_hist (w_c 0) w_s0 (w_ops 6) = Ok s /\ b_status s = Initialized /\ n_frames s = 3 /\ length (b_ext s) = 2 /\
  mr (pq_ecc (b_pq s)) = 30 /\ length (pq_items (b_pq s)) = 2.
Proof.
  destruct (chk_ex _ (fun s => is_init s && Nat.eqb (n_frames s) 3 && Nat.eqb (length (b_ext s)) 2 && Nat.eqb (mr (pq_ecc (b_pq s))) 30 && Nat.eqb (length (pq_items (b_pq s))) 2)
    (b_hist (w_c 0) w_s0 (w_ops 6))) as (s & E & H); [vm_compute; reflexivity|]. bools. exists s. auto 10.
Qed.
(** The same with one feature in the measurement. *)
Lemma w_feature : exists s, b_hist (w_c 1) w_s0 (w_ops 2) = Ok s /\ b_status s = Initialized /\ n_frames s = 2 /\ mr (pq_ecc (b_pq s)) = 24.
Proof.
  destruct (chk_ex _ (fun s => is_init s && Nat.eqb (n_frames s) 2 && Nat.eqb (mr (pq_ecc (b_pq s))) 24) (b_hist (w_c 1) w_s0 (w_ops 2))) as (s & E & H);
    [vm_compute; reflexivity|]. bools. exists s. auto.
Qed.
(** Growing from two frames to three, and staying at three. *)
Definition w_wait (n : nat) (s : bstate f32) (m : nat) : bool :=
  Nat.eqb (n_frames s) n && match next_feat s with Some _ => true | None => false end &&
  chk (fun p => is_init (fst p) && Nat.eqb (n_frames (fst p)) m) (run_once (w_c 0) w_o s).
Lemma w_wait_ex : forall n m r, chk (fun s => w_wait n s m) r = true ->
  exists s s' b f, r = Ok s /\ n_frames s = n /\ next_feat s = Some f /\ run_once (w_c 0) w_o s = Ok (s', b) /\ b_status s' = Initialized /\ n_frames s' = m.
Proof.
  intros n m r H. apply chk_ex in H as (s & E & H). unfold w_wait in H. bools. destruct (next_feat s) as [f|] eqn:Ef; [|discriminate].
  apply chk_ex in H0 as ([s' b] & E' & H0). cbn [fst] in H0. bools. exists s, s', b, f. auto 10.
Qed.
Definition w_push (t : Z) : list (b_op f32) := [BImu (w_imu t); BFeat (w_msg w_ids w_ob t)].
Lemma w_grow : exists s s' b f, b_hist (w_c 0) w_s0 (w_ops 2 ++ w_push 2) = Ok s /\ n_frames s = 2 /\ next_feat s = Some f /\
  run_once (w_c 0) w_o s = Ok (s', b) /\ b_status s' = Initialized /\ n_frames s' = 3.
Proof. apply w_wait_ex. vm_compute. reflexivity. Qed.
Lemma w_stay : exists s s' b f, b_hist (w_c 0) w_s0 (w_ops 3 ++ w_push 3) = Ok s /\ n_frames s = 3 /\ next_feat s = Some f /\
  run_once (w_c 0) w_o s = Ok (s', b) /\ b_status s' = Initialized /\ n_frames s' = 3.
Proof. apply w_wait_ex. vm_compute. reflexivity. Qed.

(** ** C32: malformed tracks *)
Ltac msgs := repeat match goal with |- List.Forall _ [] => apply List.Forall_nil | |- List.Forall _ (_ :: _) => apply List.Forall_cons end.
Definition ob_bad : observe f32 := <[5%Z := V2 s0 s0]> {[0%Z := V2 s1 s0]}.
Definition h_camera : list (b_op f32) := w_round w_ids ob_bad 0 ++ w_round w_ids ob_bad 1.
Lemma camera_bad : List.Forall good_msg (pushed_feat h_camera) /\ contiguous (pushed_feat h_camera) /\ b_hist (w_c 0) w_s0 h_camera = Ub UbIndex.
Proof.
  split; [|split].
  - cbn. msgs; apply w_good; try (apply w_ids_nodup; vm_compute; reflexivity); vm_compute; discriminate.
  - apply (same_contiguous _ w_ids ob_bad). cbn. msgs; split; reflexivity.
  - apply ub_is_eq. vm_compute. reflexivity.
Qed.
Definition d_ids : list Z := w_ids ++ [1%Z].
Definition h_dup : list (b_op f32) := w_round w_ids w_ob 0 ++ w_round d_ids w_ob 1.
Lemma dup_bad : List.Forall (cams_known 2) (pushed_feat h_dup) /\ contiguous (pushed_feat h_dup) /\ b_hist (w_c 0) w_s0 h_dup = Ub UbNull.
Proof.
  split; [|split].
  - cbn. msgs; apply w_known.
  - intros id a b c Hs. cbn in Hs. apply sublist_length in Hs. cbn in Hs. lia.
  - apply ub_is_eq. vm_compute. reflexivity.
Qed.
(** Feature 11 is seen in the first and third message but not in the second; the third message comes too late for the
    samples, the update fails and the window shrinks to the third frame, which still refers to the feature. *)
Definition g_ids : list Z := 11%Z :: w_ids.
Definition h_gap : list (b_op f32) := w_round g_ids w_ob 0 ++ w_round w_ids w_ob 1 ++
  [BFeat (w_msg g_ids w_ob 50); BRun w_o; BImu (w_imu 50); BRun w_o; BImu (w_imu 51); BRun w_o; BFeat (w_msg g_ids w_ob 51); BRun w_o].
Lemma gap_bad : List.Forall good_msg (pushed_feat h_gap) /\ List.Forall (cams_known 2) (pushed_feat h_gap) /\ b_hist (w_c 0) w_s0 h_gap = Ub UbIndex.
Proof.
  split; [|split].
  - cbn. msgs; apply w_good; try (apply w_ids_nodup; vm_compute; reflexivity); vm_compute; discriminate.
  - cbn. msgs; apply w_known.
  - apply ub_is_eq. vm_compute. reflexivity.
Qed.

(** ** C34: Reset with a full window *)
Definition h_reset : list (b_op f32) := w_ops 4 ++ [BReset] ++ w_round w_ids w_ob 4.
Definition w_later : list (b_op f32) := w_round w_ids w_ob 5 ++ w_round w_ids w_ob 6 ++ w_round w_ids w_ob 7.
Lemma reset_stuck : exists s, b_hist (w_c 0) w_s0 h_reset = Ok s /\ stuck s.
Proof.
  destruct (chk_ex _ (fun s => negb (is_init s) && Nat.eqb (n_frames s) 1 && Nat.eqb (mr (pq_ecc (b_pq s))) 30 && Nat.eqb (mc (pq_ecc (b_pq s))) 30 &&
      Nat.eqb (length (b_ext s)) 2 && Nat.eqb (length (pq_items (b_pq s))) 2 && forallb (fun it => Nat.eqb (mc (pi_ecov it)) 30) (pq_items (b_pq s)))
    (b_hist (w_c 0) w_s0 h_reset)) as (s & E & H); [vm_compute; reflexivity|].
  apply andb_true_iff in H as [H HF]. bools. exists s. split; [exact E|]. split; [assumption|]. split; [lia|]. split; [intros e; rewrite e in *; discriminate|].
  exists 30. split; [|lia]. split; [assumption|]. split; [assumption|]. apply List.Forall_forall. intros it Hit. rewrite forallb_forall in HF. apply Nat.eqb_eq. exact (HF it Hit).
Qed.
(** The hypothesis of the theorem holds for the continuation. *)
Fixpoint all_prefixes (p : bstate f32 -> bool) (c : vcfg f32) (s : bstate f32) (ops : list (b_op f32)) : bool :=
  p s && match ops with [] => true | op :: r => match b_step c s op with Ok s' => all_prefixes p c s' r | Ub _ => true end end.
Lemma all_prefixes_spec : forall p c ops s, all_prefixes p c s ops = true -> forall ops1 ops2 s1, ops = ops1 ++ ops2 -> b_hist c s ops1 = Ok s1 -> p s1 = true.
Proof.
  intros p c ops. induction ops as [|op r IH]; intros s H ops1 ops2 s1 E H1; cbn [all_prefixes] in H; apply andb_true_iff in H as [Hp H].
  - symmetry in E. apply app_eq_nil in E as [-> _]. injection H1 as <-. exact Hp.
  - destruct ops1 as [|op1 r1]; [injection H1 as <-; exact Hp|]. injection E as <- E. cbn [b_hist] in H1. destruct (b_step c s op) as [s2|]; [|discriminate].
    cbn [obind] in H1. eapply IH; eassumption.
Qed.
Lemma b_hist_app : forall (c : vcfg f32) a b s, b_hist c s (a ++ b) = let! s' := b_hist c s a in b_hist c s' b.
Proof. intros c a b. induction a as [|op a IH]; intros s; [reflexivity|]. cbn [app b_hist]. destruct (b_step c s op); [apply IH|reflexivity]. Qed.
Lemma reset_later : exists s s', b_hist (w_c 0) w_s0 h_reset = Ok s /\ b_hist (w_c 0) s w_later = Ok s' /\ length (pq_items (b_pq s')) = 4 /\
  (forall ops1 ops2 s1, w_later = ops1 ++ ops2 -> b_hist (w_c 0) s ops1 = Ok s1 -> pq_items (b_pq s1) <> []).
Proof.
  destruct (chk_ex _ (fun s => all_prefixes (fun x => Nat.ltb 0 (length (pq_items (b_pq x)))) (w_c 0) s w_later &&
      chk (fun s' => Nat.eqb (length (pq_items (b_pq s'))) 4) (b_hist (w_c 0) s w_later)) (b_hist (w_c 0) w_s0 h_reset)) as (s & E & H); [vm_compute; reflexivity|].
  apply andb_true_iff in H as [H1 H2]. apply chk_ex in H2 as (s' & E' & H2). bools. exists s, s'. split; [exact E|]. split; [exact E'|]. split; [exact H2|].
  intros o1 o2 s1 Eo Hs1 e. pose proof (all_prefixes_spec _ _ _ _ H1 o1 o2 s1 Eo Hs1) as Hl. cbn beta in Hl. rewrite e in Hl. discriminate.
Qed.

(** ** C35: initialization with an empty and with a stale queue *)
Definition at_init (ops : list (b_op f32)) (m : feat_msg f32) : out (bstate f32) :=
  let! s := b_hist (w_c 0) w_s0 ops in let! w := update_window (b_win s) m in Ok (with_win s w).
Lemma init_first : exists s s', at_init (w_ops 1 ++ [BImu (w_imu 1); BRun w_o]) (w_msg w_ids w_ob 2) = Ok s /\
  initialize (w_c 0) w_o s = Ok (s', true) /\ pq_items (b_pq s) = [].
Proof.
  destruct (chk_ex _ (fun s => chk (fun p => snd p) (initialize (w_c 0) w_o s) && match pq_items (b_pq s) with [] => true | _ => false end)
    (at_init (w_ops 1 ++ [BImu (w_imu 1); BRun w_o]) (w_msg w_ids w_ob 2))) as (s & E & H); [vm_compute; reflexivity|].
  apply andb_true_iff in H as [H1 H2]. apply chk_ex in H1 as ([s' b] & E' & H1). cbn in H1. subst b. exists s, s'. split; [exact E|]. split; [exact E'|].
  destruct (pq_items (b_pq s)); [reflexivity|discriminate].
Qed.
Lemma init_stale : exists s s', at_init (h_reset ++ [BImu (w_imu 5); BRun w_o]) (w_msg w_ids w_ob 6) = Ok s /\
  initialize (w_c 0) w_o s = Ok (s', true) /\ length (pq_items (b_pq s)) = 2.
Proof.
  destruct (chk_ex _ (fun s => chk (fun p => snd p) (initialize (w_c 0) w_o s) && Nat.eqb (length (pq_items (b_pq s))) 2)
    (at_init (h_reset ++ [BImu (w_imu 5); BRun w_o]) (w_msg w_ids w_ob 6))) as (s & E & H); [vm_compute; reflexivity|].
  apply andb_true_iff in H as [H1 H2]. apply chk_ex in H1 as ([s' b] & E' & H1). cbn in H1. subst b. bools. exists s, s'. auto.
Qed.

(** ** C36: failures reported as success *)
Lemma silent_init : exists s s' o, b_hist (w_c 0) w_s0 [BFeat (w_msg w_ids w_ob 0)] = Ok s /\ run_once (w_c 0) o s = Ok (s', true) /\
  b_status s' = NeedInit /\ n_frames s' = 1.
Proof.
  destruct (chk_ex _ (fun s => chk (fun p => snd p && negb (is_init (fst p)) && Nat.eqb (n_frames (fst p)) 1) (run_once (w_c 0) w_o s))
    (b_hist (w_c 0) w_s0 [BFeat (w_msg w_ids w_ob 0)])) as (s & E & H); [vm_compute; reflexivity|].
  apply chk_ex in H as ([s' b] & E' & H). cbn [fst snd] in H. bools. subst b. exists s, s', w_o. auto.
Qed.
Lemma silent_update : exists s s' o, b_hist (w_c 0) w_s0 (w_ops 3 ++ [BFeat (w_msg w_ids w_ob 50)]) = Ok s /\ b_status s = Initialized /\
  run_once (w_c 0) o s = Ok (s', true) /\ b_status s' = NeedInit /\ n_frames s' = 1.
Proof.
  destruct (chk_ex _ (fun s => is_init s && chk (fun p => snd p && negb (is_init (fst p)) && Nat.eqb (n_frames (fst p)) 1) (run_once (w_c 0) w_o s))
    (b_hist (w_c 0) w_s0 (w_ops 3 ++ [BFeat (w_msg w_ids w_ob 50)]))) as (s & E & H); [vm_compute; reflexivity|].
  apply andb_true_iff in H as [H0 H]. apply chk_ex in H as ([s' b] & E' & H). cbn [fst snd] in H. bools. subst b. exists s, s', w_o. auto 10.
Qed.

(** ** C37, C38: published states *)
Definition f64_is (z : Z) (x : f64) : bool := f64_leb x (f64_of_Z z) && f64_leb (f64_of_Z z) x.
Lemma w_times : exists s1 s2 m1 m2 ba1 ba2 bg1 bg2 t1 t2, b_hist (w_c 0) w_s0 (w_ops 3) = Ok s1 /\ b_hist (w_c 0) s1 ([BReset] ++ w_later) = Ok s2 /\
  b_publish_newest s1 = Some (m1, ba1, bg1, t1) /\ b_publish_newest s2 = Some (m2, ba2, bg2, t2) /\ f64_is 3 t1 = true /\ f64_is 8 t2 = true /\
  time_sorted (map im_ts (pushed_imu (w_ops 3 ++ [BReset] ++ w_later))).
Proof.
  destruct (chk_ex _ (fun s1 => match b_publish_newest s1 with Some (_, _, _, t1) => f64_is 3 t1 | None => false end &&
      chk (fun s2 => match b_publish_newest s2 with Some (_, _, _, t2) => f64_is 8 t2 | None => false end) (b_hist (w_c 0) s1 ([BReset] ++ w_later)))
    (b_hist (w_c 0) w_s0 (w_ops 3))) as (s1 & E & H); [vm_compute; reflexivity|].
  apply andb_true_iff in H as [H1 H]. apply chk_ex in H as (s2 & E2 & H2).
  destruct (b_publish_newest s1) as [[[[m1 ba1] bg1] t1]|] eqn:P1; [|discriminate]. destruct (b_publish_newest s2) as [[[[m2 ba2] bg2] t2]|] eqn:P2; [|discriminate].
  exists s1, s2, m1, m2, ba1, ba2, bg1, bg2, t1, t2. rewrite P1, P2. repeat (split; [assumption || reflexivity|]).
  cbn. repeat match goal with |- _ /\ _ => split | |- True => exact I | |- _ = false => vm_compute; reflexivity
    | |- forall y, _ => intros y Hy; repeat (destruct Hy as [<-|Hy]; [vm_compute; reflexivity|]); destruct Hy end.
Qed.

(** ** C39: biases *)
(** Every accelerometer reading pushed is (0, 10, 0); the configured bias is (1, 0, 0). *)
Definition h_again : list (b_op f32) := w_ops 4 ++ [BReset] ++ w_round w_ids w_ob 4 ++ w_round w_ids w_ob 5 ++ w_round w_ids w_ob 6.
Lemma twice : exists s it, b_hist (w_c 0) w_s0 h_again = Ok s /\ In it (pq_items (b_pq s)) /\ f32_leb (v3x (pi_a it)) (f32_of_Z (-1)) = true /\
  List.Forall (fun m => im_accel m <> pi_a it) (pushed_imu h_again).
Proof.
  destruct (chk_ex _ (fun s => match pq_items (b_pq s) with it :: _ => f32_leb (v3x (pi_a it)) (f32_of_Z (-1)) | [] => false end)
    (b_hist (w_c 0) w_s0 h_again)) as (s & E & H); [vm_compute; reflexivity|].
  destruct (pq_items (b_pq s)) as [|it r] eqn:Ei; [discriminate|]. exists s, it. split; [exact E|]. split; [rewrite Ei; left; reflexivity|]. split; [exact H|].
  assert (X : List.Forall (fun m => v3x (im_accel m) = B754_zero false) (pushed_imu h_again)) by (cbn; msgs; reflexivity).
  eapply List.Forall_impl; [|exact X]. intros m Hm e. assert (Hx : v3x (pi_a it) = B754_zero false) by (rewrite <- e; exact Hm). rewrite Hx in H. vm_compute in H. discriminate.
Qed.
(** Without the Reset the queue holds the readings as they were pushed, with the bias still to be removed. *)
(** The status along a history: once Initialized, it stays so. *)
Fixpoint steady (c : vcfg f32) (s : bstate f32) (ops : list (b_op f32)) : bool :=
  if is_init s then all_prefixes is_init c s ops
  else match ops with [] => true | op :: r => match b_step c s op with Ok s' => steady c s' r | Ub _ => true end end.
Lemma steady_stays : forall c ops s0, steady c s0 ops = true -> stays_initialized c s0 ops.
Proof.
  intros c ops. induction ops as [|op r IH]; intros s0 H o1 o2 o3 s1 s2 E H1 I1 H2.
  - symmetry in E. apply app_eq_nil in E as [-> E]. apply app_eq_nil in E as [-> _]. injection H1 as <-. injection H2 as <-. exact I1.
  - cbn [steady] in H. destruct (is_init s0) eqn:Es.
    + apply is_init_true. eapply all_prefixes_spec; [exact H|rewrite app_assoc in E; exact E|]. rewrite b_hist_app, H1. exact H2.
    + destruct o1 as [|op1 r1].
      * injection H1 as <-. unfold is_init in Es. rewrite I1 in Es. discriminate.
      * injection E as <- E. cbn [b_hist] in H1. destruct (b_step c s0 op) as [s'|] eqn:Eb; [|discriminate]. cbn [obind] in H1.
        exact (IH s' H r1 o2 o3 s1 s2 E H1 I1 H2).
Qed.
Lemma once : exists s, b_hist (w_c 0) w_s0 (w_ops 4) = Ok s /\ stays_initialized (w_c 0) w_s0 (w_ops 4) /\ length (pq_items (b_pq s)) = 2.
Proof.
  destruct (chk_ex _ (fun s => Nat.eqb (length (pq_items (b_pq s))) 2) (b_hist (w_c 0) w_s0 (w_ops 4))) as (s & E & H); [vm_compute; reflexivity|].
  bools. exists s. split; [exact E|]. split; [|exact H]. apply steady_stays. vm_compute. reflexivity.
Qed.

(** ** C34: recovery is possible *)
(** A failed update empties the queue (the samples before the message are dropped) ... *)
Definition h_fail : list (b_op f32) := w_ops 3 ++ [BFeat (w_msg w_ids w_ob 50); BRun w_o].
Definition w_resume : list (b_op f32) :=
  [BImu (w_imu 50); BRun w_o; BFeat (w_msg w_ids w_ob 51); BImu (w_imu 51); BRun w_o; BImu (w_imu 52); BRun w_o; BFeat (w_msg w_ids w_ob 52); BRun w_o;
   BImu (w_imu 53); BFeat (w_msg w_ids w_ob 53); BRun w_o].
Lemma fail_resume : exists s s', b_hist (w_c 0) w_s0 h_fail = Ok s /\ b_status s = NeedInit /\ pq_items (b_pq s) = [] /\
  b_hist (w_c 0) s w_resume = Ok s' /\ b_status s' = Initialized /\ n_frames s' = 3.
Proof.
  destruct (chk_ex _ (fun s => negb (is_init s) && Nat.eqb (length (pq_items (b_pq s))) 0 && chk (fun s' => is_init s' && Nat.eqb (n_frames s') 3) (b_hist (w_c 0) s w_resume))
    (b_hist (w_c 0) w_s0 h_fail)) as (s & E & H); [vm_compute; reflexivity|].
  apply andb_true_iff in H as [H H2]. apply chk_ex in H2 as (s' & E' & H2). bools. exists s, s'. repeat (split; [assumption|]).
  split; [destruct (pq_items (b_pq s)); [reflexivity|discriminate]|]. auto.
Qed.
(** ... and after a Reset with two frames the sizes happen to fit, so the back end goes on with the stale queue. *)
Definition h_lucky : list (b_op f32) := w_ops 2 ++ [BReset] ++ w_round w_ids w_ob 2 ++ w_round w_ids w_ob 3 ++ w_round w_ids w_ob 4.
Lemma reset_lucky : exists s, b_hist (w_c 0) w_s0 h_lucky = Ok s /\ b_status s = Initialized /\ n_frames s = 3.
Proof.
  destruct (chk_ex _ (fun s => is_init s && Nat.eqb (n_frames s) 3) (b_hist (w_c 0) w_s0 h_lucky)) as (s & E & H); [vm_compute; reflexivity|].
  bools. exists s. auto.
Qed.

(** ** C39: one step over the reals *)
(** At rest, both readings equal to the bias (1, 0, 0), no gravity. *)
Definition k_bias : v3 R := V3 1%R 0%R 0%R.
Definition k_item : pitem R := PItem (Motion v3zero v3zero qid) (midn 15) (Mat 15 12 (fun _ _ => 0%R)) k_bias v3zero (f64_of_Z 0).
Definition k_pq : pqueue R := PQueue [k_item] (midn 12) k_bias v3zero (Motion v3zero v3zero qid) F_reset G_reset (noise_Q 1%R 1%R 1%R 1%R).
Lemma k_rest : pq_items k_pq = [] ++ [k_item] /\ exists it1, pq_items (pq_propagate v3zero 2 k_pq k_bias v3zero (f64_of_Z 1)) = [k_item; it1] /\
  mo_v (pi_mo it1) = V3 0%R 0%R 0%R.
Proof.
  split; [reflexivity|]. destruct (integrates_corrected v3zero 2 k_pq [] k_item k_bias v3zero (f64_of_Z 1) eq_refl) as (it1 & E & _ & _ & _ & M).
  exists it1. split; [exact E|]. rewrite M. unfold trapezoid. cbv zeta. cbn [mo_v]. set (q1 := qnormalize _). set (dt := real_step _ _).
  replace (without (pq_ba k_pq) k_bias) with (V3 0%R 0%R 0%R) by (unfold without; cbn; f_equal; lra).
  replace (without (pq_ba k_pq) (pi_a k_item)) with (V3 0%R 0%R 0%R) by (unfold without; cbn; f_equal; lra).
  destruct q1 as [w x y z]. unfold mean, qrot, qvec, v3cross, v3add, v3scale, v3zero. cbn. f_equal; lra.
Qed.
