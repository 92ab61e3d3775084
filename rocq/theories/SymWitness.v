(** Concrete histories for C103. *)
From Coq Require Import ZArith List Bool Lia.
From stdpp Require Import gmap list.
From Flocq Require Import IEEE754.BinarySingleNaN.
From Verif Require Import Fp FpFacts Scalar Base LinAlg Msg DataLoader FeatureManager FrameManager Window MathLib Attitude Propagator
  Triangulate Pnp VisionUpdate Backend LoaderSpec WindowSpec QueueSpec UpdSpec BackendSpec NanImageSpec BackWitness NanWitness NanImageWitness SymSpec.
Import ListNotations.
Local Open Scope nat_scope.

(** ** A Kalman update whose unsymmetrized covariance is not symmetric *)
Definition sy_P : mat f32 := Mat 2 2 (fun i j => match i, j with 0, 0 => num 3 | 1, 1 => num 7 | 0, 1 => num 1 | _, _ => num 2 end).
Definition sy_H : mat f32 := Mat 1 3 (fun _ j => match j with 0 => num 1 | 1 => num 3 | _ => num 1 end).
Definition sy_saes (a : mat f32) : eigen_dec f32 := EigenDec (fun _ => me a 0 0) (midn (mr a)).
Lemma sy_kalman : exists K dx P', kalman sy_saes s1 sy_P sy_H = Ok (K, dx, P') /\ f32_ltb (me P' 0 1) s0 = true /\ me sy_P 0 1 <> me sy_P 1 0.
Proof.
  destruct (chk_ex _ (fun r => f32_ltb (me (snd r) 0 1) s0) (kalman sy_saes s1 sy_P sy_H)) as ([[K dx] P'] & E & H); [vm_compute; reflexivity|]. exists K, dx, P'. split; [exact E|]. split; [exact H|].
  intros HE. apply (f_equal B2SF) in HE. vm_compute in HE. discriminate HE.
Qed.
(** ** An update of a run *)
Definition somefb (o : voracle f32) (c : vcfg f32) (s : vstate f32) (ts thr : f64) : bool :=
  let '(q, found) := pq_reset_origin (vs_pq s) ts thr in
  found && chk (fun r => match r with Some fs => chk (fun hl => match snd hl with _ :: _ => true | [] => false end) (select_good o c (vs_ext s) fs (wn_heap (vs_win s))) | None => false end)
    (update_newest (wn_frames (vs_win s)) q).
Lemma somefb_ex : forall o c s ts thr, somefb o c s ts thr = true -> some_feature lm0 o c s ts thr.
Proof.
  intros o c s ts thr H. unfold somefb in H. destruct (pq_reset_origin (vs_pq s) ts thr) as [q found] eqn:E1. apply andb_true_iff in H as [-> H]. apply chk_ex in H as (r & E2 & H). destruct r as [fs|]; [|discriminate H].
  apply chk_ex in H as ([h l] & E3 & H). cbn [snd] in H. destruct l as [|p l]; [discriminate H|]. exists q, fs, h, p, l. auto.
Qed.
Lemma sy_update : exists v ts thr s' pol, vision_update (bo_vis w_o) (w_c 1) v ts thr = Ok (s', true, pol) /\ some_feature lm0 (bo_vis w_o) (w_c 1) v ts thr.
Proof.
  destruct (chk_ex _ (fun s => imageb (w_c 1) w_o s (fun m v thr => somefb (bo_vis w_o) (w_c 1) v (fm_ts m) thr)) (b_hist (w_c 1) w_s0 ni_fine)) as (s & _ & H); [vm_compute; reflexivity|].
  apply imageb_ex in H as (m & v & thr & (s1 & r & w & s2 & v' & pol & _ & _ & _ & _ & _ & _ & _ & E) & H). apply somefb_ex in H. exists v, (fm_ts m), thr, v', pol. auto.
Qed.
(** ** A propagated covariance that is not symmetric *)
Definition sy_s0 : bstate f32 := b_new (DlStatics None None) (f64_of_Z 1) [w_ext; w_ext] (V3 (num 1) s0 s0) v3zero (sdiv s1 (num 3)) s1 s1 s1.
Definition sy_round (t : Z) : list (b_op f32) := [BImu (w_imu (7 * t)); BFeat (w_msg w_ids w_ob (7 * t)); BRun w_o].
Definition sy_ops : list (b_op f32) := sy_round 0 ++ sy_round 1 ++ [BImu (w_imu 21); BRun w_o].
Lemma sy_skew : exists (lm : libm32) c (b0 s : bstate f32) ops it, fresh (S := ops_f32 lm) b0 /\ b_hist (S := ops_f32 lm) c b0 ops = Ok s /\ b_status s = Initialized /\
  back (pq_items (b_pq s)) = Ok it /\ f32_ltb (me (pi_cov it) 0 3) (me (pi_cov it) 3 0) = true /\ ~ sym15 (pi_cov it).
Proof.
  exists lm0, (w_c 0), sy_s0.
  destruct (chk_ex _ (fun s => is_init s && chk (fun it => f32_ltb (me (pi_cov it) 0 3) (me (pi_cov it) 3 0)) (back (pq_items (b_pq s)))) (b_hist (w_c 0) sy_s0 sy_ops)) as (s & E & H); [vm_compute; reflexivity|].
  apply andb_true_iff in H as [H1 H2]. apply is_init_true in H1. apply chk_ex in H2 as (it & E2 & H2). exists s, sy_ops, it. split; [repeat eexists|]. split; [exact E|]. split; [exact H1|]. split; [exact E2|]. split; [exact H2|].
  intros Hs. rewrite (Hs 0 3) in H2 by lia. destruct (me (pi_cov it) 3 0) as [s'|s'| |s' m e B]; try discriminate H2; unfold f32_ltb in H2; [destruct s'; discriminate H2|].
  revert H2. unfold Bltb, SpecFloat.SFltb, SpecFloat.SFcompare. cbn [B2SF]. destruct s'; rewrite ?Z.compare_refl, ?Pos.compare_cont_refl; discriminate.
Qed.
