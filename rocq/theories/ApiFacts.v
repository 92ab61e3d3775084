(** Proofs for C104: what the input calls and RunOnceTest answer and change. *)
From Coq Require Import ZArith List Bool Lia.
From stdpp Require Import gmap.
From Verif Require Import Fp Scalar Base LinAlg Msg DataLoader Window Attitude Propagator Backend BackendSpec BackLenFacts AppFacts ApiSpec BackWitness.
Import ListNotations.
Local Open Scope nat_scope.

Section ApiFacts.
Context {T : Type} {S : SOps T}.

Lemma imu_call : forall (s : bstate T) m s' r, b_imu s m = (s', r) -> r = true /\ only_loader s s' /\ dl_feat (b_dl s') = dl_feat (b_dl s) /\
  exists k, dl_imu (b_dl s') = dl_imu (b_dl s) ++ k /\ (k = [] \/ exists t, k = [ImuMsg (im_gyro m) (im_accel m) t]).
Proof.
  intros s m s' r. unfold b_imu, dl_push_imu. cbv zeta. intros [= <- <-]. split; [reflexivity|]. split; [repeat split|]. split; [reflexivity|].
  cbn [with_dl b_dl dl_imu]. destruct (f64_ltb _ _).
  - eexists. split; [reflexivity|]. right. eexists. reflexivity.
  - exists []. rewrite app_nil_r. auto.
Qed.
Lemma feat_call : forall (s : bstate T) m s' r, b_feat s m = (s', r) -> r = true /\ only_loader s s' /\ dl_imu (b_dl s') = dl_imu (b_dl s) /\
  exists k, dl_feat (b_dl s') = dl_feat (b_dl s) ++ k /\ (k = [] \/ exists t, length (fm_ids m) = length (fm_obs m) /\ k = [FeatMsg (fm_ids m) (fm_obs m) (fm_flag m) t]).
Proof.
  intros s m s' r. unfold b_feat, dl_push_feat. cbv zeta. destruct (Nat.eqb_spec (length (fm_ids m)) (length (fm_obs m))) as [E|E]; cbn [negb]; intros [= <- <-];
    (split; [reflexivity|]; split; [repeat split|]; split; [reflexivity|]); cbn [with_dl b_dl dl_feat].
  - destruct (f64_ltb _ _).
    + eexists. split; [reflexivity|]. right. eexists. split; [exact E|reflexivity].
    + exists []. rewrite app_nil_r. auto.
  - exists []. rewrite app_nil_r. auto.
Qed.
Lemma test_call : forall (s : bstate T) s' r, run_once_test s = (s', r) -> only_loader s s' /\ b_st s' = b_st s /\
  (r = false <-> dl_imu (b_dl s) = [] /\ dl_feat (b_dl s) = []) /\
  exists ki kf, dl_imu (b_dl s) = ki ++ dl_imu (b_dl s') /\ dl_feat (b_dl s) = kf ++ dl_feat (b_dl s') /\ length ki <= 1 /\ length kf <= 1 /\
    (r = true -> 1 <= length ki + length kf) /\
    forall c o s2 r2, run_once c o s = Ok (s2, r2) -> b_dl s2 = b_dl s'.
Proof.
  intros s s' r. unfold run_once_test. destruct (dl_pop_one (b_dl s)) as [[[l m] ok] fl] eqn:E. intros [= <- <-].
  split; [unfold dl_pop_one in E|].
  { repeat split; cbn [with_dl b_dl]; destruct (dl_imu (b_dl s)), (dl_feat (b_dl s)); try destruct (f64_leb _ _); try destruct (f64_ltb _ _); injection E as <- _ _ _; reflexivity. }
  split; [reflexivity|]. cbn [with_dl b_dl]. split.
  - unfold dl_pop_one in E. destruct (dl_imu (b_dl s)) eqn:Ei, (dl_feat (b_dl s)) eqn:Ef; try destruct (f64_leb _ _); try destruct (f64_ltb _ _); injection E as _ _ <- _;
      (split; [intros ?|intros [? ?]]; try discriminate; auto).
  - assert (R : forall c o s2 r2, run_once c o s = Ok (s2, r2) -> b_dl s2 = l).
    { intros c o s2 r2. unfold run_once. rewrite E. cbv zeta. destruct ok; cbn [negb]; [|intros [= <- _]; reflexivity].
      assert (A : forall i, b_dl (fst (imu_step c (with_dl s (b_st s) l) i)) = l).
      { intros i. unfold imu_step. destruct (att_propagate _ _ _ _ _) as [a r]. cbv zeta. destruct (b_status _); reflexivity. }
      assert (B : b_dl (fst (match cm_imu m with [] => (with_dl s (b_st s) l, true) | i :: _ => imu_step c (with_dl s (b_st s) l) i end)) = l)
        by (destruct (cm_imu m); [reflexivity|apply A]).
      revert B. destruct (match cm_imu m with [] => _ | i :: _ => _ end) as [s1 r1]. cbn [fst]. intros B. destruct (cm_feat m) as [f|]; [|intros [= <- _]; exact B].
      destruct (feat_step c o s1 f) as [s3|] eqn:Ef; [|discriminate]. cbn [obind]. intros [= <- _]. rewrite (feat_step_dl _ _ _ _ _ Ef). exact B. }
    unfold dl_pop_one in E. destruct (dl_imu (b_dl s)) as [|i is_] eqn:Ei, (dl_feat (b_dl s)) as [|f fs] eqn:Ef.
    + injection E as <- _ <- _. exists [], []. rewrite Ei, Ef. repeat split; auto; discriminate.
    + injection E as <- _ <- _. exists [], [f]. repeat split; auto.
    + injection E as <- _ <- _. exists [i], []. repeat split; auto.
    + destruct (f64_leb _ _); [destruct (f64_ltb _ _)|]; injection E as <- _ <- _.
      * exists [i], [f]. repeat split; auto.
      * exists [], [f]. repeat split; auto.
      * exists [i], []. repeat split; auto.
Qed.
End ApiFacts.

(** A features message with an observation missing, and a sample that comes late: both calls answer true. *)
Definition p_short : feat_msg f32 := FeatMsg [1; 2]%Z [w_ob] [0; 0]%Z (f64_of_Z 1).
Lemma short_taken : exists s', b_feat w_s0 p_short = (s', true) /\ dl_feat (b_dl s') = [].
Proof. eexists. split; reflexivity. Qed.
Definition p_one : bstate f32 := fst (b_imu w_s0 (w_imu 3)).
Lemma late_taken : length (dl_imu (b_dl p_one)) = 1 /\ exists s', b_imu p_one (w_imu 2) = (s', true) /\ dl_imu (b_dl s') = dl_imu (b_dl p_one).
Proof. split; [vm_compute; reflexivity|]. eexists. split; [unfold b_imu, dl_push_imu; reflexivity|]. cbn [with_dl b_dl dl_imu].
  match goal with |- (if ?c then _ else _) = _ => assert (c = false) as -> by (vm_compute; reflexivity) end. reflexivity. Qed.
(** A back end with one sample waiting, and RunOnceTest on it. *)
Lemma test_one : exists s', run_once_test p_one = (s', true) /\ dl_imu (b_dl s') = [].
Proof. eexists. split; reflexivity. Qed.
