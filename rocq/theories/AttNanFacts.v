(** A level sensor poisons the attitude estimator with NaN (C59), in IEEE binary32 arithmetic. *)
From Coq Require Import ZArith Reals List Bool.
From Flocq Require Import Core BinarySingleNaN.
From Verif Require Import Fp FpFacts Scalar Base LinAlg MathLib Attitude QueueSpec AttitudeFacts QueueWitness.
Import ListNotations.

Notation nan := (B754_nan : f32).

Lemma add_nan_l : forall y : f32, f32_add nan y = nan. Proof. intros []; reflexivity. Qed.
Lemma add_nan_r : forall y : f32, f32_add y nan = nan. Proof. intros []; reflexivity. Qed.
Lemma sub_nan_l : forall y : f32, f32_sub nan y = nan. Proof. intros []; reflexivity. Qed.
Lemma sub_nan_r : forall y : f32, f32_sub y nan = nan. Proof. intros []; reflexivity. Qed.
Lemma mul_nan_l : forall y : f32, f32_mul nan y = nan. Proof. intros []; reflexivity. Qed.
Lemma mul_nan_r : forall y : f32, f32_mul y nan = nan. Proof. intros []; reflexivity. Qed.
Lemma div_nan_l : forall y : f32, f32_div nan y = nan. Proof. intros []; reflexivity. Qed.
Lemma ltb_nan_r : forall y : f32, f32_ltb y nan = false. Proof. intros []; reflexivity. Qed.
#[local] Hint Rewrite add_nan_l add_nan_r sub_nan_l sub_nan_r mul_nan_l mul_nan_r div_nan_l ltb_nan_r : nanr.

(** A zero of either sign. *)
Definition is_zero (x : f32) : Prop := exists s, x = B754_zero s.
Lemma zero_mul : forall x y : f32, is_zero x -> is_finite y = true -> is_zero (f32_mul x y).
Proof. intros x y [s ->] H. destruct y; try discriminate; eexists; reflexivity. Qed.
Lemma mul_zero : forall x y : f32, is_zero y -> is_finite x = true -> is_zero (f32_mul x y).
Proof. intros x y [s ->] H. destruct x; try discriminate; eexists; reflexivity. Qed.
Lemma zero_fin : forall x : f32, is_zero x -> is_finite x = true.
Proof. intros x [s ->]. reflexivity. Qed.
Lemma zero_sub : forall x y : f32, is_zero x -> is_zero y -> is_zero (f32_sub x y).
Proof. intros x y [s ->] [t ->]. destruct s, t; eexists; reflexivity. Qed.
Lemma zero_add : forall x y : f32, is_zero x -> is_zero y -> is_zero (f32_add x y).
Proof. intros x y [s ->] [t ->]. destruct s, t; eexists; reflexivity. Qed.
Lemma zero_sqrt : forall x : f32, is_zero x -> is_zero (f32_sqrt x).
Proof. intros x [s ->]. destruct s; eexists; reflexivity. Qed.
Lemma zero_div : forall x y : f32, is_zero x -> is_zero y -> f32_div x y = nan.
Proof. intros x y [s ->] [t ->]. reflexivity. Qed.

Section Nan.
Variable lm : libm32.

Local Instance OPS : SOps f32 := ops_f32 lm.

(** The vector part of an attitude is NaN. *)
Definition q_nan (q : quat f32) : Prop := qx q = nan /\ qy q = nan /\ qz q = nan.

Ltac ops := cbv beta iota zeta delta [OPS ops_f32 sadd ssub smul sdiv sopp sabs ssqrt s0 s1 sltb sleb satan2 sof32 v3x v3y v3z qw qx qy qz] in *.

Lemma qnormalize_nan : forall q : quat f32, q_nan q -> qnormalize q = q.
Proof.
  intros [w x y z] (Hx & Hy & Hz). cbn in Hx, Hy, Hz. subst. unfold qnormalize, qnorm2. ops. autorewrite with nanr. reflexivity.
Qed.
Lemma qnorm_keep : forall q : quat f32, q_nan q -> q_nan (qnormalize q).
Proof. intros q H. rewrite qnormalize_nan; exact H. Qed.
Lemma qmul_nan : forall q d : quat f32, q_nan q -> q_nan (qmul q d).
Proof.
  intros [w x y z] [a b c d] (Hx & Hy & Hz). cbn in Hx, Hy, Hz. subst. unfold q_nan, qmul. ops. autorewrite with nanr. auto.
Qed.

Lemma level_init_q : forall n : f32, is_finite n = true ->
  q_nan (att_init_q (V3 (B754_zero false) (B754_zero false) n) (V3 (B754_zero false) (B754_zero false) n)).
Proof.
  intros n Hn. set (z := B754_zero false : f32). assert (Hz : is_zero z) by (exists false; reflexivity). pose proof (zero_fin z Hz) as Fz.
  unfold att_init_q. cbv zeta. set (c := v3cross _ _).
  assert (Hc : is_zero (v3x c) /\ is_zero (v3y c) /\ is_zero (v3z c)).
  { unfold c, v3cross. ops. split; [|split]; apply zero_sub; (apply zero_mul; assumption) || (apply mul_zero; assumption). }
  destruct c as [c1 c2 c3]. cbn [v3x v3y v3z] in Hc. destruct Hc as (H1 & H2 & H3).
  assert (Hnorm : is_zero (v3norm (V3 c1 c2 c3))).
  { unfold v3norm, v3dot. ops. apply zero_sqrt. repeat apply zero_add; apply zero_mul; try assumption; apply zero_fin; assumption. }
  set (nm := v3norm _) in *. clearbody nm. set (th := satan2 nm _). clearbody th.
  assert (Hd : q_nan (delta_q (v3scale (v3div (V3 c1 c2 c3) nm) th))).
  { unfold q_nan, delta_q, v3scale, v3div. ops. rewrite (zero_div c1 nm), (zero_div c2 nm), (zero_div c3 nm) by assumption. autorewrite with nanr. auto. }
  apply qnorm_keep, qnorm_keep. exact Hd.
Qed.

Lemma same_gate : forall g : v3 f32, att_gate g g = false.
Proof.
  intros g. unfold att_gate. set (x := v3norm g). clearbody x.
  change (sgt64 (sabs (x - x)%sc) f64_0_04) with (f64_ltb f64_0_04 (f32_to_f64 (f32_abs (f32_sub x x)))).
  destruct (is_finite x) eqn:F.
  - replace (f32_sub x x) with (B754_zero false : f32); [reflexivity|].
    pose proof (Bminus_correct prec32 emax32 prec32_gt_0 prec32_lt_emax mode_NE x x F F) as H.
    rewrite Rminus_eq_0, round_0 in H by apply valid_rnd_N. rewrite Rabs_R0 in H. rewrite Rlt_bool_true in H by apply bpow_gt_0.
    destruct H as (H1 & H2 & H3). rewrite Rcompare_Eq in H3 by reflexivity. unfold f32_sub.
    destruct (Bminus mode_NE x x) as [s|s| |s m e Hb]; try discriminate.
    + cbn in H3. destruct (Bsign x); subst; reflexivity.
    + exfalso. cbn in H1. apply eq_0_F2R in H1. destruct s; discriminate.
  - destruct x as [s|[]| |]; try discriminate; reflexivity.
Qed.

Lemma first_sample : forall (grav ba bg e a g : v3 f32) t, att_propagate grav (Att [] ba bg e) a g t =
  if att_gate grav (v3sub a ba) then (Att [] ba bg e, false)
  else (Att [AttItem (att_init_q grav (v3sub a ba)) (v3sub a ba) (v3sub g bg) t] ba bg e, true).
Proof. reflexivity. Qed.

(** Operations on the estimator after the first sample. *)
Inductive att_op := ASample (a g : v3 f32) (t : f64) | AClean (t : f64) (thr : f32) | ABias (ba bg : v3 f32).
Definition att_do (grav : v3 f32) (st : att f32) (o : att_op) : out (att f32) :=
  match o with
  | ASample a g t => Ok (fst (att_propagate grav st a g t))
  | AClean t thr => att_clean st t thr
  | ABias ba bg => Ok (att_set_bias st ba bg)
  end.
Fixpoint att_run (grav : v3 f32) (st : att f32) (l : list att_op) : out (att f32) :=
  match l with [] => Ok st | o :: r => let! st' := att_do grav st o in att_run grav st' r end.

Definition poisoned (st : att f32) : Prop := at_items st <> [] /\ Forall (fun it => q_nan (ai_q it)) (at_items st).

Lemma poisoned_do : forall grav st o st', poisoned st -> att_do grav st o = Ok st' -> poisoned st'.
Proof.
  intros grav st o st' [Hn H] Ho. destruct o as [a g t|t thr|ba bg]; cbn [att_do] in Ho.
  - injection Ho as <-. destruct (back_cases _ (at_items st)) as [[E Eb]|(l & b & E & Eb)]; [congruence|].
    unfold att_propagate. rewrite Eb. destruct (f64_ltb t (ai_ts b)); [split; assumption|]. cbn [fst].
    split; cbn [at_items]; [intros Hx; apply app_eq_nil in Hx as [_ Hx]; discriminate|].
    apply Forall_app. split; [exact H|]. constructor; [|constructor]. cbn [ai_q].
    assert (Hb : q_nan (ai_q b)) by (rewrite E in H; apply Forall_app in H as [_ H]; inversion H; assumption).
    apply qnorm_keep, qmul_nan. exact Hb.
  - pose proof (att_clean_complete st t thr) as Hc. rewrite Ho in Hc. destruct Hc as ((pre & E & _) & Hne & _).
    split; [auto|]. rewrite E in H. apply Forall_app in H. tauto.
  - injection Ho as <-. split; assumption.
Qed.

Lemma poisoned_run : forall grav ops st st', poisoned st -> att_run grav st ops = Ok st' -> poisoned st'.
Proof.
  intros grav ops. induction ops as [|o ops IH]; intros st st' Hp Hr; [injection Hr as <-; exact Hp|].
  cbn [att_run] in Hr. destruct (att_do grav st o) as [st1|r] eqn:E; [|discriminate]. cbn [obind] in Hr.
  apply (IH st1); [|exact Hr]. eapply poisoned_do; eassumption.
Qed.

Theorem level_sensor_nan : forall (n : f32) (a g ba bg e : v3 f32) t, is_finite n = true ->
  let grav := V3 (B754_zero false) (B754_zero false) n in
  v3sub a ba = grav ->
  exists st, att_propagate grav (Att [] ba bg e) a g t = (st, true) /\
    forall ops st', att_run grav st ops = Ok st' -> at_items st' <> [] /\ forall it, In it (at_items st') -> q_nan (ai_q it).
Proof.
  intros n a g ba bg e t Hn grav Ha. rewrite first_sample, Ha, same_gate. eexists. split; [reflexivity|].
  intros ops st' Hr. apply poisoned_run in Hr.
  - destruct Hr as [H1 H2]. split; [exact H1|]. apply Forall_forall. exact H2.
  - split; [discriminate|]. constructor; [|constructor]. apply level_init_q. exact Hn.
Qed.
End Nan.
