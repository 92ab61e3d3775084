(** Concrete states and derived statements for C41, C42, C59-C63. *)
From Coq Require Import ZArith Reals Lra Lia Bool List.
From Flocq Require Import Core BinarySingleNaN.
From Verif Require Import Fp Scalar Base LinAlg MathLib Propagator Attitude QueueSpec MatFacts NumSpec QuatFacts AttitudeFacts
  MotionFacts CovFacts AttNumFacts AttNanFacts ProcSpec ProcFacts.
Import ListNotations.
Local Open Scope R_scope.

(** Values of concrete floats. *)
Ltac fval := rewrite <- SF2R_B2SF; match goal with |- context [B2SF ?x] => let y := eval vm_compute in (B2SF x) in
  replace (B2SF x) with y by (vm_compute; reflexivity) end; unfold SF2R, F2R; cbn.

Lemma real_step_01 : real_step (f64_of_Z 0) (f64_of_Z 1) = 1.
Proof. unfold real_step. fval. lra. Qed.
Lemma kp_val : att_kp (T := R) = 8589935 / 8589934592.
Proof. unfold att_kp. change (B2R (f32_lit 8589935 (-33)) = 8589935 / 8589934592). fval. lra. Qed.
Lemma ki_val : att_ki (T := R) = 13743895 / 137438953472.
Proof. unfold att_ki. change (B2R (f32_lit 13743895 (-37)) = 13743895 / 137438953472). fval. lra. Qed.
Lemma f004_pos : 0 < B2R f64_0_04.
Proof. fval. lra. Qed.

(** ** C41 *)
Definition rest_q : pqueue R :=
  PQueue [PItem (Motion (V3 1 2 3) (V3 1 0 0) qid) (mzero 15 15) (mzero 15 6) (V3 0 0 10) v3zero (f64_of_Z 0)]
    (mzero 6 6) v3zero v3zero (Motion v3zero v3zero qid) F_reset G_reset (noise_Q 1 1 1 1).
Lemma rest_q_ok : exists it0, pq_items rest_q = [] ++ [it0] /\ qunit (mo_q (pi_mo it0)) /\ pi_a it0 = V3 0 0 10 /\ pi_g it0 = pq_bg rest_q /\
  qrot (mo_q (pi_mo it0)) (v3sub (V3 0 0 10) (pq_ba rest_q)) = V3 0 0 10 /\ duration (pi_ts it0) [f64_of_Z 1] = 1.
Proof.
  eexists. split; [reflexivity|]. split; [apply qid_unit|]. split; [reflexivity|]. split; [reflexivity|].
  split; [cbn [pi_mo mo_q pq_ba rest_q]; vring|]. cbn [duration pi_ts]. rewrite real_step_01. ring.
Qed.

(** ** C42 *)
Lemma rest_q_psd : process_sizes rest_q /\ psd_queue 6 rest_q /\ pq_Q rest_q = noise_Q 1 1 1 1.
Proof.
  split; [repeat split|]. split; [|reflexivity]. split; [reflexivity|]. split; [reflexivity|].
  constructor; [|constructor]. split; [repeat split|]. apply (psd_zero_full 6).
Qed.

(** ** C59 *)
Lemma sub_zero_r : forall x : f32, f32_sub x (B754_zero false) = x.
Proof. intros [[]|[]| |]; reflexivity. Qed.
Lemma level_hyp : exists (n : f32) (a ba : v3 f32), is_finite n = true /\ v3x ba = f32_of_Z 1 /\ n = f32_of_Z 10 /\
  forall lm, @v3sub f32 (ops_f32 lm) a ba = V3 (B754_zero false) (B754_zero false) n.
Proof.
  exists (f32_of_Z 10), (V3 (f32_of_Z 1) (f32_of_Z 1) (f32_of_Z 10)), (V3 (f32_of_Z 1) (f32_of_Z 1) (B754_zero false)).
  split; [reflexivity|]. split; [reflexivity|]. split; [reflexivity|]. intros lm. unfold v3sub. cbn [v3x v3y v3z ssub ops_f32].
  rewrite sub_zero_r. f_equal; vm_compute; reflexivity.
Qed.

(** ** C60 *)
Lemma never_aligned : forall grav a : v3 R, v3cross a grav <> v3zero -> forall k, 0 <= k ->
  qrot (att_init_q grav a) a <> v3scale grav k.
Proof.
  intros grav a Hx k Hk H. destruct (init_attitude_angle grav a Hx) as (th & Hth & Hd & Hph & _ & Hu & Hc & _).
  set (ph := 2 * atan (th / 2)) in *. set (q := att_init_q grav a) in *. fold ph in Hc, Hph.
  assert (Ha : a <> v3zero) by (intros ->; apply Hx; clear; destruct grav; vring).
  assert (Hg : grav <> v3zero) by (intros ->; apply Hx; clear; destruct a; vring).
  pose proof (norm_pos a Ha) as Na. pose proof (norm_pos grav Hg) as Ng.
  assert (Hn : v3norm a = k * v3norm grav).
  { rewrite <- (qrot_norm q a Hu), H. unfold v3norm. replace (v3dot (v3scale grav k) (v3scale grav k)) with (k * k * v3dot grav grav) by (clear; destruct grav; vring).
    cbn [ssqrt ops_R]. rewrite sqrt_mult_alt by nra. rewrite sqrt_square by exact Hk. reflexivity. }
  rewrite H in Hc. replace (v3dot (v3scale grav k) grav) with (k * v3dot grav grav) in Hc by (clear; destruct grav; vring).
  rewrite <- norm_sq in Hc. rewrite Hn in Hc.
  assert (Hcos : cos (th - ph) = 1).
  { set (G := v3norm grav) in *. assert (k * G * G * (cos (th - ph) - 1) = 0) by lra.
    apply Rmult_integral in H0 as [H0|H0]; [|lra]. assert (0 < k * G) by lra. nra. }
  assert (0 < th - ph < PI) by lra. pose proof (cos_decreasing_1 0 (th - ph)). rewrite cos_0 in H1. lra.
Qed.
Lemma init_misaligned : exists grav a : v3 R, v3norm a = v3norm grav /\ att_gate grav a = false /\
  forall k, 0 <= k -> qrot (att_init_q grav a) a <> v3scale grav k.
Proof.
  exists (V3 0 0 10), (V3 10 0 0). 
  assert (E : v3norm (V3 10 0 0) = v3norm (V3 0 0 10)) by (unfold v3norm; f_equal; vring).
  split; [exact E|]. split.
  - unfold att_gate. rewrite E. cbn [sgt64 ssub sabs ops_R]. replace (v3norm (V3 0 0 10) - v3norm (V3 0 0 10)) with 0 by ring.
    rewrite Rabs_R0. unfold Rltb. destruct (Rlt_dec _ _); [|reflexivity]. pose proof f004_pos. lra.
  - apply never_aligned. unfold v3cross, v3zero. rops. intros H. injection H. lra.
Qed.
Lemma init_hyp : v3cross (V3 10 0 0) (V3 0 0 10) <> v3zero (T := R).
Proof. unfold v3cross, v3zero. rops. intros H. injection H. lra. Qed.

(** ** C61 *)
Definition spin_st : att R := Att [AttItem qid v3zero (V3 0 0 1) (f64_of_Z 0)] v3zero v3zero v3zero.
Lemma spin_hyp : exists it0, at_items spin_st = [] ++ [it0] /\ ai_g it0 = v3sub (V3 0 0 1) (at_bg spin_st) /\ at_err spin_st = v3zero /\
  f64_ltb (f64_of_Z 1) (ai_ts it0) = false /\ v3cross (V3 0 0 10) (qrot (qinv (ai_q it0)) (V3 0 0 10)) = v3zero /\ qunit (ai_q it0) /\
  turn (V3 0 0 1) (V3 0 0 1) (at_bg spin_st) (real_step (ai_ts it0) (f64_of_Z 1)) = V3 0 0 1.
Proof.
  eexists. split; [reflexivity|]. cbn [ai_g ai_ts ai_q spin_st at_bg at_err]. split; [vring|]. split; [reflexivity|]. split; [reflexivity|].
  split; [rewrite qinv_unit by apply qid_unit; vring|]. split; [apply qid_unit|]. rewrite real_step_01. unfold turn. vfield.
Qed.
Lemma same_rotation_refuted : exists grav (st : att R) it0 it1 a g t m0 ba,
  at_items st = [it0] /\ at_err st = v3zero /\ ai_q it0 = mo_q m0 /\ qunit (ai_q it0) /\
  v3cross a (qrot (qinv (ai_q it0)) grav) = v3zero /\
  at_items (fst (att_propagate grav st a g t)) = [it0; it1] /\
  ai_q it1 <> mo_q (fst (fst (nominal_step grav ba (at_bg st) m0 a g a g (real_step (ai_ts it0) t)))).
Proof.
  destruct spin_hyp as (it0 & E & Eg & Ee & Ht & Hx & Hu & Hw).
  destruct (attitude_step_conjugate (V3 0 0 10) spin_st [] it0 (V3 0 0 1) (V3 0 0 10) (V3 0 0 1) (f64_of_Z 1)
             (Motion v3zero v3zero (ai_q it0)) (V3 0 0 10) v3zero E Eg Ee Ht Hx Hu eq_refl) as (it1 & E1 & _ & _ & H).
  exists (V3 0 0 10), spin_st, it0, it1, (V3 0 0 10), (V3 0 0 1), (f64_of_Z 1), (Motion v3zero v3zero (ai_q it0)), v3zero.
  split; [exact E|]. split; [exact Ee|]. split; [reflexivity|]. split; [exact Hu|]. split; [exact Hx|]. split; [exact E1|].
  intros Hq. replace (nominal_step (V3 0 0 10) v3zero (at_bg spin_st) (Motion v3zero v3zero (ai_q it0)) (V3 0 0 10) (V3 0 0 1) (V3 0 0 10) (V3 0 0 1))
    with (nominal_step (V3 0 0 10) v3zero (at_bg spin_st) (Motion v3zero v3zero (ai_q it0)) (V3 0 0 10) (V3 0 0 1) (V3 0 0 10) (V3 0 0 1)) in Hq by reflexivity.
  apply H in Hq. rewrite Hw in Hq. unfold v3zero in Hq. rops. injection Hq. lra.
Qed.

(** ** C62 *)
Definition tilt_st : att R := Att [AttItem qid v3zero v3zero (f64_of_Z 0)] v3zero v3zero v3zero.
Lemma tilt_hyp : exists it0, at_items tilt_st = [] ++ [it0] /\ ai_g it0 = v3zero /\ at_err tilt_st = v3zero /\
  f64_ltb (f64_of_Z 1) (ai_ts it0) = false /\ qunit (ai_q it0) /\ V3 0 0 10 <> v3zero (T := R) /\ V3 10 0 0 <> v3zero (T := R) /\
  0 < real_step (ai_ts it0) (f64_of_Z 1) /\ 0 < (att_kp + att_ki) * real_step (ai_ts it0) (f64_of_Z 1) <= 2 /\
  v3cross (V3 10 0 0) (qrot (qinv (ai_q it0)) (V3 0 0 10)) <> v3zero.
Proof.
  eexists. split; [reflexivity|]. cbn [ai_g ai_ts ai_q tilt_st at_err]. split; [reflexivity|]. split; [reflexivity|]. split; [reflexivity|].
  split; [apply qid_unit|]. split; [unfold v3zero; rops; intros H; injection H; lra|]. split; [unfold v3zero; rops; intros H; injection H; lra|].
  rewrite real_step_01. split; [lra|]. rewrite kp_val, ki_val. split; [lra|].
  rewrite qinv_unit by apply qid_unit. replace (qrot (qconj qid) (V3 0 0 10)) with (V3 0 0 10) by vring. apply init_hyp.
Qed.
Lemma correction_refuted : exists grav (st : att R) it0 it1 a t,
  at_items st = [it0] /\ ai_g it0 = v3zero /\ at_err st = v3zero /\ qunit (ai_q it0) /\ 0 < real_step (ai_ts it0) t /\
  at_items (fst (att_propagate grav st a (at_bg st) t)) = [it0; it1] /\
  v3dot (dir a) (dir (qrot (qinv (ai_q it1)) grav)) < v3dot (dir a) (dir (qrot (qinv (ai_q it0)) grav)).
Proof.
  destruct tilt_hyp as (it0 & E & Eg & Ee & Ht & Hu & H1 & H2 & H3 & H4 & Hx).
  destruct (correction_moves_away (V3 0 0 10) tilt_st [] it0 (V3 10 0 0) (f64_of_Z 1) E Eg Ee Ht Hu H1 H2 H3 H4 Hx) as (it1 & E1 & H).
  exists (V3 0 0 10), tilt_st, it0, it1, (V3 10 0 0), (f64_of_Z 1). repeat (split; [assumption|]). exact H.
Qed.

(** ** C68 *)
Definition moving_q : pqueue R :=
  pq_propagate (V3 0 0 10) 1 (pq_propagate (V3 0 0 10) 1 (with_items rest_q []) (V3 0 0 10) v3zero (f64_of_Z 0)) (V3 1 0 10) v3zero (f64_of_Z 1).
Lemma moving_q_ok : queue_history (V3 0 0 10) (noise_Q 1 1 1 1) moving_q /\ square_items moving_q /\ length (pq_items moving_q) = 2%nat /\
  exists it, List.last (map Some (pq_items moving_q)) None = Some it /\ me (pi_cov it) 3%nat 3%nat = 1 /\ me (pi_cov it) 0%nat 3%nat = 1 / 2.
Proof.
  split; [apply QH_propagate, QH_propagate, QH_start; reflexivity|]. split; [repeat constructor|]. split; [reflexivity|].
  assert (H : queue_history (V3 0 0 10) (noise_Q 1 1 1 1) (pq_propagate (V3 0 0 10) 1 (with_items rest_q []) (V3 0 0 10) v3zero (f64_of_Z 0)))
    by (apply QH_propagate, QH_start; reflexivity).
  destruct (new_item_carried (V3 0 0 10) 1 1 1 1 _ [] _ 1 (V3 1 0 10) v3zero (f64_of_Z 1) 12 H ltac:(repeat constructor) eq_refl) as (it & E & Em & Hc & _).
  exists it. fold moving_q in E. rewrite E. split; [reflexivity|].
  cbn [pi_mo pi_ts pi_a pi_g mo_q] in Hc. injection Em as Ea Eg Et. rewrite Et, real_step_01 in Hc.
  split; [rewrite (feq_at Hc) by lia|rewrite (feq_at Hc) by lia];
    cbn -[Rplus Rmult Rminus Ropp Rdiv Rinv IZR pi_a pi_g]; cbv -[Rplus Rmult Rminus Ropp Rdiv Rinv IZR pi_a pi_g]; field.
Qed.
