(** Attitude estimator in exact arithmetic (C60, C61, C62). *)
From Coq Require Import Reals Lra Lia Arith Bool List Psatz.
From Verif Require Import Fp Scalar Base LinAlg MathLib Propagator Attitude QueueSpec MatFacts NumSpec QuatFacts AttitudeFacts.
Import ListNotations.
Local Open Scope R_scope.

(** ** C61 *)
Lemma qnormalize_mul_unit : forall q d : quat R, qunit q -> 0 < qnorm2 d -> qnormalize (qmul q d) = qmul q (qnormalize d).
Proof.
  intros q d Hq Hd. rewrite (qnormalize_pos d Hd). rewrite qnormalize_pos by (rewrite qnorm2_mul, Hq; lra).
  rewrite qnorm2_mul, Hq, Rmult_1_l. pose proof (sqrt_lt_R0 _ Hd). set (s := sqrt (qnorm2 d)) in *.
  destruct q, d. vfield; lra.
Qed.
Lemma delta_q_opp : forall t : v3 R, delta_q (v3opp t) = qconj (delta_q t).
Proof. intros []. vfield. Qed.
Lemma v3scale_opp : forall (t : v3 R) k, v3scale (v3opp t) k = v3opp (v3scale t k).
Proof. intros [] k. vring. Qed.
Lemma cross_div : forall (a b : v3 R) n m, v3cross (v3div a n) (v3div b m) = v3div (v3cross a b) (n * m).
Proof. intros [] [] n m. vunf. unfold Rdiv. rewrite Rinv_mult. apply v3_ext; rops; ring. Qed.
Lemma v3div_zero : forall n, v3div (v3zero (T := R)) n = v3zero.
Proof. intros n. vunf. unfold Rdiv. apply v3_ext; rops; ring. Qed.

(** The rotation vector one gyro step: the mean of the bias-corrected rates times the step. *)
Definition turn (g0 g1 bg : v3 R) (dt : R) : v3 R := v3scale (v3sub (v3scale (v3add g0 g1) shalf) bg) dt.

Theorem attitude_step_conjugate : forall grav (st : att R) pre it0 g0 a g t m0 a0 ba,
  at_items st = pre ++ [it0] -> ai_g it0 = v3sub g0 (at_bg st) -> at_err st = v3zero -> f64_ltb t (ai_ts it0) = false ->
  v3cross a (qrot (qinv (ai_q it0)) grav) = v3zero -> qunit (ai_q it0) -> mo_q m0 = ai_q it0 ->
  let dt := real_step (ai_ts it0) t in
  let w := turn g0 g (at_bg st) dt in
  exists it1, at_items (fst (att_propagate grav st a g t)) = (pre ++ [it0]) ++ [it1] /\
    ai_q it1 = qmul (ai_q it0) (qconj (qnormalize (delta_q w))) /\
    mo_q (fst (fst (nominal_step grav ba (at_bg st) m0 a0 g0 a g dt))) = qmul (ai_q it0) (qnormalize (delta_q w)) /\
    (ai_q it1 = mo_q (fst (fst (nominal_step grav ba (at_bg st) m0 a0 g0 a g dt))) -> w = v3zero).
Proof.
  intros grav st pre it0 g0 a g t m0 a0 ba E Eg Ee Ht Hx Hu Hm dt w.
  pose proof (delta_q_pos w) as Hp.
  assert (En : qnormalize (qconj (delta_q w)) = qconj (qnormalize (delta_q w))).
  { rewrite !qnormalize_pos by (rewrite ?qnorm2_conj; exact Hp). rewrite qnorm2_conj. pose proof (sqrt_lt_R0 _ Hp).
    set (s := sqrt _) in *. destruct (delta_q w). vfield; lra. }
  eexists. unfold att_propagate. rewrite E, back_snoc, Ht. cbn [fst at_items].
  assert (E1 : qnormalize (qmul (ai_q it0) (delta_q (v3scale (v3opp (v3add (v3add (v3scale (v3add (ai_g it0) (v3sub g (at_bg st))) shalf)
     (v3scale (v3cross (v3div a (v3norm a)) (v3div (qrot (qinv (ai_q it0)) grav) (v3norm grav))) att_kp))
     (v3add (at_err st) (v3scale (v3cross (v3div a (v3norm a)) (v3div (qrot (qinv (ai_q it0)) grav) (v3norm grav))) att_ki))))
     (sof32 (f64_to_f32 (f64_sub t (ai_ts it0))))))) = qmul (ai_q it0) (qconj (qnormalize (delta_q w)))).
  { rewrite cross_div, Hx, v3div_zero, Ee, Eg. change (sof32 (f64_to_f32 (f64_sub t (ai_ts it0)))) with dt.
    replace (v3add (v3add (v3scale (v3add (v3sub g0 (at_bg st)) (v3sub g (at_bg st))) shalf) (v3scale v3zero att_kp))
               (v3add v3zero (v3scale v3zero att_ki))) with (v3sub (v3scale (v3add g0 g) shalf) (at_bg st)).
    - rewrite v3scale_opp, delta_q_opp. fold (turn g0 g (at_bg st) dt). fold w.
      rewrite qnormalize_mul_unit by (try exact Hu; rewrite qnorm2_conj; exact Hp). rewrite En. reflexivity.
    - destruct g0, g, (at_bg st). generalize (@att_kp R _) (@att_ki R _). intros. vfield. }
  assert (E2 : mo_q (fst (fst (nominal_step grav ba (at_bg st) m0 a0 g0 a g dt))) = qmul (ai_q it0) (qnormalize (delta_q w))).
  { unfold nominal_step. cbn [fst mo_q]. rewrite Hm. fold (turn g0 g (at_bg st) dt). fold w. apply qnormalize_mul_unit; assumption. }
  split; [reflexivity|]. split; [cbn [ai_q]; exact E1|]. split; [exact E2|].
  cbn [ai_q]. intros Hq. rewrite E1, E2 in Hq.
  assert (Hc : qmul (qconj (ai_q it0)) (qmul (ai_q it0) (qconj (qnormalize (delta_q w)))) =
               qmul (qconj (ai_q it0)) (qmul (ai_q it0) (qnormalize (delta_q w)))) by (rewrite Hq; reflexivity).
  assert (Ha : forall x : quat R, qmul (qconj (ai_q it0)) (qmul (ai_q it0) x) = x).
  { intros x. transitivity (qmul (qmul (qconj (ai_q it0)) (ai_q it0)) x).
    - generalize (ai_q it0). intros [] . destruct x. vring.
    - rewrite qmul_conj_l by exact Hu. destruct x. vring. }
  rewrite !Ha in Hc. rewrite (qnormalize_pos _ Hp) in Hc. pose proof (sqrt_lt_R0 _ Hp) as Hs.
  set (s := sqrt (qnorm2 (delta_q w))) in *. clearbody s. destruct w as [x y z].
  unfold qconj, qdivs, delta_q, v3div, s2 in Hc. rops. injection Hc as H1 H2 H3.
  assert (Hz : forall v, - (v / (1 + 1) / s) = v / (1 + 1) / s -> v = 0).
  { intros v H. assert (K : v / (1 + 1) / s = 0) by lra. apply (f_equal (fun z => z * s * 2)) in K. 
    replace (v / (1 + 1) / s * s * 2) with v in K by (field; lra). lra. }
  apply v3_ext; rops; apply Hz; assumption.
Qed.

(** ** C62 *)
Lemma norm_sq : forall a : v3 R, v3norm a * v3norm a = v3dot a a.
Proof. intros a. apply sqrt_sqrt. apply v3dot_nonneg. Qed.
Lemma norm_pos : forall a : v3 R, a <> v3zero -> 0 < v3norm a.
Proof.
  intros a H. apply sqrt_lt_R0. destruct a as [x y z]. destruct (Req_dec x 0) as [->|]; [destruct (Req_dec y 0) as [->|]; [destruct (Req_dec z 0) as [->|]|]|].
  - exfalso. apply H. reflexivity.
  - vunf. nra.
  - vunf. nra.
  - vunf. nra.
Qed.
(** Unit vector along [a]. *)
Definition dir (a : v3 R) : v3 R := v3div a (v3norm a).
Lemma dir_unit : forall a, a <> v3zero -> v3dot (dir a) (dir a) = 1.
Proof.
  intros a H. pose proof (norm_pos a H) as Hp. pose proof (norm_sq a) as Hs. unfold dir. set (n := v3norm a) in *. clearbody n.
  destruct a as [x y z]. unfold v3dot, v3div in *. rops. transitivity ((x * x + (y * y + z * z)) / (n * n)); [field; lra|].
  rewrite <- Hs. field. lra.
Qed.
(** Lagrange's identity. *)
Lemma lagrange : forall a b : v3 R, v3dot (v3cross a b) (v3cross a b) = v3dot a a * v3dot b b - v3dot a b * v3dot a b.
Proof. intros [] []. vring. Qed.
Lemma cross_dot1 : forall a b : v3 R, v3dot a (v3cross (v3cross a b) b) = v3dot a b * v3dot a b - v3dot a a * v3dot b b.
Proof. intros [] []. vring. Qed.
Lemma cross_dot2 : forall a b : v3 R, v3dot a (v3cross (v3cross a b) (v3cross (v3cross a b) b)) =
  - (v3dot (v3cross a b) (v3cross a b) * v3dot a b).
Proof. intros [] []. vring. Qed.

(** Rotation by a normalized quaternion (1, v). *)
Lemma qrot_small : forall v x : v3 R,
  qrot (qnormalize (Quat 1 (v3x v) (v3y v) (v3z v))) x =
  v3add x (v3scale (v3add (v3cross v x) (v3cross v (v3cross v x))) (2 / (1 + v3dot v v))).
Proof.
  intros [a b c] [x y z]. pose proof (v3dot_nonneg (V3 a b c)) as Hn. 
  assert (Hq : qnorm2 (Quat 1 a b c) = 1 + v3dot (V3 a b c) (V3 a b c)) by vring.
  cbn [v3x v3y v3z]. rewrite qnormalize_pos by (rewrite Hq; lra). rewrite Hq. set (N := 1 + v3dot (V3 a b c) (V3 a b c)) in *.
  assert (HN : 0 < N) by (unfold N; lra). pose proof (sqrt_lt_R0 _ HN) as Hs. pose proof (sqrt_sqrt N (Rlt_le _ _ HN)) as HsN.
  rewrite <- HsN at 2. set (s := sqrt N) in *. clearbody s N. vfield; lra.
Qed.

Theorem correction_moves_away : forall grav (st : att R) pre it0 a t,
  at_items st = pre ++ [it0] -> ai_g it0 = v3zero -> at_err st = v3zero -> f64_ltb t (ai_ts it0) = false ->
  qunit (ai_q it0) -> grav <> v3zero -> a <> v3zero ->
  let dt := real_step (ai_ts it0) t in
  0 < dt -> 0 < (att_kp + att_ki) * dt <= 2 ->
  let predicted q := dir (qrot (qinv q) grav) in
  v3cross a (qrot (qinv (ai_q it0)) grav) <> v3zero ->
  exists it1, at_items (fst (att_propagate grav st a (at_bg st) t)) = (pre ++ [it0]) ++ [it1] /\
    v3dot (dir a) (predicted (ai_q it1)) < v3dot (dir a) (predicted (ai_q it0)).
Proof.
  intros grav st pre it0 a t E Eg Ee Ht Hu Hg Ha dt Hdt Hk predicted Hx.
  eexists. unfold att_propagate. rewrite E, back_snoc, Ht. cbn [fst at_items].
  split; [reflexivity|]. cbn [ai_q]. rewrite Eg, Ee. change (sof32 (f64_to_f32 (f64_sub t (ai_ts it0)))) with dt.
  set (q0 := ai_q it0) in *. set (g0 := qrot (qinv q0) grav) in *.
  assert (Hui : qunit (qinv q0)) by (rewrite qinv_unit by exact Hu; apply qconj_unit; exact Hu).
  assert (Hn0 : v3norm g0 = v3norm grav) by (apply qrot_norm; exact Hui).
  set (m := dir a). set (tg := dir g0).
  assert (Hg0 : g0 <> v3zero).
  { intros Hz. rewrite Hz in Hn0. pose proof (norm_pos grav Hg) as Hp. rewrite <- Hn0 in Hp.
    unfold v3norm in Hp. replace (v3dot v3zero v3zero) with 0 in Hp by vring. cbn in Hp. rewrite sqrt_0 in Hp. lra. }
  replace (v3div a (v3norm a)) with m by reflexivity.
  replace (v3div g0 (v3norm grav)) with tg by (unfold tg, dir; rewrite Hn0; reflexivity).
  set (K := (att_kp + att_ki)%R) in *.
  set (q1 := qnormalize _).
  set (h := K * dt / 2). set (e := v3cross m tg).
  assert (Eq1 : q1 = qmul q0 (qnormalize (Quat 1 (v3x (v3scale e (- h))) (v3y (v3scale e (- h))) (v3z (v3scale e (- h)))))).
  { unfold q1. rewrite qnormalize_mul_unit by (try exact Hu; apply delta_q_pos). f_equal. f_equal. unfold h, K. fold e. 
    generalize (@att_kp R _) (@att_ki R _). intros kp ki. destruct (at_bg st). clear. destruct e. vfield. }
  assert (Eq1i : qrot (qinv q1) grav = qrot (qnormalize (Quat 1 (v3x (v3scale e h)) (v3y (v3scale e h)) (v3z (v3scale e h)))) g0).
  { set (d := qnormalize (Quat 1 (v3x (v3scale e (- h))) (v3y (v3scale e (- h))) (v3z (v3scale e (- h))))) in *.
    assert (Hpos : forall k, 0 < qnorm2 (Quat 1 (v3x (v3scale e k)) (v3y (v3scale e k)) (v3z (v3scale e k)))) by (intros k; destruct e; vunf; nra).
    assert (Hd : qunit d) by (apply qnormalize_unit; apply Hpos).
    rewrite Eq1, qinv_unit by (apply qmul_unit; assumption).
    replace (qconj (qmul q0 d)) with (qmul (qconj d) (qconj q0)) by (destruct q0, d; vring).
    rewrite qrot_mul by (apply qconj_unit; assumption). unfold g0. rewrite qinv_unit by exact Hu.
    f_equal. unfold d. rewrite !qnormalize_pos by apply Hpos.
    replace (qnorm2 (Quat 1 (v3x (v3scale e h)) (v3y (v3scale e h)) (v3z (v3scale e h)))) with
      (qnorm2 (Quat 1 (v3x (v3scale e (- h))) (v3y (v3scale e (- h))) (v3z (v3scale e (- h))))) by (destruct e; vring).
    pose proof (sqrt_lt_R0 _ (Hpos (- h))). set (s := sqrt _) in *. destruct e. vfield; lra. }
  assert (Hn1 : v3norm (qrot (qinv q1) grav) = v3norm grav).
  { apply qrot_norm. assert (Hq1 : qunit q1).
    { unfold q1. apply qnormalize_unit. rewrite qnorm2_mul, Hu, Rmult_1_l. apply delta_q_pos. }
    rewrite qinv_unit by exact Hq1. apply qconj_unit. exact Hq1. }
  assert (Ep1 : predicted q1 = v3add tg (v3scale (v3add (v3cross (v3scale e h) tg) (v3cross (v3scale e h) (v3cross (v3scale e h) tg)))
                   (2 / (1 + v3dot (v3scale e h) (v3scale e h))))).
  { unfold predicted, dir. rewrite Hn1, Eq1i. rewrite qrot_small. unfold tg, dir. rewrite Hn0.
    set (k := 2 / (1 + _)). set (n := v3norm grav). clear. clearbody k n. generalize (v3scale e h). intros v. unfold Rdiv in *.
    destruct v, g0. vunf. unfold Rdiv. apply v3_ext; rops; ring. }
  unfold predicted in *. fold g0. fold tg. fold (predicted q1). unfold predicted. rewrite Ep1.
  assert (Hm1 : v3dot m m = 1) by (apply dir_unit; exact Ha).
  assert (Ht1 : v3dot tg tg = 1) by (apply dir_unit; exact Hg0).
  assert (He : v3dot e e = 1 - v3dot m tg * v3dot m tg) by (unfold e; rewrite lagrange, Hm1, Ht1; ring).
  set (c := v3dot m tg) in *.
  assert (Hs : 0 < v3dot e e).
  { pose proof (v3dot_nonneg e) as H0. destruct (Req_dec (v3dot e e) 0) as [H1|H1]; [|lra]. exfalso. apply Hx.
    assert (Hez : e = v3zero). { clear - H1. destruct e as [x y z]. vunf. apply v3_ext; rops; nra. }
    unfold e, m, tg, dir in Hez. rewrite cross_div in Hez.
    pose proof (norm_pos a Ha). pose proof (norm_pos g0 Hg0).
    set (k := v3norm a * v3norm g0) in *. assert (Hk0 : 0 < k) by (unfold k; nra). clearbody k. clear - Hez Hk0.
    destruct (v3cross a g0) as [x y z]. unfold v3div, v3zero in *. rops. injection Hez as A1 A2 A3.
    assert (Hz : forall v, v / k = 0 -> v = 0) by (intros v Hv; replace v with (v / k * k) by (field; lra); rewrite Hv; ring).
    apply v3_ext; rops; apply Hz; assumption. }
  assert (Eh : v3dot (v3scale e h) (v3scale e h) = h * h * v3dot e e) by (clear; destruct e; vring).
  rewrite Eh.
  assert (Ed : v3dot m (v3add tg (v3scale (v3add (v3cross (v3scale e h) tg) (v3cross (v3scale e h) (v3cross (v3scale e h) tg)))
                   (2 / (1 + h * h * v3dot e e)))) = 
               c + (h * v3dot m (v3cross e tg) + h * h * v3dot m (v3cross e (v3cross e tg))) * (2 / (1 + h * h * v3dot e e))).
  { set (k := 2 / _). unfold c. clear. clearbody k. destruct e, tg, m. vring. }
  rewrite Ed. unfold e at 1 2 3. rewrite cross_dot1, cross_dot2. fold e. fold c. rewrite Hm1, Ht1.
  set (S := v3dot e e) in *. 
  assert (Hc : -1 < c < 1) by (clear - He Hs; split; nra).
  assert (Hh : 0 < h <= 1) by (unfold h; lra).
  assert (Hk2 : 0 < 2 / (1 + h * h * S)) by (apply Rdiv_lt_0_compat; nra).
  replace (c * c - 1 * 1) with (- S) by lra.
  assert (H1 : 0 < 1 + h * c) by (clear - Hc Hh; nra).
  assert (H2 : 0 < h * S) by (apply Rmult_lt_0_compat; lra).
  assert (H3 : 0 < h * S * (1 + h * c)) by (apply Rmult_lt_0_compat; lra).
  set (k := 2 / (1 + h * h * S)) in *. clearbody k. clear - H3 Hk2.
  assert (0 < h * S * (1 + h * c) * k) by (apply Rmult_lt_0_compat; lra). lra.
Qed.

(** ** C60 *)
Lemma atan2_pos : forall y x : R, 0 < y -> 0 < Ratan2 y x < PI /\
  cos (Ratan2 y x) * sqrt (x * x + y * y) = x /\ sin (Ratan2 y x) * sqrt (x * x + y * y) = y.
Proof.
  intros y x Hy. unfold Ratan2. pose proof PI_RGT_0 as HPI.
  assert (Hr : 0 < x * x + y * y) by nra.
  assert (Hcs : forall u, cos (atan u) * sqrt (1 + u²) = 1 /\ sin (atan u) * sqrt (1 + u²) = u).
  { intros u. rewrite cos_atan, sin_atan. assert (0 < sqrt (1 + u²)) by (apply sqrt_lt_R0; pose proof (Rle_0_sqr u); lra).
    split; field; lra. }
  assert (Hsq : forall v, v <> 0 -> sqrt (x * x + y * y) = Rabs x * sqrt (1 + v²) -> True) by trivial. clear Hsq.
  assert (Hx : x <> 0 -> sqrt (x * x + y * y) = Rabs x * sqrt (1 + (y / x)²)).
  { intros H. rewrite <- sqrt_Rsqr_abs, <- sqrt_mult_alt by apply Rle_0_sqr. f_equal. unfold Rsqr. field. exact H. }
  destruct (Rlt_dec 0 x) as [H|H]; [|destruct (Rlt_dec x 0) as [H'|H']].
  - rewrite Hx by lra. rewrite (Rabs_right x) by lra. destruct (Hcs (y / x)) as [H1 H2].
    assert (0 < y / x) by (apply Rdiv_lt_0_compat; lra).
    pose proof (atan_bound (y / x)). assert (0 < atan (y / x)) by (rewrite <- atan_0; apply atan_increasing; assumption).
    split; [lra|]. split.
    + transitivity (x * (cos (atan (y / x)) * sqrt (1 + (y / x)²))); [ring|]. rewrite H1. ring.
    + transitivity (x * (sin (atan (y / x)) * sqrt (1 + (y / x)²))); [ring|]. rewrite H2. field. lra.
  - rewrite Hx by lra. rewrite (Rabs_left x) by lra. destruct (Rle_dec 0 y) as [_|]; [|lra]. destruct (Hcs (y / x)) as [H1 H2].
    assert (y / x < 0) by (unfold Rdiv; pose proof (Rinv_lt_0_compat x H'); nra).
    pose proof (atan_bound (y / x)). assert (atan (y / x) < 0) by (rewrite <- atan_0; apply atan_increasing; assumption).
    split; [lra|]. rewrite neg_cos, neg_sin. split.
    + transitivity (x * (cos (atan (y / x)) * sqrt (1 + (y / x)²))); [ring|]. rewrite H1. ring.
    + transitivity (x * (sin (atan (y / x)) * sqrt (1 + (y / x)²))); [ring|]. rewrite H2. field. lra.
  - assert (x = 0) by lra. subst x. destruct (Rlt_dec 0 y) as [_|]; [|lra]. rewrite cos_PI2, sin_PI2.
    replace (0 * 0 + y * y) with (y * y) by ring. rewrite (sqrt_square y) by lra. split; [lra|]. split; ring.
Qed.

Lemma atan_deriv : forall c, derivable_pt_lim atan c (/ (1 + c²)).
Proof. intros c. replace (c²) with (c ^ 2) by (unfold Rsqr; ring). apply derivable_pt_lim_atan. Qed.
(** atan lies below the identity and above x - x^3/3. *)
Lemma atan_lt_id : forall x, 0 < x -> atan x < x.
Proof.
  intros x Hx. destruct (MVT_cor2 atan (fun u => / (1 + u²)) 0 x Hx) as (c & Hc & Hcx).
  - intros c Hc. apply atan_deriv.
  - rewrite atan_0 in Hc. assert (0 < c²) by (unfold Rsqr; nra).
    assert (/ (1 + c²) < 1) by (apply (Rmult_lt_reg_r (1 + c²)); [lra|rewrite Rinv_l; lra]). nra.
Qed.
Lemma atan_gt_cubic : forall x, 0 <= x -> x - x * x * x / 3 <= atan x.
Proof.
  intros x [Hx|<-]; [|rewrite atan_0; lra].
  destruct (MVT_cor2 (fun u => atan u - u + u * u * u * / 3) (fun u => / (1 + u²) - 1 + u * u) 0 x Hx) as (c & Hc & Hcx).
  - intros c Hc. apply (derivable_pt_lim_plus (fun u => atan u - u) (fun u => u * u * u * / 3) c (/ (1 + c²) - 1) (c * c)).
    + apply (derivable_pt_lim_minus atan id); [apply atan_deriv|apply derivable_pt_lim_id].
    + assert (Hd : derivable_pt_lim (fun u => (u * u) * u * / 3) c (((1 * c + c * 1) * c + (c * c) * 1) * / 3)).
      { apply (derivable_pt_lim_scal_right (fun u => (u * u) * u)).
        apply (derivable_pt_lim_mult (fun u => u * u) id); [apply (derivable_pt_lim_mult id id); apply derivable_pt_lim_id|apply derivable_pt_lim_id]. }
      replace (c * c) with (((1 * c + c * 1) * c + (c * c) * 1) * / 3) at 1 by field. exact Hd.
  - rewrite atan_0 in Hc. assert (0 <= / (1 + c²) - 1 + c * c).
    { unfold Rsqr. assert (0 < 1 + c * c) by nra. replace (/ (1 + c * c) - 1 + c * c) with (c * c * (c * c) / (1 + c * c)) by (field; nra).
      apply Rmult_le_pos; [nra|]. apply Rlt_le, Rinv_0_lt_compat. lra. }
    nra.
Qed.

Lemma dot_pos : forall a : v3 R, a <> v3zero -> 0 < v3dot a a.
Proof. intros a H. rewrite <- norm_sq. pose proof (norm_pos a H). nra. Qed.
Lemma lagrange_norm : forall a b : v3 R, sqrt (v3dot a b * v3dot a b + v3norm (v3cross a b) * v3norm (v3cross a b)) = v3norm a * v3norm b.
Proof.
  intros a b. rewrite norm_sq, lagrange. replace (v3dot a b * v3dot a b + (v3dot a a * v3dot b b - v3dot a b * v3dot a b)) with (v3dot a a * v3dot b b) by ring.
  unfold v3norm. cbn [ssqrt ops_R]. rewrite sqrt_mult_alt; [reflexivity|apply v3dot_nonneg].
Qed.

Theorem init_attitude_angle : forall grav a : v3 R, v3cross a grav <> v3zero ->
  let q := att_init_q grav a in
  exists th, 0 < th < PI /\ v3dot a grav = v3norm a * v3norm grav * cos th /\
    let ph := 2 * atan (th / 2) in
    0 < ph < th /\ th - ph <= th * th * th / 12 /\ qunit q /\
    v3dot (qrot q a) grav = v3norm a * v3norm grav * cos (th - ph) /\
    v3dot (qrot q a) (v3cross a grav) = 0.
Proof.
  intros grav a Hx q. pose proof (norm_pos _ Hx) as Hn. set (n := v3norm (v3cross a grav)) in *.
  destruct (atan2_pos n (v3dot a grav) Hn) as (Hth & Hc & Hs). unfold n in Hc, Hs. rewrite lagrange_norm in Hc, Hs. fold n in Hc, Hs.
  set (th := Ratan2 n (v3dot a grav)) in *. exists th. split; [exact Hth|]. split; [lra|]. intros ph.
  assert (Hph : 0 < ph < th).
  { unfold ph. split; [|pose proof (atan_lt_id (th / 2)); lra]. pose proof (atan_increasing 0 (th / 2)). rewrite atan_0 in H. lra. }
  split; [exact Hph|]. split.
  { unfold ph. pose proof (atan_gt_cubic (th / 2) ltac:(lra)). lra. }
  set (u := v3div (v3cross a grav) n). set (v := v3scale u (th / 2)).
  assert (Eq : q = qnormalize (Quat 1 (v3x v) (v3y v) (v3z v))).
  { unfold q, att_init_q. fold n. fold u. change (satan2 n (v3dot a grav)) with th.
    rewrite (qnormalize_of_unit (qnormalize (delta_q (v3scale u th)))) by (apply qnormalize_unit, delta_q_pos). f_equal. unfold v. destruct u. vfield. }
  assert (Hu : qunit q).
  { rewrite Eq. apply qnormalize_unit. clear. destruct v. vunf. nra. }
  split; [exact Hu|]. rewrite Eq, qrot_small.
  assert (Euu : v3dot u u = 1) by (apply dir_unit; exact Hx).
  assert (Evv : v3dot v v = th * th / 4) by (transitivity (v3dot u u * (th * th / 4)); [unfold v; clear; destruct u; vfield|rewrite Euu; ring]).
  rewrite Evv. set (k := 2 / (1 + th * th / 4)).
  assert (Ed : v3dot (v3add a (v3scale (v3add (v3cross v a) (v3cross v (v3cross v a))) k)) grav =
     v3dot a grav + ((th / 2) * v3dot u (v3cross a grav) + (th / 2) * (th / 2) * (v3dot u a * v3dot u grav - v3dot u u * v3dot a grav)) * k).
  { unfold v. clear. clearbody k. destruct u, a, grav. vring. }
  assert (Eua : v3dot u a = 0) by (unfold u; clear - Hn; clearbody n; destruct a, grav; vfield; lra).
  assert (Eun : v3dot u (v3cross a grav) = n).
  { transitivity (v3dot (v3cross a grav) (v3cross a grav) / n); [unfold u; generalize (v3cross a grav); intros []; clear - Hn; vfield; lra|].
    rewrite <- norm_sq. fold n. field. lra. }
  split.
  - rewrite Ed, Eua, Eun, Euu. rewrite cos_minus.
    assert (Hcp : cos ph = (1 - th * th / 4) / (1 + th * th / 4) /\ sin ph = th / (1 + th * th / 4)).
    { unfold ph. rewrite cos_2a_cos, sin_2a, cos_atan, sin_atan. assert (H1 : 0 < 1 + (th / 2)²) by (unfold Rsqr; nra).
      pose proof (sqrt_lt_R0 _ H1) as H2. pose proof (sqrt_sqrt _ (Rlt_le _ _ H1)) as H3. set (s := sqrt _) in *.
      replace (1 + th * th / 4) with (s * s) by (rewrite H3; unfold Rsqr; field).
      replace (1 - th * th / 4) with (2 - s * s) by (rewrite H3; unfold Rsqr; field). split; field; lra. }
    destruct Hcp as [-> ->]. rewrite <- Hs, <- Hc. unfold k. field. nra.
  - assert (Ez : v3dot (v3add a (v3scale (v3add (v3cross v a) (v3cross v (v3cross v a))) k)) (v3cross a grav) = v3dot (v3cross a (v3cross a grav)) v * k + (v3dot v (v3cross a grav) * v3dot v a - v3dot v v * v3dot a (v3cross a grav)) * k + v3dot a (v3cross a grav)).
    { clear. clearbody k. generalize (v3cross a grav). intros w. clearbody v. destruct v, a, w. vring. }
    assert (E1 : v3dot a (v3cross a grav) = 0) by (clear; destruct a, grav; vring).
    assert (E2 : v3dot v a = 0) by (transitivity (v3dot u a * (th / 2)); [unfold v; clear; destruct u, a; vring|rewrite Eua; ring]).
    assert (E3 : v3dot (v3cross a (v3cross a grav)) v = 0).
    { unfold v, u. clear - Hn. clearbody n. destruct a, grav. vfield. lra. }
    rewrite Ez, E1, E2, E3. ring.
Qed.
