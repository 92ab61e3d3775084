(** Proofs for C102: velocity and position of a float run against the exact run. *)
From Coq Require Import ZArith Reals List Bool Lra Lia Psatz.
From Flocq Require Import Core BinarySingleNaN.
From Verif Require Import Fp FpFacts Scalar Base LinAlg MathLib Propagator AttitudeFacts QuatFacts FloatFacts FloatSpec FloatUnitFacts FloatQueueFacts FloatExpr FloatStepSpec FloatStepFacts FloatDriftFacts DriftSpec.
Import ListNotations.
Local Open Scope R_scope.

(** ** The exact step changes little with its initial state *)
Lemma cauchy4_abs : forall a b c d x y z w, Rabs (a * x + b * y + c * z + d * w) <= n4 a b c d * n4 x y z w.
Proof.
  intros. apply Rabs_le. pose proof (cauchy4 a b c d x y z w). pose proof (cauchy4 a b c d (- x) (- y) (- z) (- w)) as H2.
  replace (n4 (- x) (- y) (- z) (- w)) with (n4 x y z w) in H2 by (unfold n4; f_equal; ring). split; lra.
Qed.
Lemma n4_le : forall a b c d k, 0 <= k -> a * a + b * b + c * c + d * d <= k * k -> n4 a b c d <= k.
Proof. intros a b c d k Hk H. destruct (n4_sq a b c d) as [P Q]. apply sq_le_le; [exact Hk|lra]. Qed.
Lemma entry_lip : forall w x y z a b c d D, 0 <= D -> n4 w x y z <= D -> a * a + b * b + c * c + d * d <= 401 / 100 -> Rabs (2 * (w * a + x * b + y * c + z * d)) <= 4006 / 1000 * D.
Proof.
  intros w x y z a b c d D HD Hn Hk. rewrite Rabs_mult, (Rabs_pos_eq 2) by lra. pose proof (cauchy4_abs w x y z a b c d) as C.
  assert (n4 a b c d <= 2003 / 1000) by (apply n4_le; lra). destruct (n4_sq a b c d) as [P _], (n4_sq w x y z) as [P' _].
  assert (n4 w x y z * n4 a b c d <= D * (2003 / 1000)) by (apply Rmult_le_compat; assumption). lra.
Qed.
Lemma row_lip : forall e1 e2 e3 a b c E, Rabs e1 <= E -> Rabs e2 <= E -> Rabs e3 <= E -> Rabs a <= 36 -> Rabs b <= 36 -> Rabs c <= 36 -> Rabs (e1 * a + e2 * b + e3 * c) <= 108 * E.
Proof.
  intros e1 e2 e3 a b c E H1 H2 H3 Ha Hb Hc.
  assert (M : forall e x, Rabs e <= E -> Rabs x <= 36 -> Rabs (e * x) <= 36 * E).
  { intros e x He Hx. rewrite Rabs_mult. pose proof (Rabs_pos e). pose proof (Rabs_pos x). nra. }
  pose proof (M _ _ H1 Ha). pose proof (M _ _ H2 Hb). pose proof (M _ _ H3 Hc).
  eapply Rle_trans; [apply Rabs_triang|]. pose proof (Rabs_triang (e1 * a) (e2 * b)). lra.
Qed.
(** Rotations by near attitudes are near. *)
Lemma rot_lip : forall (p q : quat R) a D, qn p <= 1001 / 1000 -> qn q = 1 -> v3_in 36 a -> qn (qsub p q) <= D -> v3_in (433 * D) (v3sub (S := ops_R) (qrot (S := ops_R) p a) (qrot (S := ops_R) q a)).
Proof.
  intros [w x y z] [w' x' y' z'] [a b c] D Hp Hq (Ha & Hb & Hc) HD. unfold qn, qsub in *. cbn [qw qx qy qz v3x v3y v3z] in *.
  assert (0 <= D) as D0 by (destruct (n4_sq (w - w') (x - x') (y - y') (z - z')); lra).
  destruct (n4_sq w x y z) as [P1 Q1], (n4_sq w' x' y' z') as [P2 Q2]. rewrite Hq in Q2.
  assert (B1 : w * w + x * x + y * y + z * z <= 1003 / 1000) by nra. clear P1 Q1 P2 Hp Hq.
  assert (B2 : w' * w' + x' * x' + y' * y' + z' * z' = 1) by lra. clear Q2.
  assert (S : forall r, 0 <= r * r) by (intros r; apply Rle_0_sqr).
  pose proof (S w). pose proof (S x). pose proof (S y). pose proof (S z). pose proof (S w'). pose proof (S x'). pose proof (S y'). pose proof (S z').
  pose proof (S (w - w')). pose proof (S (x - x')). pose proof (S (y - y')). pose proof (S (z - z')).
  assert (N : forall i j k l, (i * i + j * j + k * k + l * l <= 401 / 100) -> Rabs (2 * ((w - w') * i + (x - x') * j + (y - y') * k + (z - z') * l)) <= 4006 / 1000 * D)
    by (intros i j k l Hk; apply entry_lip; assumption).
  assert (Z : 0 * 0 = 0) by ring.
  assert (F : 108 * (4006 / 1000 * D) <= 433 * D) by lra.
  rewrite !qrot_mat. unfold v3_in, v3sub, m33mulv, qmat, m33row0, m33row1, m33row2, v3dot, s2. cbn [v3x v3y v3z m00 m01 m02 m10 m11 m12 m20 m21 m22 qw qx qy qz].
  cbn [sadd ssub smul s1 ops_R]. split; [|split].
  - eapply Rle_trans; [|exact F].
    match goal with |- Rabs ?e <= _ => replace e with ((2 * ((w - w') * 0 + (x - x') * 0 + (y - y') * (- (y + y')) + (z - z') * (- (z + z')))) * a +
      (2 * ((w - w') * (- z) + (x - x') * y + (y - y') * x' + (z - z') * (- w'))) * b + (2 * ((w - w') * y + (x - x') * z + (y - y') * w' + (z - z') * x')) * c) by ring end.
    apply row_lip; try assumption; apply N; nra.
  - eapply Rle_trans; [|exact F].
    match goal with |- Rabs ?e <= _ => replace e with ((2 * ((w - w') * z + (x - x') * y + (y - y') * x' + (z - z') * w')) * a +
      (2 * ((w - w') * 0 + (x - x') * (- (x + x')) + (y - y') * 0 + (z - z') * (- (z + z')))) * b + (2 * ((w - w') * (- x) + (x - x') * (- w') + (y - y') * z + (z - z') * y')) * c) by ring end.
    apply row_lip; try assumption; apply N; nra.
  - eapply Rle_trans; [|exact F].
    match goal with |- Rabs ?e <= _ => replace e with ((2 * ((w - w') * (- y) + (x - x') * z + (y - y') * (- w') + (z - z') * x')) * a +
      (2 * ((w - w') * x + (x - x') * w' + (y - y') * z + (z - z') * y')) * b + (2 * ((w - w') * 0 + (x - x') * (- (x + x')) + (y - y') * (- (y + y')) + (z - z') * 0)) * c) by ring end.
    apply row_lip; try assumption; apply N; nra.
Qed.

Lemma abs_lin : forall u v h e f, Rabs u <= e -> Rabs v <= f -> Rabs h <= / 64 -> Rabs (u + v * h) <= e + f / 64.
Proof.
  intros u v h e f Hu Hv Hh. eapply Rle_trans; [apply Rabs_triang|]. rewrite Rabs_mult. pose proof (Rabs_pos v). pose proof (Rabs_pos h).
  assert (Rabs v * Rabs h <= f * / 64) by (apply Rmult_le_compat; lra). lra.
Qed.
Lemma abs_half : forall u v e f, Rabs u <= e -> Rabs v <= f -> Rabs ((u + v) * / 2) <= (e + f) / 2.
Proof. intros u v e f Hu Hv. rewrite Rabs_mult, (Rabs_pos_eq (/ 2)) by lra. pose proof (Rabs_triang u v). lra. Qed.

Definition stepR (grav ba bg : v3 R) (m : motion R) (a0 g0 a1 g1 : v3 R) (dt : R) : motion R := fst (fst (nominal_step (S := ops_R) grav ba bg m a0 g0 a1 g1 dt)).
Lemma shalf_R : shalf (T := R) = / 2.
Proof. unfold shalf, s2. cbn [sdiv s1 sadd ops_R]. lra. Qed.
Lemma step_lip : forall grav ba bg (m m' : motion R) a0 g0 a1 g1 dt d ev ep, 0 < qn (mo_q m) -> Rabs (qn (mo_q m) - 1) <= / 1048576 -> qn (mo_q m') = 1 ->
  v3_in 36 (v3sub a0 ba) -> v3_in 36 (v3sub a1 ba) -> Rabs dt <= / 64 -> qn (qsub (mo_q m) (mo_q m')) <= d -> v3_in ev (v3sub (mo_v m) (mo_v m')) -> v3_in ep (v3sub (mo_p m) (mo_p m')) ->
  let r := stepR grav ba bg m a0 g0 a1 g1 dt in let r' := stepR grav ba bg m' a0 g0 a1 g1 dt in
  v3_in (ev + 7 * d + / 16384) (v3sub (mo_v r) (mo_v r')) /\ v3_in (ep + (ev + 7 * d + / 16384) / 64) (v3sub (mo_p r) (mo_p r')).
Proof.
  intros grav ba bg [p v q] [p' v' q'] a0 g0 a1 g1 dt d ev ep Hq0 Hq1 Hq' Ha0 Ha1 Hdt Hd Hv Hp. cbn [mo_q mo_v mo_p] in *.
  unfold stepR, nominal_step. cbn [fst mo_q mo_v mo_p]. cbv zeta.
  set (tv := v3scale (v3sub (v3scale (v3add g0 g1) shalf) bg) dt). pose proof (delta_len tv) as Hl.
  destruct (turn_dist q q' (delta_q tv) Hq0 Hq' Hl) as [T1 T2].
  assert (T3 : qn (qnormalize (S := ops_R) (qmul q (delta_q tv))) = 1).
  { assert (0 < qn (qmul (S := ops_R) q (delta_q tv))) by (rewrite qn_mul; nra).
    destruct (n4_sq (qw (qmul (S := ops_R) q (delta_q tv))) (qx (qmul (S := ops_R) q (delta_q tv))) (qy (qmul (S := ops_R) q (delta_q tv))) (qz (qmul (S := ops_R) q (delta_q tv)))) as [P Q].
    fold (qn (qmul (S := ops_R) q (delta_q tv))) in P, Q. rewrite q_normal_R by (rewrite <- Q; nra). rewrite <- Q. unfold qn at 1. cbn [qw qx qy qz].
    set (n := qn (qmul (S := ops_R) q (delta_q tv))) in *. rewrite sqrt_square by lra. set (e := qmul (S := ops_R) q (delta_q tv)) in *.
    replace (qw e / n) with (/ n * qw e) by (unfold Rdiv; ring). replace (qx e / n) with (/ n * qx e) by (unfold Rdiv; ring). replace (qy e / n) with (/ n * qy e) by (unfold Rdiv; ring).
    replace (qz e / n) with (/ n * qz e) by (unfold Rdiv; ring). rewrite n4_scale by (apply Rlt_le, Rinv_0_lt_compat; lra). fold (qn e). fold n. field. lra. }
  set (s := qnormalize (S := ops_R) (qmul q (delta_q tv))) in *. set (s' := qnormalize (S := ops_R) (qmul q' (delta_q tv))) in *. clearbody s s'. clear Hl.
  apply Rabs_le_inv in Hq1.
  destruct (rot_lip q q' (v3sub a0 ba) d) as (X1 & X2 & X3); [lra|exact Hq'|exact Ha0|exact Hd|].
  destruct (rot_lip s s' (v3sub a1 ba) (d + / 1048576)) as (Y1 & Y2 & Y3); [lra|exact T2|exact Ha1| |].
  { eapply Rle_trans; [exact T1|]. apply Rplus_le_compat; [exact Hd|apply Rabs_le; lra]. }
  clear Ha0 Ha1 T1 T2 T3 Hd. revert X1 X2 X3 Y1 Y2 Y3.
  generalize (qrot (S := ops_R) q (v3sub a0 ba)) (qrot (S := ops_R) q' (v3sub a0 ba)) (qrot (S := ops_R) s (v3sub a1 ba)) (qrot (S := ops_R) s' (v3sub a1 ba)). intros [x1 x2 x3] [x1' x2' x3'] [y1 y2 y3] [y1' y2' y3'].
  destruct grav as [w1 w2 w3], v as [v1 v2 v3], v' as [v1' v2' v3'], p as [p1 p2 p3], p' as [p1' p2' p3']. destruct Hv as (V1 & V2 & V3), Hp as (P1 & P2 & P3).
  unfold v3_in, v3sub, v3add, v3scale in *. cbn [v3x v3y v3z] in *. rewrite !shalf_R. cbn [sadd ssub smul ops_R] in *. intros X1 X2 X3 Y1 Y2 Y3.
  assert (C : forall v v' x x' y y' w p p', Rabs (v - v') <= ev -> Rabs (x - x') <= 433 * d -> Rabs (y - y') <= 433 * (d + / 1048576) -> Rabs (p - p') <= ep ->
    Rabs (v + ((x + y) * / 2 - w) * dt - (v' + ((x' + y') * / 2 - w) * dt)) <= ev + 7 * d + / 16384 /\
    Rabs (p + (v + (v + ((x + y) * / 2 - w) * dt)) * / 2 * dt - (p' + (v' + (v' + ((x' + y') * / 2 - w) * dt)) * / 2 * dt)) <= ep + (ev + 7 * d + / 16384) / 64).
  { clear - Hdt. intros v v' x x' y y' w p p' Hv Hx Hy Hp.
    assert (H1 : Rabs (v + ((x + y) * / 2 - w) * dt - (v' + ((x' + y') * / 2 - w) * dt)) <= ev + (433 * d + 433 * (d + / 1048576)) / 2 / 64).
    { replace (v + ((x + y) * / 2 - w) * dt - (v' + ((x' + y') * / 2 - w) * dt)) with ((v - v') + ((x - x') + (y - y')) * / 2 * dt) by ring.
      apply abs_lin; [exact Hv|apply abs_half; assumption|exact Hdt]. }
    assert (0 <= d) by (pose proof (Rabs_pos (x - x')); lra).
    assert (H2 : ev + (433 * d + 433 * (d + / 1048576)) / 2 / 64 <= ev + 7 * d + / 16384) by lra.
    split; [lra|]. set (V := v + ((x + y) * / 2 - w) * dt) in *. set (V' := v' + ((x' + y') * / 2 - w) * dt) in *. clearbody V V'.
    replace (p + (v + V) * / 2 * dt - (p' + (v' + V') * / 2 * dt)) with ((p - p') + ((v - v') + (V - V')) * / 2 * dt) by ring.
    eapply Rle_trans; [apply abs_lin; [exact Hp|apply abs_half; [exact Hv|exact H1]|exact Hdt]|]. lra. }
  split; (split; [|split]); eapply C; eassumption.
Qed.

(** ** One sample *)
Lemma prop_motion : forall {T} {S : SOps T} grav n (q : pqueue T) it a g t, back (pq_items q) = Ok it ->
  exists it', back (pq_items (pq_propagate grav n q a g t)) = Ok it' /\
    pi_mo it' = fst (fst (nominal_step grav (pq_ba q) (pq_bg q) (pi_mo it) (pi_a it) (pi_g it) a g (step_dt (pi_ts it) t))) /\
    pi_a it' = a /\ pi_g it' = g /\ pi_ts it' = t /\ pq_ba (pq_propagate grav n q a g t) = pq_ba q /\ pq_bg (pq_propagate grav n q a g t) = pq_bg q.
Proof.
  intros T S grav n q it a g t E. unfold pq_propagate. rewrite E. unfold prop_item. destruct (nominal_step _ _ _ _ _ _ _ _ _) as [[m1 ma] mg].
  eexists. cbn [pq_items pq_ba pq_bg]. rewrite back_snoc. split; [reflexivity|]. repeat split.
Qed.
Lemma close_trans : forall a b x r r', close a x r -> Rabs (r - r') <= b -> close (a + b) x r'.
Proof. intros a b x r r' [F H] H'. split; [exact F|]. replace (B2R x - r') with ((B2R x - r) + (r - r')) by ring. eapply Rle_trans; [apply Rabs_triang|lra]. Qed.
Lemma v3_close_trans : forall a b x r r', v3_close a x r -> v3_in b (v3sub (S := ops_R) r r') -> v3_close (a + b) x r'.
Proof. intros a b x [r1 r2 r3] [s1 s2 s3] (H1 & H2 & H3) (K1 & K2 & K3). cbn in K1, K2, K3. split; [|split]; eapply close_trans; eassumption. Qed.
Lemma v3_close_w : forall a b x r, v3_close a x r -> a <= b -> v3_close b x r.
Proof. intros a b x r ([F1 H1] & [F2 H2] & [F3 H3]) H. split; [|split]; (split; [assumption|lra]). Qed.
Lemma close_within : forall e b x r, close e x r -> Rabs r <= b -> f_within (b + e) x.
Proof. intros e b x r [F H] Hr. split; [exact F|]. replace (B2R x) with ((B2R x - r) + r) by ring. eapply Rle_trans; [apply Rabs_triang|lra]. Qed.
Lemma v3_close_within : forall e b c x r, v3_close e x r -> v3_in b r -> b + e <= c -> v3_within c x.
Proof. intros e b c x r (H1 & H2 & H3) (K1 & K2 & K3) H. split; [|split]; (eapply within_w; [eapply close_within; eassumption|exact H]). Qed.
Lemma v3_close_val : forall e x r, v3_close e x r -> v3_in e (v3sub (S := ops_R) (v3_val x) r).
Proof. intros e [x1 x2 x3] [r1 r2 r3] ([F1 H1] & [F2 H2] & [F3 H3]). split; [|split]; assumption. Qed.
Lemma acc_in : forall a b : v3 f32, v3_within 32 a -> v3_within 4 b -> v3_in 36 (v3sub (S := ops_R) (v3_val a) (v3_val b)).
Proof.
  assert (C : forall x y, Rabs x <= 32 -> Rabs y <= 4 -> Rabs (x - y) <= 36) by (intros x y Hx Hy; apply Rabs_le_inv in Hx, Hy; apply Rabs_le; lra).
  intros [a1 a2 a3] [b1 b2 b3] ([_ H1] & [_ H2] & [_ H3]) ([_ K1] & [_ K2] & [_ K3]). split; [|split]; apply C; assumption.
Qed.
Lemma near_unit_qn : forall q, near_unit q -> 0 < qn (q_val q) /\ Rabs (qn (q_val q) - 1) <= / 1048576.
Proof.
  intros q Hq. assert (0 <= q_len2 q /\ Rabs (q_len2 q - 1) <= / 1048576) as [Hl0 Hl] by (split; [unfold q_len2; nra|apply Hq]).
  destruct (sqrt_pos_sq _ Hl0) as [Pl Ql]. change (sqrt (q_len2 q)) with (qn (q_val q)) in *. rewrite <- Ql in Hl. apply Rabs_le_inv in Hl.
  split; [nra|apply Rabs_le; nra].
Qed.

Section Lm.
Variable lm : libm32.
Local Notation S32 := (ops_f32 lm).
Lemma sample_apart : forall grav n n' qf qr itf itr a g t d ev ep vm pm, beside qf qr itf itr -> apart d ev ep itf itr -> v3_within 16 grav ->
  v3_within 32 a -> v3_within 64 g -> within_64th (pi_ts itf) t -> v3_in vm (mo_v (pi_mo itr)) -> v3_in pm (mo_p (pi_mo itr)) -> vm + ev <= 64 -> pm + ep <= 2048 ->
  exists itf' itr', beside (pq_propagate (S := S32) grav n qf a g t) (pq_propagate (S := ops_R) (v3_val grav) n' qr (v3_val a) (v3_val g) t) itf' itr' /\ pi_ts itf' = t /\
    apart (d + / 65536) (ev + / 8192 + 7 * d) (ep + (ev + / 8192 + 7 * d) / 64 + / 4096) itf' itr'.
Proof.
  intros grav n n' qf qr itf itr a g t d ev ep vm pm (Ef & Er & Hs & Ea & Eba & Ebg & Wba & Wbg & Hu & Wa & Wg) (Hd & Hv & Hp) Wgr Wa1 Wg1 Ht Iv Ip Lv Lp.
  destruct (sample_drift lm grav (v3_val grav) n n' qf qr itf itr a g t d Ef Er Hs Hu Ebg Wbg Wg Wg1 Ht Hd) as (f & r & F1 & F2 & F3 & F4 & F5 & F6 & F7 & F8). cbv zeta in *.
  destruct (prop_motion (S := S32) grav n qf itf a g t Ef) as (f' & P1 & P2 & P3 & P4 & P5 & P6 & P7).
  destruct (prop_motion (S := ops_R) (v3_val grav) n' qr itr (v3_val a) (v3_val g) t Er) as (r' & R1 & R2 & R3 & R4 & R5 & R6 & R7).
  assert (f' = f) by (cut (Ok f' = Ok f); [intros [= HH]; exact HH|rewrite <- P1; exact F1]). assert (r' = r) by (cut (Ok r' = Ok r); [intros [= HH]; exact HH|rewrite <- R1; exact F2]). subst f' r'. exists f, r.
  split; [|split; [exact P5|]].
  { unfold beside. split; [exact F1|]. split; [exact F2|]. split; [exact F3|]. split; [rewrite P3; exact R3|]. split; [rewrite R6, P6; exact Eba|].
    split; [exact F5|]. split; [rewrite P6; exact Wba|]. split; [rewrite P7; exact Wbg|]. split; [exact F4|]. rewrite P3, P4. split; assumption. }
  unfold apart. split; [exact F8|]. destruct Hs as (S1 & S2 & S3). apply qn_unit in S3. destruct (near_unit_qn _ Hu) as [U1 U2].
  assert (0 <= d) as D0 by (eapply Rle_trans; [apply sqrt_pos|exact Hd]).
  pose proof (dt_64th lm _ _ Ht) as Hdt.
  destruct (step_near lm grav (pq_ba qf) (pq_bg qf) (pi_mo itf) (pi_a itf) (pi_g itf) a g (step_dt (S := S32) (pi_ts itf) t)) as (_ & N2 & N3).
  { unfold step_range. repeat (split; [first [eassumption|eapply v3_close_within; eassumption]|]). eapply v3_close_within; eassumption. }
  { exact Hdt. }
  cbv zeta in *. rewrite P2, R2.
  assert (step_dt (S := ops_R) (pi_ts itr) t = B2R (step_dt (S := S32) (pi_ts itf) t)) as -> by (rewrite S2; reflexivity).
  rewrite S1, Ea, Eba, Ebg.
  destruct (step_lip (v3_val grav) (v3_val (pq_ba qf)) (v3_val (pq_bg qf)) (mo_val (pi_mo itf)) (pi_mo itr) (v3_val (pi_a itf)) (v3_val (pi_g itf)) (v3_val a) (v3_val g)
    (B2R (step_dt (S := S32) (pi_ts itf) t)) d ev ep U1 U2 S3) as [L1 L2].
  { apply acc_in; assumption. } { apply acc_in; assumption. } { apply Hdt. } { exact Hd. } { apply v3_close_val. exact Hv. } { apply v3_close_val. exact Hp. }
  split; (eapply v3_close_w; [eapply v3_close_trans; [eassumption|eassumption]|lra]).
Qed.

(** ** Runs *)
Lemma v_bound_step : forall d ev n, 0 <= d -> v_bound (d + / 65536) (ev + / 8192 + 7 * d) n <= v_bound d ev (Datatypes.S n).
Proof. intros d ev n H. unfold v_bound. rewrite S_INR. pose proof (pos_INR n). nra. Qed.
Lemma v_bound_first : forall d ev n, 0 <= d -> ev + / 8192 + 7 * d <= v_bound d ev (Datatypes.S n).
Proof. intros d ev n H. unfold v_bound. rewrite S_INR. pose proof (pos_INR n). nra. Qed.
Lemma p_bound_step : forall d ev ep n, 0 <= d -> p_bound (d + / 65536) (ev + / 8192 + 7 * d) (ep + (ev + / 8192 + 7 * d) / 64 + / 4096) n <= p_bound d ev ep (Datatypes.S n).
Proof.
  intros d ev ep n H. unfold p_bound. pose proof (v_bound_step d ev n H) as V1. pose proof (v_bound_first d ev n H) as V2. rewrite S_INR. pose proof (pos_INR n).
  set (x := v_bound _ _ n) in *. set (y := v_bound _ _ (Datatypes.S n)) in *. set (z := ev + _ + _) in *. clearbody x y z. nra.
Qed.
Lemma bounds_start : forall d ev ep n, 0 <= d -> 0 <= ev -> ev <= v_bound d ev n /\ ep <= p_bound d ev ep n.
Proof.
  intros d ev ep n H H'. pose proof (pos_INR n). assert (ev <= v_bound d ev n) as V.
  { unfold v_bound. assert (0 <= INR n * (d + INR n / 65536)) by (apply Rmult_le_pos; lra). lra. }
  split; [exact V|]. unfold p_bound. assert (0 <= INR n * (v_bound d ev n / 64 + / 4096)) by (apply Rmult_le_pos; lra). lra.
Qed.
Theorem apart_run : forall grav n n' vm pm l qf qr itf itr d ev ep, v3_within 16 grav -> beside qf qr itf itr -> apart d ev ep itf itr -> steady (pi_ts itf) l ->
  cruises vm pm (v3_val grav) n' qr l -> vm + v_bound d ev (length l) <= 64 -> pm + p_bound d ev ep (length l) <= 2048 ->
  exists itf' itr', back (pq_items (feed S32 grav n qf l)) = Ok itf' /\ back (pq_items (feed_exact (v3_val grav) n' qr l)) = Ok itr' /\
    apart (d + INR (length l) / 65536) (v_bound d ev (length l)) (p_bound d ev ep (length l)) itf' itr'.
Proof.
  intros grav n n' vm pm. induction l as [|[[a g] t] r IH]; intros qf qr itf itr d ev ep Wgr Hb Ha Hst Hc Lv Lp.
  - exists itf, itr. split; [apply Hb|]. split; [apply Hb|]. destruct Ha as (H1 & H2 & H3). unfold v_bound, p_bound. cbn [length INR] in *.
    split; [lra|]. split; (eapply v3_close_w; [eassumption|lra]).
  - cbn [steady] in Hst. destruct Hst as (Wa & Wg & Ht & Hst). cbn [cruises fst snd] in Hc. pose proof Hb as (_ & Er & _). rewrite Er in Hc. destruct Hc as (Iv & Ip & Hc).
    pose proof Ha as (Hd & ([_ Hv] & _) & _). assert (0 <= d) as D0 by (eapply Rle_trans; [apply sqrt_pos|exact Hd]).
    assert (0 <= ev) as E0 by (eapply Rle_trans; [apply Rabs_pos|exact Hv]).
    cbn [length] in *. destruct (bounds_start d ev ep (Datatypes.S (length r)) D0 E0) as [B1 B2].
    destruct (sample_apart grav n n' qf qr itf itr a g t d ev ep vm pm Hb Ha Wgr Wa Wg Ht Iv Ip) as (f & s & H1 & H2 & H3); [lra|lra|].
    pose proof (v_bound_step d ev (length r) D0) as V. pose proof (p_bound_step d ev ep (length r) D0) as P.
    destruct (IH _ _ f s _ _ _ Wgr H1 H3) as (f' & s' & J1 & J2 & (K1 & K2 & K3)); [rewrite H2; exact Hst|exact Hc|lra|lra|].
    exists f', s'. split; [exact J1|]. split; [exact J2|]. split; [rewrite S_INR; lra|]. split; (eapply v3_close_w; eassumption).
Qed.
End Lm.
