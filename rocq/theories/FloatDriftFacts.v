(** The drift of the float attitude (C98). *)
From Coq Require Import ZArith Reals List Bool Lra Lia Psatz.
From Flocq Require Import Core BinarySingleNaN.
From Verif Require Import Fp FpFacts InterpFacts NarrowFacts Scalar Base LinAlg MathLib Propagator AttitudeFacts FloatFacts FloatSpec FloatUnitFacts FloatQueueFacts FloatExpr FloatStepSpec FloatStepFacts.
Import ListNotations.
Local Open Scope R_scope.

(** ** Distances of vectors of four numbers *)
Definition n4 (a b c d : R) : R := sqrt (a * a + b * b + c * c + d * d).
Lemma n4_sq : forall a b c d, 0 <= n4 a b c d /\ n4 a b c d * n4 a b c d = a * a + b * b + c * c + d * d.
Proof. intros. unfold n4. apply sqrt_pos_sq. nra. Qed.
Lemma cauchy4 : forall a b c d x y z w, a * x + b * y + c * z + d * w <= n4 a b c d * n4 x y z w.
Proof.
  intros. destruct (n4_sq a b c d) as [P1 Q1], (n4_sq x y z w) as [P2 Q2]. apply sq_le_le; [nra|].
  replace (n4 a b c d * n4 x y z w * (n4 a b c d * n4 x y z w)) with ((n4 a b c d * n4 a b c d) * (n4 x y z w * n4 x y z w)) by ring. rewrite Q1, Q2.
  pose proof (Rle_0_sqr (a * y - b * x)). pose proof (Rle_0_sqr (a * z - c * x)). pose proof (Rle_0_sqr (a * w - d * x)).
  pose proof (Rle_0_sqr (b * z - c * y)). pose proof (Rle_0_sqr (b * w - d * y)). pose proof (Rle_0_sqr (c * w - d * z)). unfold Rsqr in *. lra.
Qed.
Lemma tri4 : forall a b c d x y z w, n4 (a + x) (b + y) (c + z) (d + w) <= n4 a b c d + n4 x y z w.
Proof.
  intros. destruct (n4_sq a b c d) as [P1 Q1], (n4_sq x y z w) as [P2 Q2], (n4_sq (a + x) (b + y) (c + z) (d + w)) as [P3 Q3].
  apply sq_le_le; [lra|]. rewrite Q3. pose proof (cauchy4 a b c d x y z w). lra.
Qed.
Lemma n4_small : forall a b c d e, 0 <= e -> Rabs a <= e -> Rabs b <= e -> Rabs c <= e -> Rabs d <= e -> n4 a b c d <= 2 * e.
Proof.
  intros a b c d e He Ha Hb Hc Hd. destruct (n4_sq a b c d) as [P Q]. apply sq_le_le; [lra|]. rewrite Q.
  assert (forall x, Rabs x <= e -> x * x <= e * e) as S by (intros x Hx; apply Rabs_le_inv in Hx; nra). pose proof (S _ Ha). pose proof (S _ Hb). pose proof (S _ Hc). pose proof (S _ Hd). lra.
Qed.
Lemma n4_scale : forall k a b c d, 0 <= k -> n4 (k * a) (k * b) (k * c) (k * d) = k * n4 a b c d.
Proof.
  intros k a b c d Hk. unfold n4. replace (k * a * (k * a) + k * b * (k * b) + k * c * (k * c) + k * d * (k * d)) with (k * k * (a * a + b * b + c * c + d * d)) by ring.
  rewrite sqrt_mult by nra. rewrite sqrt_square by exact Hk. reflexivity.
Qed.
Definition qsub (x y : quat R) : quat R := Quat (qw x - qw y) (qx x - qx y) (qy x - qy y) (qz x - qz y).
Definition qn (x : quat R) : R := n4 (qw x) (qx x) (qy x) (qz x).
Lemma qn_mul : forall x d, qn (qmul (S := ops_R) x d) = qn x * qn d.
Proof.
  intros [a b c e] [w x y z]. unfold qn, qmul, n4. cbn [qw qx qy qz]. cbn [sadd ssub smul ops_R]. rewrite <- sqrt_mult by nra. f_equal. ring.
Qed.

(** Turning two attitudes by the same rotation keeps their distance, up to the length of the first. *)
Lemma turn_dist : forall x y d : quat R, 0 < qn x -> qn y = 1 -> 1 <= qn d ->
  qn (qsub (qnormalize (S := ops_R) (qmul (S := ops_R) x d)) (qnormalize (S := ops_R) (qmul (S := ops_R) y d))) <= qn (qsub x y) + Rabs (qn x - 1) /\
  qn (qnormalize (S := ops_R) (qmul (S := ops_R) y d)) = 1.
Proof.
  intros x y d Hx Hy Hd.
  assert (forall p : quat R, 0 < qn p -> qnormalize (S := ops_R) p = Quat (/ qn p * qw p) (/ qn p * qx p) (/ qn p * qy p) (/ qn p * qz p)) as N.
  { intros p Hp. destruct (n4_sq (qw p) (qx p) (qy p) (qz p)) as [P Q]. fold (qn p) in P, Q. rewrite q_normal_R by nra. change (sqrt (qw p * qw p + qx p * qx p + qy p * qy p + qz p * qz p)) with (qn p).
    f_equal; unfold Rdiv; ring. }
  rewrite !N by (rewrite qn_mul; nra). rewrite !qn_mul, Hy, Rmult_1_l. split.
  - apply Rle_trans with (qn (qsub (Quat (/ qn x * qw x) (/ qn x * qx x) (/ qn x * qy x) (/ qn x * qz x)) y)).
    + apply Req_le. transitivity (/ qn d * qn (qmul (S := ops_R) (qsub (Quat (/ qn x * qw x) (/ qn x * qx x) (/ qn x * qy x) (/ qn x * qz x)) y) d)).
      * clear N Hy. revert Hx Hd. generalize (qn x) (qn d). intros X D Hx Hd. unfold qn. rewrite <- n4_scale by (apply Rlt_le, Rinv_0_lt_compat; lra). unfold qsub, qmul. cbn [qw qx qy qz]. cbn [sadd ssub smul ops_R].
        f_equal; field; lra.
      * rewrite qn_mul. field. lra.
    + unfold qsub. cbn [qw qx qy qz]. unfold qn at 1. cbn [qw qx qy qz].
      replace (/ qn x * qw x - qw y) with ((qw x - qw y) + (/ qn x - 1) * qw x) by ring. replace (/ qn x * qx x - qx y) with ((qx x - qx y) + (/ qn x - 1) * qx x) by ring.
      replace (/ qn x * qy x - qy y) with ((qy x - qy y) + (/ qn x - 1) * qy x) by ring. replace (/ qn x * qz x - qz y) with ((qz x - qz y) + (/ qn x - 1) * qz x) by ring.
      eapply Rle_trans; [apply tri4|]. apply Rplus_le_compat; [apply Rle_refl|].
      apply Rle_trans with (Rabs (/ qn x - 1) * qn x).
      * destruct (n4_sq ((/ qn x - 1) * qw x) ((/ qn x - 1) * qx x) ((/ qn x - 1) * qy x) ((/ qn x - 1) * qz x)) as [P Q]. destruct (n4_sq (qw x) (qx x) (qy x) (qz x)) as [P2 Q2]. fold (qn x) in P2, Q2.
        apply sq_le_le; [apply Rmult_le_pos; [apply Rabs_pos|lra]|]. rewrite Q.
        replace (Rabs (/ qn x - 1) * qn x * (Rabs (/ qn x - 1) * qn x)) with ((Rabs (/ qn x - 1) * Rabs (/ qn x - 1)) * (qn x * qn x)) by ring.
        rewrite <- Rabs_mult, Rabs_pos_eq by (apply Rle_0_sqr). rewrite Q2. apply Req_le. ring.
      * apply Req_le. rewrite <- (Rabs_pos_eq (qn x)) at 2 by lra. rewrite <- Rabs_mult, <- (Rabs_Ropp (qn x - 1)). f_equal. field. lra.
  - unfold qn at 1. cbn [qw qx qy qz]. rewrite n4_scale by (apply Rlt_le, Rinv_0_lt_compat; lra).
    change (n4 (qw (qmul (S := ops_R) y d)) (qx (qmul (S := ops_R) y d)) (qy (qmul (S := ops_R) y d)) (qz (qmul (S := ops_R) y d))) with (qn (qmul (S := ops_R) y d)). rewrite qn_mul, Hy. field. lra.
Qed.

Lemma dist_tri : forall (f : quat f32) (s r : quat R),
  sqrt (q_dist2 f r) <= n4 (B2R (qw f) - qw s) (B2R (qx f) - qx s) (B2R (qy f) - qy s) (B2R (qz f) - qz s) + qn (qsub s r).
Proof.
  intros f s r. change (sqrt (q_dist2 f r)) with (n4 (B2R (qw f) - qw r) (B2R (qx f) - qx r) (B2R (qy f) - qy r) (B2R (qz f) - qz r)).
  replace (B2R (qw f) - qw r) with ((B2R (qw f) - qw s) + (qw s - qw r)) by ring. replace (B2R (qx f) - qx r) with ((B2R (qx f) - qx s) + (qx s - qx r)) by ring.
  replace (B2R (qy f) - qy r) with ((B2R (qy f) - qy s) + (qy s - qy r)) by ring. replace (B2R (qz f) - qz r) with ((B2R (qz f) - qz s) + (qz s - qz r)) by ring.
  apply tri4.
Qed.

Section Lm.
Variable lm : libm32.
#[local] Instance S32 : SOps f32 := ops_f32 lm.

Lemma delta_len : forall v : v3 R, 1 <= qn (delta_q (S := ops_R) v).
Proof.
  intros [x y z]. destruct (n4_sq (qw (delta_q (S := ops_R) (V3 x y z))) (qx (delta_q (S := ops_R) (V3 x y z))) (qy (delta_q (S := ops_R) (V3 x y z))) (qz (delta_q (S := ops_R) (V3 x y z)))) as [P Q].
  fold (qn (delta_q (S := ops_R) (V3 x y z))) in P, Q. apply sq_le_le; [exact P|]. rewrite Q. unfold delta_q, v3div. cbn [qw qx qy qz v3x v3y v3z]. cbn [s1 sdiv ops_R].
  set (a := x / s2). set (b := y / s2). set (c := z / s2). clearbody a b c. nra.
Qed.
Lemma turn_drift : forall q (y : quat R) g0 g1 bg dt, near_unit q -> qn y = 1 -> v3_within 64 g0 -> v3_within 64 g1 -> v3_within 64 bg -> f_within (/ 64) dt ->
  let f := qnormalize (turn_f lm q g0 g1 bg dt) in let r := qnormalize (S := ops_R) (turn_r y (v3_val g0) (v3_val g1) (v3_val bg) (B2R dt)) in
  sqrt (q_dist2 f r) <= sqrt (q_dist2 q y) + / 65536 /\ qn r = 1.
Proof.
  intros q y g0 g1 bg dt Hq Hy H0 H1 Hb Hd f r. assert (q_close (91 * uf) f (qnormalize (S := ops_R) (turn_r (q_val q) (v3_val g0) (v3_val g1) (v3_val bg) (B2R dt)))) as (K0 & K1 & K2 & K3)
    by exact (proj1 (att_near lm q g0 g1 bg dt Hq H0 H1 Hb Hd)).
  assert (0 <= q_len2 q /\ Rabs (q_len2 q - 1) <= / 1048576) as [Hl0 Hl] by (split; [unfold q_len2; nra|apply Hq]).
  destruct (sqrt_pos_sq _ Hl0) as [Pl Ql]. change (sqrt (q_len2 q)) with (qn (q_val q)) in *. rewrite <- Ql in Hl. apply Rabs_le_inv in Hl.
  assert (0 < qn (q_val q)) as Hx by nra.
  destruct (turn_dist (q_val q) y _ Hx Hy (delta_len (v3scale (v3sub (v3scale (v3add (v3_val g0) (v3_val g1)) shalf) (v3_val bg)) (B2R dt)))) as [T1 T2].
  split; [|exact T2]. fold (turn_r (q_val q) (v3_val g0) (v3_val g1) (v3_val bg) (B2R dt)) in T1. fold (turn_r y (v3_val g0) (v3_val g1) (v3_val bg) (B2R dt)) in T1. fold r in T1.
  cbv zeta in *. set (s := qnormalize (S := ops_R) (turn_r (q_val q) (v3_val g0) (v3_val g1) (v3_val bg) (B2R dt))) in *.
  assert (Rabs (qn (q_val q) - 1) <= / 1048576) as Hn by (apply Rabs_le; nra).
  change (sqrt (q_dist2 q y)) with (qn (qsub (q_val q) y)).
  eapply Rle_trans; [apply (dist_tri f s r)|]. clearbody f s r.
  assert (n4 (B2R (qw f) - qw s) (B2R (qx f) - qx s) (B2R (qy f) - qy s) (B2R (qz f) - qz s) <= 2 * (91 * uf)) as A1.
  { apply n4_small; [unfold uf; lra| | | |]; [apply K0|apply K1|apply K2|apply K3]. }
  unfold uf in A1. lra.
Qed.

(** ** Time steps *)
Lemma dt_64th : forall t0 t1, within_64th t0 t1 -> f_within (/ 64) (step_dt (T := f32) t0 t1).
Proof.
  intros t0 t1 (F0 & F1 & H). unfold step_dt. cbn [sof32 S32 ops_f32].
  assert (Rabs (rnd64 (B2R t1 - B2R t0)) <= / 64) as Hr.
  { apply abs_round_le_generic; [exact (fexp_correct prec64 emax64 prec64_gt_0)|auto with typeclass_instances| |exact H].
    change (/ 64) with (bpow radix2 (-6)). apply generic_format_bpow. vm_compute. discriminate. }
  pose proof (Bminus_correct prec64 emax64 _ _ mode_NE t1 t0 F1 F0) as C. fold (rnd64 (B2R t1 - B2R t0)) in C.
  rewrite Rlt_bool_true in C; [|eapply Rle_lt_trans; [exact Hr|]; apply Rlt_trans with 1; [lra|apply bpow_gt1; reflexivity]].
  destruct C as (V & F & _). fold (f64_sub t1 t0) in V, F.
  assert (Rabs (r32 (rnd64 (B2R t1 - B2R t0))) <= / 64) as B by (apply (r32_pow (-6)); [reflexivity|lia|exact Hr]).
  destruct (narrow_fin _ F) as [(N1 & N2 & _)|[[_ N]|[_ N]]].
  - split; [exact N1|]. rewrite N2, V. exact B.
  - exfalso. rewrite V in N. apply Rabs_le_inv in B. rewrite big32_eq in N. pose proof (bpow_gt1 emax32 eq_refl). lra.
  - exfalso. rewrite V in N. apply Rabs_le_inv in B. rewrite big32_eq in N. pose proof (bpow_gt1 emax32 eq_refl). lra.
Qed.

(** ** Runs *)
Lemma qn_unit : forall q : quat R, qw q * qw q + qx q * qx q + qy q * qy q + qz q * qz q = 1 <-> qn q = 1.
Proof.
  intros q. destruct (n4_sq (qw q) (qx q) (qy q) (qz q)) as [P Q]. fold (qn q) in P, Q. split; intros H.
  - rewrite H in Q. nra.
  - rewrite H in Q. lra.
Qed.
Lemma sample_drift : forall grav grav' n n' qf qr itf itr a g t d, back (pq_items qf) = Ok itf -> back (pq_items qr) = Ok itr -> same_sample itf itr -> near_unit (item_att itf) ->
  pq_bg qr = v3_val (pq_bg qf) -> v3_within 64 (pq_bg qf) -> v3_within 64 (pi_g itf) -> v3_within 64 g -> within_64th (pi_ts itf) t ->
  sqrt (q_dist2 (item_att itf) (mo_q (pi_mo itr))) <= d ->
  exists itf' itr', let qf' := pq_propagate grav n qf a g t in let qr' := pq_propagate (S := ops_R) grav' n' qr (v3_val a) (v3_val g) t in
    back (pq_items qf') = Ok itf' /\ back (pq_items qr') = Ok itr' /\ same_sample itf' itr' /\ near_unit (item_att itf') /\ pq_bg qr' = v3_val (pq_bg qf') /\ pq_bg qf' = pq_bg qf /\
    item_rate itf' = (g, t) /\ sqrt (q_dist2 (item_att itf') (mo_q (pi_mo itr'))) <= d + / 65536.
Proof.
  intros grav grav' n n' qf qr itf itr a g t d Ef Er (S1 & S2 & S3) Hu Eb Hb Hg0 Hg Ht Hd. unfold pq_propagate. rewrite Ef, Er. unfold prop_item, nominal_step.
  eexists. eexists. cbv zeta. cbn [pq_items pq_bg]. rewrite !back_snoc. split; [reflexivity|]. split; [reflexivity|].
  pose proof (dt_64th _ _ Ht) as Hdt.
  assert (Hstep : step_dt (S := ops_R) (pi_ts itr) t = B2R (step_dt (T := f32) (pi_ts itf) t)) by (rewrite S2; reflexivity).
  destruct (turn_drift (item_att itf) (mo_q (pi_mo itr)) (pi_g itf) g (pq_bg qf) (step_dt (T := f32) (pi_ts itf) t) Hu (proj1 (qn_unit _) S3) Hg0 Hg Hb Hdt) as [D1 D2]. cbv zeta in D1, D2.
  unfold same_sample. cbn [pi_g pi_ts pi_mo mo_q]. rewrite Hstep, S1, Eb.
  fold (turn_r (mo_q (pi_mo itr)) (v3_val (pi_g itf)) (v3_val g) (v3_val (pq_bg qf)) (B2R (step_dt (T := f32) (pi_ts itf) t))).
  split; [split; [reflexivity|split; [reflexivity|apply qn_unit; exact D2]]|].
  assert (forall b x, v3_within b x -> b <= 1024 -> v3_within 1024 x) as W by (intros b x (W1 & W2 & W3) Wb; split; [|split]; (eapply within_w; [eassumption|exact Wb])).
  split; [|split; [reflexivity|split; [reflexivity|split; [reflexivity|]]]].
  - refine (step_unit lm grav (pq_ba qf) (pq_bg qf) (pi_mo itf) (pi_a itf) (pi_g itf) a g (step_dt (T := f32) (pi_ts itf) t) Hu _ _ _ _); try (eapply W; [eassumption|lra]). eapply within_w; [exact Hdt|lra].
  - eapply Rle_trans; [exact D1|]. lra.
Qed.

Theorem drift : forall grav grav' n n' l qf qr itf itr d, back (pq_items qf) = Ok itf -> back (pq_items qr) = Ok itr -> same_sample itf itr -> near_unit (item_att itf) ->
  pq_bg qr = v3_val (pq_bg qf) -> v3_within 64 (pq_bg qf) -> brisk (item_rate itf :: map (fun s => (snd (fst s), snd s)) l) ->
  sqrt (q_dist2 (item_att itf) (mo_q (pi_mo itr))) <= d ->
  exists itf' itr', back (pq_items (feed S32 grav n qf l)) = Ok itf' /\ back (pq_items (feed_exact grav' n' qr l)) = Ok itr' /\
    sqrt (q_dist2 (item_att itf') (mo_q (pi_mo itr'))) <= d + INR (length l) / 65536.
Proof.
  intros grav grav' n n'. induction l as [|[[a g] t] r IH]; intros qf qr itf itr d Ef Er Hs Hu Eb Hb Hk Hd.
  - exists itf, itr. split; [exact Ef|]. split; [exact Er|]. cbn [length INR]. lra.
  - cbn [map fst snd] in Hk. destruct itf as [mo cv ec ai gi ti] eqn:Eit. rewrite <- Eit in *. unfold item_rate in Hk. destruct Hk as (Hg0 & Ht & Hk2).
    pose proof Hk2 as (Hg & _ & _).
    destruct (sample_drift grav grav' n n' qf qr itf itr a g t d Ef Er Hs Hu Eb Hb Hg0 Hg Ht Hd) as (f' & r' & H1 & H2 & H3 & H4 & H5 & H6 & H7 & H8).
    destruct (IH _ _ f' r' (d + / 65536) H1 H2 H3 H4 H5) as (f'' & r'' & J1 & J2 & J3).
    + rewrite H6. exact Hb.
    + rewrite H7. exact Hk2.
    + exact H8.
    + exists f'', r''. split; [exact J1|]. split; [exact J2|]. eapply Rle_trans; [exact J3|]. change (length ((a, g, t) :: r)) with (Datatypes.S (length r)). rewrite S_INR. lra.
Qed.
End Lm.
