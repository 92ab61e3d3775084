(** The float step against the exact step (C98). *)
From Coq Require Import ZArith QArith Reals Qreals List Bool Lra Lia Psatz.
From Flocq Require Import Core BinarySingleNaN.
From Verif Require Import Fp FpFacts NarrowFacts Scalar Base LinAlg MathLib Propagator FloatFacts FloatSpec FloatUnitFacts FloatExpr FloatStepSpec.
Import ListNotations.
Local Open Scope R_scope.

(** ** Normalization *)
Lemma sq_le_le : forall a b, 0 <= b -> a * a <= b * b -> a <= b.
Proof. intros a b Hb H. destruct (Rle_or_lt a b) as [L|L]; [exact L|]. nra. Qed.
Lemma sqrt_pos_sq : forall x, 0 <= x -> 0 <= sqrt x /\ sqrt x * sqrt x = x.
Proof. intros x H. split; [apply sqrt_pos|apply sqrt_sqrt; exact H]. Qed.

(** Lengths of near vectors are near. *)
Lemma len_near : forall a b c d a' b' c' d' e, 0 <= e -> Rabs (a' - a) <= e -> Rabs (b' - b) <= e -> Rabs (c' - c) <= e -> Rabs (d' - d) <= e ->
  sqrt (a' * a' + b' * b' + c' * c' + d' * d') <= sqrt (a * a + b * b + c * c + d * d) + 2 * e.
Proof.
  intros a b c d a' b' c' d' e He Ha Hb Hc Hd.
  destruct (sqrt_pos_sq (a * a + b * b + c * c + d * d)) as [P1 Q1]; [nra|]. destruct (sqrt_pos_sq (a' * a' + b' * b' + c' * c' + d' * d')) as [P2 Q2]; [nra|].
  set (n := sqrt (a * a + b * b + c * c + d * d)) in *. set (n' := sqrt (a' * a' + b' * b' + c' * c' + d' * d')) in *. clearbody n n'.
  apply sq_le_le; [lra|]. rewrite Q2.
  assert (forall x y, Rabs (y - x) <= e -> y * y <= x * x + 2 * e * Rabs x + e * e) as S.
  { intros x y H. apply Rle_trans with (Rabs y * Rabs y); [rewrite <- Rabs_mult; apply Rle_abs|].
    assert (Rabs y <= Rabs x + e) as H1 by (replace y with (x + (y - x)) by ring; eapply Rle_trans; [apply Rabs_triang|lra]).
    assert (x * x = Rabs x * Rabs x) as -> by (rewrite <- Rabs_mult, Rabs_pos_eq by nra; ring). pose proof (Rabs_pos x). pose proof (Rabs_pos y). nra. }
  pose proof (S _ _ Ha) as Sa. pose proof (S _ _ Hb) as Sb. pose proof (S _ _ Hc) as Sc. pose proof (S _ _ Hd) as Sd.
  assert (Rabs a + Rabs b + Rabs c + Rabs d <= 2 * n) as C.
  { assert (forall x, x * x = Rabs x * Rabs x) as E by (intros x; rewrite <- Rabs_mult, Rabs_pos_eq by nra; ring).
    rewrite (E a), (E b), (E c), (E d) in Q1. clear - P1 Q1. revert Q1. generalize (Rabs a) (Rabs b) (Rabs c) (Rabs d). intros x y z w Q. apply sq_le_le; [lra|].
    pose proof (Rle_0_sqr (x - y)). pose proof (Rle_0_sqr (x - z)). pose proof (Rle_0_sqr (x - w)). pose proof (Rle_0_sqr (y - z)). pose proof (Rle_0_sqr (y - w)). pose proof (Rle_0_sqr (z - w)).
    unfold Rsqr in *. nra. }
  nra.
Qed.

Section Lm.
Variable lm : libm32.
#[local] Instance S32 : SOps f32 := ops_f32 lm.

Lemma norm_len : forall q, comps_within 1048576 q -> / 4 <= q_len2 q ->
  exists s, (forall c, fin c -> Rabs (B2R c) <= sqrt (q_len2 q) -> ap (f32_div c s) (B2R c / sqrt (q_len2 q)) (4 * uf)) /\ qnormalize q = qdivs q s.
Proof.
  intros q Hc HS. assert (fin (qnorm2 q) /\ Rabs (B2R (qnorm2 q) - q_len2 q) <= 31 / 10 * uf * q_len2 q) as [Fz Ez] by exact (norm2_rel lm q Hc HS). unfold qnormalize.
  set (z := qnorm2 q) in *. set (A := q_len2 q) in *. clearbody z A.
  assert (0 < uf) as Hu by (unfold uf; lra). assert (0 < ef) as Hef by (unfold ef; lra).
  assert (A * (1 - 31 / 10 * uf) <= B2R z <= A * (1 + 31 / 10 * uf)) as Hz by (apply Rabs_le_inv in Ez; lra).
  assert (0 < B2R z) as Hz0 by (unfold uf in Hz; nra).
  replace (sltb s0 z) with true; [|symmetry; cbn; unfold f32_ltb; rewrite Bltb_correct; [apply Rlt_bool_true; exact Hz0|reflexivity|exact Fz]].
  destruct (sqrt_val z Fz Hz0) as [Fs Vs]. change (ssqrt z) with (f32_sqrt z). exists (f32_sqrt z). split; [|reflexivity]. set (s := f32_sqrt z) in *. clearbody s.
  destruct (sqrt_pos_sq (B2R z)) as [Pt Qt]; [lra|]. destruct (sqrt_pos_sq A) as [Pa Qa]; [lra|].
  set (t := sqrt (B2R z)) in *. set (al := sqrt A) in *. clearbody t al.
  assert (/ 2 <= al) as Ha0 by (apply sq_le_le; lra). assert (2 / 5 <= t) as Ht0 by (apply sq_le_le; [lra|unfold uf in Hz; lra]).
  pose proof (r32_err t) as Es. rewrite <- Vs, (Rabs_pos_eq t) in Es by lra.
  assert (Rabs (B2R s - t) <= 11 / 10 * uf * t) as Es2 by (eapply Rle_trans; [exact Es|]; unfold uf, ef; lra). clear Es. apply Rabs_le_inv in Es2.
  assert (al * (1 - 16 / 10 * uf) <= t <= al * (1 + 16 / 10 * uf)) as Hta.
  { assert (0 <= al * al) by nra. split; (apply sq_le_le; [first [exact Pt|unfold uf; lra]|]); rewrite ?Qt.
    - apply Rle_trans with (A * (1 - 31 / 10 * uf)); [|lra]. rewrite <- Qa. replace (al * (1 - 16 / 10 * uf) * (al * (1 - 16 / 10 * uf))) with (al * al * ((1 - 16 / 10 * uf) * (1 - 16 / 10 * uf))) by ring.
      apply Rmult_le_compat_l; [assumption|]. unfold uf. lra.
    - apply Rle_trans with (A * (1 + 31 / 10 * uf)); [lra|]. rewrite <- Qa. replace (al * (1 + 16 / 10 * uf) * (al * (1 + 16 / 10 * uf))) with (al * al * ((1 + 16 / 10 * uf) * (1 + 16 / 10 * uf))) by ring.
      apply Rmult_le_compat_l; [assumption|]. unfold uf. lra. }
  assert (al * (1 - 275 / 100 * uf) <= B2R s <= al * (1 + 275 / 100 * uf)) as Hs by (unfold uf in *; split; lra).
  assert (0 < B2R s) as Hs0 by (unfold uf in Hs; lra).
  intros c Fc Hle. pose proof (Rabs_pos (B2R c)) as Hc0.
  assert (Rabs (B2R c / B2R s) <= 1001 / 1000) as Hy.
  { unfold Rdiv. rewrite Rabs_mult, (Rabs_pos_eq (/ B2R s)) by (apply Rlt_le, Rinv_0_lt_compat; exact Hs0).
    apply Rmult_le_reg_r with (B2R s); [exact Hs0|]. rewrite Rmult_assoc, Rinv_l, Rmult_1_r by lra. unfold uf in Hs. lra. }
  destruct (div_val c s Fc ltac:(lra)) as [F V]; [unfold top; lra|]. split; [exact F|]. rewrite V.
  pose proof (r32_err (B2R c / B2R s)) as Er.
  assert (Rabs (B2R c / B2R s - B2R c / al) <= 28 / 10 * uf) as Ed.
  { replace (B2R c / B2R s - B2R c / al) with (B2R c / B2R s * ((al - B2R s) / al)) by (field; lra). rewrite Rabs_mult.
    assert (Rabs ((al - B2R s) / al) <= 276 / 100 * uf) as Hd.
    { unfold Rdiv. rewrite Rabs_mult, (Rabs_pos_eq (/ al)) by (apply Rlt_le, Rinv_0_lt_compat; lra). apply Rmult_le_reg_r with al; [lra|].
      rewrite Rmult_assoc, Rinv_l, Rmult_1_r by lra. apply Rabs_le. split; nra. }
    apply Rle_trans with (1001 / 1000 * (276 / 100 * uf)); [apply Rmult_le_compat; try apply Rabs_pos; assumption|lra]. }
  replace (r32 (B2R c / B2R s) - B2R c / al) with ((r32 (B2R c / B2R s) - B2R c / B2R s) + (B2R c / B2R s - B2R c / al)) by ring.
  eapply Rle_trans; [apply Rabs_triang|]. unfold uf, ef in *. lra.
Qed.

Lemma normalize_near : forall q w x y z e, comps_within 1048576 q -> e <= / 1000 -> ap (qw q) w e -> ap (qx q) x e -> ap (qy q) y e -> ap (qz q) z e ->
  9 / 10 <= w * w + x * x + y * y + z * z ->
  let n := sqrt (w * w + x * x + y * y + z * z) in let g := 32 / 10 * e + 4 * uf in
  ap (qw (qnormalize q)) (w / n) g /\ ap (qx (qnormalize q)) (x / n) g /\ ap (qy (qnormalize q)) (y / n) g /\ ap (qz (qnormalize q)) (z / n) g.
Proof.
  intros q w x y z e Hc He Hw Hx Hy Hz HN n g. pose proof (ap_nonneg _ _ _ Hw) as He0.
  destruct (sqrt_pos_sq (w * w + x * x + y * y + z * z)) as [Pn Qn]; [lra|]. fold n in Pn, Qn.
  assert (94 / 100 <= n) as Hn by (apply sq_le_le; lra).
  pose proof (len_near w x y z _ _ _ _ e He0 (proj2 Hw) (proj2 Hx) (proj2 Hy) (proj2 Hz)) as L1. fold n in L1.
  assert (forall a b, Rabs (a - b) <= e -> Rabs (b - a) <= e) as Sy by (intros a b; rewrite Rabs_minus_sym; trivial).
  pose proof (len_near _ _ _ _ w x y z e He0 (Sy _ _ (proj2 Hw)) (Sy _ _ (proj2 Hx)) (Sy _ _ (proj2 Hy)) (Sy _ _ (proj2 Hz))) as L2. fold n in L2.
  change (B2R (qw q) * B2R (qw q) + B2R (qx q) * B2R (qx q) + B2R (qy q) * B2R (qy q) + B2R (qz q) * B2R (qz q)) with (q_len2 q) in L1, L2.
  assert (0 <= q_len2 q) as HA by (unfold q_len2; nra). destruct (sqrt_pos_sq _ HA) as [Pa Qa].
  assert (/ 4 <= q_len2 q) as HS by (rewrite <- Qa; nra).
  destruct (norm_len q Hc HS) as (s & D & ->).
  assert (forall c r, ap c r e -> B2R c * B2R c <= q_len2 q -> ap (f32_div c s) (r / n) g) as K.
  { intros c r [Fc Ec] Hle.
    assert (Rabs (B2R c) <= sqrt (q_len2 q)) as Hcl.
    { apply sq_le_le; [exact Pa|]. rewrite Qa, <- Rabs_mult, Rabs_pos_eq by nra. exact Hle. }
    destruct (D c Fc Hcl) as [Fd Ed]. split; [exact Fd|]. set (al := sqrt (q_len2 q)) in *. clearbody al.
    assert (/ 2 <= al) as Ha0 by (apply sq_le_le; lra).
    assert (Rabs (B2R c / al - r / n) <= 32 / 10 * e) as Er.
    { replace (B2R c / al - r / n) with (((B2R c - r) + B2R c / al * (n - al)) / n) by (field; lra).
      unfold Rdiv at 1. rewrite Rabs_mult, (Rabs_pos_eq (/ n)) by (apply Rlt_le, Rinv_0_lt_compat; lra). apply Rmult_le_reg_r with n; [lra|].
      rewrite Rmult_assoc, Rinv_l, Rmult_1_r by lra.
      assert (Rabs (B2R c / al) <= 1) as H1.
      { unfold Rdiv. rewrite Rabs_mult, (Rabs_pos_eq (/ al)) by (apply Rlt_le, Rinv_0_lt_compat; lra). apply Rmult_le_reg_r with al; [lra|].
        rewrite Rmult_assoc, Rinv_l, Rmult_1_r by lra. lra. }
      assert (Rabs (n - al) <= 2 * e) as H2 by (apply Rabs_le; lra).
      apply Rle_trans with (e + 1 * (2 * e)); [|nra]. eapply Rle_trans; [apply Rabs_triang|]. apply Rplus_le_compat; [exact Ec|]. rewrite Rabs_mult. apply Rmult_le_compat; try apply Rabs_pos; assumption. }
    unfold g. replace (B2R (f32_div c s) - r / n) with ((B2R (f32_div c s) - B2R c / al) + (B2R c / al - r / n)) by ring. eapply Rle_trans; [apply Rabs_triang|]. lra. }
  unfold q_len2 in K. unfold qdivs. cbn [qw qx qy qz]. change (sdiv (SOps := S32)) with f32_div.
  split; [|split; [|split]]; (apply K; [assumption|nra]).
Qed.

(** ** The product *)
#[local] Instance Sx : SOps fx := ops_fx.
Definition e3 (n : nat) : v3 fx := V3 (FV n) (FV (Datatypes.S n)) (FV (Datatypes.S (Datatypes.S n))).
Definition e4 (n : nat) : quat fx := Quat (FV n) (FV (Datatypes.S n)) (FV (Datatypes.S (Datatypes.S n))) (FV (Datatypes.S (Datatypes.S (Datatypes.S n)))).
Definition prodx : quat fx := qmul (e4 0) (delta_q (v3scale (v3sub (v3scale (v3add (e3 4) (e3 7)) shalf) (e3 10)) (FV 13))).
Definition bds (l : list Q) : list (Q * Q) := map (fun m => (0, m)%Q) l.
Definition b1 : list Q := ([1001 # 1000; 1001 # 1000; 1001 # 1000; 1001 # 1000; 64; 64; 64; 64; 64; 64; 64; 64; 64; 1 # 64])%Q.
Lemma exact_env : forall v b, Forall2 (fun x m => f_within (Q2R m) x) v b -> env_ok v (map B2R v) (bds b).
Proof.
  intros v b H. induction H as [|x m v b Hx _ IH]; [exact I|]. cbn [bds map env_ok]. split; [|exact IH]. cbn [fst snd]. destruct Hx as [Fx Bx].
  split; [|exact Bx]. replace (Q2R 0) with 0 by (unfold Q2R; cbn; lra). apply ap_exact. exact Fx.
Qed.
Lemma unit_comps_tight : forall q, near_unit q -> comps_within (1001 / 1000) q.
Proof.
  intros [w x y z] [(Fw & Fx & Fy & Fz) H]. unfold q_len2 in H. cbn [qw qx qy qz] in *. apply Rabs_le_inv in H.
  assert (0 <= B2R w * B2R w /\ 0 <= B2R x * B2R x /\ 0 <= B2R y * B2R y /\ 0 <= B2R z * B2R z) as (Pw & Px & Py & Pv) by (repeat split; nra).
  unfold comps_within, f_within. cbn [qw qx qy qz]. repeat split; try assumption; apply Rabs_le; nra.
Qed.
Lemma within_w : forall a b x, f_within a x -> a <= b -> f_within b x.
Proof. intros a b x [H1 H2] H. split; [exact H1|lra]. Qed.
Ltac q2r := unfold Q2R; cbn [Qnum Qden]; lra.
Ltac envs := repeat (apply Forall2_cons; [eapply within_w; [eassumption|q2r]|]); apply Forall2_nil.

(** The product before normalization. *)
Definition turn_f (q : quat f32) (g0 g1 bg : v3 f32) (dt : f32) : quat f32 := qmul q (delta_q (v3scale (v3sub (v3scale (v3add g0 g1) shalf) bg) dt)).
Definition turn_r (q : quat R) (g0 g1 bg : v3 R) (dt : R) : quat R := qmul q (delta_q (v3scale (v3sub (v3scale (v3add g0 g1) shalf) bg) dt)).
Lemma prod_near : forall q g0 g1 bg dt, near_unit q -> v3_within 64 g0 -> v3_within 64 g1 -> v3_within 64 bg -> f_within (/ 64) dt ->
  let f := turn_f q g0 g1 bg dt in let r := turn_r (q_val q) (v3_val g0) (v3_val g1) (v3_val bg) (B2R dt) in
  (ap (qw f) (qw r) (27 * uf) /\ ap (qx f) (qx r) (27 * uf) /\ ap (qy f) (qy r) (27 * uf) /\ ap (qz f) (qz r) (27 * uf)) /\
  (Rabs (qw r) <= 5 /\ Rabs (qx r) <= 5 /\ Rabs (qy r) <= 5 /\ Rabs (qz r) <= 5).
Proof.
  intros q g0 g1 bg dt Hq (G1 & G2 & G3) (K1 & K2 & K3) (B1 & B2 & B3) Hd f r. destruct (unit_comps_tight q Hq) as (Q0 & Q1 & Q2 & Q3).
  destruct q as [qa qb qc qd], g0 as [ga gb gc], g1 as [ka kb kc], bg as [ba bb bc]. cbn [qw qx qy qz v3x v3y v3z] in *.
  set (v := [qa; qb; qc; qd; ga; gb; gc; ka; kb; kc; ba; bb; bc; dt]).
  assert (env_ok v (map B2R v) (bds b1)) as E by (apply exact_env; unfold v, b1; envs).
  replace (27 * uf) with (Q2R (27 # 16777216)) by (unfold uf; q2r). replace 5 with (Q2R 5) by q2r.
  assert (forall g, b_ok (bnd (lq (bds b1)) g) && Qle_bool (b_err (bnd (lq (bds b1)) g)) (27 # 16777216) = true -> ap (fev (lf v) g) (rev_ (lr (map B2R v)) g) (Q2R (27 # 16777216))) as X1
    by (intros g Hg; exact (expr_err _ _ _ g _ E Hg)).
  assert (forall g, b_ok (bnd (lq (bds b1)) g) && Qle_bool (b_mag (bnd (lq (bds b1)) g)) 5 = true -> Rabs (rev_ (lr (map B2R v)) g) <= Q2R 5) as X2
    by (intros g Hg; exact (expr_mag _ _ _ g _ E Hg)).
  split; [split; [|split; [|split]]|split; [|split; [|split]]].
  - apply (X1 (qw prodx)). vm_compute. reflexivity.
  - apply (X1 (qx prodx)). vm_compute. reflexivity.
  - apply (X1 (qy prodx)). vm_compute. reflexivity.
  - apply (X1 (qz prodx)). vm_compute. reflexivity.
  - apply (X2 (qw prodx)). vm_compute. reflexivity.
  - apply (X2 (qx prodx)). vm_compute. reflexivity.
  - apply (X2 (qy prodx)). vm_compute. reflexivity.
  - apply (X2 (qz prodx)). vm_compute. reflexivity.
Qed.

(** ** Attitude *)
Lemma q_normal_R : forall q : quat R, let n2 := qw q * qw q + qx q * qx q + qy q * qy q + qz q * qz q in 0 < n2 ->
  qnormalize q = Quat (qw q / sqrt n2) (qx q / sqrt n2) (qy q / sqrt n2) (qz q / sqrt n2).
Proof.
  intros q n2 H. unfold qnormalize. replace (qnorm2 q) with n2 by (unfold qnorm2, n2; cbn; ring). cbn [sltb s0 ops_R]. unfold Rltb. destruct (Rlt_dec 0 n2); [reflexivity|lra].
Qed.
Lemma turn_len : forall (q : quat R) g0 g1 bg dt, let r := turn_r q g0 g1 bg dt in
  qw q * qw q + qx q * qx q + qy q * qy q + qz q * qz q <= qw r * qw r + qx r * qx r + qy r * qy r + qz r * qz r.
Proof.
  intros [a b c e] g0 g1 bg dt. unfold turn_r, delta_q, qmul. cbn [qw qx qy qz]. cbn [sadd ssub smul s1 ops_R].
  set (x := v3x _). set (y := v3y _). set (z := v3z _). clearbody x y z.
  apply Rle_trans with ((a * a + b * b + c * c + e * e) * (1 + (x * x + y * y + z * z))); [|apply Req_le; ring].
  assert (0 <= (a * a + b * b + c * c + e * e) * (x * x + y * y + z * z)) by (apply Rmult_le_pos; nra). lra.
Qed.
Lemma div_len : forall w x y z, 0 < w * w + x * x + y * y + z * z -> Rabs (w / sqrt (w * w + x * x + y * y + z * z)) <= 1.
Proof.
  intros w x y z H. destruct (sqrt_pos_sq (w * w + x * x + y * y + z * z)) as [P Q]; [lra|]. set (n := sqrt _) in *. assert (0 < n) by nra.
  unfold Rdiv. rewrite Rabs_mult, (Rabs_pos_eq (/ n)) by (apply Rlt_le, Rinv_0_lt_compat; lra). apply Rmult_le_reg_r with n; [lra|].
  rewrite Rmult_assoc, Rinv_l, Rmult_1_r by lra. apply sq_le_le; [lra|]. rewrite <- Rabs_mult, Rabs_pos_eq by nra. nra.
Qed.

Lemma att_near : forall q g0 g1 bg dt, near_unit q -> v3_within 64 g0 -> v3_within 64 g1 -> v3_within 64 bg -> f_within (/ 64) dt ->
  let f := qnormalize (turn_f q g0 g1 bg dt) in let r := qnormalize (turn_r (q_val q) (v3_val g0) (v3_val g1) (v3_val bg) (B2R dt)) in
  q_close (91 * uf) f r /\ (Rabs (qw r) <= 1 /\ Rabs (qx r) <= 1 /\ Rabs (qy r) <= 1 /\ Rabs (qz r) <= 1).
Proof.
  intros q g0 g1 bg dt Hq H0 H1 Hb Hd. destruct (prod_near q g0 g1 bg dt Hq H0 H1 Hb Hd) as [(P0 & P1 & P2 & P3) (M0 & M1 & M2 & M3)].
  pose proof (turn_len (q_val q) (v3_val g0) (v3_val g1) (v3_val bg) (B2R dt)) as L. cbv zeta in *.
  assert (9 / 10 <= qw (q_val q) * qw (q_val q) + qx (q_val q) * qx (q_val q) + qy (q_val q) * qy (q_val q) + qz (q_val q) * qz (q_val q)) as Hl.
  { destruct Hq as [_ Hl]. apply Rabs_le_inv in Hl. unfold q_len2 in Hl. unfold q_val. cbn [qw qx qy qz]. lra. }
  set (f := turn_f q g0 g1 bg dt) in *. set (r := turn_r (q_val q) (v3_val g0) (v3_val g1) (v3_val bg) (B2R dt)) in *. clearbody f r.
  assert (comps_within 1048576 f) as Hc.
  { unfold comps_within. split; [|split; [|split]]; (eapply within_w; [eapply ap_within; eassumption|unfold uf; lra]). }
  rewrite q_normal_R by lra. cbn [qw qx qy qz].
  destruct (normalize_near f (qw r) (qx r) (qy r) (qz r) (27 * uf) Hc ltac:(unfold uf; lra) P0 P1 P2 P3 ltac:(lra)) as (K0 & K1 & K2 & K3).
  split.
  - unfold q_close, close. cbn [qw qx qy qz].
    split; [|split; [|split]]; (match goal with |- is_finite ?x = true /\ Rabs (_ - ?y) <= ?z => change (ap x y z) end); (eapply ap_weak; [eassumption|unfold uf; lra]).
  - split; [apply div_len; lra|]. clear - L Hl. set (w := qw r) in *. set (x := qx r) in *. set (y := qy r) in *. set (z := qz r) in *. clearbody w x y z.
    split; [|split].
    + replace (w * w + x * x + y * y + z * z) with (x * x + w * w + y * y + z * z) in * by ring. apply div_len; lra.
    + replace (w * w + x * x + y * y + z * z) with (y * y + x * x + w * w + z * z) in * by ring. apply div_len; lra.
    + replace (w * w + x * x + y * y + z * z) with (z * z + x * x + y * y + w * w) in * by ring. apply div_len; lra.
Qed.

(** ** Velocity and position *)
Definition v1x : v3 fx := v3add (e3 20) (v3scale (v3sub (v3scale (v3add (qrot (e4 0) (v3sub (e3 8) (e3 14))) (qrot (e4 4) (v3sub (e3 11) (e3 14)))) shalf) (e3 17)) (FV 26)).
Definition p1x : v3 fx := v3add (e3 23) (v3scale (v3scale (v3add (e3 20) v1x) shalf) (FV 26)).
Definition b2 : list (Q * Q) := bds [1001 # 1000; 1001 # 1000; 1001 # 1000; 1001 # 1000]%Q ++ [(91 # 16777216, 1); (91 # 16777216, 1); (91 # 16777216, 1); (91 # 16777216, 1)]%Q ++
  bds [32; 32; 32; 32; 32; 32; 4; 4; 4; 16; 16; 16; 64; 64; 64; 2048; 2048; 2048; 1 # 64]%Q.
Lemma env_app : forall v r b v' r' b', env_ok v r b -> env_ok v' r' b' -> env_ok (v ++ v') (r ++ r') (b ++ b').
Proof. induction v as [|x v IH]; intros [|y r] [|c b] v' r' b' H H'; cbn [env_ok app] in *; try contradiction; [exact H'|]. destruct H as [H1 H2]. split; [exact H1|apply IH; assumption]. Qed.

Theorem step_near : forall grav ba bg m a0 g0 a1 g1 dt, step_range grav ba bg m a0 g0 a1 g1 -> f_within (/ 64) dt ->
  let f := fst (fst (nominal_step grav ba bg m a0 g0 a1 g1 dt)) in
  let r := fst (fst (nominal_step (S := ops_R) (v3_val grav) (v3_val ba) (v3_val bg) (mo_val m) (v3_val a0) (v3_val g0) (v3_val a1) (v3_val g1) (B2R dt))) in
  q_close (/ 131072) (mo_q f) (mo_q r) /\ v3_close (/ 16384) (mo_v f) (mo_v r) /\ v3_close (/ 4096) (mo_p f) (mo_p r).
Proof.
  intros grav ba bg [p v q] a0 g0 a1 g1 dt (Hgr & Hba & Hbg & Ha0 & Hg0 & Ha1 & Hg1 & Hq & Hv & Hp) Hd f r. cbn [mo_q mo_v mo_p] in *.
  destruct (att_near q g0 g1 bg dt Hq Hg0 Hg1 Hbg Hd) as [(K0 & K1 & K2 & K3) (M0 & M1 & M2 & M3)]. cbv zeta in *.
  unfold f, r, nominal_step. cbn [fst mo_q mo_v mo_p mo_val]. fold (turn_f q g0 g1 bg dt). fold (turn_r (q_val q) (v3_val g0) (v3_val g1) (v3_val bg) (B2R dt)).
  set (qf := qnormalize (turn_f q g0 g1 bg dt)) in *. set (qr := qnormalize (turn_r (q_val q) (v3_val g0) (v3_val g1) (v3_val bg) (B2R dt))) in *. clearbody qf qr. clear f r Hg0 Hg1 Hbg.
  split.
  { unfold q_close, close in *. split; [|split; [|split]]; (split; [|eapply Rle_trans; [|assert (91 * uf <= / 131072) as Hw by (unfold uf; lra); exact Hw]]); tauto. }
  destruct (unit_comps_tight q Hq) as (Q0 & Q1 & Q2 & Q3). destruct Hgr as (R1 & R2 & R3), Hba as (B1 & B2 & B3), Ha0 as (A1 & A2 & A3), Ha1 as (D1 & D2 & D3), Hv as (V1 & V2 & V3), Hp as (P1 & P2 & P3). clear Hq.
  destruct q as [qa qb qc qd], qf as [fa fb fc fd], qr as [ra rb rc rd], grav as [wa wb wc], ba as [ba bb bc], a0 as [aa ab ac], a1 as [da db dc], v as [va vb vc], p as [pa pb pc].
  cbn [qw qx qy qz v3x v3y v3z] in *.
  set (v := [qa; qb; qc; qd] ++ [fa; fb; fc; fd] ++ [aa; ab; ac; da; db; dc; ba; bb; bc; wa; wb; wc; va; vb; vc; pa; pb; pc; dt]).
  set (r := map B2R [qa; qb; qc; qd] ++ [ra; rb; rc; rd] ++ map B2R [aa; ab; ac; da; db; dc; ba; bb; bc; wa; wb; wc; va; vb; vc; pa; pb; pc; dt]).
  assert (env_ok v r b2) as E.
  { apply env_app; [|apply env_app]; [apply exact_env; envs| |apply exact_env; envs].
    cbn [env_ok fst snd]. replace (Q2R (91 # 16777216)) with (91 * uf) by (unfold uf; q2r). replace (Q2R 1) with 1 by q2r. unfold close in *. unfold ap, fin. tauto. }
  assert (forall g, b_ok (bnd (lq b2) g) && Qle_bool (b_err (bnd (lq b2) g)) (1 # 16384) = true -> close (/ 16384) (fev (lf v) g) (rev_ (lr r) g)) as X1.
  { intros g Hg. pose proof (expr_err _ _ _ g _ E Hg) as X. replace (Q2R (1 # 16384)) with (/ 16384) in X by q2r. exact X. }
  assert (forall g, b_ok (bnd (lq b2) g) && Qle_bool (b_err (bnd (lq b2) g)) (1 # 4096) = true -> close (/ 4096) (fev (lf v) g) (rev_ (lr r) g)) as X2.
  { intros g Hg. pose proof (expr_err _ _ _ g _ E Hg) as X. replace (Q2R (1 # 4096)) with (/ 4096) in X by q2r. exact X. }
  split; (split; [|split]).
  - apply (X1 (v3x v1x)). vm_compute. reflexivity.
  - apply (X1 (v3y v1x)). vm_compute. reflexivity.
  - apply (X1 (v3z v1x)). vm_compute. reflexivity.
  - apply (X2 (v3x p1x)). vm_compute. reflexivity.
  - apply (X2 (v3y p1x)). vm_compute. reflexivity.
  - apply (X2 (v3z p1x)). vm_compute. reflexivity.
Qed.
End Lm.
