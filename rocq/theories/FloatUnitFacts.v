(** Normalization and the attitude step in binary32 (C97). *)
From Coq Require Import ZArith Reals List Bool Lra Lia Psatz.
From Flocq Require Import Core BinarySingleNaN.
From Verif Require Import Fp FpFacts InterpFacts NarrowFacts Scalar Base LinAlg MathLib Propagator FloatFacts FloatSpec.
Import ListNotations.
Local Open Scope R_scope.

Lemma r32_pow : forall k b x, b = bpow radix2 k -> (-100 <= k)%Z -> Rabs x <= b -> Rabs (r32 x) <= b.
Proof.
  intros k b x -> Hk H. apply abs_round_le_generic; [exact (fexp_correct prec32 emax32 prec32_gt_0)|auto with typeclass_instances| |exact H].
  apply generic_format_bpow. unfold SpecFloat.fexp, SpecFloat.emin, prec32, emax32. lia.
Qed.
(** Operations keep power-of-two bounds. *)
Ltac pw k := eapply (r32_pow k); [reflexivity|lia|].

(** ** Squared norm *)
Lemma rel_add : forall a b A B k j z, 0 <= A -> 0 <= B -> 0 <= k -> 0 <= j -> Rabs (a - A) <= k * A + j -> Rabs (b - B) <= k * B + j ->
  z = r32 (a + b) -> Rabs (z - (A + B)) <= (k + uf + uf * k) * (A + B) + (2 * j + uf * (2 * j) + ef).
Proof.
  intros a b A B k j z HA HB Hk Hj Ha Hb ->. pose proof (r32_err (a + b)) as He.
  assert (Rabs (a + b - (A + B)) <= k * (A + B) + 2 * j) as H.
  { replace (a + b - (A + B)) with ((a - A) + (b - B)) by ring. eapply Rle_trans; [apply Rabs_triang|]. lra. }
  assert (Rabs (a + b) <= (A + B) + (k * (A + B) + 2 * j)) as H2.
  { replace (a + b) with ((A + B) + (a + b - (A + B))) by ring. eapply Rle_trans; [apply Rabs_triang|]. rewrite (Rabs_pos_eq (A + B)) by lra. lra. }
  assert (uf * Rabs (a + b) <= uf * ((A + B) + (k * (A + B) + 2 * j))) as H3 by (apply Rmult_le_compat_l; [unfold uf; lra|exact H2]).
  replace (r32 (a + b) - (A + B)) with ((r32 (a + b) - (a + b)) + (a + b - (A + B))) by ring.
  eapply Rle_trans; [apply Rabs_triang|]. lra.
Qed.
Lemma sq_err : forall x, Rabs (r32 (x * x) - x * x) <= uf * (x * x) + ef.
Proof. intros x. pose proof (r32_err (x * x)) as H. rewrite (Rabs_pos_eq (x * x)) in H by nra. exact H. Qed.

Definition comps_within (b : R) (q : quat f32) : Prop :=
  f_within b (qw q) /\ f_within b (qx q) /\ f_within b (qy q) /\ f_within b (qz q).

Section Lm.
Variable lm : libm32.
#[local] Instance S32 : SOps f32 := ops_f32 lm.

Lemma sq_val : forall x, f_within 1048576 x -> fin (f32_mul x x) /\ B2R (f32_mul x x) = r32 (B2R x * B2R x) /\ 0 <= B2R x * B2R x <= 1099511627776.
Proof.
  intros x [Hf Hb]. assert (0 <= B2R x * B2R x <= 1099511627776) as H.
  { split; [nra|]. assert (Rabs (B2R x * B2R x) <= 1048576 * 1048576) as H by (rewrite Rabs_mult; apply Rmult_le_compat; try apply Rabs_pos; exact Hb).
    apply Rabs_le_inv in H. lra. }
  destruct (mul_val x x Hf Hf) as [H1 H2]; [rewrite Rabs_pos_eq by lra; unfold top; lra|]. auto.
Qed.
Lemma sum_val : forall x y a b, fin x -> fin y -> B2R x = a -> B2R y = b -> Rabs a <= 10000000000000 -> Rabs b <= 10000000000000 ->
  fin (f32_add x y) /\ B2R (f32_add x y) = r32 (a + b).
Proof.
  intros x y a b Hx Hy <- <- Ha Hb. apply add_val; auto. eapply Rle_trans; [apply Rabs_triang|]. unfold top. lra.
Qed.
Lemma abs_from : forall a A e b, Rabs (a - A) <= e -> 0 <= A -> A + e <= b -> Rabs a <= b.
Proof. intros a A e b H HA Hb. replace a with (A + (a - A)) by ring. eapply Rle_trans; [apply Rabs_triang|]. rewrite (Rabs_pos_eq A) by lra. lra. Qed.

Lemma norm2_rel : forall q, comps_within 1048576 q -> / 4 <= q_len2 q ->
  fin (qnorm2 q) /\ Rabs (B2R (qnorm2 q) - q_len2 q) <= 31 / 10 * uf * q_len2 q.
Proof.
  intros [w x y z] (Hw & Hx & Hy & Hz) HS. unfold qnorm2. cbn [qw qx qy qz sadd smul S32 ops_f32] in *.
  unfold q_len2 in HS |- *. cbn [qw qx qy qz] in HS |- *.
  destruct (sq_val w Hw) as (Fw & Vw & Pw). destruct (sq_val x Hx) as (Fx & Vx & Px). destruct (sq_val y Hy) as (Fy & Vy & Py). destruct (sq_val z Hz) as (Fz & Vz & Pz).
  pose proof (sq_err (B2R w)) as Ew. pose proof (sq_err (B2R x)) as Ex. pose proof (sq_err (B2R y)) as Ey. pose proof (sq_err (B2R z)) as Ez.
  rewrite <- Vw in Ew. rewrite <- Vx in Ex. rewrite <- Vy in Ey. rewrite <- Vz in Ez.
  set (W := B2R w * B2R w) in *. set (X := B2R x * B2R x) in *. set (Y := B2R y * B2R y) in *. set (Z := B2R z * B2R z) in *.
  assert (0 < uf) as Hu by (unfold uf; lra). assert (0 < ef) as Hef by (unfold ef; lra).
  destruct (sum_val _ _ _ _ Fx Fy eq_refl eq_refl) as [F1 V1]; [eapply abs_from; [exact Ex| |]; unfold uf, ef; lra|eapply abs_from; [exact Ey| |]; unfold uf, ef; lra|].
  destruct (sum_val _ _ _ _ Fz Fw eq_refl eq_refl) as [F2 V2]; [eapply abs_from; [exact Ez| |]; unfold uf, ef; lra|eapply abs_from; [exact Ew| |]; unfold uf, ef; lra|].
  pose proof (rel_add _ _ X Y uf ef _ (proj1 Px) (proj1 Py) (Rlt_le _ _ Hu) (Rlt_le _ _ Hef) Ex Ey V1) as E1.
  pose proof (rel_add _ _ Z W uf ef _ (proj1 Pz) (proj1 Pw) (Rlt_le _ _ Hu) (Rlt_le _ _ Hef) Ez Ew V2) as E2.
  destruct (sum_val _ _ _ _ F1 F2 eq_refl eq_refl) as [F3 V3]; [eapply abs_from; [exact E1| |]; unfold uf, ef; lra|eapply abs_from; [exact E2| |]; unfold uf, ef; lra|].
  assert (0 <= uf + uf + uf * uf) as Hk by nra. assert (0 <= 2 * ef + uf * (2 * ef) + ef) as Hj by nra.
  pose proof (rel_add _ _ (X + Y) (Z + W) _ _ _ ltac:(lra) ltac:(lra) Hk Hj E1 E2 V3) as E3.
  split; [exact F3|]. replace (W + X + Y + Z) with (X + Y + (Z + W)) in * by ring.
  eapply Rle_trans; [exact E3|]. clear - HS. set (A := X + Y + (Z + W)) in *. unfold uf, ef. lra.
Qed.

(** ** Normalization *)
Lemma inv_near : forall w v, Rabs w <= v -> v <= / 100000 -> Rabs (/ (1 + w) - 1) <= 1001 / 1000 * v.
Proof.
  intros w v Hw Hv. assert (- v <= w <= v) as Hr by (apply Rabs_le_inv; exact Hw).
  replace (/ (1 + w) - 1) with (- (w * / (1 + w))) by (field; lra). rewrite Rabs_Ropp, Rabs_mult.
  assert (0 < / (1 + w) <= 1001 / 1000) as Hi.
  { split; [apply Rinv_0_lt_compat; lra|]. apply Rmult_le_reg_l with (1 + w); [lra|]. rewrite Rinv_r by lra. lra. }
  rewrite (Rabs_pos_eq (/ (1 + w))) by lra. pose proof (Rabs_pos w). nra.
Qed.
Lemma div_sq : forall y c, Rabs y <= 2 -> Rabs (c - y) <= uf * Rabs y + ef -> Rabs (c * c - y * y) <= 21 / 10 * uf * (y * y) + 10 * ef.
Proof.
  intros y c Hy H. replace (c * c - y * y) with ((c - y) * (c - y) + 2 * y * (c - y)) by ring.
  eapply Rle_trans; [apply Rabs_triang|]. rewrite !Rabs_mult, (Rabs_pos_eq 2) by lra.
  assert (y * y = Rabs y * Rabs y) as Hsq by (rewrite <- Rabs_mult, Rabs_pos_eq by nra; ring). rewrite Hsq. clear Hsq.
  pose proof (Rabs_pos (c - y)) as Hd. pose proof (Rabs_pos y) as Hy0. set (d := Rabs (c - y)) in *. set (t := Rabs y) in *. clearbody d t.
  assert (d * d <= (uf * t + ef) * (uf * t + ef)) as H1 by (apply Rmult_le_compat; lra).
  assert (2 * t * d <= 2 * t * (uf * t + ef)) as H2 by (apply Rmult_le_compat_l; lra).
  assert (0 < uf /\ 0 < ef) as [Hu He] by (unfold uf, ef; lra).
  assert (uf * t * (uf * t) = uf * uf * (t * t)) as R1 by ring.
  assert (0 <= t * t <= 4) as Ht by nra.
  assert (uf * uf * (t * t) <= / 100 * uf * (t * t)) as H3 by (unfold uf; lra).
  assert (uf * t * ef <= ef) as H4. { replace (uf * t * ef) with (ef * (uf * t)) by ring. unfold uf. nra. }
  assert (t * ef <= 2 * ef) as H5 by nra. assert (ef * ef <= ef) as H6 by (unfold ef; lra).
  nra.
Qed.

Lemma normalize_unit : forall q, comps_within 1048576 q -> / 4 <= q_len2 q -> near_unit (qnormalize q).
Proof.
  intros q Hc HS. destruct (norm2_rel q Hc HS) as [Fz Ez].
  assert (q_len2 q = B2R (qw q) * B2R (qw q) + B2R (qx q) * B2R (qx q) + B2R (qy q) * B2R (qy q) + B2R (qz q) * B2R (qz q)) as HA by reflexivity. unfold qnormalize. set (z := qnorm2 q) in *. set (A := q_len2 q) in *. clearbody z A.
  assert (0 < uf) as Hu by (unfold uf; lra). assert (0 < ef) as Hef by (unfold ef; lra).
  assert (A * (1 - 31 / 10 * uf) <= B2R z <= A * (1 + 31 / 10 * uf)) as Hz by (apply Rabs_le_inv in Ez; lra).
  assert (0 < B2R z) as Hz0 by (unfold uf in Hz; nra).
  replace (sltb s0 z) with true; [|symmetry; cbn; unfold f32_ltb; rewrite Bltb_correct; [apply Rlt_bool_true; exact Hz0|reflexivity|exact Fz]].
  destruct (sqrt_val z Fz Hz0) as [Fs Vs]. change (ssqrt z) with (f32_sqrt z). set (s := f32_sqrt z) in *. clearbody s.
  set (t := sqrt (B2R z)) in *. assert (t * t = B2R z) as Ht by (apply sqrt_sqrt; lra).
  assert (2 / 5 <= t) as Ht0.
  { replace (2 / 5) with (sqrt (2 / 5 * (2 / 5))) by (apply sqrt_square; lra). apply sqrt_le_1; [lra|lra|]. unfold uf in Hz. lra. }
  pose proof (r32_err t) as Es. rewrite <- Vs, (Rabs_pos_eq t) in Es by lra.
  assert (Rabs (B2R s - t) <= 11 / 10 * uf * t) as Es2 by (eapply Rle_trans; [exact Es|]; unfold uf, ef; lra). clear Es. apply Rabs_le_inv in Es2.
  assert (/ 4 <= B2R s) as Hs0 by (unfold uf in Es2; lra).
  set (k := B2R s * B2R s) in *.
  assert (Rabs (k / A - 1) <= 54 / 10 * uf) as Hk.
  { assert (0 < A) as HA0 by lra.
    assert (k <= (t * (1 + 11 / 10 * uf)) * (t * (1 + 11 / 10 * uf))) as K1 by (apply Rmult_le_compat; lra).
    assert ((t * (1 - 11 / 10 * uf)) * (t * (1 - 11 / 10 * uf)) <= k) as K2 by (apply Rmult_le_compat; unfold uf in *; lra).
    replace ((t * (1 + 11 / 10 * uf)) * (t * (1 + 11 / 10 * uf))) with (t * t * ((1 + 11 / 10 * uf) * (1 + 11 / 10 * uf))) in K1 by ring.
    replace ((t * (1 - 11 / 10 * uf)) * (t * (1 - 11 / 10 * uf))) with (t * t * ((1 - 11 / 10 * uf) * (1 - 11 / 10 * uf))) in K2 by ring.
    rewrite Ht in K1, K2. 
    replace (k / A - 1) with ((k - A) / A) by (field; lra). unfold Rdiv. rewrite Rabs_mult, (Rabs_pos_eq (/ A)) by (apply Rlt_le, Rinv_0_lt_compat; exact HA0).
    apply Rmult_le_reg_r with A; [exact HA0|]. rewrite Rmult_assoc, Rinv_l, Rmult_1_r by lra. apply Rabs_le. clear - K1 K2 Hz HS. unfold uf in *. clearbody k. split; lra. }
  assert (0 < k) as Hk0 by (unfold k; nra).
  assert (Rabs (A / k - 1) <= 55 / 10 * uf) as HY.
  { replace (A / k) with (/ (1 + (k / A - 1))) by (field; lra). eapply Rle_trans; [apply (inv_near _ _ Hk)|]; unfold uf; lra. }
  assert (forall c, f_within 1048576 c -> B2R c * B2R c <= A -> fin (f32_div c s) /\ Rabs (B2R (f32_div c s) * B2R (f32_div c s) - B2R c * B2R c / k) <= 21 / 10 * uf * (B2R c * B2R c / k) + 10 * ef) as D.
  { intros c [Fc Bc] Hle.
    assert (B2R c * B2R c / k = (B2R c / B2R s) * (B2R c / B2R s)) as Hq by (unfold k; field; lra).
    assert (Rabs (B2R c / B2R s) <= 2) as Hy.
    { assert ((B2R c / B2R s) * (B2R c / B2R s) <= 2) as H2.
      { rewrite <- Hq. apply Rle_trans with (A / k); [apply Rmult_le_compat_r; [apply Rlt_le, Rinv_0_lt_compat; exact Hk0|exact Hle]|]. apply Rabs_le_inv in HY. unfold uf in HY. lra. }
      apply Rabs_le. nra. }
    destruct (div_val c s Fc ltac:(lra)) as [F V]; [unfold top; lra|]. split; [exact F|]. rewrite Hq. apply div_sq; [exact Hy|]. rewrite V. apply r32_err. }
  destruct q as [w x y v]. destruct Hc as (Hw & Hx & Hy & Hv). cbn [qw qx qy qz] in *.
  assert (0 <= B2R w * B2R w /\ 0 <= B2R x * B2R x /\ 0 <= B2R y * B2R y /\ 0 <= B2R v * B2R v) as (Pw & Px & Py & Pv) by (repeat split; nra).
  destruct (D w Hw ltac:(lra)) as [Fw Dw]. destruct (D x Hx ltac:(lra)) as [Fx Dx]. destruct (D y Hy ltac:(lra)) as [Fy Dy]. destruct (D v Hv ltac:(lra)) as [Fv Dv]. clear D.
  split; [unfold q_finite, qdivs; cbn [qw qx qy qz]; repeat split; assumption|].
  unfold q_len2, qdivs. cbn [qw qx qy qz]. change (sdiv w s) with (f32_div w s). change (sdiv x s) with (f32_div x s). change (sdiv y s) with (f32_div y s). change (sdiv v s) with (f32_div v s).
  assert (A / k = B2R w * B2R w / k + B2R x * B2R x / k + B2R y * B2R y / k + B2R v * B2R v / k) as Hsum by (rewrite HA; field; lra).
  set (W := B2R w * B2R w / k) in *. set (X := B2R x * B2R x / k) in *. set (Y := B2R y * B2R y / k) in *. set (V := B2R v * B2R v / k) in *.
  rewrite Hsum in HY. clear - Dw Dx Dy Dv HY. clearbody W X Y V.
  apply Rabs_le_inv in Dw, Dx, Dy, Dv, HY. apply Rabs_le. unfold uf, ef in *. split; lra.
Qed.

(** ** The product with a small rotation *)
Lemma unit_comps : forall q, near_unit q -> comps_within 2 q.
Proof.
  intros [w x y z] [(Fw & Fx & Fy & Fz) H]. unfold q_len2 in H. cbn [qw qx qy qz] in *. apply Rabs_le_inv in H.
  assert (0 <= B2R w * B2R w /\ 0 <= B2R x * B2R x /\ 0 <= B2R y * B2R y /\ 0 <= B2R z * B2R z) as (Pw & Px & Py & Pv) by (repeat split; nra).
  unfold comps_within, f_within. cbn [qw qx qy qz]. repeat split; try assumption; apply Rabs_le; nra.
Qed.
Lemma abs4 : forall a b c d e, Rabs a <= e -> Rabs b <= e -> Rabs c <= e -> Rabs d <= e ->
  Rabs (a + b) <= 2 * e /\ Rabs (a - b) <= 2 * e /\ Rabs (a + b + c) <= 3 * e /\ Rabs (a - b - c) <= 3 * e /\ Rabs (a + b + c - d) <= 4 * e /\ Rabs (a - b - c - d) <= 4 * e.
Proof. intros a b c d e Ha Hb Hc Hd. apply Rabs_le_inv in Ha, Hb, Hc, Hd. repeat split; apply Rabs_le; lra. Qed.
Lemma abs_prod : forall a b, Rabs a <= 2 -> Rabs b <= 1024 -> Rabs (a * b) <= 2048.
Proof. intros a b Ha Hb. rewrite Rabs_mult. replace 2048 with (2 * 1024) by lra. apply Rmult_le_compat; try apply Rabs_pos; assumption. Qed.
Lemma pr : forall x y, f_within 2 x -> f_within 1024 y -> ap (f32_mul x y) (B2R x * B2R y) (/ 8000) /\ Rabs (B2R x * B2R y) <= 2048.
Proof.
  intros x y [Fx Bx] [Fy By]. split; [|apply abs_prod; assumption].
  eapply ap_mul; [apply ap_exact; exact Fx|apply ap_exact; exact Fy|exact Bx|exact By| |]; unfold top, uf, ef; lra.
Qed.
Lemma row_minus : forall a b c d a' b' c' d', f_within 2 a -> f_within 2 b -> f_within 2 c -> f_within 2 d ->
  f_within 1024 a' -> f_within 1024 b' -> f_within 1024 c' -> f_within 1024 d' ->
  ap (f32_sub (f32_sub (f32_sub (f32_mul a a') (f32_mul b b')) (f32_mul c c')) (f32_mul d d')) (B2R a * B2R a' - B2R b * B2R b' - B2R c * B2R c' - B2R d * B2R d') (/ 400).
Proof.
  intros a b c d a' b' c' d' Ha Hb Hc Hd Ha' Hb' Hc' Hd'.
  destruct (pr a a' Ha Ha') as [A1 A2]. destruct (pr b b' Hb Hb') as [B1 B2]. destruct (pr c c' Hc Hc') as [C1 C2]. destruct (pr d d' Hd Hd') as [D1 D2].
  pose proof (abs4 _ _ _ _ _ A2 B2 C2 D2) as (L1 & L2 & L3 & L4 & L5 & L6).
  assert (ap (f32_sub (f32_mul a a') (f32_mul b b')) (B2R a * B2R a' - B2R b * B2R b') (/ 1900)) as S1
    by (eapply ap_sub; [exact A1|exact B1|exact L2| |]; unfold top, uf, ef; lra).
  assert (ap (f32_sub (f32_sub (f32_mul a a') (f32_mul b b')) (f32_mul c c')) (B2R a * B2R a' - B2R b * B2R b' - B2R c * B2R c') (/ 900)) as S2
    by (eapply ap_sub; [exact S1|exact C1|exact L4| |]; unfold top, uf, ef; lra).
  eapply ap_sub; [exact S2|exact D1|exact L6| |]; unfold top, uf, ef; lra.
Qed.
Lemma row_plus : forall a b c d a' b' c' d', f_within 2 a -> f_within 2 b -> f_within 2 c -> f_within 2 d ->
  f_within 1024 a' -> f_within 1024 b' -> f_within 1024 c' -> f_within 1024 d' ->
  ap (f32_sub (f32_add (f32_add (f32_mul a a') (f32_mul b b')) (f32_mul c c')) (f32_mul d d')) (B2R a * B2R a' + B2R b * B2R b' + B2R c * B2R c' - B2R d * B2R d') (/ 400).
Proof.
  intros a b c d a' b' c' d' Ha Hb Hc Hd Ha' Hb' Hc' Hd'.
  destruct (pr a a' Ha Ha') as [A1 A2]. destruct (pr b b' Hb Hb') as [B1 B2]. destruct (pr c c' Hc Hc') as [C1 C2]. destruct (pr d d' Hd Hd') as [D1 D2].
  pose proof (abs4 _ _ _ _ _ A2 B2 C2 D2) as (L1 & L2 & L3 & L4 & L5 & L6).
  assert (ap (f32_add (f32_mul a a') (f32_mul b b')) (B2R a * B2R a' + B2R b * B2R b') (/ 1900)) as S1
    by (eapply ap_add; [exact A1|exact B1|exact L1| |]; unfold top, uf, ef; lra).
  assert (ap (f32_add (f32_add (f32_mul a a') (f32_mul b b')) (f32_mul c c')) (B2R a * B2R a' + B2R b * B2R b' + B2R c * B2R c') (/ 900)) as S2
    by (eapply ap_add; [exact S1|exact C1|exact L3| |]; unfold top, uf, ef; lra).
  eapply ap_sub; [exact S2|exact D1|exact L5| |]; unfold top, uf, ef; lra.
Qed.

Lemma half_sq : forall a p, Rabs (a - p) <= / 400 -> p * p / 2 - / 100000 <= a * a.
Proof. intros a p H. apply Rabs_le_inv in H. pose proof (Rle_0_sqr (p + 2 * (a - p))) as Hs. unfold Rsqr in Hs. assert ((a - p) * (a - p) <= / 160000) by nra. nra. Qed.
Lemma ap_within : forall x r e b, ap x r e -> Rabs r <= b -> f_within (b + e) x.
Proof. intros x r e b H Hr. split; [apply H|]. exact (ap_abs x r e b H Hr). Qed.

Lemma product_unit : forall q d, near_unit q -> comps_within 1024 d -> B2R (qw d) = 1 -> near_unit (qnormalize (qmul q d)).
Proof.
  intros q d Hq Hd H1. pose proof (unit_comps q Hq) as Hc. destruct Hq as [_ Hl]. unfold q_len2 in Hl. apply Rabs_le_inv in Hl.
  destruct q as [a b c e]. destruct d as [w x y z]. destruct Hc as (Ca & Cb & Cc & Ce). destruct Hd as (Dw & Dx & Dy & Dz). cbn [qw qx qy qz] in *.
  pose proof (row_minus a b c e w x y z Ca Cb Cc Ce Dw Dx Dy Dz) as R0.
  pose proof (row_plus a b c e x w z y Ca Cb Cc Ce Dx Dw Dz Dy) as R1.
  pose proof (row_plus a c e b y w x z Ca Cc Ce Cb Dy Dw Dx Dz) as R2.
  pose proof (row_plus a e b c z w y x Ca Ce Cb Cc Dz Dw Dy Dx) as R3.
  assert (forall u v, f_within 2 u -> f_within 1024 v -> Rabs (B2R u * B2R v) <= 2048) as P by (intros u v [_ U] [_ V]; apply abs_prod; assumption).
  apply normalize_unit; unfold qmul; cbn [qw qx qy qz sadd ssub smul S32 ops_f32].
  - pose proof (abs4 _ _ _ _ 2048 (P _ _ Ca Dw) (P _ _ Cb Dx) (P _ _ Cc Dy) (P _ _ Ce Dz)) as (_ & _ & _ & _ & _ & L0).
    pose proof (abs4 _ _ _ _ 2048 (P _ _ Ca Dx) (P _ _ Cb Dw) (P _ _ Cc Dz) (P _ _ Ce Dy)) as (_ & _ & _ & _ & L1 & _).
    pose proof (abs4 _ _ _ _ 2048 (P _ _ Ca Dy) (P _ _ Cc Dw) (P _ _ Ce Dx) (P _ _ Cb Dz)) as (_ & _ & _ & _ & L2 & _).
    pose proof (abs4 _ _ _ _ 2048 (P _ _ Ca Dz) (P _ _ Ce Dw) (P _ _ Cb Dy) (P _ _ Cc Dx)) as (_ & _ & _ & _ & L3 & _).
    apply (ap_within _ _ _ _ R0) in L0. apply (ap_within _ _ _ _ R1) in L1. apply (ap_within _ _ _ _ R2) in L2. apply (ap_within _ _ _ _ R3) in L3.
    assert (forall b b' x, f_within b x -> b <= b' -> f_within b' x) as M by (intros b0 b' x0 [M1 M2] M3; split; [exact M1|lra]).
    split; [|split; [|split]]; cbn [qw qx qy qz]; (eapply M; [eassumption|lra]).
  - unfold q_len2. cbn [qw qx qy qz].
    pose proof (half_sq _ _ (proj2 R0)) as S0. pose proof (half_sq _ _ (proj2 R1)) as S1. pose proof (half_sq _ _ (proj2 R2)) as S2. pose proof (half_sq _ _ (proj2 R3)) as S3.
    match type of S0 with _ <= ?t => set (t0 := t) in * end. match type of S1 with _ <= ?t => set (t1 := t) in * end.
    match type of S2 with _ <= ?t => set (t2 := t) in * end. match type of S3 with _ <= ?t => set (t3 := t) in * end.
    clearbody t0 t1 t2 t3. clear - S0 S1 S2 S3 H1 Hl. revert S0 S1 S2 S3 H1 Hl.
    generalize (B2R a) (B2R b) (B2R c) (B2R e) (B2R w) (B2R x) (B2R y) (B2R z). clear. intros a b c e w x y z S0 S1 S2 S3 -> Hl.
    assert ((a * a + b * b + c * c + e * e) * (1 + x * x + y * y + z * z) =
      (a * 1 - b * x - c * y - e * z) * (a * 1 - b * x - c * y - e * z) + (a * x + b * 1 + c * z - e * y) * (a * x + b * 1 + c * z - e * y) +
      (a * y + c * 1 + e * x - b * z) * (a * y + c * 1 + e * x - b * z) + (a * z + e * 1 + b * y - c * x) * (a * z + e * 1 + b * y - c * x)) as Hm by ring.
    assert (9 / 10 <= (a * a + b * b + c * c + e * e) * (1 + x * x + y * y + z * z)) as Hg.
    { assert (0 <= x * x + y * y + z * z) by nra. assert (9 / 10 <= a * a + b * b + c * c + e * e) by lra. nra. }
    lra.
Qed.

(** ** Constants and bounded operations *)
Lemma f32_finite_of_SF : forall (x : f32) s m e, B2SF x = SpecFloat.S754_finite s m e -> is_finite x = true /\ B2R x = F2R (Float radix2 (cond_Zopp s (Zpos m)) e).
Proof. intros x s m e H. destruct x as [| | |s' m' e' E]; try discriminate H. cbn in H. injection H as <- <- <-. split; reflexivity. Qed.
Lemma one_val : fin (f32_of_Z 1) /\ B2R (f32_of_Z 1) = 1.
Proof. destruct (f32_finite_of_SF (f32_of_Z 1) false 8388608 (-23)) as [H ->]; [vm_compute; reflexivity|]. split; [exact H|]. unfold F2R; simpl. lra. Qed.
Lemma two_val : fin (s2 (T := f32)) /\ B2R (s2 (T := f32)) = 2.
Proof. destruct (f32_finite_of_SF (s2 (T := f32)) false 8388608 (-22)) as [H ->]; [vm_compute; reflexivity|]. split; [exact H|]. unfold F2R; simpl. lra. Qed.
Lemma half_val : fin (shalf (T := f32)) /\ B2R (shalf (T := f32)) = / 2.
Proof. destruct (f32_finite_of_SF (shalf (T := f32)) false 8388608 (-24)) as [H ->]; [vm_compute; reflexivity|]. split; [exact H|]. unfold F2R; simpl. lra. Qed.

Lemma within_add : forall k a b c x y, c = bpow radix2 k -> (-100 <= k)%Z -> a + b <= c -> c <= top -> f_within a x -> f_within b y -> f_within c (f32_add x y).
Proof.
  intros k a b c x y Hc Hk Hab Ht [Fx Bx] [Fy By]. assert (Rabs (B2R x + B2R y) <= c) as H by (eapply Rle_trans; [apply Rabs_triang|lra]).
  destruct (add_val x y Fx Fy ltac:(lra)) as [F V]. split; [exact F|]. rewrite V. exact (r32_pow k c _ Hc Hk H).
Qed.
Lemma within_sub : forall k a b c x y, c = bpow radix2 k -> (-100 <= k)%Z -> a + b <= c -> c <= top -> f_within a x -> f_within b y -> f_within c (f32_sub x y).
Proof.
  intros k a b c x y Hc Hk Hab Ht [Fx Bx] [Fy By]. assert (Rabs (B2R x - B2R y) <= c) as H by (unfold Rminus; eapply Rle_trans; [apply Rabs_triang|rewrite Rabs_Ropp; lra]).
  destruct (sub_val32 x y Fx Fy ltac:(lra)) as [F V]. split; [exact F|]. rewrite V. exact (r32_pow k c _ Hc Hk H).
Qed.
Lemma within_mul : forall k a b c x y, c = bpow radix2 k -> (-100 <= k)%Z -> a * b <= c -> c <= top -> f_within a x -> f_within b y -> f_within c (f32_mul x y).
Proof.
  intros k a b c x y Hc Hk Hab Ht [Fx Bx] [Fy By].
  assert (Rabs (B2R x * B2R y) <= c) as H by (rewrite Rabs_mult; eapply Rle_trans; [apply Rmult_le_compat; [apply Rabs_pos|apply Rabs_pos|exact Bx|exact By]|exact Hab]).
  destruct (mul_val x y Fx Fy ltac:(lra)) as [F V]. split; [exact F|]. rewrite V. exact (r32_pow k c _ Hc Hk H).
Qed.
Lemma within_half : forall k a c x, c = bpow radix2 k -> (-100 <= k)%Z -> a <= 2 * c -> c <= top -> f_within a x -> f_within c (f32_div x (s2 (T := f32))).
Proof.
  intros k a c x Hc Hk Ha Ht [Fx Bx]. destruct two_val as [_ H2].
  assert (Rabs (B2R x / B2R (s2 (T := f32))) <= c) as H by (rewrite H2; unfold Rdiv; rewrite Rabs_mult, (Rabs_pos_eq (/ 2)) by lra; lra).
  destruct (div_val x (s2 (T := f32)) Fx) as [F V]; [rewrite H2; lra|lra|]. split; [exact F|]. rewrite V. exact (r32_pow k c _ Hc Hk H).
Qed.
Lemma half_within : f_within (/ 2) (shalf (T := f32)).
Proof. destruct half_val as [F V]. split; [exact F|]. rewrite V, Rabs_pos_eq; lra. Qed.

(** A rotation vector of at most 2048 per axis. *)
Lemma delta_within : forall v, v3_within 2048 v -> comps_within 1024 (delta_q v) /\ B2R (qw (delta_q v)) = 1.
Proof.
  intros [x y z] (Hx & Hy & Hz). unfold delta_q, v3div. cbn [v3x v3y v3z qw sdiv s1 S32 ops_f32] in *. destruct one_val as [F1 V1]. split; [|exact V1].
  split; [change (f_within 1024 (f32_of_Z 1)); split; [exact F1|rewrite V1, Rabs_pos_eq; lra]|].
  split; [|split]; cbn [qx qy qz]; (apply (within_half 10 2048); [reflexivity|lia|lra|unfold top; lra|assumption]).
Qed.
(** Turning by such a vector keeps the length. *)
Theorem turn_unit : forall q v, near_unit q -> v3_within 2048 v -> near_unit (qnormalize (qmul q (delta_q v))).
Proof. intros q v Hq Hv. destruct (delta_within v Hv) as [H1 H2]. exact (product_unit q _ Hq H1 H2). Qed.

(** ** Time steps *)
Lemma rnd64_pow0 : forall x, Rabs x <= 1 -> Rabs (rnd64 x) <= 1.
Proof.
  intros x H. apply abs_round_le_generic; [exact (fexp_correct prec64 emax64 prec64_gt_0)|auto with typeclass_instances| |exact H].
  change 1 with (bpow radix2 0). apply generic_format_bpow. vm_compute. discriminate.
Qed.
Lemma dt_within : forall t0 t1, within_second t0 t1 -> f_within 1 (step_dt (T := f32) t0 t1).
Proof.
  intros t0 t1 (F0 & F1 & H). unfold step_dt. cbn [sof32 S32 ops_f32].
  pose proof (Bminus_correct prec64 emax64 _ _ mode_NE t1 t0 F1 F0) as C. fold (rnd64 (B2R t1 - B2R t0)) in C.
  pose proof (rnd64_pow0 _ H) as Hr. rewrite Rlt_bool_true in C; [|eapply Rle_lt_trans; [exact Hr|]; apply bpow_gt1; reflexivity].
  destruct C as (V & F & _). fold (f64_sub t1 t0) in V, F.
  destruct (narrow_fin _ F) as [(N1 & N2 & _)|[[_ N]|[_ N]]].
  - split; [exact N1|]. rewrite N2, V. apply (r32_pow 0); [reflexivity|lia|exact Hr].
  - exfalso. rewrite V in N. pose proof (r32_pow 0 1 _ eq_refl ltac:(lia) Hr) as B. apply Rabs_le_inv in B. rewrite big32_eq in N. pose proof (bpow_gt1 emax32 eq_refl). lra.
  - exfalso. rewrite V in N. pose proof (r32_pow 0 1 _ eq_refl ltac:(lia) Hr) as B. apply Rabs_le_inv in B. rewrite big32_eq in N. pose proof (bpow_gt1 emax32 eq_refl). lra.
Qed.

(** ** One propagation step *)
Lemma rate_within : forall g0 g1 bg dt, f_within 1024 g0 -> f_within 1024 g1 -> f_within 1024 bg -> f_within 1 dt ->
  f_within 2048 (f32_mul (f32_sub (f32_mul (f32_add g0 g1) (shalf (T := f32))) bg) dt).
Proof.
  intros g0 g1 bg dt H0 H1 Hb Hd.
  apply (within_mul 11 2048 1); [reflexivity|lia|lra|unfold top; lra| |exact Hd].
  apply (within_sub 11 1024 1024); [reflexivity|lia|lra|unfold top; lra| |exact Hb].
  apply (within_mul 10 2048 (/ 2)); [reflexivity|lia|lra|unfold top; lra| |apply half_within].
  apply (within_add 11 1024 1024); [reflexivity|lia|lra|unfold top; lra|exact H0|exact H1].
Qed.
Lemma step_unit : forall grav ba bg m a0 g0 a1 g1 dt, near_unit (mo_q m) -> v3_within 1024 g0 -> v3_within 1024 g1 -> v3_within 1024 bg -> f_within 1 dt ->
  near_unit (mo_q (fst (fst (nominal_step grav ba bg m a0 g0 a1 g1 dt)))).
Proof.
  intros grav ba bg m a0 g0 a1 g1 dt Hq (A0 & A1 & A2) (B0 & B1 & B2) (C0 & C1 & C2) Hd. unfold nominal_step. cbn [fst mo_q]. apply turn_unit; [exact Hq|].
  unfold v3scale, v3sub, v3add. split; [|split]; cbn [v3x v3y v3z sadd ssub smul S32 ops_f32]; apply rate_within; assumption.
Qed.
Lemma item_unit : forall grav ba bg F G Q it a g t, near_unit (item_att it) -> v3_within 1024 (pi_g it) -> v3_within 1024 g -> v3_within 1024 bg -> within_second (pi_ts it) t ->
  let it' := fst (fst (prop_item grav ba bg F G Q it a g t)) in near_unit (item_att it') /\ pi_g it' = g /\ pi_ts it' = t.
Proof.
  intros grav ba bg F G Q it a g t Hq Hg0 Hg Hb Ht. cbv zeta. unfold prop_item.
  pose proof (step_unit grav ba bg (pi_mo it) (pi_a it) (pi_g it) a g (step_dt (pi_ts it) t) Hq Hg0 Hg Hb (dt_within _ _ Ht)) as H.
  destruct (nominal_step grav ba bg (pi_mo it) (pi_a it) (pi_g it) a g (step_dt (pi_ts it) t)) as [[m1 ma] mg]. cbn [fst] in H. cbn [fst item_att pi_mo pi_g pi_ts].
  split; [exact H|split; reflexivity].
Qed.
End Lm.
