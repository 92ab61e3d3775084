(** A zero attitude lasts (C97). *)
From Coq Require Import ZArith Reals List Bool Lra Lia Psatz.
From Flocq Require Import Core BinarySingleNaN.
From Verif Require Import Fp FpFacts Scalar Base LinAlg MathLib Attitude Propagator FloatFacts FloatSpec FloatUnitFacts FloatQueueFacts.
Import ListNotations.
Local Open Scope R_scope.

Lemma zero_mul : forall x y, f_zero x -> is_finite y = true -> f_zero (f32_mul x y).
Proof. intros x y [-> | ->] H; destruct y as [[]|s| |[] m e E]; try discriminate H; (left; reflexivity) || (right; reflexivity). Qed.
Lemma zero_add : forall x y, f_zero x -> f_zero y -> f_zero (f32_add x y).
Proof. intros x y [-> | ->] [-> | ->]; (left; reflexivity) || (right; reflexivity). Qed.
Lemma zero_sub : forall x y, f_zero x -> f_zero y -> f_zero (f32_sub x y).
Proof. intros x y [-> | ->] [-> | ->]; (left; reflexivity) || (right; reflexivity). Qed.
Lemma zero_fin : forall x, f_zero x -> is_finite x = true.
Proof. intros x [-> | ->]; reflexivity. Qed.

Section Lm.
Variable lm : libm32.
#[local] Instance S32 : SOps f32 := ops_f32 lm.

Lemma zero_normalize : forall q, q_zero q -> qnormalize q = q.
Proof.
  intros [w x y z] (Hw & Hx & Hy & Hz). unfold qnormalize, qnorm2. cbn [qw qx qy qz sadd smul sltb S32 ops_f32 s0] in *.
  assert (f_zero (f32_add (f32_add (f32_mul x x) (f32_mul y y)) (f32_add (f32_mul z z) (f32_mul w w)))) as H by (repeat apply zero_add; apply zero_mul; try assumption; apply zero_fin; assumption).
  destruct H as [-> | ->]; reflexivity.
Qed.
Lemma zero_product : forall q d, q_zero q -> q_finite d -> q_zero (qmul q d).
Proof.
  intros [w x y z] [a b c d] (Hw & Hx & Hy & Hz) (Ha & Hb & Hc & Hd). unfold qmul, q_zero. cbn [qw qx qy qz sadd ssub smul S32 ops_f32] in *.
  repeat split; repeat (apply zero_sub || apply zero_add); apply zero_mul; assumption.
Qed.
Lemma rate_huge : forall g0 g1 bg dt, f_within huge g0 -> f_within huge g1 -> f_within huge bg -> f_within 1 dt ->
  is_finite (f32_div (f32_mul (f32_sub (f32_mul (f32_add g0 g1) (shalf (T := f32))) bg) dt) (s2 (T := f32))) = true.
Proof.
  intros g0 g1 bg dt H0 H1 Hb Hd. apply (within_half lm 100 (2 * huge) huge); [reflexivity|lia|lra|unfold huge, top; lra|].
  apply (within_mul 101 (2 * huge) 1); [reflexivity|lia|lra|unfold huge, top; lra| |exact Hd].
  apply (within_sub 101 huge huge); [reflexivity|lia|lra|unfold huge, top; lra| |exact Hb].
  apply (within_mul 100 (2 * huge) (/ 2)); [reflexivity|lia|unfold huge; lra|unfold huge, top; lra| |exact (half_within lm)].
  apply (within_add 101 huge huge); [reflexivity|lia|lra|unfold huge, top; lra|exact H0|exact H1].
Qed.
Lemma step_zero : forall grav ba bg m a0 g0 a1 g1 dt, q_zero (mo_q m) -> v3_within huge g0 -> v3_within huge g1 -> v3_within huge bg -> f_within 1 dt ->
  q_zero (mo_q (fst (fst (nominal_step grav ba bg m a0 g0 a1 g1 dt)))).
Proof.
  intros grav ba bg m a0 g0 a1 g1 dt Hq (A0 & A1 & A2) (B0 & B1 & B2) (C0 & C1 & C2) Hd. unfold nominal_step. cbn [fst mo_q].
  match goal with |- q_zero (qnormalize ?p) => assert (q_zero p) as H end.
  { apply zero_product; [exact Hq|]. unfold delta_q, v3div, v3scale, v3sub, v3add, q_finite. cbn [qw qx qy qz v3x v3y v3z]. split; [reflexivity|].
    split; [|split]; apply rate_huge; assumption. }
  rewrite (zero_normalize _ H). exact H.
Qed.
Lemma paced_app_r : forall b l k, paced b (l ++ k) -> paced b k.
Proof. intros b. induction l as [|x l IH]; intros k H; [exact H|]. apply IH. cbn [app] in H. exact (paced_tail b _ _ H). Qed.

Theorem zero_lasts : forall grav n l q it, back (pq_items q) = Ok it -> q_zero (item_att it) -> v3_within huge (pq_bg q) ->
  paced huge (map item_rate (pq_items q) ++ map (fun s => (snd (fst s), snd s)) l) ->
  exists it', back (pq_items (feed S32 grav n q l)) = Ok it' /\ q_zero (item_att it').
Proof.
  intros grav n. induction l as [|[[a g] t] r IH]; intros q it Eb Hz Hb Hp; [exists it; auto|]. unfold feed. cbn [fold_left fst snd].
  destruct (back_inv _ _ _ Eb) as [pre Epre]. set (q' := pq_propagate grav n q a g t).
  assert (exists it1, pq_items q' = pq_items q ++ [it1] /\ item_rate it1 = (g, t) /\ q_zero (item_att it1) /\ pq_bg q' = pq_bg q) as (it1 & Q1 & Q2 & Q3 & Q4).
  { unfold q', pq_propagate. rewrite Eb. unfold prop_item.
    rewrite Epre, map_app, <- app_assoc in Hp. apply paced_app_r in Hp. cbn in Hp. destruct Hp as (P1 & P2 & P3 & _).
    pose proof (step_zero grav (pq_ba q) (pq_bg q) (pi_mo it) (pi_a it) (pi_g it) a g (step_dt (pi_ts it) t) Hz P1 P3 Hb (dt_within lm _ _ P2)) as H.
    destruct (nominal_step grav (pq_ba q) (pq_bg q) (pi_mo it) (pi_a it) (pi_g it) a g (step_dt (pi_ts it) t)) as [[m1 ma] mg]. cbn [fst] in H. cbn [pq_items pq_bg].
    eexists. split; [reflexivity|]. split; [reflexivity|]. split; [exact H|reflexivity]. }
  apply (IH q' it1).
  - rewrite Q1. clear. induction (pq_items q) as [|x [|y l] IHl]; cbn in *; auto.
  - exact Q3.
  - rewrite Q4. exact Hb.
  - rewrite Q1, map_app. cbn [map]. rewrite Q2, <- app_assoc. exact Hp.
Qed.
End Lm.
