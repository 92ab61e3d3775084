(** Concrete runs for C102. *)
From Coq Require Import ZArith Reals List Bool Lra Lia Psatz.
From Flocq Require Import Core BinarySingleNaN.
From Verif Require Import Fp FpFacts Scalar Base LinAlg MathLib Propagator FloatFacts FloatSpec FloatUnitFacts FloatStepSpec FloatStepFacts FloatDriftFacts FloatWitness FloatStepWitness DriftSpec DriftFacts.
Import ListNotations.
Local Open Scope R_scope.

Definition far_it : pitem f32 := PItem far mt0 mt0 gr10 zv t0.
Definition far_ir : pitem R := PItem (far_mo 1024) mtr mtr (v3_val gr10) (v3_val zv) t0.
Definition far_l : list (v3 f32 * v3 f32 * f64) := [(gr10, zv, t1); (gr10, zv, t2)].
Lemma far_beside : beside far_q far_r far_it far_ir.
Proof.
  unfold beside. split; [reflexivity|]. split; [reflexivity|]. split.
  { unfold same_sample. split; [reflexivity|]. split; [reflexivity|]. cbn [far_ir pi_mo far_mo mo_q qw qx qy qz]. lra. }
  split; [reflexivity|]. split; [reflexivity|]. split; [reflexivity|]. cbn [far_q far_it pq_ba pq_bg pi_a pi_g].
  split; [apply zv_within; lra|]. split; [apply zv_within; lra|]. split; [apply q1_unit|]. split; [apply gr10_within; lra|apply zv_within; lra].
Qed.
Lemma far_apart : apart 0 0 0 far_it far_ir.
Proof.
  destruct one_val as [F0 V0], x1024_val as [F1 V1], slow_val as [F2 V2].
  assert (Z : is_finite z0 = true /\ Rabs (B2R z0 - 0) <= 0) by (split; [reflexivity|]; change (B2R z0) with 0; rewrite Rminus_0_r, Rabs_R0; lra).
  unfold apart, far_it, far_ir, far, far_mo, item_att, q1. cbn [pi_mo mo_q mo_v mo_p]. split; [|split].
  - unfold q_dist2. cbn [qw qx qy qz]. rewrite V0. change (B2R z0) with 0. match goal with |- sqrt ?x <= _ => replace x with 0 by ring end. rewrite sqrt_0. lra.
  - split; [|split; exact Z]. split; [exact F2|]. cbn [v3x]. rewrite V2, Rminus_diag_eq, Rabs_R0 by reflexivity. lra.
  - split; [|split; exact Z]. split; [exact F1|]. cbn [v3x]. rewrite V1, Rminus_diag_eq, Rabs_R0 by reflexivity. lra.
Qed.
Lemma far_steady : steady t0 far_l.
Proof.
  destruct t0_val as [F0 V0], t1_val as [F1 V1], t2_val as [F2 V2]. cbn [steady far_l].
  split; [apply gr10_within; lra|]. split; [apply zv_within; lra|]. split; [split; [exact F0|split; [exact F1|rewrite V0, V1, Rabs_pos_eq; lra]]|].
  split; [apply gr10_within; lra|]. split; [apply zv_within; lra|]. split; [split; [exact F1|split; [exact F2|rewrite V1, V2, Rabs_pos_eq; lra]]|]. exact I.
Qed.
Lemma far_in : forall x b, 0 <= x <= b -> v3_in 1 (mo_v (far_mo x)) /\ v3_in b (mo_p (far_mo x)).
Proof. intros x b H. unfold v3_in, far_mo. cbn [mo_v mo_p v3x v3y v3z]. rewrite !Rabs_pos_eq by lra. repeat split; lra. Qed.
Lemma far_cruises_run : forall l qr itr x b, back (pq_items qr) = Ok itr -> pq_ba qr = v3_val zv -> pq_bg qr = v3_val zv -> pi_mo itr = far_mo x -> pi_a itr = v3_val gr10 -> pi_g itr = v3_val zv ->
  even_pace gr10 zv (pi_ts itr) l -> 0 <= x -> x + INR (length l) / 32768 <= b -> cruises 1 b (v3_val gr10) 1 qr l.
Proof.
  induction l as [|[[a g] t] r IH]; intros qr itr x b Er B1 B2 M1 M2 M3 HP Hx Hb; cbn [cruises]; rewrite Er, M1.
  - cbn [length INR] in Hb. destruct (far_in x b) as [I1 I2]; [lra|]. auto.
  - cbn [length] in Hb. rewrite S_INR in Hb. pose proof (pos_INR (length r)). destruct (far_in x b) as [I1 I2]; [lra|]. split; [exact I1|]. split; [exact I2|].
    cbn [even_pace fst snd] in *. destruct HP as (E1 & E2 & HP). injection E1 as -> ->.
    destruct (prop_motion (S := ops_R) (v3_val gr10) 1 qr itr (v3_val gr10) (v3_val zv) t Er) as (r' & R1 & R2 & R3 & R4 & R5 & R6 & R7).
    rewrite B1, B2, M1, M2, M3 in R2.
    replace (step_dt (S := ops_R) (pi_ts itr) t) with (/ 256) in R2 by (unfold step_dt; cbn [sof32 ops_R]; rewrite E2; symmetry; exact dt8_val).
    unfold far_mo at 1 in R2. rewrite far_exact in R2. fold (far_mo (x + / 32768)) in R2.
    refine (IH _ r' (x + / 32768) b R1 _ _ R2 R3 R4 _ _ _); [congruence|congruence|rewrite R5; exact HP|lra|lra].
Qed.
Lemma far_cruises : cruises 1 1025 (v3_val gr10) 1 far_r far_l.
Proof.
  refine (far_cruises_run far_l far_r far_ir 1024 1025 eq_refl eq_refl eq_refl eq_refl eq_refl eq_refl _ _ _); [exact far_example|lra|]. cbn [far_l length INR]. lra.
Qed.
Lemma reckon_example : v3_within 16 gr10 /\ beside far_q far_r far_it far_ir /\ apart 0 0 0 far_it far_ir /\ steady (pi_ts far_it) far_l /\
  cruises 1 1025 (v3_val gr10) 1 far_r far_l /\ 1 + v_bound 0 0 (length far_l) <= 64 /\ 1025 + p_bound 0 0 0 (length far_l) <= 2048.
Proof.
  split; [apply gr10_within; lra|]. split; [exact far_beside|]. split; [exact far_apart|]. split; [exact far_steady|]. split; [exact far_cruises|].
  unfold p_bound, v_bound. cbn [far_l length INR]. split; lra.
Qed.
(** Twenty samples, about the number between two images, from equal states: the bounds in numbers. *)
Lemma between_images : v_bound 0 0 20 <= / 20 /\ p_bound 0 0 0 20 <= / 40.
Proof. unfold p_bound, v_bound. replace (INR 20) with 20 by (rewrite INR_IZR_INZ; reflexivity). split; lra. Qed.
