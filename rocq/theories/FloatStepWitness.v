(** Concrete floats for C98. *)
From Coq Require Import ZArith Reals List Bool Lra Lia Psatz.
From Flocq Require Import Core BinarySingleNaN.
From Verif Require Import Fp FpFacts Scalar Base LinAlg MathLib Propagator AttitudeFacts FloatFacts FloatSpec FloatUnitFacts FloatStepSpec FloatStepFacts FloatDriftFacts FloatWitness.
Import ListNotations.
Local Open Scope R_scope.

Lemma dt8_within : f_within (/ 64) (f32_lit 1 (-8)).
Proof. destruct (f32_finite_of_SF (f32_lit 1 (-8)) false 8388608 (-31)) as [H V]; [vm_compute; reflexivity|]. split; [exact H|]. rewrite V. unfold F2R; simpl. rewrite Rabs_pos_eq; lra. Qed.
Lemma dt8_val : B2R (f32_lit 1 (-8)) = / 256.
Proof. destruct (f32_finite_of_SF (f32_lit 1 (-8)) false 8388608 (-31)) as [H ->]; [vm_compute; reflexivity|]. unfold F2R; simpl. lra. Qed.

Lemma gr10_within : forall b, 10 <= b -> v3_within b gr10.
Proof. intros b H. split; [apply z_within; lra|]. split; [apply z_within; lra|apply x10_within; exact H]. Qed.
Lemma step_example : step_range gr10 zv zv (Motion gr10 av q68) av zv gr10 gv /\ f_within (/ 64) (f32_lit 1 (-8)) /\
  B2SF (qz (mo_q (fst (fst (nominal_step (S := ops_f32 lmz) gr10 zv zv (Motion gr10 av q68) av zv gr10 gv (f32_lit 1 (-8))))))) <> B2SF z0.
Proof.
  split; [|split; [apply dt8_within|vm_compute; discriminate]]. unfold step_range. cbn [mo_q mo_v mo_p].
  repeat (split; [first [apply q68_unit|apply gr10_within; lra|apply zv_within; lra|apply av_within; lra|apply gv_within; lra]|]). apply gr10_within; lra.
Qed.

(** ** A run of two samples *)
Definition mtr : mat R := Mat 0 0 (fun _ _ => 0).
Definition zr : v3 R := V3 0 0 0.
Definition mo68r : motion R := Motion zr zr (Quat (3 / 5) (4 / 5) 0 0).
Definition qr68 : pqueue R := PQueue [PItem mo68r mtr mtr (v3_val av) (v3_val zv) t0] mtr zr (v3_val zv) mo68r mtr mtr mtr.
Lemma drift_example : exists itf itr, back (pq_items fq) = Ok itf /\ back (pq_items qr68) = Ok itr /\ same_sample itf itr /\ near_unit (item_att itf) /\
  pq_bg qr68 = v3_val (pq_bg fq) /\ v3_within 64 (pq_bg fq) /\ brisk (item_rate itf :: map (fun s => (snd (fst s), snd s)) fl) /\
  sqrt (q_dist2 (item_att itf) (mo_q (pi_mo itr))) <= / 1000000.
Proof.
  do 2 eexists. split; [reflexivity|]. split; [reflexivity|]. split.
  { unfold same_sample. cbn [pi_g pi_ts pi_mo mo_q mo68r qw qx qy qz]. split; [reflexivity|]. split; [reflexivity|]. lra. }
  split; [apply q68_unit|]. split; [reflexivity|]. split; [apply zv_within; lra|]. split.
  { destruct t0_val as [F0 V0], t1_val as [F1 V1], t2_val as [F2 V2]. cbn [map fl fst snd]. unfold item_rate. cbn [brisk pi_g pi_ts].
    split; [apply zv_within; lra|]. split; [split; [exact F0|split; [exact F1|rewrite V0, V1, Rabs_pos_eq; lra]]|].
    split; [apply gv_within; lra|]. split; [split; [exact F1|split; [exact F2|rewrite V1, V2, Rabs_pos_eq; lra]]|]. split; [apply zv_within; lra|]. auto. }
  destruct x06_val as [_ V6], x08_val as [_ V8]. unfold q_dist2, item_att. cbn [pi_mo mo_q mo68 mo68r q68 qw qx qy qz]. rewrite V6, V8. change (B2R z0) with 0.
  rewrite <- (sqrt_square (/ 1000000)) by lra. apply sqrt_le_1_alt. lra.
Qed.

(** ** Slow motion far from the origin *)
Definition x1024 : f32 := f32_of_Z 1024.
Definition slow : f32 := f32_lit 1 (-7).
Lemma x1024_val : is_finite x1024 = true /\ B2R x1024 = 1024.
Proof. destruct (f32_finite_of_SF x1024 false 8388608 (-13)) as [H ->]; [vm_compute; reflexivity|]. split; [exact H|]. unfold F2R; simpl. lra. Qed.
Lemma slow_val : is_finite slow = true /\ B2R slow = / 128.
Proof. destruct (f32_finite_of_SF slow false 8388608 (-30)) as [H ->]; [vm_compute; reflexivity|]. split; [exact H|]. unfold F2R; simpl. lra. Qed.
Definition q1 : quat f32 := Quat (f32_of_Z 1) z0 z0 z0.
Definition far : motion f32 := Motion (V3 x1024 z0 z0) (V3 slow z0 z0) q1.
Lemma q1_unit : near_unit q1.
Proof.
  destruct one_val as [F V]. split; [repeat split; try reflexivity; exact F|]. unfold q_len2, q1. cbn [qw qx qy qz]. rewrite V. change (B2R z0) with 0. apply Rabs_le. split; lra.
Qed.
Lemma far_range : step_range gr10 zv zv far gr10 zv gr10 zv.
Proof.
  unfold step_range, far. cbn [mo_q mo_v mo_p]. destruct x1024_val as [F1 V1], slow_val as [F2 V2].
  repeat (split; [first [apply q1_unit|apply gr10_within; lra|apply zv_within; lra]|]).
  split; (split; [|split; apply z_within; lra]); cbn [v3x]; (split; [assumption|]); rewrite ?V1, ?V2, Rabs_pos_eq; lra.
Qed.
Lemma motion_ext : forall (p v : v3 f32) (q : quat f32) (m : motion f32), v3x (mo_p m) = v3x p -> v3y (mo_p m) = v3y p -> v3z (mo_p m) = v3z p ->
  v3x (mo_v m) = v3x v -> v3y (mo_v m) = v3y v -> v3z (mo_v m) = v3z v -> qw (mo_q m) = qw q -> qx (mo_q m) = qx q -> qy (mo_q m) = qy q -> qz (mo_q m) = qz q -> m = Motion p v q.
Proof. intros [] [] [] [[] [] []]. cbn. intros. congruence. Qed.
Lemma far_fixed : fst (fst (nominal_step (S := ops_f32 lmz) gr10 zv zv far gr10 zv gr10 zv (f32_lit 1 (-8)))) = far.
Proof. apply motion_ext; apply B2SF_inj; vm_compute; reflexivity. Qed.
Lemma far_exact : forall x, fst (fst (nominal_step (S := ops_R) (v3_val gr10) (v3_val zv) (v3_val zv) (Motion (V3 x 0 0) (V3 (/ 128) 0 0) (Quat 1 0 0 0)) (v3_val gr10) (v3_val zv) (v3_val gr10) (v3_val zv) (/ 256))) =
  Motion (V3 (x + / 32768) 0 0) (V3 (/ 128) 0 0) (Quat 1 0 0 0).
Proof.
  intros x. destruct x10_val as [_ V].
  assert (v3_val gr10 = V3 0 0 10) as -> by (unfold v3_val, gr10; cbn [v3x v3y v3z]; rewrite V; reflexivity).
  change (v3_val zv) with zr. unfold nominal_step.
  assert (qmul (S := ops_R) (Quat 1 0 0 0) (delta_q (v3scale (v3sub (v3scale (v3add zr zr) shalf) zr) (/ 256))) = Quat 1 0 0 0) as E.
  { unfold qmul, delta_q, v3div, v3scale, v3sub, v3add, zr, shalf, s2. cbn. f_equal; field. }
  cbn [mo_q mo_v mo_p fst]. rewrite E. rewrite q_normal_R; cbn [qw qx qy qz]; [|lra].
  replace (1 * 1 + 0 * 0 + 0 * 0 + 0 * 0) with 1 by ring. rewrite sqrt_1.
  replace (Quat (1 / 1) (0 / 1) (0 / 1) (0 / 1)) with (Quat 1 0 0 0) by (f_equal; field).
  assert (v3sub (S := ops_R) (V3 0 0 10) zr = V3 0 0 10) as -> by (unfold v3sub, zr; cbn [v3x v3y v3z ssub ops_R]; f_equal; ring).
  assert (qrot (S := ops_R) (Quat 1 0 0 0) (V3 0 0 10) = V3 0 0 10) as ->.
  { unfold qrot, v3cross, v3scale, v3add, qvec. cbn [v3x v3y v3z qw qx qy qz sadd ssub smul ops_R]. f_equal; ring. }
  assert (v3sub (S := ops_R) (v3scale (v3add (V3 0 0 10) (V3 0 0 10)) shalf) (V3 0 0 10) = zr) as ->.
  { unfold v3scale, v3sub, v3add, zr, shalf, s2. cbn [v3x v3y v3z sadd ssub smul sdiv s1 ops_R]. f_equal; field. }
  assert (v3add (S := ops_R) (V3 (/ 128) 0 0) (v3scale zr (/ 256)) = V3 (/ 128) 0 0) as ->.
  { unfold v3scale, v3add, zr. cbn [v3x v3y v3z sadd smul ops_R]. f_equal; ring. }
  unfold v3scale, v3add, shalf, s2. cbn [v3x v3y v3z sadd smul sdiv s1 ops_R]. f_equal. f_equal; lra.
Qed.

Definition far_q : pqueue f32 := PQueue [PItem far mt0 mt0 gr10 zv t0] mt0 zv zv far mt0 mt0 mt0.
Definition far_mo (x : R) : motion R := Motion (V3 x 0 0) (V3 (/ 128) 0 0) (Quat 1 0 0 0).
Definition far_r : pqueue R := PQueue [PItem (far_mo 1024) mtr mtr (v3_val gr10) (v3_val zv) t0] mtr (v3_val zv) (v3_val zv) (far_mo 1024) mtr mtr mtr.
Lemma far_val : mo_val far = far_mo 1024.
Proof.
  unfold mo_val, far, far_mo, v3_val, q_val, q1. cbn [mo_p mo_v mo_q v3x v3y v3z qw qx qy qz]. destruct x1024_val as [_ ->], slow_val as [_ ->]. destruct one_val as [_ ->]. reflexivity.
Qed.
Lemma far_run : forall l qf qr itf itr x, back (pq_items qf) = Ok itf -> back (pq_items qr) = Ok itr -> pq_ba qf = zv -> pq_bg qf = zv -> pq_ba qr = v3_val zv -> pq_bg qr = v3_val zv ->
  pi_mo itf = far -> pi_a itf = gr10 -> pi_g itf = zv -> pi_mo itr = far_mo x -> pi_a itr = v3_val gr10 -> pi_g itr = v3_val zv -> pi_ts itr = pi_ts itf -> even_pace gr10 zv (pi_ts itf) l ->
  exists itf' itr', back (pq_items (feed (ops_f32 lmz) gr10 1 qf l)) = Ok itf' /\ back (pq_items (feed_exact (v3_val gr10) 1 qr l)) = Ok itr' /\
    pi_mo itf' = far /\ pi_mo itr' = far_mo (x + INR (length l) / 32768).
Proof.
  induction l as [|[[a g] t] r IH]; intros qf qr itf itr x Ef Er B1 B2 B3 B4 M1 M2 M3 N1 N2 N3 T HP.
  - exists itf, itr. split; [exact Ef|]. split; [exact Er|]. split; [exact M1|]. rewrite N1. cbn [length INR]. f_equal. field.
  - cbn [even_pace fst snd] in HP. destruct HP as (E1 & E2 & HP). injection E1 as -> ->.
    assert (forall P, P (feed (ops_f32 lmz) gr10 1 (pq_propagate (S := ops_f32 lmz) gr10 1 qf gr10 zv t) r) -> P (feed (ops_f32 lmz) gr10 1 qf ((gr10, zv, t) :: r))) as Ff by (intros P H; exact H).
    assert (exists itf', back (pq_items (pq_propagate (S := ops_f32 lmz) gr10 1 qf gr10 zv t)) = Ok itf' /\ pi_mo itf' = far /\ pi_a itf' = gr10 /\ pi_g itf' = zv /\ pi_ts itf' = t /\
      pq_ba (pq_propagate (S := ops_f32 lmz) gr10 1 qf gr10 zv t) = zv /\ pq_bg (pq_propagate (S := ops_f32 lmz) gr10 1 qf gr10 zv t) = zv) as (itf' & F1 & F2 & F3 & F4 & F5 & F6 & F7).
    { unfold pq_propagate. rewrite Ef. unfold prop_item. rewrite B1, B2, M1, M2, M3.
      replace (step_dt (S := ops_f32 lmz) (pi_ts itf) t) with (f32_lit 1 (-8)) by (symmetry; exact E2).
      pose proof far_fixed as FX. destruct (nominal_step (S := ops_f32 lmz) gr10 zv zv far gr10 zv gr10 zv (f32_lit 1 (-8))) as [[m1 ma] mg]. cbn [fst] in FX. subst m1.
      eexists. cbn [pq_items pq_ba pq_bg]. rewrite back_snoc. split; [reflexivity|]. repeat split. }
    assert (exists itr', back (pq_items (pq_propagate (S := ops_R) (v3_val gr10) 1 qr (v3_val gr10) (v3_val zv) t)) = Ok itr' /\ pi_mo itr' = far_mo (x + / 32768) /\ pi_a itr' = v3_val gr10 /\
      pi_g itr' = v3_val zv /\ pi_ts itr' = t /\
      pq_ba (pq_propagate (S := ops_R) (v3_val gr10) 1 qr (v3_val gr10) (v3_val zv) t) = v3_val zv /\ pq_bg (pq_propagate (S := ops_R) (v3_val gr10) 1 qr (v3_val gr10) (v3_val zv) t) = v3_val zv)
      as (itr' & R1 & R2 & R3 & R4 & R5 & R6 & R7).
    { unfold pq_propagate. rewrite Er. unfold prop_item. rewrite B3, B4, N1, N2, N3, T.
      replace (step_dt (S := ops_R) (pi_ts itf) t) with (/ 256) by (unfold step_dt; cbn [sof32 ops_R]; rewrite E2; symmetry; exact dt8_val).
      pose proof (far_exact x) as FX. fold (far_mo x) in FX.
      destruct (nominal_step (S := ops_R) (v3_val gr10) (v3_val zv) (v3_val zv) (far_mo x) (v3_val gr10) (v3_val zv) (v3_val gr10) (v3_val zv) (/ 256)) as [[m1 ma] mg]. cbn [fst] in FX. subst m1.
      eexists. cbn [pq_items pq_ba pq_bg]. rewrite back_snoc. split; [reflexivity|]. repeat split. }
    destruct (IH _ _ itf' itr' (x + / 32768) F1 R1 F6 F7 R6 R7 F2 F3 F4 R2 R3 R4 ltac:(congruence) ltac:(rewrite F5; exact HP)) as (f'' & r'' & J1 & J2 & J3 & J4).
    exists f'', r''. split; [exact J1|]. split; [exact J2|]. split; [exact J3|]. rewrite J4. change (length ((gr10, zv, t) :: r)) with (S (length r)). rewrite S_INR. f_equal. field.
Qed.
Theorem far_stalls : exists (lm : libm32) grav (qf : pqueue f32) (qr : pqueue R) itf itr a g, back (pq_items qf) = Ok itf /\ back (pq_items qr) = Ok itr /\
  pi_mo itr = mo_val (pi_mo itf) /\ step_range grav (pq_ba qf) (pq_bg qf) (pi_mo itf) a g a g /\ B2R (v3x (mo_v (pi_mo itf))) = / 128 /\
  forall l, even_pace a g (pi_ts itf) l -> exists itf' itr', back (pq_items (feed (ops_f32 lm) grav 1 qf l)) = Ok itf' /\ back (pq_items (feed_exact (v3_val grav) 1 qr l)) = Ok itr' /\
    mo_p (pi_mo itf') = mo_p (pi_mo itf) /\ v3x (mo_p (pi_mo itr')) = B2R (v3x (mo_p (pi_mo itf))) + INR (length l) / 32768.
Proof.
  exists lmz, gr10, far_q, far_r. do 2 eexists. exists gr10, zv. split; [reflexivity|]. split; [reflexivity|]. cbn [pi_mo pi_ts pq_ba pq_bg far_q far_r]. split; [symmetry; exact far_val|].
  split; [exact far_range|]. split; [apply slow_val|]. intros l Hl.
  destruct (far_run l far_q far_r (PItem far mt0 mt0 gr10 zv t0) (PItem (far_mo 1024) mtr mtr (v3_val gr10) (v3_val zv) t0) 1024 eq_refl eq_refl eq_refl eq_refl eq_refl eq_refl eq_refl eq_refl eq_refl eq_refl eq_refl eq_refl eq_refl Hl)
    as (f' & r' & J1 & J2 & J3 & J4).
  exists f', r'. split; [exact J1|]. split; [exact J2|]. rewrite J3, J4. split; [reflexivity|]. unfold far_mo, far. cbn [mo_p v3x]. destruct x1024_val as [_ ->]. reflexivity.
Qed.
Lemma far_example : even_pace gr10 zv t0 [(gr10, zv, t1); (gr10, zv, t2)].
Proof. cbn [even_pace fst snd]. split; [reflexivity|]. split; [apply B2SF_inj; vm_compute; reflexivity|]. split; [reflexivity|]. split; [apply B2SF_inj; vm_compute; reflexivity|exact I]. Qed.
