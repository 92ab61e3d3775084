(** Queues, corrections and the attitude estimator in binary32 (C97). *)
From Coq Require Import ZArith Reals List Bool Lra Lia Psatz.
From Flocq Require Import Core BinarySingleNaN.
From Verif Require Import Fp FpFacts InterpFacts NarrowFacts Scalar Base LinAlg MathLib Msg FeatureManager FrameManager Window Attitude Propagator VisionUpdate
  AttitudeFacts FloatFacts FloatSpec FloatUnitFacts.
Import ListNotations.
Local Open Scope R_scope.

Section Lm.
Variable lm : libm32.
#[local] Instance S32 : SOps f32 := ops_f32 lm.

Lemma item_unit' : forall grav ba bg F G Q it a g t, near_unit (item_att it) -> v3_within 1024 (pi_g it) -> v3_within 1024 g -> v3_within 1024 bg -> within_second (pi_ts it) t ->
  let it' := fst (fst (prop_item grav ba bg F G Q it a g t)) in near_unit (item_att it') /\ pi_g it' = g /\ pi_ts it' = t.
Proof. exact (item_unit lm). Qed.
Lemma half_within' : f_within (/ 2) (shalf (T := f32)).
Proof. exact (half_within lm). Qed.

Lemma paced_tail : forall b x l, paced b (x :: l) -> paced b l.
Proof. intros b [g t] l (_ & _ & H). exact H. Qed.
Lemma back_inv : forall (A : Type) (l : list A) x, back l = Ok x -> exists pre, l = pre ++ [x].
Proof.
  induction l as [|y r IH]; intros x E; [discriminate E|]. destruct r as [|z r']; [exists []; injection E as ->; reflexivity|].
  destruct (IH x E) as [pre Hpre]. exists (y :: pre). rewrite Hpre. reflexivity.
Qed.

(** One sample keeps the attitudes of the queue and its pace. *)
Lemma propagate_unit : forall grav n q a g t, paced 1024 (map item_rate (pq_items q) ++ [(g, t)]) -> v3_within 1024 (pq_bg q) -> near_unit (mo_q (pq_init q)) ->
  Forall (fun it => near_unit (item_att it)) (pq_items q) ->
  let q' := pq_propagate grav n q a g t in
  Forall (fun it => near_unit (item_att it)) (pq_items q') /\ map item_rate (pq_items q') = map item_rate (pq_items q) ++ [(g, t)] /\
  pq_bg q' = pq_bg q /\ pq_init q' = pq_init q.
Proof.
  intros grav n q a g t Hp Hb Hi Hq. cbv zeta. unfold pq_propagate. destruct (back (pq_items q)) as [it0|] eqn:Eb.
  - destruct (back_inv _ _ _ Eb) as [pre Epre]. rewrite Epre in Hp, Hq. apply Forall_app in Hq as [Hpre Hit]. inversion Hit as [|? ? Hit0 _]; subst.
    assert (v3_within 1024 (pi_g it0) /\ within_second (pi_ts it0) t /\ v3_within 1024 g) as (P1 & P2 & P3).
    { clear - Hp. induction pre as [|[mo cv ec ai gi ti] r IH]; [|apply IH; cbn in Hp; apply Hp]. cbn in Hp. destruct Hp as (H1 & H2 & H3 & _). auto. }
    pose proof (item_unit' grav (pq_ba q) (pq_bg q) (pq_F q) (pq_G q) (pq_Q q) it0 a g t Hit0 P1 P3 Hb P2) as HI. cbv zeta in HI.
    destruct (prop_item grav (pq_ba q) (pq_bg q) (pq_F q) (pq_G q) (pq_Q q) it0 a g t) as [[it1 F'] G'] eqn:E.  cbn [fst] in HI. destruct HI as (I1 & I2 & I3).
    cbn [pq_items pq_bg pq_init]. rewrite Epre. split; [|split; [|split; reflexivity]].
    + apply Forall_app. split; [apply Forall_app; split; [exact Hpre|exact Hit]|]. constructor; [exact I1|constructor].
    + rewrite map_app. cbn [map]. unfold item_rate at 2. rewrite I2, I3. reflexivity.
  - cbn [pq_items pq_bg pq_init]. split; [|split; [|split; reflexivity]].
    + apply Forall_app. split; [exact Hq|]. constructor; [exact Hi|constructor].
    + rewrite map_app. reflexivity.
Qed.

Theorem feed_unit : forall grav n l q, paced 1024 (map item_rate (pq_items q) ++ map (fun s => (snd (fst s), snd s)) l) -> v3_within 1024 (pq_bg q) -> near_unit (mo_q (pq_init q)) ->
  Forall (fun it => near_unit (item_att it)) (pq_items q) -> Forall (fun it => near_unit (item_att it)) (pq_items (feed S32 grav n q l)).
Proof.
  intros grav n. induction l as [|[[a g] t] r IH]; intros q Hp Hb Hi Hq; [exact Hq|].
  cbn [map fst snd] in Hp. replace (map item_rate (pq_items q) ++ (g, t) :: map (fun s => (snd (fst s), snd s)) r) with
    ((map item_rate (pq_items q) ++ [(g, t)]) ++ map (fun s : v3 f32 * v3 f32 * f64 => (snd (fst s), snd s)) r) in Hp by (rewrite <- app_assoc; reflexivity).
  assert (paced 1024 (map item_rate (pq_items q) ++ [(g, t)])) as Hp1.
  { clear - Hp. revert Hp. generalize (map item_rate (pq_items q) ++ [(g, t)]) (map (fun s : v3 f32 * v3 f32 * f64 => (snd (fst s), snd s)) r). clear.
    induction l as [|[g t] l' IH]; intros k H; [exact I|]. cbn [app] in H. destruct H as (H1 & H2 & H3). split; [exact H1|]. split; [|exact (IH _ H3)]. destruct l'; [exact I|exact H2]. }
  destruct (propagate_unit grav n q a g t Hp1 Hb Hi Hq) as (P1 & P2 & P3 & P4). unfold feed. cbn [fold_left fst snd]. apply IH.
  - rewrite P2. exact Hp.
  - rewrite P3. exact Hb.
  - rewrite P4. exact Hi.
  - exact P1.
Qed.

(** Recomputation from the head. *)
Lemma reprop_loop_unit : forall grav ba bg Q l F G it0, paced 1024 (map item_rate (it0 :: l)) -> v3_within 1024 bg -> near_unit (item_att it0) ->
  Forall (fun it => near_unit (item_att it)) (fst (fst (reprop_loop grav ba bg Q F G it0 l))).
Proof.
  intros grav ba bg Q. induction l as [|it1 r IH]; intros F G it0 Hp Hb H0; [constructor|]. cbn [reprop_loop].
  destruct Hp as (P1 & P2 & P3). cbn [map] in P2. assert (v3_within 1024 (pi_g it1)) as P4 by (apply P3).
  pose proof (item_unit' grav ba bg F G Q it0 (pi_a it1) (pi_g it1) (pi_ts it1) H0 P1 P4 Hb P2) as HI. cbv zeta in HI.
  destruct (prop_item grav ba bg F G Q it0 (pi_a it1) (pi_g it1) (pi_ts it1)) as [[it1' F'] G'] eqn:E.  cbn [fst] in HI. destruct HI as (I1 & I2 & I3).
  assert (paced 1024 (map item_rate (it1' :: r))) as P5. { cbn [map] in *. unfold item_rate at 1. rewrite I2, I3. exact P3. }
  specialize (IH F' G' it1' P5 Hb I1).
  destruct (reprop_loop grav ba bg Q F' G' it1' r) as [[r' F''] G'']. cbn [fst] in *. constructor; assumption.
Qed.
Theorem repropagate_unit : forall grav q it0 r, pq_items q = it0 :: r -> paced 1024 (map item_rate (pq_items q)) -> v3_within 1024 (pq_bg q) -> near_unit (item_att it0) ->
  Forall (fun it => near_unit (item_att it)) (pq_items (pq_repropagate grav q)).
Proof.
  intros grav q it0 r E Hp Hb H0. unfold pq_repropagate. rewrite E in *. pose proof (reprop_loop_unit grav (pq_ba q) (pq_bg q) (pq_Q q) r (pq_F q) (pq_G q) it0 Hp Hb H0) as H.
  destruct (reprop_loop grav (pq_ba q) (pq_bg q) (pq_Q q) (pq_F q) (pq_G q) it0 r) as [[r' F'] G']. cbn [fst pq_items] in *. constructor; assumption.
Qed.

(** Corrections of a vision update. *)
Lemma seg_within : forall dx i v, dx_within dx -> seg3c dx i = Ok v -> v3_within 2048 v.
Proof. intros dx i v H E. unfold seg3c in E. destruct (Nat.leb (i + 3) (mr dx)); [|discriminate E]. injection E as <-. repeat split; apply H. Qed.
Lemma correct_ext_unit : forall dx l i l', dx_within dx -> Forall (fun e => near_unit (ex_q e)) l -> correct_ext dx i l = Ok l' -> Forall (fun e => near_unit (ex_q e)) l'.
Proof.
  intros dx. induction l as [|e r IH]; intros i l' Hd Hl E; cbn [correct_ext] in E; [injection E as <-; constructor|].
  destruct (seg3c dx (imu_size + i * 6)) as [dp|] eqn:E1; [|discriminate E]. cbn [obind] in E.
  destruct (seg3c dx (imu_size + i * 6 + 3)) as [dq|] eqn:E2; [|discriminate E]. cbn [obind] in E.
  destruct (correct_ext dx (Datatypes.S i) r) as [r'|] eqn:E3; [|discriminate E]. cbn [obind] in E. injection E as <-.
  inversion Hl as [|? ? He Hr]; subst. constructor; [|exact (IH _ _ Hd Hr E3)]. cbn [ex_q]. apply (turn_unit lm); [exact He|exact (seg_within _ _ _ Hd E2)].
Qed.
Lemma correct_frames_unit : forall dx off id m l i l', dx_within dx -> near_unit (mo_q m) -> Forall (fun f => near_unit (fr_q f)) l -> correct_frames dx off i id m l = Ok l' ->
  Forall (fun f => near_unit (fr_q f)) l'.
Proof.
  intros dx off id m. induction l as [|f r IH]; intros i l' Hd Hm Hl E; cbn [correct_frames] in E; [injection E as <-; constructor|].
  inversion Hl as [|? ? Hf Hr]; subst. destruct (fr_id f =? id)%Z; [injection E as <-; constructor; [exact Hm|exact Hr]|].
  destruct (seg3c dx (off + i * 6)) as [dp|] eqn:E1; [|discriminate E]. cbn [obind] in E.
  destruct (seg3c dx (off + i * 6 + 3)) as [dq|] eqn:E2; [|discriminate E]. cbn [obind] in E.
  destruct (correct_frames dx off (Datatypes.S i) id m r) as [r'|] eqn:E3; [|discriminate E]. cbn [obind] in E. injection E as <-.
  constructor; [|exact (IH _ _ Hd Hm Hr E3)]. cbn. apply (turn_unit lm); [exact Hf|exact (seg_within _ _ _ Hd E2)].
Qed.
Theorem correction_unit : forall dx s s', dx_within dx -> Forall (fun it => near_unit (item_att it)) (pq_items (vs_pq s)) ->
  Forall (fun e => near_unit (ex_q e)) (vs_ext s) -> Forall (fun f => near_unit (fr_q f)) (wn_frames (vs_win s)) -> apply_delta dx s = Ok s' ->
  Forall (fun it => near_unit (item_att it)) (pq_items (vs_pq s')) /\ Forall (fun e => near_unit (ex_q e)) (vs_ext s') /\
  Forall (fun f => near_unit (fr_q f)) (wn_frames (vs_win s')).
Proof.
  intros dx [w ex q] s' Hd Hq He Hf E. cbn [vs_pq vs_ext vs_win] in *. unfold apply_delta in E. cbn [vs_pq vs_ext vs_win] in E.
  destruct (pq_items q) as [|it r] eqn:Eq; [discriminate E|]. cbn [front obind] in E. inversion Hq as [|? ? H0 Hr]; subst.
  destruct (correct_motion dx (pi_mo it)) as [m|] eqn:Em; [|discriminate E]. cbn [obind] in E.
  assert (near_unit (mo_q m)) as Hm.
  { unfold correct_motion in Em. destruct (seg3c dx ix_p) as [dp|] eqn:S1; [|discriminate Em]. cbn [obind] in Em. destruct (seg3c dx ix_v) as [dv|] eqn:S2; [|discriminate Em]. cbn [obind] in Em.
    destruct (seg3c dx ix_r) as [dq|] eqn:S3; [|discriminate Em]. cbn [obind] in Em. injection Em as <-. cbn [mo_q]. apply (turn_unit lm); [exact H0|exact (seg_within _ _ _ Hd S3)]. }
  unfold with_head in E. rewrite Eq in E. cbn [obind] in E.
  destruct (seg3c dx ix_ba) as [dba|]; [|discriminate E]. cbn [obind] in E. destruct (seg3c dx ix_bg) as [dbg|]; [|discriminate E]. cbn [obind] in E.
  destruct (correct_ext dx 0 ex) as [ex'|] eqn:Ee; [|discriminate E]. cbn [obind] in E.
  match type of E with obind ?t _ = _ => destruct t as [fs|] eqn:Ef; [|discriminate E] end. cbn [obind] in E. injection E as <-. cbn [vs_pq vs_ext vs_win wn_frames].
  split; [|split].
  - unfold with_bias, with_items. cbn [pq_items]. constructor; [exact Hm|exact Hr].
  - exact (correct_ext_unit dx ex 0 ex' Hd He Ee).
  - destruct (wn_frames w) as [|f0 fr] eqn:Ew; [injection Ef as <-; constructor|]. destruct (back (f0 :: fr)) as [b|]; [|discriminate Ef]. cbn [obind] in Ef.
    exact (correct_frames_unit _ _ _ _ _ _ _ Hd Hm Hf Ef).
Qed.

(** ** The attitude estimator *)
Lemma within_weak : forall b b' x, f_within b x -> b <= b' -> f_within b' x.
Proof. intros b b' x [H1 H2] H. split; [exact H1|lra]. Qed.
Lemma dot_rel : forall v, v3_within 1048576 v -> / 4 <= v3_len2 v -> fin (v3dot v v) /\ v3_len2 v / 2 <= B2R (v3dot v v).
Proof.
  intros [x y z] (Hx & Hy & Hz) HS. unfold v3dot. unfold v3_len2 in *. cbn [v3x v3y v3z sadd smul S32 ops_f32] in *.
  destruct (sq_val x Hx) as (Fx & Vx & Px). destruct (sq_val y Hy) as (Fy & Vy & Py). destruct (sq_val z Hz) as (Fz & Vz & Pz).
  pose proof (sq_err (B2R x)) as Ex. pose proof (sq_err (B2R y)) as Ey. pose proof (sq_err (B2R z)) as Ez.
  rewrite <- Vx in Ex. rewrite <- Vy in Ey. rewrite <- Vz in Ez.
  set (X := B2R x * B2R x) in *. set (Y := B2R y * B2R y) in *. set (Z := B2R z * B2R z) in *.
  assert (0 < uf) as Hu by (unfold uf; lra). assert (0 < ef) as Hef by (unfold ef; lra).
  destruct (sum_val _ _ _ _ Fy Fz eq_refl eq_refl) as [F1 V1]; [eapply abs_from; [exact Ey| |]; unfold uf, ef; lra|eapply abs_from; [exact Ez| |]; unfold uf, ef; lra|].
  pose proof (rel_add _ _ Y Z uf ef _ (proj1 Py) (proj1 Pz) (Rlt_le _ _ Hu) (Rlt_le _ _ Hef) Ey Ez V1) as E1.
  destruct (sum_val _ _ _ _ Fx F1 eq_refl eq_refl) as [F3 V3]; [eapply abs_from; [exact Ex| |]; unfold uf, ef; lra|eapply abs_from; [exact E1| |]; unfold uf, ef; lra|].
  assert (0 <= uf + uf + uf * uf) as Hk by nra. assert (0 <= 2 * ef + uf * (2 * ef) + ef) as Hj by nra.
  assert (Rabs (B2R (f32_mul x x) - X) <= (uf + uf + uf * uf) * X + (2 * ef + uf * (2 * ef) + ef)) as Ex' by (eapply Rle_trans; [exact Ex|]; unfold uf, ef; lra).
  pose proof (rel_add _ _ X (Y + Z) _ _ _ ltac:(lra) ltac:(lra) Hk Hj Ex' E1 V3) as E3.
  split; [exact F3|]. apply Rabs_le_inv in E3. clear - E3 HS. revert E3. replace (X + Y + Z) with (X + (Y + Z)) in * by ring. set (A := X + (Y + Z)) in *. unfold uf, ef. lra.
Qed.
Lemma sq_le_abs : forall c s, 0 <= s -> c * c <= 4 * (s * s) -> Rabs c <= 2 * s.
Proof.
  intros c s Hs H. apply Rsqr_incr_0_var; [|lra]. unfold Rsqr. rewrite <- Rabs_mult, Rabs_pos_eq by nra. lra.
Qed.
(** A component divided by the norm is at most 2. *)
Lemma unit_within : forall v, v3_within 1048576 v -> / 4 <= v3_len2 v -> v3_within 2 (v3div v (v3norm v)).
Proof.
  intros v Hv HS. destruct (dot_rel v Hv HS) as [Fd Ed]. set (d := v3dot v v) in *.
  assert (0 < B2R d) as Hd0 by lra. destruct (sqrt_val d Fd Hd0) as [Fs Vs]. unfold v3norm. fold d. change (ssqrt d) with (f32_sqrt d). set (s := f32_sqrt d) in *. clearbody s d.
  set (t := sqrt (B2R d)) in *. assert (t * t = B2R d) as Ht by (apply sqrt_sqrt; lra).
  assert (/ 3 <= t) as Ht0. { replace (/ 3) with (sqrt (/ 3 * / 3)) by (apply sqrt_square; lra). apply sqrt_le_1; lra. }
  pose proof (r32_err t) as Es. rewrite <- Vs, (Rabs_pos_eq t) in Es by lra. apply Rabs_le_inv in Es.
  assert (99 / 100 * t <= B2R s) as Hs by (unfold uf, ef in Es; lra).
  assert (v3_len2 v <= 4 * (B2R s * B2R s)) as HL. { assert ((99 / 100 * t) * (99 / 100 * t) <= B2R s * B2R s) as H by (apply Rmult_le_compat; lra). nra. }
  assert (forall c, fin c -> B2R c * B2R c <= v3_len2 v -> f_within 2 (f32_div c s)) as D.
  { intros c Fc Hc. assert (Rabs (B2R c / B2R s) <= 2) as H.
    { unfold Rdiv. rewrite Rabs_mult, (Rabs_pos_eq (/ B2R s)) by (apply Rlt_le, Rinv_0_lt_compat; lra).
      apply Rmult_le_reg_r with (B2R s); [lra|]. rewrite Rmult_assoc, Rinv_l, Rmult_1_r by lra. apply sq_le_abs; lra. }
    destruct (div_val c s Fc) as [F V]; [lra|unfold top; lra|]. split; [exact F|]. rewrite V. apply (r32_pow 1); [reflexivity|lia|exact H]. }
  destruct v as [x y z]. destruct Hv as ([Fx _] & [Fy _] & [Fz _]). unfold v3_len2 in D. cbn [v3x v3y v3z] in *.
  assert (0 <= B2R x * B2R x /\ 0 <= B2R y * B2R y /\ 0 <= B2R z * B2R z) as (Px & Py & Pz) by (repeat split; nra).
  unfold v3div. cbn [v3x v3y v3z sdiv S32 ops_f32]. split; [|split]; cbn [v3x v3y v3z]; apply D; auto; lra.
Qed.
Lemma cross_within : forall k a b c u v, c = bpow radix2 k -> (0 <= k)%Z -> 2 * (a * b) <= c -> c <= top -> v3_within a u -> v3_within b v -> v3_within c (v3cross u v).
Proof.
  intros k a b c [ux uy uz] [vx vy vz] Hc Hk Hab Ht (U1 & U2 & U3) (V1 & V2 & V3). unfold v3cross. cbn [v3x v3y v3z ssub smul S32 ops_f32] in *.
  pose proof (bpow_gt_0 radix2 k) as Hpos. rewrite <- Hc in Hpos.
  assert (c / 2 = bpow radix2 (k - 1)) as Hc2. { rewrite Hc. unfold Zminus. rewrite bpow_plus. change (bpow radix2 (-1)) with (/ 2). reflexivity. }
  split; [|split]; cbn [v3x v3y v3z]; (apply (within_sub k (c / 2) (c / 2)); [exact Hc|lia|lra|exact Ht| |]; (apply (within_mul (k - 1) a b); [exact Hc2|lia|lra|lra|assumption|assumption])).
Qed.
Lemma add3_within : forall k a b c u v, c = bpow radix2 k -> (0 <= k)%Z -> a + b <= c -> c <= top -> v3_within a u -> v3_within b v -> v3_within c (v3add u v).
Proof.
  intros k a b c [ux uy uz] [vx vy vz] Hc Hk Hab Ht (U1 & U2 & U3) (V1 & V2 & V3). unfold v3add. cbn [v3x v3y v3z sadd S32 ops_f32] in *.
  split; [|split]; cbn [v3x v3y v3z]; (apply (within_add k a b); [exact Hc|lia|exact Hab|exact Ht|assumption|assumption]).
Qed.
Lemma sub3_within : forall k a b c u v, c = bpow radix2 k -> (0 <= k)%Z -> a + b <= c -> c <= top -> v3_within a u -> v3_within b v -> v3_within c (v3sub u v).
Proof.
  intros k a b c [ux uy uz] [vx vy vz] Hc Hk Hab Ht (U1 & U2 & U3) (V1 & V2 & V3). unfold v3sub. cbn [v3x v3y v3z ssub S32 ops_f32] in *.
  split; [|split]; cbn [v3x v3y v3z]; (apply (within_sub k a b); [exact Hc|lia|exact Hab|exact Ht|assumption|assumption]).
Qed.
Lemma scale3_within : forall k a b c u s, c = bpow radix2 k -> (0 <= k)%Z -> a * b <= c -> c <= top -> v3_within a u -> f_within b s -> v3_within c (v3scale u s).
Proof.
  intros k a b c [ux uy uz] s Hc Hk Hab Ht (U1 & U2 & U3) Hs. unfold v3scale. cbn [v3x v3y v3z smul S32 ops_f32] in *.
  split; [|split]; cbn [v3x v3y v3z]; (apply (within_mul k a b); [exact Hc|lia|exact Hab|exact Ht|assumption|assumption]).
Qed.

Lemma div3_within : forall k a c u s, c = bpow radix2 k -> (0 <= k)%Z -> a <= c / 2 -> c <= top -> v3_within a u -> fin s -> / 2 <= B2R s -> v3_within c (v3div u s).
Proof.
  intros k a c [ux uy uz] s Hc Hk Ha Ht (U1 & U2 & U3) Fs Hs. unfold v3div. cbn [v3x v3y v3z sdiv S32 ops_f32] in *.
  assert (forall x, f_within a x -> f_within c (f32_div x s)) as D.
  { intros x [Fx Bx]. assert (Rabs (B2R x / B2R s) <= c) as H.
    { unfold Rdiv. rewrite Rabs_mult, (Rabs_pos_eq (/ B2R s)) by (apply Rlt_le, Rinv_0_lt_compat; lra).
      apply Rmult_le_reg_r with (B2R s); [lra|]. rewrite Rmult_assoc, Rinv_l, Rmult_1_r by lra. pose proof (Rabs_pos (B2R x)). nra. }
    destruct (div_val x s Fx) as [F V]; [lra|lra|]. split; [exact F|]. rewrite V. apply (r32_pow k); [exact Hc|lia|exact H]. }
  split; [|split]; cbn [v3x v3y v3z]; apply D; assumption.
Qed.
Lemma opp3_within : forall a u, v3_within a u -> v3_within a (v3opp u).
Proof.
  intros a [x y z] (H1 & H2 & H3). unfold v3opp. cbn [v3x v3y v3z sopp S32 ops_f32] in *.
  assert (forall t, f_within a t -> f_within a (f32_opp t)) as D by (intros t [F B]; split; unfold f32_opp; [rewrite is_finite_Bopp; exact F|rewrite B2R_Bopp, Rabs_Ropp; exact B]).
  split; [|split]; apply D; assumption.
Qed.
(** The inverse of a quaternion of nearly unit length. *)
Lemma inv_within : forall q, near_unit q -> comps_within 4 (qinv q).
Proof.
  intros q Hq. pose proof (unit_comps q Hq) as Hc. destruct Hq as [Hf Hl]. apply Rabs_le_inv in Hl.
  assert (forall b b' x, f_within b x -> b <= b' -> f_within b' x) as M by exact within_weak.
  assert (comps_within 1048576 q) as Hc' by (destruct Hc as (C1 & C2 & C3 & C4); repeat split; try apply C1; try apply C2; try apply C3; try apply C4; (eapply Rle_trans; [first [apply C1|apply C2|apply C3|apply C4]|lra])).
  destruct (norm2_rel lm q Hc' ltac:(lra)) as [Fn En]. change (FloatUnitFacts.S32 lm) with S32 in *. unfold qinv. set (n := qnorm2 q) in *. apply Rabs_le_inv in En. unfold uf in En.
  assert (9 / 10 <= B2R n) as Hn by lra. clearbody n.
  replace (sltb s0 n) with true; [|symmetry; cbn; unfold f32_ltb; rewrite Bltb_correct; [apply Rlt_bool_true; cbn; lra|reflexivity|exact Fn]].
  destruct q as [w x y z]. destruct Hc as (Hw & Hx & Hy & Hz). unfold qdivs, qconj, comps_within. cbn [qw qx qy qz sdiv sopp S32 ops_f32] in *.
  pose proof (div3_within 2 2 4 (V3 w w w) n eq_refl ltac:(lia) ltac:(lra) ltac:(unfold top; lra)) as D1. 
  pose proof (div3_within 2 2 4 (v3opp (V3 x y z)) n eq_refl ltac:(lia) ltac:(lra) ltac:(unfold top; lra)) as D2.
  destruct D1 as (D1 & _ & _); [repeat split; apply Hw|exact Fn|lra|]. destruct D2 as (D2 & D3 & D4); [apply opp3_within; repeat split; try apply Hx; try apply Hy; apply Hz|exact Fn|lra|].
  split; [exact D1|]. split; [exact D2|]. split; [exact D3|exact D4].
Qed.
Lemma rot_within : forall q v, comps_within 4 q -> v3_within 16 v -> v3_within 4096 (qrot q v).
Proof.
  intros q v (Hw & Hx & Hy & Hz) Hv. unfold qrot.
  assert (v3_within 4 (qvec q)) as Hu by (split; [|split]; assumption).
  assert (v3_within 128 (v3cross (qvec q) v)) as H1 by (apply (cross_within 7 4 16); [reflexivity|lia|lra|unfold top; lra|exact Hu|exact Hv]).
  assert (v3_within 256 (v3add (v3cross (qvec q) v) (v3cross (qvec q) v))) as H2 by (apply (add3_within 8 128 128); [reflexivity|lia|lra|unfold top; lra|exact H1|exact H1]).
  apply (add3_within 12 2048 2048); [reflexivity|lia|lra|unfold top; lra| |].
  - apply (add3_within 11 16 1024); [reflexivity|lia|lra|unfold top; lra|exact Hv|]. apply (scale3_within 10 256 4); [reflexivity|lia|lra|unfold top; lra|exact H2|exact Hw].
  - apply (cross_within 11 4 256); [reflexivity|lia|lra|unfold top; lra|exact Hu|exact H2].
Qed.
Lemma kp_within : f_within (/ 512) (att_kp (T := f32)).
Proof.
  destruct (f32_finite_of_SF (att_kp (T := f32)) false 8589935 (-33)) as [H V]; [vm_compute; reflexivity|]. split; [exact H|]. rewrite V. unfold F2R; simpl. rewrite Rabs_pos_eq; lra.
Qed.
Lemma ki_within : f_within (/ 8192) (att_ki (T := f32)).
Proof.
  destruct (f32_finite_of_SF (att_ki (T := f32)) false 13743895 (-37)) as [H V]; [vm_compute; reflexivity|]. split; [exact H|]. rewrite V. unfold F2R; simpl. rewrite Rabs_pos_eq; lra.
Qed.

(** One step of the estimator. *)
Theorem estimator_unit : forall grav st a g t it0, back (at_items st) = Ok it0 -> Forall (fun it => near_unit (ai_q it)) (at_items st) ->
  v3_within 16 grav -> 1 <= v3_len2 grav -> v3_within 1024 a -> / 4 <= v3_len2 a -> v3_within 256 g -> v3_within 256 (at_bg st) -> v3_within 512 (ai_g it0) -> v3_within 512 (at_err st) ->
  within_second (ai_ts it0) t -> Forall (fun it => near_unit (ai_q it)) (at_items (fst (att_propagate grav st a g t))).
Proof.
  intros grav st a g t it0 Eb Hall Hgr Lgr Ha La Hg Hbg Hg0 He Ht. unfold att_propagate. rewrite Eb. destruct (f64_ltb t (ai_ts it0)); [exact Hall|]. cbn [fst at_items].
  apply Forall_app. split; [exact Hall|]. constructor; [|constructor]. cbn [ai_q].
  destruct (back_inv _ _ _ Eb) as [pre Epre]. rewrite Epre in Hall. apply Forall_app in Hall as [_ Hit]. inversion Hit as [|? ? Hq _]; subst.
  apply (turn_unit lm); [exact Hq|].
  assert (forall b u, v3_within b u -> b <= 1048576 -> v3_within 1048576 u) as M by (intros b u (U1 & U2 & U3) Hb; repeat split; try apply U1; try apply U2; try apply U3; (eapply Rle_trans; [first [apply U1|apply U2|apply U3]|exact Hb])).
  pose proof (unit_within a (M _ _ Ha ltac:(lra)) La) as Hm.
  assert (v3_within 8192 (v3div (qrot (qinv (ai_q it0)) grav) (v3norm grav))) as Htg.
  { destruct (dot_rel grav (M _ _ Hgr ltac:(lra)) ltac:(lra)) as [Fd Ed]. assert (0 < B2R (v3dot grav grav)) as Hd0 by lra.
    destruct (sqrt_val _ Fd Hd0) as [Fs Vs]. apply (div3_within 13 4096); [reflexivity|lia|lra|unfold top; lra|apply rot_within; [apply inv_within; exact Hq|exact Hgr]|exact Fs|].
    change (v3norm grav) with (f32_sqrt (v3dot grav grav)). rewrite Vs. set (s := sqrt (B2R (v3dot grav grav))).
    assert (7 / 10 <= s) as Hs. { replace (7 / 10) with (sqrt (7 / 10 * (7 / 10))) by (apply sqrt_square; lra). apply sqrt_le_1; lra. }
    pose proof (r32_err s) as E. rewrite (Rabs_pos_eq s) in E by lra. apply Rabs_le_inv in E. unfold uf, ef in E. lra. }
  set (err := v3cross (v3div a (v3norm a)) (v3div (qrot (qinv (ai_q it0)) grav) (v3norm grav))).
  assert (v3_within 32768 err) as Herr by (apply (cross_within 15 2 8192); [reflexivity|lia|lra|unfold top; lra|exact Hm|exact Htg]).
  clearbody err.
  assert (v3_within 512 (v3scale (v3add (ai_g it0) (v3sub g (at_bg st))) shalf)) as Hmid.
  { apply (scale3_within 9 1024 (/ 2)); [reflexivity|lia|lra|unfold top; lra| |apply half_within'].
    apply (add3_within 10 512 512); [reflexivity|lia|lra|unfold top; lra|exact Hg0|]. apply (sub3_within 9 256 256); [reflexivity|lia|lra|unfold top; lra|exact Hg|exact Hbg]. }
  assert (v3_within 64 (v3scale err att_kp)) as Hkp by (apply (scale3_within 6 32768 (/ 512)); [reflexivity|lia|lra|unfold top; lra|exact Herr|apply kp_within]).
  assert (v3_within 4 (v3scale err att_ki)) as Hki by (apply (scale3_within 2 32768 (/ 8192)); [reflexivity|lia|lra|unfold top; lra|exact Herr|apply ki_within]).
  apply (scale3_within 11 2048 1); [reflexivity|lia|lra|unfold top; lra| |exact (dt_within lm _ _ Ht)].
  apply opp3_within. apply (add3_within 11 1024 1024); [reflexivity|lia|lra|unfold top; lra| |].
  - apply (add3_within 10 512 64); [reflexivity|lia|lra|unfold top; lra|exact Hmid|exact Hkp].
  - apply (add3_within 10 512 4); [reflexivity|lia|lra|unfold top; lra|exact He|exact Hki].
Qed.
End Lm.
