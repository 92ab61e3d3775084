(** Concrete floats for C97. *)
From Coq Require Import ZArith Reals List Bool Lra Lia Psatz.
From Flocq Require Import Core BinarySingleNaN.
From Verif Require Import Fp FpFacts Scalar Base LinAlg MathLib Msg FeatureManager FrameManager Window Attitude Propagator VisionUpdate
  FloatFacts FloatSpec FloatUnitFacts FloatQueueFacts FloatZeroFacts.
Import ListNotations.
Local Open Scope R_scope.

(** 0.6, 0.8, 0.5, 10, 2^90 as floats; 0 and 1/256 as times. *)
Definition x06 : f32 := f32_lit 10066330 (-24).
Definition x08 : f32 := f32_lit 13421773 (-24).
Definition x05 : f32 := f32_lit 1 (-1).
Definition x10 : f32 := f32_of_Z 10.
Definition x90 : f32 := f32_lit 1 90.
Definition z0 : f32 := B754_zero false.
Definition t0 : f64 := f64_of_Z 0.
Definition t1 : f64 := f64_lit 1 (-8).
Definition t2 : f64 := f64_lit 1 (-7).
Lemma x06_val : is_finite x06 = true /\ B2R x06 = 10066330 / 16777216.
Proof. destruct (f32_finite_of_SF x06 false 10066330 (-24)) as [H ->]; [vm_compute; reflexivity|]. split; [exact H|]. unfold F2R; simpl. lra. Qed.
Lemma x08_val : is_finite x08 = true /\ B2R x08 = 13421773 / 16777216.
Proof. destruct (f32_finite_of_SF x08 false 13421773 (-24)) as [H ->]; [vm_compute; reflexivity|]. split; [exact H|]. unfold F2R; simpl. lra. Qed.
Lemma x05_val : is_finite x05 = true /\ B2R x05 = / 2.
Proof. destruct (f32_finite_of_SF x05 false 8388608 (-24)) as [H ->]; [vm_compute; reflexivity|]. split; [exact H|]. unfold F2R; simpl. lra. Qed.
Lemma x10_val : is_finite x10 = true /\ B2R x10 = 10.
Proof. destruct (f32_finite_of_SF x10 false 10485760 (-20)) as [H ->]; [vm_compute; reflexivity|]. split; [exact H|]. unfold F2R; simpl. lra. Qed.
Lemma t1_val : is_finite t1 = true /\ B2R t1 = / 256.
Proof. destruct (f64_finite_of_SF t1 false 4503599627370496 (-60)) as [H ->]; [vm_compute; reflexivity|]. split; [reflexivity|]. unfold B2R, F2R; simpl. lra. Qed.
Lemma t2_val : is_finite t2 = true /\ B2R t2 = / 128.
Proof. destruct (f64_finite_of_SF t2 false 4503599627370496 (-59)) as [H ->]; [vm_compute; reflexivity|]. split; [reflexivity|]. unfold B2R, F2R; simpl. lra. Qed.
Lemma t0_val : is_finite t0 = true /\ B2R t0 = 0.
Proof. split; reflexivity. Qed.
Lemma z_within : forall b, 0 <= b -> f_within b z0.
Proof. intros b H. split; [reflexivity|]. cbn. rewrite Rabs_R0. exact H. Qed.
Lemma x05_within : forall b, 1 <= b -> f_within b x05.
Proof. intros b H. destruct x05_val as [F V]. split; [exact F|]. rewrite V, Rabs_pos_eq; lra. Qed.
Lemma x10_within : forall b, 10 <= b -> f_within b x10.
Proof. intros b H. destruct x10_val as [F V]. split; [exact F|]. rewrite V, Rabs_pos_eq; lra. Qed.
Lemma sec01 : within_second t0 t1.
Proof. destruct t0_val as [F0 V0], t1_val as [F1 V1]. split; [exact F0|]. split; [exact F1|]. rewrite V0, V1, Rabs_pos_eq; lra. Qed.
Lemma sec12 : within_second t1 t2.
Proof. destruct t1_val as [F0 V0], t2_val as [F1 V1]. split; [exact F0|]. split; [exact F1|]. rewrite V0, V1, Rabs_pos_eq; lra. Qed.

(** A tilted attitude. *)
Definition q68 : quat f32 := Quat x06 x08 z0 z0.
Lemma q68_unit : near_unit q68.
Proof.
  destruct x06_val as [F6 V6], x08_val as [F8 V8]. split; [repeat split; assumption|]. unfold q_len2, q68. cbn [qw qx qy qz]. rewrite V6, V8. change (B2R z0) with 0. apply Rabs_le. split; lra.
Qed.
Definition zv : v3 f32 := V3 z0 z0 z0.
Definition gv : v3 f32 := V3 z0 x05 x10.
Definition av : v3 f32 := V3 z0 x10 z0.
Lemma zv_within : forall b, 0 <= b -> v3_within b zv.
Proof. intros b H. split; [|split]; apply z_within; exact H. Qed.
Lemma gv_within : forall b, 10 <= b -> v3_within b gv.
Proof. intros b H. split; [apply z_within; lra|]. split; [apply x05_within; lra|apply x10_within; exact H]. Qed.
Lemma av_within : forall b, 10 <= b -> v3_within b av.
Proof. intros b H. split; [apply z_within; lra|]. split; [apply x10_within; exact H|apply z_within; lra]. Qed.

Definition lmz : libm32 := {| lm_atan2 := fun _ _ => z0; lm_log := fun _ => z0; lm_asin := fun _ => z0; lm_acos := fun _ => z0 |}.
Definition mt0 : mat f32 := Mat 0 0 (fun _ _ => z0).
Definition mo68 : motion f32 := Motion zv zv q68.
Definition fq : pqueue f32 := PQueue [PItem mo68 mt0 mt0 av zv t0] mt0 zv zv mo68 mt0 mt0 mt0.
Definition fl : list (v3 f32 * v3 f32 * f64) := [(av, gv, t1); (av, zv, t2)].
Lemma feed_example : paced 1024 (map item_rate (pq_items fq) ++ map (fun s => (snd (fst s), snd s)) fl) /\ v3_within 1024 (pq_bg fq) /\ near_unit (mo_q (pq_init fq)) /\
  Forall (fun it => near_unit (item_att it)) (pq_items fq) /\ length (pq_items (feed (ops_f32 lmz) zv 1 fq fl)) = 3%nat.
Proof.
  split; [|split; [apply zv_within; lra|split; [apply q68_unit|split; [constructor; [apply q68_unit|constructor]|reflexivity]]]].
  cbn. split; [apply zv_within; lra|]. split; [apply sec01|]. split; [apply gv_within; lra|]. split; [apply sec12|]. split; [apply zv_within; lra|]. auto.
Qed.
Definition rq : pqueue f32 := PQueue [PItem mo68 mt0 mt0 av zv t0; PItem mo68 mt0 mt0 av gv t1] mt0 zv zv mo68 mt0 mt0 mt0.
Lemma reprop_example : exists it0 r, pq_items rq = it0 :: r /\ paced 1024 (map item_rate (pq_items rq)) /\ v3_within 1024 (pq_bg rq) /\ near_unit (item_att it0) /\
  map (fun it => B2SF (qz (item_att it))) (pq_items (pq_repropagate (S := ops_f32 lmz) zv rq)) <> map (fun it => B2SF (qz (item_att it))) (pq_items rq).
Proof.
  do 2 eexists. split; [reflexivity|]. split; [|split; [apply zv_within; lra|split; [apply q68_unit|]]].
  - cbn. split; [apply zv_within; lra|]. split; [apply sec01|]. split; [apply gv_within; lra|]. auto.
  - vm_compute. discriminate.
Qed.

(** A correction by half a radian and more. *)
Definition dx68 : mat f32 := Mat 27 1 (fun i _ => if Nat.eqb i 7 then x05 else if Nat.eqb i 19 then x10 else z0).
Definition vs68 : vstate f32 := VState (Window (Heap 0 stdpp.base.empty) stdpp.base.empty [Frame stdpp.base.empty q68 zv zv 0 t0; Frame stdpp.base.empty q68 zv zv 1 t1]) [Extrinsic q68 zv] fq.
Lemma correct_example : exists s', dx_within dx68 /\ Forall (fun it => near_unit (item_att it)) (pq_items (vs_pq vs68)) /\
  Forall (fun e => near_unit (ex_q e)) (vs_ext vs68) /\ Forall (fun f => near_unit (fr_q f)) (wn_frames (vs_win vs68)) /\ apply_delta (S := ops_f32 lmz) dx68 vs68 = Ok s' /\
  map (fun e => B2SF (qw (ex_q e))) (vs_ext s') <> map (fun e => B2SF (qw (ex_q e))) (vs_ext vs68).
Proof.
  eexists. split; [|split; [|split; [|split; [|split; [reflexivity|]]]]].
  - intros i. unfold dx68. cbn [me]. destruct (Nat.eqb i 7); [apply x05_within; lra|]. destruct (Nat.eqb i 19); [apply x10_within; lra|apply z_within; lra].
  - constructor; [apply q68_unit|constructor].
  - constructor; [apply q68_unit|constructor].
  - constructor; [apply q68_unit|constructor; [apply q68_unit|constructor]].
  - vm_compute. discriminate.
Qed.
(** An estimator with one tilted sample. *)
Definition at68 : att f32 := Att [AttItem q68 av zv t0] zv zv zv.
Definition gr10 : v3 f32 := V3 z0 z0 x10.
Lemma estimator_example : exists it0, back (at_items at68) = Ok it0 /\ Forall (fun it => near_unit (ai_q it)) (at_items at68) /\
  v3_within 16 gr10 /\ 1 <= v3_len2 gr10 /\ v3_within 1024 av /\ / 4 <= v3_len2 av /\ v3_within 256 gv /\ v3_within 256 (at_bg at68) /\ v3_within 512 (ai_g it0) /\
  v3_within 512 (at_err at68) /\ within_second (ai_ts it0) t1 /\ length (at_items (fst (att_propagate (S := ops_f32 lmz) gr10 at68 av gv t1))) = 2%nat.
Proof.
  destruct x10_val as [_ V]. eexists. split; [reflexivity|]. split; [constructor; [apply q68_unit|constructor]|].
  split; [split; [apply z_within; lra|split; [apply z_within; lra|apply x10_within; lra]]|].
  split; [unfold v3_len2, gr10; cbn [v3x v3y v3z]; rewrite V; cbn; lra|]. split; [apply av_within; lra|].
  split; [unfold v3_len2, av; cbn [v3x v3y v3z]; rewrite V; cbn; lra|]. split; [apply gv_within; lra|]. split; [apply zv_within; lra|]. split; [apply zv_within; lra|].
  split; [apply zv_within; lra|]. split; [apply sec01|]. vm_compute. reflexivity.
Qed.

(** One rate of 2^90 rad/s. *)
Definition big_g : v3 f32 := V3 x90 z0 z0.
Lemma x90_within : f_within huge x90.
Proof.
  destruct (f32_finite_of_SF x90 false 8388608 67) as [H V]; [vm_compute; reflexivity|]. split; [exact H|]. rewrite V. unfold F2R, huge; simpl. rewrite Rabs_pos_eq; lra.
Qed.
Definition zq : pqueue f32 := feed (ops_f32 lmz) zv 1 fq [(av, big_g, t1)].
Lemma zero_example : exists it, back (pq_items zq) = Ok it /\ q_zero (item_att it) /\ v3_within huge (pq_bg zq) /\
  paced huge (map item_rate (pq_items zq) ++ map (fun s => (snd (fst s), snd s)) [(av, gv, t2)]).
Proof.
  eexists. split; [reflexivity|]. split; [|split; [apply zv_within; unfold huge; lra|]].
  - repeat split; first [left; apply B2SF_inj; vm_compute; reflexivity|right; apply B2SF_inj; vm_compute; reflexivity].
  - change (paced huge [(zv, t0); (big_g, t1); (gv, t2)]). cbn. split; [apply zv_within; unfold huge; lra|]. split; [apply sec01|].
    split; [split; [apply x90_within|split; apply z_within; unfold huge; lra]|]. split; [apply sec12|]. split; [apply gv_within; unfold huge; lra|]. auto.
Qed.
Lemma finite_refuted : exists (lm : libm32) grav n q a g t it', Forall (fun it => near_unit (item_att it)) (pq_items q) /\ pq_items q <> [] /\ v3_within huge g /\ v3_within 0 (pq_bg q) /\ v3_within 16 a /\
  paced huge (map item_rate (pq_items q) ++ [(g, t)]) /\ back (pq_items (pq_propagate (S := ops_f32 lm) grav n q a g t)) = Ok it' /\ q_zero (item_att it').
Proof.
  destruct zero_example as (it & E & Hz & _ & Hp). exists lmz, zv, 1%nat, fq, av, big_g, t1, it.
  split; [constructor; [apply q68_unit|constructor]|]. split; [discriminate|]. split; [split; [apply x90_within|split; apply z_within; unfold huge; lra]|].
  split; [apply zv_within; lra|]. split; [apply av_within; lra|]. split; [|split; [exact E|exact Hz]].
  change (paced huge [(zv, t0); (big_g, t1)]). cbn. split; [apply zv_within; unfold huge; lra|]. split; [apply sec01|]. split; [|auto].
  split; [apply x90_within|split; apply z_within; unfold huge; lra].
Qed.
