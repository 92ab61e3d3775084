(** One NaN sample spoils the estimate for good (C88), in IEEE binary32 arithmetic. *)
From Coq Require Import ZArith Reals Lra List Bool Lia Arith.
From stdpp Require Import gmap list.
From Flocq Require Import Core IEEE754.BinarySingleNaN.
From Verif Require Import Fp FpFacts NarrowFacts Scalar Base LinAlg Msg DataLoader FeatureManager FrameManager Window MathLib Attitude Propagator
  Triangulate Pnp VisionUpdate Backend LoaderSpec WindowSpec QueueSpec UpdSpec NumSpec BackendSpec BiasSpec FlowSpec NanSpec LoaderFacts FrameFacts AttitudeFacts
  PropagatorFacts UpdCovFacts SafeFacts BackLenFacts BackDimFacts BackSafeFacts BackTimeFacts BackBiasFacts AppFacts FlowFacts TrimFacts.
From Verif Require AttNanFacts.
Import ListNotations.
Local Open Scope nat_scope.

Notation nan := (B754_nan : f32).
Lemma add_nan_l : forall y : f32, f32_add nan y = nan. Proof. intros []; reflexivity. Qed.
Lemma add_nan_r : forall y : f32, f32_add y nan = nan. Proof. intros []; reflexivity. Qed.
Lemma sub_nan_l : forall y : f32, f32_sub nan y = nan. Proof. intros []; reflexivity. Qed.
Lemma sub_nan_r : forall y : f32, f32_sub y nan = nan. Proof. intros []; reflexivity. Qed.
Lemma mul_nan_l : forall y : f32, f32_mul nan y = nan. Proof. intros []; reflexivity. Qed.
Lemma mul_nan_r : forall y : f32, f32_mul y nan = nan. Proof. intros []; reflexivity. Qed.
Lemma div_nan_l : forall y : f32, f32_div nan y = nan. Proof. intros []; reflexivity. Qed.
Lemma div_nan_r : forall y : f32, f32_div y nan = nan. Proof. intros []; reflexivity. Qed.
Lemma opp_nan : f32_opp nan = nan. Proof. reflexivity. Qed.
Lemma sqrt_nan : f32_sqrt nan = nan. Proof. reflexivity. Qed.
Lemma abs_nan : f32_abs nan = nan. Proof. reflexivity. Qed.
Lemma ltb_nan_r : forall y : f32, f32_ltb y nan = false. Proof. intros []; reflexivity. Qed.
#[local] Hint Rewrite add_nan_l add_nan_r sub_nan_l sub_nan_r mul_nan_l mul_nan_r div_nan_l div_nan_r opp_nan sqrt_nan abs_nan ltb_nan_r : nanr.

Lemma isnan_eq : forall x : f32, f32_isnan x = true <-> x = nan.
Proof. intros x. split; [destruct x; try discriminate; reflexivity|intros ->; reflexivity]. Qed.

Section Nan.
Variable lm : libm32.
Local Instance OPS : SOps f32 := ops_f32 lm.

Definition vsn (v : v3 f32) : Prop := v3x v = nan \/ v3y v = nan \/ v3z v = nan.
Definition van (v : v3 f32) : Prop := v3x v = nan /\ v3y v = nan /\ v3z v = nan.
Definition qsn (q : quat f32) : Prop := qw q = nan \/ qx q = nan \/ qy q = nan \/ qz q = nan.
Lemma vsn_iff : forall v, v3_some_nan v <-> vsn v.
Proof. intros v. unfold v3_some_nan, vsn. rewrite !isnan_eq. tauto. Qed.
Lemma van_iff : forall v, v3_all_nan v <-> van v.
Proof. intros v. unfold v3_all_nan, van. rewrite !isnan_eq. tauto. Qed.
Lemma qsn_iff : forall q, q_some_nan q <-> qsn q.
Proof. intros q. unfold q_some_nan, qsn. rewrite !isnan_eq. tauto. Qed.
Lemma van_vsn : forall v, van v -> vsn v.
Proof. intros v (H & _). left. exact H. Qed.

Ltac ops := cbv beta iota zeta delta [OPS ops_f32 sadd ssub smul sdiv sopp sabs ssqrt s0 s1 sltb sleb satan2 sof32 v3x v3y v3z qw qx qy qz qvec
  v3add v3sub v3opp v3scale v3div v3dot v3norm v3cross qmul qnorm2 qdivs qrot delta_q] in *.
Ltac nn := autorewrite with nanr; auto.

Lemma add_vsn : forall a b, vsn a \/ vsn b -> vsn (v3add a b).
Proof. intros [x y z] [x' y' z'] H. unfold vsn in *. ops. destruct H as [[-> | [-> | ->]]|[-> | [-> | ->]]]; nn. Qed.
Lemma sub_vsn : forall a b, vsn a -> vsn (v3sub a b).
Proof. intros [x y z] [x' y' z'] H. unfold vsn in *. ops. destruct H as [-> | [-> | ->]]; nn. Qed.
Lemma scale_vsn : forall a k, vsn a -> vsn (v3scale a k).
Proof. intros [x y z] k H. unfold vsn in *. ops. destruct H as [-> | [-> | ->]]; nn. Qed.
Lemma opp_vsn : forall a, vsn a -> vsn (v3opp a).
Proof. intros [x y z] H. unfold vsn in *. ops. destruct H as [-> | [-> | ->]]; nn. Qed.
Lemma add_van : forall a b, van a \/ van b -> van (v3add a b).
Proof. intros [x y z] [x' y' z'] H. unfold van in *. ops. destruct H as [(-> & -> & ->)|(-> & -> & ->)]; nn. Qed.
Lemma sub_van : forall a b, van a -> van (v3sub a b).
Proof. intros [x y z] [x' y' z'] H. unfold van in *. ops. destruct H as (-> & -> & ->); nn. Qed.
Lemma scale_van : forall a k, van a -> van (v3scale a k).
Proof. intros [x y z] k H. unfold van in *. ops. destruct H as (-> & -> & ->); nn. Qed.
Lemma norm_nan : forall a, vsn a -> v3norm a = nan.
Proof. intros [x y z] H. unfold vsn in *. ops. destruct H as [-> | [-> | ->]]; nn. Qed.
Lemma div_norm : forall a, vsn a -> van (v3div a (v3norm a)).
Proof. intros a H. rewrite norm_nan by exact H. destruct a as [x y z]. unfold van. ops. nn. Qed.
Lemma cross_van : forall a b, van a -> van (v3cross a b).
Proof. intros [x y z] [x' y' z'] H. unfold van in *. ops. destruct H as (-> & -> & ->); nn. Qed.
Lemma cross_vsn : forall a b, vsn a -> vsn (v3cross a b).
Proof. intros [x y z] [x' y' z'] H. unfold vsn in *. ops. destruct H as [-> | [-> | ->]]; nn. Qed.
Lemma delta_vsn : forall a, vsn a -> qsn (delta_q a).
Proof. intros [x y z] H. unfold vsn, qsn in *. ops. destruct H as [-> | [-> | ->]]; nn. Qed.
Lemma qmul_qsn : forall a b, qsn a \/ qsn b -> qsn (qmul a b).
Proof. intros [w x y z] [w' x' y' z'] H. unfold qsn in *. ops. left. destruct H as [[-> | [-> | [-> | ->]]]|[-> | [-> | [-> | ->]]]]; nn. Qed.
Lemma qnorm_qsn : forall q, qsn q -> qsn (qnormalize q).
Proof.
  intros [w x y z] H. unfold qsn, qnormalize in *. cbv zeta. destruct (sltb _ _); [|exact H]. unfold qdivs. set (k := ssqrt _). clearbody k. ops.
  destruct H as [-> | [-> | [-> | ->]]]; nn.
Qed.
Lemma qrot_van : forall q v, qsn q \/ vsn v -> van (qrot q v).
Proof.
  intros [w x y z] [a b c] H. unfold qsn, vsn, van in *. ops. destruct H as [[-> | [-> | [-> | ->]]]|[-> | [-> | ->]]]; nn.
Qed.
Lemma correct_qsn : forall q d, qsn q -> qsn (q_correct q d).
Proof. intros q d H. unfold q_correct. apply qnorm_qsn, qmul_qsn. left. exact H. Qed.

(** ** The attitude estimator *)
Definition a_meas (i : att_item f32) : Prop := vsn (ai_a i) \/ vsn (ai_g i).
Definition att_bad (l : list (att_item f32)) : Prop := exists l1 it l2, l = l1 ++ it :: l2 /\
  (qsn (ai_q it) \/ vsn (ai_g it)) /\ (l1 = [] \/ a_meas it) /\ List.Forall (fun i => qsn (ai_q i)) l2.
Lemma att_bad_suffix : forall pre l, att_bad (pre ++ l) -> l <> [] -> att_bad l.
Proof.
  intros pre l (l1 & it & l2 & E & Hs & Hm & Hf) Hl.
  destruct (app_eq_app _ _ _ _ E) as (k & [[-> Ek]|[-> Ek]]).
  - destruct k as [|i k].
    + cbn [app] in Ek. subst l. exists [], it, l2. rewrite app_nil_r in *. auto.
    + cbn [app] in Ek. injection Ek as <- ->. apply List.Forall_app in Hf as [_ Hf]. destruct l as [|j l]; [contradiction|].
      exists [], j, l. inversion Hf as [|? ? Hj Hr]; subst. auto.
  - exists k, it, l2. split; [exact Ek|]. split; [exact Hs|]. split; [|exact Hf]. destruct Hm as [Hm|Hm]; [|right; exact Hm].
    apply app_eq_nil in Hm as [_ ->]. left. reflexivity.
Qed.
Lemma att_new_q : forall grav (st : att f32) it0 a g t st' , back (at_items st) = Ok it0 -> f64_ltb t (ai_ts it0) = false ->
  fst (att_propagate grav st a g t) = st' -> exists i, at_items st' = at_items st ++ [i] /\ ai_a i = v3sub a (at_ba st) /\ ai_g i = v3sub g (at_bg st) /\
    (qsn (ai_q it0) \/ vsn (ai_g it0) \/ vsn a \/ vsn g -> qsn (ai_q i)).
Proof.
  intros grav st it0 a g t st' Hb Ht <-. unfold att_propagate. rewrite Hb, Ht. cbv zeta. cbn [fst at_items]. eexists. split; [reflexivity|]. cbn [ai_a ai_g ai_q].
  split; [reflexivity|]. split; [reflexivity|]. intros H. apply qnorm_qsn, qmul_qsn. destruct H as [H|H]; [left; exact H|right].
  apply delta_vsn, scale_vsn, opp_vsn, add_vsn. destruct H as [H|[H|H]].
  - left. apply add_vsn. left. apply scale_vsn, add_vsn. left. exact H.
  - left. apply add_vsn. right. apply scale_vsn. apply van_vsn, cross_van, div_norm, H.
  - left. apply add_vsn. left. apply scale_vsn, add_vsn. right. apply sub_vsn. exact H.
Qed.
Lemma att_bad_back : forall l it0, att_bad l -> back l = Ok it0 -> qsn (ai_q it0) \/ vsn (ai_g it0).
Proof.
  intros l it0 (l1 & it & l2 & -> & Hs & _ & Hf) Hb. destruct (back_cases _ l2) as [[-> _]|(l & b & -> & _)].
  - rewrite FrameFacts.back_app in Hb. injection Hb as <-. exact Hs.
  - change (l1 ++ it :: l ++ [b]) with (l1 ++ (it :: l) ++ [b]) in Hb. rewrite app_assoc, FrameFacts.back_app in Hb. injection Hb as <-.
    apply List.Forall_app in Hf as [_ Hf]. inversion Hf; subst. left. assumption.
Qed.
Lemma att_bad_propagate : forall grav (st : att f32) a g t, att_bad (at_items st) -> att_bad (at_items (fst (att_propagate grav st a g t))).
Proof.
  intros grav st a g t H. destruct (back_cases _ (at_items st)) as [[e _]|(l & it0 & e & Eb)]; [destruct H as (l1 & it & l2 & H & _); rewrite e in H; destruct l1; discriminate H|].
  destruct (f64_ltb t (ai_ts it0)) eqn:Et; [unfold att_propagate; rewrite Eb, Et; exact H|].
  destruct (att_new_q grav st it0 a g t _ Eb Et eq_refl) as (i & -> & _ & _ & Hq).
  assert (Hi : qsn (ai_q i)) by (apply Hq; destruct (att_bad_back _ _ H Eb) as [X|X]; auto).
  destruct H as (l1 & it & l2 & -> & Hs & Hm & Hf). exists l1, it, (l2 ++ [i]). rewrite <- app_assoc. cbn [app]. split; [reflexivity|]. split; [exact Hs|]. split; [exact Hm|].
  apply List.Forall_app. split; [exact Hf|]. constructor; [exact Hi|constructor].
Qed.
(** A sample with a NaN enters. *)
Lemma att_enter : forall grav (st : att f32) a g t, (forall x, back (at_items st) = Ok x -> f64_ltb t (ai_ts x) = false) ->
  vsn a \/ (vsn g /\ at_items st <> []) -> att_bad (at_items (fst (att_propagate grav st a g t))) /\ snd (att_propagate grav st a g t) = true.
Proof.
  intros grav st a g t Ht H. destruct (back_cases _ (at_items st)) as [[e Eb]|(l & it0 & e & Eb)].
  - assert (Ha : vsn a) by (destruct H as [H|[_ H]]; [exact H|contradiction]). unfold att_propagate. rewrite Eb. cbv zeta.
    assert (Hg : att_gate grav (v3sub a (at_ba st)) = false).
    { unfold att_gate. rewrite (norm_nan (v3sub a (at_ba st))) by (apply sub_vsn; exact Ha).
      change (sgt64 (sabs (ssub (v3norm grav) nan)) f64_0_04) with (f64_ltb f64_0_04 (f32_to_f64 (f32_abs (f32_sub (v3norm grav) nan)))).
      rewrite sub_nan_r. reflexivity. }
    rewrite Hg. cbn [fst snd at_items]. split; [|reflexivity]. rewrite e. cbn [app]. eexists [], _, []. split; [reflexivity|]. cbn [ai_q ai_g]. split; [left|split; [left; reflexivity|constructor]].
    unfold att_init_q. cbv zeta. apply qnorm_qsn, qnorm_qsn, delta_vsn, scale_vsn, van_vsn, div_norm, cross_vsn, sub_vsn, Ha.
  - specialize (Ht _ Eb). split; [|unfold att_propagate; rewrite Eb, Ht; reflexivity].
    destruct (att_new_q grav st it0 a g t _ Eb Ht eq_refl) as (i & -> & Ea & Eg & Hq).
    exists (at_items st), i, []. split; [reflexivity|]. split; [left; apply Hq; destruct H as [H|[H _]]; auto|]. split; [right|constructor].
    unfold a_meas. rewrite Ea, Eg. destruct H as [H|[H _]]; [left|right]; apply sub_vsn, H.
Qed.

(** ** The propagation queue *)
Definition p_meas (i : pitem f32) : Prop := vsn (pi_a i) \/ vsn (pi_g i).
Definition p_bad (i : pitem f32) : Prop := van (mo_p (pi_mo i)) /\ van (mo_v (pi_mo i)).
Definition p_seed (i : pitem f32) : Prop := p_bad i \/ qsn (mo_q (pi_mo i)) \/ p_meas i.
Definition q_bad (l : list (pitem f32)) : Prop := exists l1 it l2, l = l1 ++ it :: l2 /\
  p_seed it /\ (l1 = [] \/ (p_meas it /\ p_bad it)) /\ List.Forall p_bad l2.
Lemma q_bad_suffix : forall pre l, q_bad (pre ++ l) -> l <> [] -> q_bad l.
Proof.
  intros pre l (l1 & it & l2 & E & Hs & Hm & Hf) Hl.
  destruct (app_eq_app _ _ _ _ E) as (k & [[-> Ek]|[-> Ek]]).
  - destruct k as [|i k].
    + cbn [app] in Ek. subst l. exists [], it, l2. rewrite app_nil_r in *. auto.
    + cbn [app] in Ek. injection Ek as <- ->. apply List.Forall_app in Hf as [_ Hf]. destruct l as [|j l]; [contradiction|].
      exists [], j, l. inversion Hf as [|? ? Hj Hr]; subst. split; [reflexivity|]. split; [left; exact Hj|]. auto.
  - exists k, it, l2. split; [exact Ek|]. split; [exact Hs|]. split; [|exact Hf]. destruct Hm as [Hm|Hm]; [|right; exact Hm].
    apply app_eq_nil in Hm as [_ ->]. left. reflexivity.
Qed.
Lemma q_bad_back : forall l i, q_bad l -> back l = Ok i -> p_seed i /\ (p_bad i \/ length l = 1).
Proof.
  intros l i (l1 & it & l2 & -> & Hs & Hm & Hf) Hb. destruct (back_cases _ l2) as [[-> _]|(l & b & -> & _)].
  - rewrite FrameFacts.back_app in Hb. injection Hb as <-. split; [exact Hs|]. destruct Hm as [->|[_ Hm]]; [right; reflexivity|left; exact Hm].
  - change (l1 ++ it :: l ++ [b]) with (l1 ++ (it :: l) ++ [b]) in Hb. rewrite app_assoc, FrameFacts.back_app in Hb. injection Hb as <-.
    apply List.Forall_app in Hf as [_ Hf]. inversion Hf; subst. split; [left; assumption|left; assumption].
Qed.
(** One step from a bad item, or to a bad sample. *)
Lemma step_bad : forall grav ba bg F G Q it0 a1 g1 t1, p_seed it0 \/ vsn a1 \/ vsn g1 ->
  let it1 := fst (fst (prop_item grav ba bg F G Q it0 a1 g1 t1)) in p_bad it1 /\ pi_a it1 = a1 /\ pi_g it1 = g1.
Proof.
  intros grav ba bg F G Q it0 a1 g1 t1 H. unfold prop_item. set (dt := step_dt _ _). clearbody dt. destruct it0 as [[p v q] cv ec a0 g0 t0]. unfold nominal_step. cbv zeta. cbn [fst pi_mo pi_a pi_g mo_p mo_v mo_q].
  split; [|split; reflexivity]. unfold p_bad. cbn [pi_mo mo_p mo_v].
  set (q1 := qnormalize (qmul q _)).
  assert (Hq : qsn q \/ vsn g0 \/ vsn g1 -> qsn q1).
  { intros X. apply qnorm_qsn, qmul_qsn. destruct X as [X|X]; [left; exact X|right]. apply delta_vsn, scale_vsn, sub_vsn, scale_vsn, add_vsn. exact X. }
  assert (Hw : van (v3add (qrot q (v3sub a0 ba)) (qrot q1 (v3sub a1 ba))) \/ van p /\ van v).
  { destruct H as [[H|[H|H]]|H].
    - right. exact H.
    - left. apply add_van. left. apply qrot_van. left. exact H.
    - left. apply add_van. destruct H as [H|H]; cbn [pi_a pi_g] in H; [left; apply qrot_van; right; apply sub_vsn; exact H|right; apply qrot_van; left; auto].
    - left. apply add_van. right. apply qrot_van. destruct H as [H|H]; [right; apply sub_vsn; exact H|left; auto]. }
  assert (Hv : van (v3add v (v3scale (v3sub (v3scale (v3add (qrot q (v3sub a0 ba)) (qrot q1 (v3sub a1 ba))) shalf) grav) dt))).
  { apply add_van. destruct Hw as [Hw|[_ Hw]]; [right; apply scale_van, sub_van, scale_van; exact Hw|left; exact Hw]. }
  split; [|exact Hv]. apply add_van. right. apply scale_van, scale_van, add_van. right. exact Hv.
Qed.
Lemma propagate_bad : forall grav n (q : pqueue f32) a g t, q_bad (pq_items q) -> q_bad (pq_items (pq_propagate grav n q a g t)).
Proof.
  intros grav n q a g t H. unfold pq_propagate. destruct (back_cases _ (pq_items q)) as [[e _]|(l & it0 & e & Eb)]; [destruct H as (l1 & it & l2 & H & _); rewrite e in H; destruct l1; discriminate H|].
  rewrite Eb. pose proof (step_bad grav (pq_ba q) (pq_bg q) (pq_F q) (pq_G q) (pq_Q q) it0 a g t (or_introl (proj1 (q_bad_back _ _ H Eb)))) as Hs.
  destruct (prop_item _ _ _ _ _ _ _ _ _ _) as [[it1 F'] G']. cbn [fst] in Hs. destruct Hs as (Hs & _). cbn [pq_items].
  destruct H as (l1 & it & l2 & -> & H1 & H2 & Hf). exists l1, it, (l2 ++ [it1]). rewrite <- app_assoc. cbn [app]. split; [reflexivity|]. split; [exact H1|]. split; [exact H2|].
  apply List.Forall_app. split; [exact Hf|]. constructor; [exact Hs|constructor].
Qed.
Lemma propagate_enter : forall grav n (q : pqueue f32) a g t, vsn a \/ vsn g -> q_bad (pq_items (pq_propagate grav n q a g t)).
Proof.
  intros grav n q a g t H. unfold pq_propagate. destruct (back_cases _ (pq_items q)) as [[e Eb]|(l & it0 & e & Eb)]; rewrite Eb.
  - cbn [pq_items]. rewrite e. cbn [app]. eexists [], _, []. split; [reflexivity|]. split; [right; right; exact H|]. split; [left; reflexivity|constructor].
  - pose proof (step_bad grav (pq_ba q) (pq_bg q) (pq_F q) (pq_G q) (pq_Q q) it0 a g t (or_intror H)) as Hs.
    destruct (prop_item _ _ _ _ _ _ _ _ _ _) as [[it1 F'] G']. cbn [fst] in Hs. destruct Hs as (Hs & Ea & Eg). cbn [pq_items].
    exists (pq_items q), it1, []. split; [reflexivity|]. assert (Hm : p_meas it1) by (unfold p_meas; rewrite Ea, Eg; exact H). split; [right; right; exact Hm|]. split; [right; split; assumption|constructor].
Qed.
Lemma replay_bad : forall grav n l (q : pqueue f32), q_bad (pq_items q) -> q_bad (pq_items (replay grav n q l)).
Proof. intros grav n. induction l as [|i l IH]; intros q H; [exact H|]. cbn [replay fold_left]. apply IH. apply propagate_bad. exact H. Qed.
Lemma replay_enter : forall grav n l (q : pqueue f32), (exists i, In i l /\ a_meas i) -> q_bad (pq_items (replay grav n q l)).
Proof.
  intros grav n. induction l as [|j l IH]; intros q (i & Hi & Hm); [destruct Hi|]. cbn [replay fold_left]. destruct Hi as [<-|Hi].
  - apply (replay_bad grav n l). apply propagate_enter. exact Hm.
  - apply IH. eauto.
Qed.
Lemma replay_init : forall grav n l (q : pqueue f32), pq_items q = [] -> l <> [] -> qsn (mo_q (pq_init q)) -> q_bad (pq_items (replay grav n q l)).
Proof.
  intros grav n l q He Hl Hq. destruct l as [|j l]; [contradiction|]. cbn [replay fold_left]. apply (replay_bad grav n l).
  unfold pq_propagate. rewrite He. cbn [back rev pq_items app]. eexists [], _, []. split; [reflexivity|]. split; [right; left; exact Hq|]. split; [left; reflexivity|constructor].
Qed.
(** Repropagation. *)
Lemma reprop_all : forall grav ba bg Q l F G it0, p_seed it0 -> List.Forall p_bad (fst (fst (reprop_loop grav ba bg Q F G it0 l))).
Proof.
  intros grav ba bg Q. induction l as [|it1 l IH]; intros F G it0 H; cbn [reprop_loop]; [constructor|].
  pose proof (step_bad grav ba bg F G Q it0 (pi_a it1) (pi_g it1) (pi_ts it1) (or_introl H)) as Hs.
  destruct (prop_item _ _ _ _ _ _ _ _ _ _) as [[it1' F'] G']. cbn [fst] in Hs. destruct Hs as (Hs & _). specialize (IH F' G' it1' (or_introl Hs)).
  destruct (reprop_loop _ _ _ _ _ _ _ _) as [[r' F''] G'']. cbn [fst] in *. constructor; assumption.
Qed.
Lemma reprop_tail : forall grav ba bg Q l1 it l2 F G it0, p_meas it -> exists k1 it' k2,
  fst (fst (reprop_loop grav ba bg Q F G it0 (l1 ++ it :: l2))) = k1 ++ it' :: k2 /\ p_meas it' /\ p_bad it' /\ List.Forall p_bad k2.
Proof.
  intros grav ba bg Q. induction l1 as [|j l1 IH]; intros it l2 F G it0 Hm; cbn [app reprop_loop].
  - pose proof (step_bad grav ba bg F G Q it0 (pi_a it) (pi_g it) (pi_ts it) (or_intror Hm)) as Hs.
    destruct (prop_item _ _ _ _ _ _ _ _ _ _) as [[it1' F'] G']. cbn [fst] in Hs. destruct Hs as (Hs & Ea & Eg). pose proof (reprop_all grav ba bg Q l2 F' G' it1' (or_introl Hs)) as Hr.
    destruct (reprop_loop _ _ _ _ _ _ _ _) as [[r' F''] G'']. cbn [fst] in *. exists [], it1', r'. split; [reflexivity|]. unfold p_meas in *. rewrite Ea, Eg. auto.
  - destruct (prop_item _ _ _ _ _ _ _ _ _ _) as [[it1' F'] G']. destruct (IH it l2 F' G' it1' Hm) as (k1 & it' & k2 & E & X).
    destruct (reprop_loop _ _ _ _ _ _ _ _) as [[r' F''] G'']. cbn [fst] in *. exists (it1' :: k1), it', k2. rewrite E. split; [reflexivity|exact X].
Qed.
Lemma repropagate_bad : forall grav (q : pqueue f32), q_bad (pq_items q) -> q_bad (pq_items (pq_repropagate grav q)).
Proof.
  intros grav q (l1 & it & l2 & E & Hs & Hm & Hf). unfold pq_repropagate. rewrite E. destruct l1 as [|h l1]; cbn [app].
  - pose proof (reprop_all grav (pq_ba q) (pq_bg q) (pq_Q q) l2 (pq_F q) (pq_G q) it Hs) as Hr. destruct (reprop_loop _ _ _ _ _ _ _ _) as [[r' F''] G'']. cbn [fst pq_items] in *.
    exists [], it, r'. auto.
  - destruct Hm as [Hm|[Hm _]]; [discriminate Hm|]. destruct (reprop_tail grav (pq_ba q) (pq_bg q) (pq_Q q) l1 it l2 (pq_F q) (pq_G q) h Hm) as (k1 & it' & k2 & Ek & M & B & Fk).
    destruct (reprop_loop _ _ _ _ _ _ _ _) as [[r' F''] G'']. cbn [fst pq_items] in *. exists (h :: k1), it', k2. rewrite Ek. split; [reflexivity|]. split; [right; right; exact M|]. auto.
Qed.
(** The head rewritten by an update. *)
Lemma head_bad : forall h h' r, (p_seed h -> p_seed h') -> q_bad (h :: r) -> q_bad (h' :: r).
Proof.
  intros h h' r Hs (l1 & it & l2 & E & H1 & H2 & Hf). destruct l1 as [|j l1]; cbn [app] in E; injection E as -> ->.
  - exists [], h', l2. auto.
  - exists (h' :: l1), it, l2. split; [reflexivity|]. split; [exact H1|]. split; [|exact Hf]. right. destruct H2 as [H2|H2]; [discriminate H2|exact H2].
Qed.
Lemma update_cov_bad : forall P (q q' : pqueue f32), update_cov P q = Ok q' -> q_bad (pq_items q) -> q_bad (pq_items q').
Proof.
  intros P q q' H Hq. unfold update_cov in H. destruct (Nat.ltb _ _); [discriminate H|]. destruct (pq_items q) as [|h r] eqn:E; [discriminate H|]. cbn [front obind] in H.
  binv H. binv H. binv H. unfold with_head in H. rewrite E in H. cbn [obind] in H. injection H as <-. cbn [with_ecc with_items pq_items]. eapply head_bad; [|exact Hq]. intros X. exact X.
Qed.
Lemma finish_bad : forall (o : voracle f32) c pol P s s', finish_update o c pol P s = Ok s' -> q_bad (pq_items (vs_pq s)) -> q_bad (pq_items (vs_pq s')).
Proof.
  intros o c pol P s s' H Hq. unfold finish_update in H. binv H. binv H. binv H. injection H as <-. cbn [vs_pq]. apply repropagate_bad. eapply update_cov_bad; eassumption.
Qed.
Lemma correct_bad : forall dx (m m' : motion f32), correct_motion dx m = Ok m' -> (van (mo_p m) /\ van (mo_v m) -> van (mo_p m') /\ van (mo_v m')) /\ (qsn (mo_q m) -> qsn (mo_q m')).
Proof.
  intros dx m m' H. unfold correct_motion in H. binv H. binv H. binv H. injection H as <-. cbn [mo_p mo_v mo_q]. split; [|apply correct_qsn].
  intros [H1 H2]. split; apply add_van; left; assumption.
Qed.
Lemma apply_delta_bad : forall dx (s s' : vstate f32), apply_delta dx s = Ok s' -> q_bad (pq_items (vs_pq s)) -> q_bad (pq_items (vs_pq s')).
Proof.
  intros dx s s' H Hq. unfold apply_delta in H. destruct (pq_items (vs_pq s)) as [|h r] eqn:E; [discriminate H|]. cbn [front obind] in H.
  binv H. match goal with X : correct_motion _ _ = Ok _ |- _ => apply correct_bad in X as [C1 C2] end. unfold with_head in H. rewrite E in H. cbn [obind] in H. do 4 binv H. injection H as <-.
  cbn [vs_pq with_bias with_items pq_items]. eapply head_bad; [|exact Hq]. intros [X|[X|X]]; [left; apply C1; exact X|right; left; apply C2; exact X|right; right; exact X].
Qed.
Lemma vision_update_bad : forall (o : voracle f32) c s ts thr s' ok pol, vision_update o c s ts thr = Ok (s', ok, pol) -> q_bad (pq_items (vs_pq s)) ->
  q_bad (pq_items (vs_pq s')) \/ (pq_items (vs_pq s') = [] /\ ok = false).
Proof.
  intros o c s ts thr s' ok pol H Hq. unfold vision_update, pq_reset_origin in H.
  pose proof (origin_loop_spec ts thr (pq_items (vs_pq s))) as Hor. destruct (origin_loop ts thr (pq_items (vs_pq s))) as [l'|]; cbn [negb] in H.
  2:{ injection H as <- <- _. right. split; reflexivity. }
  destruct Hor as (pre & it & r & Hl & -> & _). left. rewrite Hl in Hq. apply q_bad_suffix in Hq; [|discriminate].
  binv H. binv H. destruct x0 as [P|]; [|injection H as <- _ _; exact Hq].
  binv H. destruct x0 as [fs|]; [|injection H as <- _ _; exact Hq].
  binv H. destruct (snd x0).
  - binv H. injection H as <- _ _. eapply finish_bad; [eassumption|exact Hq].
  - binv H. destruct x1 as [Hr|]; [|injection H as <- _ _; exact Hq]. binv H. binv H. injection H as <- _ _.
    match goal with X : finish_update _ _ _ _ _ = Ok _ |- _ => eapply finish_bad; [exact X|] end.
    match goal with X : update_state _ _ _ _ _ = Ok _ |- _ => unfold update_state in X; binv X; destruct x3 as [[Kg dx] P']; binv X; injection X as <- end. cbn [snd].
    match goal with X : apply_delta _ _ = Ok _ |- _ => eapply apply_delta_bad; [exact X|exact Hq] end.
Qed.

(** ** The back end *)
Definition nan_inv (s : bstate f32) : Prop := att_bad (at_items (b_att s)) /\ ((pq_items (b_pq s) = [] /\ b_status s = NeedInit) \/ q_bad (pq_items (b_pq s))).

Lemma clean_bad : forall (st : att f32) t thr a, att_clean st t thr = Ok a -> att_bad (at_items st) -> att_bad (at_items a).
Proof.
  intros st t thr a H Hb. apply att_clean_inv in H as ((pre & E) & Hn & _). rewrite E in Hb. apply (att_bad_suffix pre); [exact Hb|]. apply Hn. destruct Hb as (l1 & it & l2 & X & _). rewrite E, X. destruct l1; discriminate.
Qed.
Lemma clean_keeps : forall (st : att f32) t thr a x, att_clean st t thr = Ok a -> In x (at_items st) -> is_old32 t thr (ai_ts x) = false -> In x (at_items a).
Proof.
  intros st t thr a x H Hx Ho. unfold att_clean in H. destruct (at_items st) as [|i l] eqn:E; [destruct Hx|]. binv H. injection H as <-. cbn [at_items]. rename x0 into l'.
  revert E0 Hx. generalize (i :: l). clear E. intros k. induction k as [|j k IH]; intros E0 Hx; [destruct Hx|]. cbn [clean_loop] in E0.
  destruct (is_old32 t thr (ai_ts j)) eqn:Ej; [|injection E0 as <-; exact Hx]. destruct Hx as [<-|Hx]; [congruence|]. apply IH; assumption.
Qed.
Lemma initialize_bad : forall c o (s s' : bstate f32) r, initialize c o s = Ok (s', r) -> att_bad (at_items (b_att s)) -> pq_items (b_pq s) = [] \/ q_bad (pq_items (b_pq s)) ->
  att_bad (at_items (b_att s')) /\ b_status s' = b_status s /\ (if r then q_bad (pq_items (b_pq s')) else pq_items (b_pq s') = pq_items (b_pq s)).
Proof.
  intros c o s s' r H Ha Hq. unfold initialize in H. destruct (wn_frames (b_win s)) as [|fi [|fj rest]]; [injection H as <- <-; auto|injection H as <- <-; auto|].
  destruct (f64_ltb _ _); [injection H as <- <-; auto|]. binv H. rename E into Eg. destruct x as [q0|]; [|injection H as <- <-; auto].
  binv H. binv H. destruct x0 as [[q1 p1]|]; [|injection H as <- <-; auto]. binv H. binv H. injection H as <- <-.
  match goal with X : init_propagator _ _ _ _ = Ok _ |- _ => unfold init_propagator in X; binv X; injection X as <-; rename x2 into a end.
  match goal with X : att_clean _ _ _ = Ok _ |- _ => rename X into Ec end. cbn [with_win with_pose b_att b_dl fr_ts] in Ec.
  cbn [with_pq with_att with_win b_att b_pq b_ext b_status]. pose proof (clean_bad _ _ _ _ Ec Ha) as Ha'. split; [exact Ha'|]. split; [reflexivity|].
  destruct Hq as [Hq|Hq]; [|apply replay_bad; exact Hq].
  destruct Ha' as (l1 & it & l2 & Ea & Hs & Hm & Hf).
  destruct (get_attitude_nearest (b_att s) (fr_ts fi) (f64_mul (dl_period (b_dl s)) f64_0_55)) as (aq & Eq & Hn). rewrite Eg in Eq. injection Eq as <-.
  destruct (Hn _ eq_refl) as (x0' & Hx & <- & Hd & _). apply within_period in Hd. apply narrow_mono in Hd. pose proof (clean_keeps _ _ _ _ _ Ec Hx Hd) as Hk.
  assert (Cm : a_meas it -> q_bad (pq_items (replay (vc_grav c) (length (b_ext s)) (with_init (b_pq s) (Motion (fr_p (with_pose fi (ai_q x0') v3zero (fr_v fi))) (v3div (v3sub p1 v3zero) (sof32 (f64_to_f32 (f64_sub (fr_ts fj) (fr_ts fi))))) (ai_q x0'))) (at_items a)))).
  { intros X. apply replay_enter. exists it. split; [rewrite Ea; apply in_or_app; right; left; reflexivity|exact X]. }
  destruct Hm as [->|Hm]; [|exact (Cm Hm)].
  cbn [app] in Ea. rewrite Ea in Hk. destruct Hs as [Hs|Hs]; [|exact (Cm (or_intror Hs))].
  assert (Hq0 : qsn (ai_q x0')) by (destruct Hk as [<-|Hk]; [exact Hs|rewrite List.Forall_forall in Hf; apply Hf; exact Hk]).
  apply replay_init; [exact Hq|rewrite Ea; discriminate|exact Hq0].
Qed.
Lemma imu_step_nan : forall c (s s' : bstate f32) m r, imu_step c s m = (s', r) -> nan_inv s -> nan_inv s'.
Proof.
  intros c s s' m r H [Ha Hq]. pose proof (att_bad_propagate (vc_grav c) (b_att s) (im_accel m) (im_gyro m) (im_ts m) Ha) as Hp. unfold imu_step in H.
  destruct (att_propagate _ _ _ _ _) as [a x]. cbn [fst] in Hp. destruct (b_status s) eqn:Es; injection H as <- _.
  - split; [exact Hp|]. cbn [with_att b_pq b_status]. rewrite Es. exact Hq.
  - split; [exact Hp|]. cbn [with_att with_pq b_pq b_status b_ext]. right. destruct Hq as [[_ X]|Hq]; [discriminate X|]. apply propagate_bad. exact Hq.
Qed.
Lemma feat_step_nan : forall c o (s s' : bstate f32) m, feat_step c o s m = Ok s' -> nan_inv s -> nan_inv s'.
Proof.
  intros c o s s' m H [Ha Hq]. unfold feat_step in H. binv H. binv H. binv H. rename x into w, x0 into s1, x1 into s2.
  assert (N1 : nan_inv s1).
  { unfold init_step in E0. cbn [with_win b_status] in E0. destruct (b_status s) eqn:Es; [|injection E0 as <-; split; [exact Ha|]; cbn [with_win b_pq b_status]; rewrite Es; exact Hq].
    binv E0. destruct x as [s3 r]. cbn [fst snd] in E0. destruct (initialize_bad _ _ _ _ _ E2 Ha) as (A1 & A2 & A3); [cbn [with_win b_pq]; tauto|]. cbn [with_win b_status b_pq] in A2, A3. destruct r.
    - injection E0 as <-. split; [exact A1|]. right. exact A3.
    - binv E0. injection E0 as <-. split; [exact A1|]. cbn [with_win b_pq b_status]. rewrite A2, A3, Es. exact Hq. }
  assert (N2 : nan_inv s2).
  { destruct N1 as [A1 Q1]. unfold update_step in E1. destruct (b_status s1) eqn:Es1; [injection E1 as <-; split; [exact A1|rewrite Es1; exact Q1]|]. binv E1. destruct x as [[v ok] pol].
    assert (Qb : q_bad (pq_items (b_pq s1))) by (destruct Q1 as [[_ X]|X]; [discriminate X|exact X]).
    destruct (vision_update_bad _ _ _ _ _ _ _ _ E2 Qb) as [V|[V ->]].
    - destruct ok; binv E1; injection E1 as <-; (split; [exact A1|right; exact V]).
    - binv E1. injection E1 as <-. split; [exact A1|]. left. split; [exact V|reflexivity]. }
  destruct N2 as [A2 Q2]. unfold clean_step in H. destruct (Nat.ltb _ _); [|injection H as <-; split; assumption]. binv H. binv H. injection H as <-.
  split; [|exact Q2]. cbn [with_att b_att]. eapply clean_bad; [eassumption|exact A2].
Qed.
Lemma run_once_nan : forall c o (s s' : bstate f32) r, run_once c o s = Ok (s', r) -> nan_inv s -> nan_inv s'.
Proof.
  intros c o s s' r H Hn. unfold run_once in H. destruct (dl_pop_one (b_dl s)) as [[[l m] ok] d]. assert (N0 : nan_inv (with_dl s (b_st s) l)) by exact Hn.
  destruct ok; cbn [negb] in H; [|injection H as <- _; exact N0].
  destruct (match cm_imu m with [] => (_, true) | i :: _ => imu_step c _ i end) as [s1 r1] eqn:E1.
  assert (N1 : nan_inv s1) by (destruct (cm_imu m); [injection E1 as <- _; exact N0|eapply imu_step_nan; eassumption]).
  destruct (cm_feat m); [|injection H as <- _; exact N1]. binv H. injection H as <- _. eapply feat_step_nan; eassumption.
Qed.
Lemma b_step_nan : forall c op (s s' : bstate f32), b_step c s op = Ok s' -> nan_inv s -> nan_inv s'.
Proof.
  intros c op s s' H Hn. destruct op as [m|m|o| |]; cbn [b_step] in H.
  - assert (e : s' = fst (b_imu s m)) by congruence. subst s'. unfold b_imu. destruct (dl_push_imu _ _ _) as [[[st l] ?] ?]. exact Hn.
  - assert (e : s' = fst (b_feat s m)) by congruence. subst s'. unfold b_feat. destruct (dl_push_feat _ _ _) as [[[st l] ?] ?]. exact Hn.
  - binv H. destruct x as [s2 r]. injection H as <-. eapply run_once_nan; eassumption.
  - assert (e : s' = fst (run_once_test s)) by congruence. subst s'. unfold run_once_test. destruct (dl_pop_one (b_dl s)) as [[[l m] ok] d]. exact Hn.
  - injection H as <-. destruct Hn as [Ha Hq]. split; [exact Ha|]. destruct Hq as [[Hq _]|Hq]; [left; split; [exact Hq|reflexivity]|right; exact Hq].
Qed.
Lemma b_hist_nan : forall c ops (s s' : bstate f32), b_hist c s ops = Ok s' -> nan_inv s -> nan_inv s'.
Proof.
  intros c. induction ops as [|op r IH]; intros s s' H Hn; cbn [b_hist] in H; [injection H as <-; exact Hn|]. binv H. eapply IH; [exact H|]. eapply b_step_nan; eassumption.
Qed.
(** What is seen of it. *)
Lemma nan_inv_seen : forall s : bstate f32, nan_inv s ->
  (forall x, back (at_items (b_att s)) = Ok x -> q_some_nan (ai_q x) \/ v3_some_nan (ai_g x)) /\
  (b_status s = Initialized -> exists x, back (pq_items (b_pq s)) = Ok x /\ (published_nan (b_publish_newest s) \/ length (pq_items (b_pq s)) = 1)).
Proof.
  intros s [Ha Hq]. split.
  - intros x Hx. rewrite qsn_iff, vsn_iff. eapply att_bad_back; eassumption.
  - intros Hi. destruct Hq as [[_ X]|Hq]; [congruence|].
    destruct (back_cases _ (pq_items (b_pq s))) as [[e _]|(l & i & e & Eb)]; [destruct Hq as (l1 & it & l2 & X & _); rewrite e in X; destruct l1; discriminate X|].
    exists i. split; [exact Eb|]. destruct (q_bad_back _ _ Hq Eb) as [_ [[B1 B2]|B]]; [left|right; exact B].
    unfold b_publish_newest, pq_publish_newest, pq_publish. rewrite Eb. do 4 eexists. split; [reflexivity|]. rewrite !van_iff. split; assumption.
Qed.

(** ** Entering *)
Lemma pop_imu_head : forall (l : loader f32) m, hd_error (cm_imu (snd (fst (fst (dl_pop_one l))))) = Some m ->
  exists r, dl_imu l = m :: r /\ cm_imu (snd (fst (fst (dl_pop_one l)))) = [m] /\ snd (fst (dl_pop_one l)) = true.
Proof.
  intros l m H. unfold dl_pop_one in *. destruct (dl_imu l) as [|i r] eqn:Ei, (dl_feat l) as [|f q]; try discriminate H.
  - cbn in *. injection H as <-. eauto.
  - destruct (f64_leb _ _); [destruct (f64_ltb _ _)|]; cbn in *; try discriminate H; injection H as <-; eauto.
Qed.
Lemma imu_enter : forall c (s s' : bstate f32) m r, imu_step c s m = (s', r) -> (forall x, back (at_items (b_att s)) = Ok x -> f64_ltb (im_ts m) (ai_ts x) = false) ->
  (b_status s = Initialized -> at_items (b_att s) <> [] /\ nan_sample m) -> (b_status s = NeedInit -> pq_items (b_pq s) = [] /\ v3_some_nan (im_accel m)) ->
  nan_inv s' /\ r = true.
Proof.
  intros c s s' m r H Ht H1 H2. unfold nan_sample in *. rewrite !vsn_iff in H1. rewrite vsn_iff in H2.
  assert (Hm : vsn (im_accel m) \/ (vsn (im_gyro m) /\ at_items (b_att s) <> [])) by (destruct (b_status s); [left; apply H2; reflexivity|destruct (H1 eq_refl) as [X [Y|Y]]; auto]).
  destruct (att_enter (vc_grav c) (b_att s) (im_accel m) (im_gyro m) (im_ts m) Ht Hm) as [Ha Hr]. unfold imu_step in H.
  destruct (att_propagate _ _ _ _ _) as [a x]. cbn [fst snd] in Ha, Hr. destruct (b_status s) eqn:Es; injection H as <- <-.
  - split; [|exact Hr]. split; [exact Ha|]. left. split; [apply H2; reflexivity|exact Es].
  - split; [|reflexivity]. split; [exact Ha|]. right. cbn [with_pq with_att b_pq b_ext]. apply propagate_enter. apply H1. reflexivity.
Qed.
Lemma run_enter : forall c o (s s1 : bstate f32) m r, run_once c o s = Ok (s1, r) -> next_imu s = Some m ->
  (forall s' r', imu_step c (with_dl s (b_st s) (fst (fst (fst (dl_pop_one (b_dl s)))))) m = (s', r') -> nan_inv s' /\ r' = true) -> nan_inv s1 /\ r = true.
Proof.
  intros c o s s1 m r H Hn Hi. unfold next_imu in Hn. apply pop_imu_head in Hn as (k & _ & E1 & E2). unfold run_once in H. destruct (dl_pop_one (b_dl s)) as [[[l m0] ok] d]. cbn [fst snd] in *.
  subst ok. cbn [negb] in H. rewrite E1 in H. destruct (imu_step c _ m) as [s2 r2] eqn:E. destruct (Hi _ _ eq_refl) as [N ->].
  destruct (cm_feat m0); [|injection H as <- <-; auto]. binv H. injection H as <- <-. split; [|reflexivity]. eapply feat_step_nan; eassumption.
Qed.
(** C88 *)
Theorem nan_forever : forall (c : vcfg f32) (o : boracle f32) (s0 s s1 s2 : bstate f32) (ops1 ops2 : list (b_op f32)) m r, (0 <= vc_maxwin c < 4294967295)%Z -> fresh s0 -> time_sorted (map im_ts (pushed_imu ops1)) ->
  b_hist c s0 ops1 = Ok s -> next_imu s = Some m -> nan_sample m -> b_status s = Initialized \/ (b_publish_newest s = None /\ v3_some_nan (im_accel m)) ->
  run_once c o s = Ok (s1, r) -> b_hist c s1 ops2 = Ok s2 ->
  r = true /\ (b_status s2 = Initialized -> published_nan (b_publish_newest s2) \/ length (pq_items (b_pq s2)) = 1) /\
  (forall x, back (at_items (b_att s2)) = Ok x -> q_some_nan (ai_q x) \/ v3_some_nan (ai_g x)).
Proof.
  intros c o s0 s s1 s2 ops1 ops2 m r Hm Hf Hs H Hn Hb Hc Hr H2.
  destruct (b_hist_trim c _ ops1 s0 s [] Hm (fresh_time_inv c ops1 s0 Hf Hs) H (fresh_trim c s0 Hf)) as [_ HI]. destruct HI as (HS & (_ & HA & _) & _).
  assert (K : nan_inv s1 /\ r = true).
  { eapply run_enter; [exact Hr|exact Hn|]. intros s' r' Hi. unfold next_imu in Hn. apply pop_imu_head in Hn as (k & Hd & _ & _).
    rewrite Hd in HS. cbn [map app] in HS. apply sorted_app in HS as (_ & _ & HS).
    eapply imu_enter; [exact Hi| | |]; cbn [with_dl b_att b_status b_pq].
    - intros x Hx. assert (Hl : f64_leb (ai_ts x) (im_ts m) = true).
      { apply HS; [|left; reflexivity]. apply in_map. destruct (back_cases _ (at_items (b_att s))) as [[e Eb]|(l & y & e & Eb)]; rewrite Eb in Hx; [discriminate Hx|]. injection Hx as <-. rewrite e. apply in_or_app. right. left. reflexivity. }
      apply f64_leb_iff in Hl as (N1 & N2 & Hl). apply f64_ltb_false_iff; [exact N2|exact N1|exact Hl].
    - intros Hst. split; [|exact Hb]. intros e. destruct (HA e) as [X _]. congruence.
    - intros Hst. destruct Hc as [Hc|[Hc Ha]]; [congruence|]. split; [|exact Ha]. unfold b_publish_newest, pq_publish_newest, pq_publish in Hc.
      destruct (back_cases _ (pq_items (b_pq s))) as [[e Eb]|(l & y & e & Eb)]; [exact e|]. rewrite Eb in Hc. discriminate Hc. }
  destruct K as [K ->]. split; [reflexivity|]. destruct (nan_inv_seen s2 (b_hist_nan _ _ _ _ H2 K)) as [S1 S2]. split; [|exact S1]. intros Hi. destruct (S2 Hi) as (x & _ & X). exact X.
Qed.
(** C88: a level sensor at the start. *)
Theorem level_forever : forall (c : vcfg f32) (o : boracle f32) (s s1 s2 : bstate f32) (ops2 : list (b_op f32)) m r (n : f32), is_finite n = true -> vc_grav c = V3 (B754_zero false) (B754_zero false) n ->
  at_items (b_att s) = [] -> pq_items (b_pq s) = [] -> b_status s = NeedInit -> next_imu s = Some m -> v3sub (im_accel m) (at_ba (b_att s)) = vc_grav c ->
  run_once c o s = Ok (s1, r) -> b_hist c s1 ops2 = Ok s2 ->
  r = true /\ (b_status s2 = Initialized -> published_nan (b_publish_newest s2) \/ length (pq_items (b_pq s2)) = 1) /\
  (forall x, back (at_items (b_att s2)) = Ok x -> q_some_nan (ai_q x) \/ v3_some_nan (ai_g x)).
Proof.
  intros c o s s1 s2 ops2 m r n Fn Hg Ha Hq Hst Hn Hv Hr H2.
  assert (K : nan_inv s1 /\ r = true).
  { eapply run_enter; [exact Hr|exact Hn|]. intros s' r' Hi. unfold imu_step in Hi. cbn [with_dl b_att b_status] in Hi. rewrite Hst in Hi. unfold att_propagate in Hi. rewrite Ha in Hi. cbn [back rev] in Hi. cbv zeta in Hi.
    rewrite Hv in Hi. match type of Hi with context [@att_gate ?U ?V ?a ?b] => assert (G : @att_gate U V a b = false) by exact (AttNanFacts.same_gate lm (vc_grav c)) end. rewrite G in Hi. injection Hi as <- <-. split; [|reflexivity].
    split; [|left; split; [exact Hq|exact Hst]]. cbn [with_att b_att at_items app]. eexists [], _, []. split; [reflexivity|]. cbn [ai_q ai_g]. split; [left|split; [left; reflexivity|constructor]].
    assert (Q : forall g : v3 f32, g = V3 (B754_zero false) (B754_zero false) n -> qsn (att_init_q g g)) by (intros g ->; right; left; exact (proj1 (AttNanFacts.level_init_q lm n Fn))). exact (Q _ Hg). }
  destruct K as [K ->]. split; [reflexivity|]. destruct (nan_inv_seen s2 (b_hist_nan _ _ _ _ H2 K)) as [S1 S2]. split; [|exact S1]. intros Hi. destruct (S2 Hi) as (x & _ & X). exact X.
Qed.
(** C88: the gate does not see a NaN. *)
Theorem nan_accepted : forall (grav : v3 f32) (st : att f32) a g t, at_items st = [] -> v3_some_nan a ->
  exists it, att_propagate grav st a g t = (Att [it] (at_ba st) (at_bg st) (at_err st), true) /\ q_some_nan (ai_q it) /\ v3_some_nan (ai_a it) /\ ai_ts it = t.
Proof.
  intros grav st a g t He Ha. rewrite vsn_iff in Ha. unfold att_propagate. rewrite He. cbn [back rev]. cbv zeta.
  assert (Hg : att_gate grav (v3sub a (at_ba st)) = false).
  { unfold att_gate. rewrite (norm_nan (v3sub a (at_ba st))) by (apply sub_vsn; exact Ha).
    change (sgt64 (sabs (ssub (v3norm grav) nan)) f64_0_04) with (f64_ltb f64_0_04 (f32_to_f64 (f32_abs (f32_sub (v3norm grav) nan)))).
    rewrite sub_nan_r. reflexivity. }
  rewrite Hg. eexists. split; [reflexivity|]. cbn [ai_q ai_a ai_ts]. rewrite qsn_iff, vsn_iff. split; [|split; [apply sub_vsn; exact Ha|reflexivity]].
  unfold att_init_q. cbv zeta. apply qnorm_qsn, qnorm_qsn, delta_vsn, scale_vsn, van_vsn, div_norm, cross_vsn, sub_vsn, Ha.
Qed.
End Nan.
