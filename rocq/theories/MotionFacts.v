(** Nominal propagation in exact arithmetic: unit attitudes (C40) and uniformly accelerated motion (C41). *)
From Coq Require Import Reals Lra Lia Arith Bool List.
From Verif Require Import Fp Scalar Base LinAlg MathLib Propagator Attitude QueueSpec MatFacts NumSpec QuatFacts PropagatorFacts AttitudeFacts.
Import ListNotations.
Local Open Scope R_scope.

Lemma nominal_q : forall grav ba bg m0 a0 g0 a1 g1 (dt : R),
  mo_q (fst (fst (nominal_step grav ba bg m0 a0 g0 a1 g1 dt))) =
  qnormalize (qmul (mo_q m0) (delta_q (v3scale (v3sub (v3scale (v3add g0 g1) shalf) bg) dt))).
Proof. reflexivity. Qed.
Lemma prop_item_unit : forall grav ba bg F G Q (it0 : pitem R) a g t, qunit (mo_q (pi_mo it0)) ->
  qunit (mo_q (pi_mo (fst (fst (prop_item grav ba bg F G Q it0 a g t))))).
Proof.
  intros grav ba bg F G Q it0 a g t H. unfold prop_item.
  pose proof (nominal_q grav ba bg (pi_mo it0) (pi_a it0) (pi_g it0) a g (step_dt (pi_ts it0) t)) as E.
  destruct (nominal_step _ _ _ _ _ _ _ _ _) as [[m1 ma] mg]. cbn [fst] in E. cbn [fst pi_mo]. rewrite E. apply qstep_unit. exact H.
Qed.

(** Unit attitudes in the whole queue, including the initial state used when it is empty. *)
Definition unit_queue (q : pqueue R) : Prop :=
  qunit (mo_q (pq_init q)) /\ Forall (fun it => qunit (mo_q (pi_mo it))) (pq_items q).

Theorem propagate_unit : forall grav n (q : pqueue R) a g t, unit_queue q -> unit_queue (pq_propagate grav n q a g t).
Proof.
  intros grav n q a g t [Hi H]. unfold pq_propagate. destruct (back_cases _ (pq_items q)) as [[E Eb]|(l & b & E & Eb)]; rewrite Eb.
  - split; [exact Hi|]. cbn [pq_items]. apply Forall_app. split; [exact H|]. constructor; [exact Hi|constructor].
  - assert (Hb : qunit (mo_q (pi_mo b))) by (rewrite E in H; apply Forall_app in H as [_ H]; inversion H; assumption).
    pose proof (prop_item_unit grav (pq_ba q) (pq_bg q) (pq_F q) (pq_G q) (pq_Q q) b a g t Hb) as Hu.
    destruct (prop_item _ _ _ _ _ _ _ _ _ _) as [[it1 F'] G']. cbn [fst] in Hu.
    split; [exact Hi|]. cbn [pq_items]. apply Forall_app. split; [exact H|]. constructor; [exact Hu|constructor].
Qed.
Theorem feed_unit : forall grav n l (q : pqueue R), unit_queue q -> unit_queue (pq_feed grav n q l).
Proof.
  intros grav n l. induction l as [|[[a g] t] l IH]; intros q H; [exact H|]. cbn [pq_feed]. apply IH, propagate_unit, H.
Qed.
Theorem repropagate_unit : forall grav (q : pqueue R), qunit (mo_q (pq_init q)) ->
  (forall h r, pq_items q = h :: r -> qunit (mo_q (pi_mo h))) -> unit_queue (pq_repropagate grav q).
Proof.
  intros grav q Hi Hh. destruct (repropagate_replays grav 0 q) as [_ Hr]. destruct (pq_items q) as [|h r] eqn:E.
  - rewrite Hr. split; [exact Hi|]. rewrite E. constructor.
  - rewrite Hr. apply feed_unit. split; [exact Hi|]. constructor; [eapply Hh; reflexivity|constructor].
Qed.

(** ** C41 *)
Lemma nominal_uniform : forall grav ba bg m a (dt : R), qunit (mo_q m) ->
  let A := v3sub (qrot (mo_q m) (v3sub a ba)) grav in
  fst (fst (nominal_step grav ba bg m a bg a bg dt)) =
  Motion (v3add (mo_p m) (v3add (v3scale (mo_v m) dt) (v3scale A (dt * dt / 2)))) (v3add (mo_v m) (v3scale A dt)) (mo_q m).
Proof.
  intros grav ba bg m a dt Hu A. unfold nominal_step. cbn [fst].
  replace (v3sub (v3scale (v3add bg bg) shalf) bg) with (v3zero (T := R)) by (destruct bg; vfield).
  replace (qmul (mo_q m) (delta_q (v3scale v3zero dt))) with (mo_q m) by (destruct (mo_q m); vfield).
  rewrite (qnormalize_of_unit _ Hu). unfold A. set (f := qrot (mo_q m) (v3sub a ba)). destruct m as [[px py pz] [vx vy vz] qm]. cbn [mo_p mo_v mo_q].
  destruct f, grav. f_equal; vfield.
Qed.

Lemma real_step_dt : forall t0 t1, step_dt (T := R) t0 t1 = real_step t0 t1.
Proof. reflexivity. Qed.

Theorem uniform_motion : forall grav n a ts (q : pqueue R) pre it0, pq_items q = pre ++ [it0] ->
  qunit (mo_q (pi_mo it0)) -> pi_a it0 = a -> pi_g it0 = pq_bg q ->
  let A := v3sub (qrot (mo_q (pi_mo it0)) (v3sub a (pq_ba q))) grav in
  let d := duration (pi_ts it0) ts in
  exists pre' it', pq_items (pq_feed grav n q (map (fun t => (a, pq_bg q, t)) ts)) = pre' ++ [it'] /\
    mo_q (pi_mo it') = mo_q (pi_mo it0) /\
    mo_v (pi_mo it') = v3add (mo_v (pi_mo it0)) (v3scale A d) /\
    mo_p (pi_mo it') = v3add (mo_p (pi_mo it0)) (v3add (v3scale (mo_v (pi_mo it0)) d) (v3scale A (d * d / 2))).
Proof.
  intros grav n a ts. induction ts as [|t ts IH]; intros q pre it0 E Hu Ha Hg A d.
  - exists pre, it0. split; [exact E|]. unfold d. cbn [duration]. split; [reflexivity|].
    split; [destruct (mo_v (pi_mo it0)), A; vring|]. destruct (mo_p (pi_mo it0)), (mo_v (pi_mo it0)), A. vfield.
  - cbn [map pq_feed].
    assert (Es : exists it1, pq_items (pq_propagate grav n q a (pq_bg q) t) = (pre ++ [it0]) ++ [it1] /\
       pq_bg (pq_propagate grav n q a (pq_bg q) t) = pq_bg q /\ pq_ba (pq_propagate grav n q a (pq_bg q) t) = pq_ba q /\
       pi_a it1 = a /\ pi_g it1 = pq_bg q /\ pi_ts it1 = t /\
       pi_mo it1 = fst (fst (nominal_step grav (pq_ba q) (pq_bg q) (pi_mo it0) a (pq_bg q) a (pq_bg q) (real_step (pi_ts it0) t)))).
    { rewrite (pq_propagate_snoc grav n q pre it0 a (pq_bg q) t E). unfold prop_item. rewrite Ha, Hg, real_step_dt.
      destruct (nominal_step _ _ _ _ _ _ _ _ _) as [[m1 ma] mg]. eexists. cbn [pq_items pq_bg pq_ba]. rewrite E.
      repeat split. }
    destruct Es as (it1 & E1 & Eg & Ea & Ia & Ig & It & Im). rewrite (nominal_uniform _ _ _ _ _ _ Hu) in Im.
    specialize (IH (pq_propagate grav n q a (pq_bg q) t) (pre ++ [it0]) it1 E1). rewrite Eg, Ea, Im, It in IH. cbn [mo_q mo_v mo_p] in IH.
    specialize (IH Hu Ia Ig). destruct IH as (pre' & it' & E' & Eq & Ev & Ep). exists pre', it'. split; [exact E'|].
    split; [exact Eq|]. fold A in Ev, Ep. unfold d. cbn [duration]. set (s := real_step (pi_ts it0) t) in *. set (e := duration t ts) in *.
    rewrite Ev, Ep. destruct (mo_v (pi_mo it0)), (mo_p (pi_mo it0)), A. split; vfield.
Qed.

Theorem stays_at_rest : forall grav n a ts (q : pqueue R) pre it0, pq_items q = pre ++ [it0] ->
  qunit (mo_q (pi_mo it0)) -> pi_a it0 = a -> pi_g it0 = pq_bg q -> qrot (mo_q (pi_mo it0)) (v3sub a (pq_ba q)) = grav ->
  exists pre' it', pq_items (pq_feed grav n q (map (fun t => (a, pq_bg q, t)) ts)) = pre' ++ [it'] /\
    mo_q (pi_mo it') = mo_q (pi_mo it0) /\ mo_v (pi_mo it') = mo_v (pi_mo it0) /\
    mo_p (pi_mo it') = v3add (mo_p (pi_mo it0)) (v3scale (mo_v (pi_mo it0)) (duration (pi_ts it0) ts)).
Proof.
  intros grav n a ts q pre it0 E Hu Ha Hg HA. destruct (uniform_motion grav n a ts q pre it0 E Hu Ha Hg) as (pre' & it' & E' & Eq & Ev & Ep).
  rewrite HA in Ev, Ep. exists pre', it'. split; [exact E'|]. split; [exact Eq|]. rewrite Ev, Ep.
  destruct (mo_v (pi_mo it0)), (mo_p (pi_mo it0)), grav. split; vfield.
Qed.
