(** Concrete queues for C105. *)
From Coq Require Import Reals Lra Lia Arith Bool List ZArith.
From Verif Require Import Fp Scalar Base LinAlg MathLib Attitude Propagator QueueSpec MatFacts NumSpec ProcSpec QuatFacts ProcFacts YawSpec YawFacts NumWitness.
Import ListNotations.
Local Open Scope R_scope.

(** A turn about the vertical (3-4-5), a shift, a queue before its first sample, and three samples with a second pass. *)
Definition y_u : quat R := Quat (3 / 5) 0 0 (4 / 5).
Definition y_o : v3 R := V3 1 2 3.
Definition y_start (m : motion R) : pqueue R := PQueue [] (mzero 0 0) v3zero v3zero m F_reset G_reset (noise_Q 1 1 1 1).
Definition y_m : motion R := Motion (V3 5 0 0) (V3 1 0 0) qid.
Definition y_ops : list queue_op := [QSample 1 (V3 0 0 10) v3zero (f64_of_Z 0); QSample 1 (V3 1 0 10) (V3 0 0 1) (f64_of_Z 1); QAgain; QSample 1 (V3 2 1 9) v3zero (f64_of_Z 2)].
Lemma y_ok : qnorm2 y_u = 1 /\ qrot y_u (V3 0 0 10) = V3 0 0 10 /\ queue_history (V3 0 0 10) (noise_Q 1 1 1 1) (y_start y_m) /\
  queue_history (V3 0 0 10) (noise_Q 1 1 1 1) (y_start (moved_motion y_u y_o y_m)) /\ square_items (y_start y_m) /\
  square_items (y_start (moved_motion y_u y_o y_m)) /\ unit_queue (y_start y_m) /\ moved_queue y_u y_o (y_start y_m) (y_start (moved_motion y_u y_o y_m)) /\
  length (pq_items (fold_left (queue_do (V3 0 0 10)) y_ops (y_start y_m))) = 3%nat /\ mo_v (moved_motion y_u y_o y_m) <> mo_v y_m.
Proof.
  split; [unfold y_u; vunf; field|]. split; [unfold y_u; apply v3_ext; vunf; field|].
  split; [apply QH_start; reflexivity|]. split; [apply QH_start; reflexivity|]. split; [constructor|]. split; [constructor|].
  split; [split; [apply qid_unit|constructor]|]. split; [repeat split; constructor|]. split; [reflexivity|].
  unfold y_u, y_m, moved_motion. cbn [mo_v]. intros E. apply (f_equal v3x) in E. vunf. lra.
Qed.
(** A turn about a horizontal axis: free fall goes the wrong way. *)
Definition y_tilt : quat R := Quat 0 1 0 0.
Definition y_fall : list queue_op := [QSample 1 v3zero v3zero (f64_of_Z 0); QSample 1 v3zero v3zero (f64_of_Z 1)].
Lemma fall_v : forall q, exists it0 it1, pq_items (fold_left (queue_do (V3 0 0 10)) y_fall (y_start (Motion v3zero v3zero q))) = [it0; it1] /\ v3z (mo_v (pi_mo it1)) = -10.
Proof.
  intros q. unfold y_fall. cbn [fold_left queue_do]. unfold pq_propagate at 2. cbn [back y_start pq_items rev app pq_init].
  unfold pq_propagate. cbn [back pq_items rev app]. unfold prop_item.
  match goal with |- context [nominal_step ?a ?b ?c ?d ?e ?f ?g ?h ?i] => destruct (nominal_step a b c d e f g h i) as [[m1 ma] mg] eqn:E end.
  eexists _, _. split; [reflexivity|]. cbn [pi_mo]. unfold nominal_step in E. injection E as <- _ _. cbn [mo_v pi_mo mo_q pi_a pi_g pi_ts pq_ba pq_bg].
  assert (Hd : step_dt (T := R) (f64_of_Z 0) (f64_of_Z 1) = 1) by exact real_step_01.
  match goal with |- v3z (v3add _ (v3scale (v3sub (v3scale (v3add (qrot ?a _) (qrot ?b _)) _) _) ?d)) = _ => replace d with 1 by (symmetry; exact Hd); generalize a b end.
  intros [w x y z] [w1 x1 y1 z1]. vunf. field.
Qed.
Lemma tilt_falls : exists u o grav (q q' : pqueue R) ops, qnorm2 u = 1 /\ queue_history grav (noise_Q 1 1 1 1) q /\ queue_history grav (noise_Q 1 1 1 1) q' /\
  square_items q /\ square_items q' /\ unit_queue q /\ moved_queue u o q q' /\
  ~ moved_queue u o (fold_left (queue_do grav) ops q) (fold_left (queue_do grav) ops q').
Proof.
  assert (Em : moved_motion y_tilt v3zero (Motion v3zero v3zero qid) = Motion v3zero v3zero y_tilt).
  { unfold moved_motion, y_tilt. cbn [mo_p mo_v mo_q]. f_equal; [apply v3_ext; vunf; ring|apply v3_ext; vunf; ring|apply q_ext; vunf; ring]. }
  exists y_tilt, v3zero, (V3 0 0 10), (y_start (Motion v3zero v3zero qid)), (y_start (Motion v3zero v3zero y_tilt)), y_fall.
  split; [unfold y_tilt; vunf; ring|]. split; [apply QH_start; reflexivity|]. split; [apply QH_start; reflexivity|]. split; [constructor|]. split; [constructor|].
  split; [split; [apply qid_unit|constructor]|]. split; [repeat split; [constructor|symmetry; exact Em]|].
  intros (H & _). destruct (fall_v qid) as (a & b & E & Eb). destruct (fall_v y_tilt) as (a' & b' & E' & Eb'). rewrite E, E' in H.
  inversion H as [|? ? ? ? _ H2]; subst. inversion H2 as [|? ? ? ? H3 _]; subst. destruct H3 as (H3 & _).
  rewrite H3 in Eb'. unfold moved_motion, y_tilt in Eb'. cbn [mo_v] in Eb'. destruct (mo_v (pi_mo b)) as [v1 v2 v3]. vunf. lra.
Qed.
(** An attitude estimator with one item. *)
Definition y_att : att R := Att [AttItem qid (V3 0 0 10) v3zero (f64_of_Z 0)] v3zero v3zero v3zero.
Lemma y_att_ok : at_items y_att <> [] /\ List.Forall (fun it => qnorm2 (ai_q it) = 1) (at_items y_att) /\
  length (at_items (fst (att_propagate (V3 0 0 10) y_att (V3 1 0 10) (V3 0 0 1) (f64_of_Z 1)))) = 2%nat.
Proof. split; [discriminate|]. split; [constructor; [apply qid_unit|constructor]|]. reflexivity. Qed.
