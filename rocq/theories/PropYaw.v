(** Property C105: propagation does not depend on heading and origin. *)
From Coq Require Import Reals List Arith.
From Verif Require Import Fp Scalar Base LinAlg MathLib Attitude Propagator MatFacts NumSpec ProcSpec YawSpec YawFacts YawWitness.
Import ListNotations.
Local Open Scope R_scope.

(** C105: two queues that describe the same body in world axes turned about the vertical and shifted still do so after any samples,
    repropagations and cuts, states and covariances; so do the published states. *)
Theorem C105_queue : forall u o grav na ng nwa nwg (q q' : pqueue R) ops, qnorm2 u = 1 -> qrot u grav = grav ->
  queue_history grav (noise_Q na ng nwa nwg) q -> queue_history grav (noise_Q na ng nwa nwg) q' -> square_items q -> square_items q' -> unit_queue q ->
  moved_queue u o q q' ->
  let r := fold_left (queue_do grav) ops q in let r' := fold_left (queue_do grav) ops q' in
  moved_queue u o r r' /\
  match pq_publish_newest r, pq_publish_newest r' with
  | Some (m, ba, bg, t), Some (m', ba', bg', t') => m' = moved_motion u o m /\ ba' = ba /\ bg' = bg /\ t' = t
  | None, None => True
  | _, _ => False
  end.
Proof. exact queue_moved. Qed.
Print Assumptions C105_queue.
Example C105_queue_example : qnorm2 y_u = 1 /\ qrot y_u (V3 0 0 10) = V3 0 0 10 /\ queue_history (V3 0 0 10) (noise_Q 1 1 1 1) (y_start y_m) /\
  queue_history (V3 0 0 10) (noise_Q 1 1 1 1) (y_start (moved_motion y_u y_o y_m)) /\ square_items (y_start y_m) /\
  square_items (y_start (moved_motion y_u y_o y_m)) /\ unit_queue (y_start y_m) /\ moved_queue y_u y_o (y_start y_m) (y_start (moved_motion y_u y_o y_m)) /\
  length (pq_items (fold_left (queue_do (V3 0 0 10)) y_ops (y_start y_m))) = 3%nat /\ mo_v (moved_motion y_u y_o y_m) <> mo_v y_m.
Proof. exact y_ok. Qed.
(** The attitude estimator, once it has an attitude, turns with the axes and gives the same answers. *)
Theorem C105_attitude : forall u grav (s : att R) a g t, qnorm2 u = 1 -> qrot u grav = grav -> at_items s <> [] ->
  List.Forall (fun it => qnorm2 (ai_q it) = 1) (at_items s) ->
  att_propagate grav (moved_att u s) a g t = (moved_att u (fst (att_propagate grav s a g t)), snd (att_propagate grav s a g t)).
Proof. exact att_moved. Qed.
Print Assumptions C105_attitude.
Example C105_attitude_example : at_items y_att <> [] /\ List.Forall (fun it => qnorm2 (ai_q it) = 1) (at_items y_att) /\
  length (at_items (fst (att_propagate (V3 0 0 10) y_att (V3 1 0 10) (V3 0 0 1) (f64_of_Z 1)))) = 2%nat.
Proof. exact y_att_ok. Qed.
(** False for axes whose vertical is another: a falling body falls along the third axis in both. *)
Theorem C105_tilt_refuted : exists u o grav (q q' : pqueue R) ops, qnorm2 u = 1 /\ queue_history grav (noise_Q 1 1 1 1) q /\ queue_history grav (noise_Q 1 1 1 1) q' /\
  square_items q /\ square_items q' /\ unit_queue q /\ moved_queue u o q q' /\
  ~ moved_queue u o (fold_left (queue_do grav) ops q) (fold_left (queue_do grav) ops q').
Proof. exact tilt_falls. Qed.
Print Assumptions C105_tilt_refuted.
