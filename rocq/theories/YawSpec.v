(** Specification of a change of the world axes that keeps the vertical (C105). Nothing here is used by the model. *)
From Coq Require Import Reals List Arith.
From Verif Require Import Fp Scalar Base LinAlg MathLib Attitude Propagator MatFacts NumSpec ProcSpec.
Import ListNotations.
Local Open Scope R_scope.

(** The same motion seen from axes turned by [u] and with the origin moved by [o]. *)
Definition moved_motion (u : quat R) (o : v3 R) (m : motion R) : motion R :=
  Motion (v3add (qrot u (mo_p m)) o) (qrot u (mo_v m)) (qmul u (mo_q m)).
(** The same error: position and velocity errors are in world axes, the others in body axes. *)
Definition turn (u : quat R) (x : nat -> R) : nat -> R :=
  stack (qrot u (part x 0)) (qrot u (part x 3)) (part x 6) (part x 9) (part x 12).
(** The same item: the covariance belongs to the turned errors. *)
Definition moved_item (u : quat R) (o : v3 R) (it it' : pitem R) : Prop :=
  let U := matrix_of (turn u) in
  pi_mo it' = moved_motion u o (pi_mo it) /\ pi_a it' = pi_a it /\ pi_g it' = pi_g it /\ pi_ts it' = pi_ts it /\
  feq 15 15 (me (pi_cov it')) (fmul 15 (fmul 15 U (me (pi_cov it))) (ftr U)) /\
  mc (pi_ecov it') = mc (pi_ecov it) /\ feq 15 (mc (pi_ecov it)) (me (pi_ecov it')) (fmul 15 U (me (pi_ecov it))).
(** The same queue. *)
Definition moved_queue (u : quat R) (o : v3 R) (q q' : pqueue R) : Prop :=
  List.Forall2 (moved_item u o) (pq_items q) (pq_items q') /\ pq_ecc q' = pq_ecc q /\ pq_ba q' = pq_ba q /\ pq_bg q' = pq_bg q /\
  pq_init q' = moved_motion u o (pq_init q).
(** Unit attitudes. *)
Definition unit_queue (q : pqueue R) : Prop :=
  qnorm2 (mo_q (pq_init q)) = 1 /\ List.Forall (fun it => qnorm2 (mo_q (pi_mo it)) = 1) (pq_items q).
(** What can be done to a queue between two images. *)
Inductive queue_op := QSample (n_ext : nat) (a g : v3 R) (t : f64) | QAgain | QCut (ts thr : f64).
Definition queue_do (grav : v3 R) (q : pqueue R) (op : queue_op) : pqueue R :=
  match op with
  | QSample n a g t => pq_propagate grav n q a g t
  | QAgain => pq_repropagate grav q
  | QCut ts thr => fst (pq_reset_origin q ts thr)
  end.
(** The same attitude estimator. *)
Definition moved_att (u : quat R) (s : att R) : att R :=
  Att (map (fun it => AttItem (qmul u (ai_q it)) (ai_a it) (ai_g it) (ai_ts it)) (at_items s)) (at_ba s) (at_bg s) (at_err s).
