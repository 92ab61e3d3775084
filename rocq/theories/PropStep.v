(** Property C83: the steps of the pose refinement from 3D-2D pairs, in exact arithmetic. *)
From Coq Require Import Reals List.
From Coquelicot Require Import Coquelicot.
From Verif Require Import Scalar LinAlg MathLib Pnp QuatFacts GeoSpec GeoWitness StepSpec StepFacts.
Import ListNotations.
Local Open Scope R_scope.

(** With a solver of the consistent semidefinite systems, the refinement never fails and every pass is a Gauss-Newton step of the sum of squares: it
    minimises the linearised cost of the pairs off the camera plane, and it goes downhill unless the pose is stationary. *)
Theorem C83_steps : forall cfg ldlt p3 p2 q p, solves_psd ldlt -> qunit q -> length p3 = length p2 -> p3 <> [] ->
  let r := pnp_estimate cfg ldlt p3 p2 q p in
  po_ok r = true /\ steps (refine_step same one never (combine p3 p2)) (po_calls r) (q, p) (po_q r, po_p r).
Proof. exact estimate_steps. Qed.
Print Assumptions C83_steps.
(** A solver, and three pairs seen from a wrong pose. *)
Example C83_steps_example : solves_psd pinv6 /\ qunit (qid (T := R)) /\ length sq_pts = length sq_obs /\ sq_pts <> [] /\
  pose_cost same (combine sq_pts sq_obs) qid (V3 1 0 0) = 3 /\ filter (off_plane qid (V3 1 0 0)) (combine sq_pts sq_obs) = combine sq_pts sq_obs.
Proof. exact step_example. Qed.
(** With the Cauchy option: the same with the weights it computes, for the loss that grows linearly beyond a residual of one. *)
Theorem C83_kernel : forall cfg ldlt p3 p2 q p, solves_psd ldlt -> qunit q -> length p3 = length p2 -> p3 <> [] ->
  let r := pnp_kernel cfg ldlt p3 p2 q p in
  po_ok r = true /\ steps (refine_step capped capped_w at_one (combine p3 p2)) (po_calls r) (q, p) (po_q r, po_p r).
Proof. exact kernel_steps. Qed.
Print Assumptions C83_kernel.
(** No residual is at the corner of the loss. *)
Example C83_kernel_example : solves_psd pinv6 /\ (forall pt, In pt (combine sq_pts sq_obs) -> ~ at_one (pair_err qid (V3 2 0 0) pt)) /\ capped_w 4 = ln 2 / 2.
Proof. exact kernel_example. Qed.
(** Whatever the solver, it stops after the first correction shorter than the epsilon or after the allowed number of passes. *)
Theorem C83_stop : forall cfg ldlt p3 p2 q p, 0 <= pc_eps cfg -> length p3 = length p2 -> p3 <> [] ->
  let stops r := exists m c, steps (long_step (pc_eps cfg)) m (q, p) c /\
    ((po_calls r = m /\ m = pc_iter cfg /\ (po_q r, po_p r) = c) \/ (po_calls r = S m /\ (m < pc_iter cfg)%nat /\ short_step (pc_eps cfg) c (po_q r, po_p r))) in
  stops (pnp_estimate cfg ldlt p3 p2 q p) /\ stops (pnp_kernel cfg ldlt p3 p2 q p).
Proof. exact estimate_stop. Qed.
Print Assumptions C83_stop.
Example C83_stop_example : 0 <= pc_eps (pnp_default (T := R)) /\ length sq_pts = length sq_obs /\ sq_pts <> [].
Proof. exact (conj default_eps (conj (proj1 (proj2 (proj2 step_example))) (proj1 (proj2 (proj2 (proj2 step_example)))))). Qed.
