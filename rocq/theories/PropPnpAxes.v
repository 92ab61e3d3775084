(** Pose refinement and the world axes (C108). *)
From Coq Require Import Reals List Arith.
From Verif Require Import Fp Scalar Base LinAlg MathLib Triangulate Pnp QuatFacts GeoSpec GeoWitness StepSpec StepFacts PnpAxesSpec PnpAxesFacts.
Import ListNotations.
Local Open Scope R_scope.

(** C108: points and starting pose given in axes turned by [u] with the origin moved by [o] lead, in as many passes and
    with the same verdict, to the refined pose in those axes, whichever exact solvers the two runs use ... *)
Theorem C108_estimate : forall u o l1 l2 cfg p3 p2 q p, qunit u -> solves_psd l1 -> solves_psd l2 -> qunit q ->
  well_posed l1 None (pc_eps cfg) (combine p3 p2) (pc_iter cfg) q p ->
  pnp_estimate cfg l2 (map (moved_point u o) p3) p2 (qmul u q) (moved_point u o p) = moved_pose u o (pnp_estimate cfg l1 p3 p2 q p).
Proof. exact estimate_moved. Qed.
Print Assumptions C108_estimate.
(** ... and the same with the Cauchy weights. *)
Theorem C108_kernel : forall u o l1 l2 cfg p3 p2 q p, qunit u -> solves_psd l1 -> solves_psd l2 -> qunit q ->
  well_posed l1 (Some (cauchy 1)) (pc_eps cfg) (combine p3 p2) (pc_iter cfg) q p ->
  pnp_kernel cfg l2 (map (moved_point u o) p3) p2 (qmul u q) (moved_point u o p) = moved_pose u o (pnp_kernel cfg l1 p3 p2 q p).
Proof. exact kernel_moved. Qed.
Print Assumptions C108_kernel.

(** Three pairs seen from a pose that is off by a half in two directions, one pass. *)
Example C108_example : solves_psd pinv6 /\ qunit (Quat (3 / 5) 0 (4 / 5) 0) /\ qunit (qid (T := R)) /\
  (forall pt, In pt (combine sq_pts sq_obs) -> pair_err qid half_p pt = 1 / 2) /\
  well_posed pinv6 None (1 / 1000) (combine sq_pts sq_obs) 1 qid half_p /\ well_posed pinv6 (Some (cauchy 1)) (1 / 1000) (combine sq_pts sq_obs) 1 qid half_p.
Proof. exact half_example. Qed.
