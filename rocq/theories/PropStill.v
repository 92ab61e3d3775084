(** The poses that pose refinement leaves unchanged (C110). *)
From Coq Require Import Reals List Arith.
From Verif Require Import Fp Scalar Base LinAlg MathLib Triangulate Pnp QuatFacts GeoSpec StepSpec StepFacts PnpAxesSpec PnpAxesFacts StillSpec StillFacts.
Import ListNotations.
Local Open Scope R_scope.

(** C110: from a pose at which no small change of the pose changes the sum of the squared reprojection errors to first
    order, the refinement returns that very pose after one pass; and a pose returned unchanged after one pass is such a
    pose ... *)
Theorem C110_estimate : forall cfg ldlt p3 p2 q p, solves_psd ldlt -> qunit q -> length p3 = length p2 -> p3 <> [] -> (1 <= pc_iter cfg)%nat ->
  (0 < pc_eps cfg -> regular6 (fst (pnp_normal None q p (combine p3 p2))) -> stationary same (combine p3 p2) q p -> pnp_estimate cfg ldlt p3 p2 q p = PnpOut true q p 1) /\
  (let r := pnp_estimate cfg ldlt p3 p2 q p in po_calls r = 1%nat -> po_q r = q -> po_p r = p -> stationary same (combine p3 p2) q p).
Proof. exact estimate_still. Qed.
Print Assumptions C110_estimate.
(** ... and with the Cauchy weights the same for the sum of the capped errors, if no error is at the corner. *)
Theorem C110_kernel : forall cfg ldlt p3 p2 q p, solves_psd ldlt -> qunit q -> length p3 = length p2 -> p3 <> [] -> (1 <= pc_iter cfg)%nat ->
  (forall pt, In pt (filter (off_plane q p) (combine p3 p2)) -> ~ at_one (pair_err q p pt)) ->
  (0 < pc_eps cfg -> regular6 (fst (pnp_normal (Some (cauchy 1)) q p (combine p3 p2))) -> stationary capped (combine p3 p2) q p -> pnp_kernel cfg ldlt p3 p2 q p = PnpOut true q p 1) /\
  (let r := pnp_kernel cfg ldlt p3 p2 q p in po_calls r = 1%nat -> po_q r = q -> po_p r = p -> stationary capped (combine p3 p2) q p).
Proof. exact kernel_still. Qed.
Print Assumptions C110_kernel.

(** A unit square seen from above its centre, every image point off by a tenth in both directions: no error vanishes, and
    yet the pose is stationary. *)
Example C110_example : solves_psd pinv6 /\ qunit (qid (T := R)) /\ length cell = length cell_obs /\ cell <> [] /\
  (forall pt, In pt (combine cell cell_obs) -> pair_err qid half_p pt = 1 / 50) /\
  (forall pt, In pt (filter (off_plane qid half_p) (combine cell cell_obs)) -> ~ at_one (pair_err qid half_p pt)) /\
  regular6 (fst (pnp_normal None qid half_p (combine cell cell_obs))) /\ stationary same (combine cell cell_obs) qid half_p /\
  regular6 (fst (pnp_normal (Some (cauchy 1)) qid half_p (combine cell cell_obs))) /\ stationary capped (combine cell cell_obs) qid half_p.
Proof. exact cell_example. Qed.
(** False without the single solution: with one pair, an exact solver may move the camera along the ray. *)
Theorem C110_regular_refuted : exists cfg ldlt p3 p2 q p, solves_psd ldlt /\ qunit q /\ length p3 = length p2 /\ p3 <> [] /\ (1 <= pc_iter cfg)%nat /\ 0 < pc_eps cfg /\
  stationary same (combine p3 p2) q p /\ po_p (pnp_estimate cfg ldlt p3 p2 q p) <> p.
Proof. exact ray_moves. Qed.
Print Assumptions C110_regular_refuted.
