(** Orders of views and pairs (C109). *)
From Coq Require Import Reals List Arith Permutation.
From Verif Require Import Fp Scalar Base LinAlg MathLib Triangulate Pnp QuatFacts GeoSpec GeoWitness InitSpec InitWitness TriAxesSpec TriAxesFacts StepSpec StepFacts PnpAxesSpec PnpAxesFacts OrderFacts.
Import ListNotations.
Local Open Scope R_scope.

(** C109: in exact arithmetic the same views in another order give the same point and verdict, analytically ... *)
Theorem C109_analytic : forall svd1 svd2 qs ps ns qs' ps' ns' vs vs' p0, views qs ps ns = Ok vs -> views qs' ps' ns' = Ok vs' -> Permutation vs vs' ->
  smallest_singular (tri_A vs) (svd1 (tri_A vs)) -> smallest_singular (tri_A vs') (svd2 (tri_A vs')) -> one_direction (tri_A vs) ->
  tri_analytic svd2 qs' ps' ns' p0 = tri_analytic svd1 qs ps ns p0.
Proof. exact analytic_order. Qed.
Print Assumptions C109_analytic.
(** ... and iteratively, with any solver, after as many steps ... *)
Theorem C109_iterative : forall fuel ldlt qs ps ns qs' ps' ns' vs vs' p0, views qs ps ns = Ok vs -> views qs' ps' ns' = Ok vs' -> Permutation vs vs' ->
  tri_iterative (T := R) fuel ldlt qs' ps' ns' p0 = tri_iterative fuel ldlt qs ps ns p0.
Proof. exact iterative_order. Qed.
Print Assumptions C109_iterative.
(** ... the same pairs in another order give the same refined pose ... *)
Theorem C109_pose : forall l1 l2 cfg p3 p2 p3' p2' q p, solves_psd l1 -> solves_psd l2 -> qunit q -> length p3 = length p2 -> length p3' = length p2' ->
  Permutation (combine p3 p2) (combine p3' p2') ->
  (well_posed l1 None (pc_eps cfg) (combine p3 p2) (pc_iter cfg) q p -> pnp_estimate cfg l2 p3' p2' q p = pnp_estimate cfg l1 p3 p2 q p) /\
  (well_posed l1 (Some (cauchy 1)) (pc_eps cfg) (combine p3 p2) (pc_iter cfg) q p -> pnp_kernel cfg l2 p3' p2' q p = pnp_kernel cfg l1 p3 p2 q p).
Proof. exact estimate_order. Qed.
Print Assumptions C109_pose.
(** ... but not bit for bit in binary32. *)
Theorem C109_rounding_refuted : forall lm, exists fuel ldlt qs ps ns p0 p k p' k', tri_iterative (S := ops_f32 lm) fuel ldlt qs ps ns p0 = Ok (Some (true, p, k)) /\
  tri_iterative (S := ops_f32 lm) fuel ldlt (rev qs) (rev ps) (rev ns) p0 = Ok (Some (true, p', k')) /\ p' <> p.
Proof. exact rounding_refuted. Qed.
Print Assumptions C109_rounding_refuted.

(** Four views and their reverse. *)
Example C109_views_example : views sh_q sh_p sh_n = Ok (sh_v 0) /\ views (rev sh_q) (rev sh_p) (rev sh_n) = Ok (rev (sh_v 0)) /\ Permutation (sh_v 0) (rev (sh_v 0)) /\ rev (sh_v 0) <> sh_v 0 /\
  smallest_singular (tri_A (sh_v 0)) (i_svd (tri_A (sh_v 0))) /\ smallest_singular (tri_A (rev (sh_v 0))) (i_svd (tri_A (rev (sh_v 0)))) /\ one_direction (tri_A (sh_v 0)).
Proof. exact views_example. Qed.
(** Three pairs and their reverse. *)
Example C109_pairs_example : solves_psd pinv6 /\ qunit (qid (T := R)) /\ length sq_pts = length sq_obs /\ length (rev sq_pts) = length (rev sq_obs) /\
  Permutation (combine sq_pts sq_obs) (combine (rev sq_pts) (rev sq_obs)) /\
  well_posed pinv6 None (1 / 1000) (combine sq_pts sq_obs) 1 qid half_p /\ well_posed pinv6 (Some (cauchy 1)) (1 / 1000) (combine sq_pts sq_obs) 1 qid half_p.
Proof. exact pairs_example. Qed.
