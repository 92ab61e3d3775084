(** Property C82: the steps of the iterative triangulation, in exact arithmetic. *)
From Coq Require Import Reals List.
From Coquelicot Require Import Coquelicot.
From Verif Require Import Fp Scalar Base LinAlg MathLib Triangulate QuatFacts GeoSpec StepSpec LmSpec LmFacts LmRoundSpec LmStillFacts.
Import ListNotations.
Local Open Scope R_scope.

(** The linear solver is only used on symmetric positive definite systems: what it does otherwise is irrelevant, for any input. *)
Theorem C82_solver : forall f g, agree_spd f g -> forall fuel qs ps ns p0, tri_iterative fuel f qs ps ns p0 = tri_iterative fuel g qs ps ns p0.
Proof. exact iterative_agree. Qed.
Print Assumptions C82_solver.
(** Cramer's rule solves these systems; a solver that fails on all others agrees with it. *)
Example C82_solver_example : solves_spd cramer /\ exists m, spd3 m.
Proof. exact (conj cramer_solves (ex_intro _ _ (damped_spd _ 1 psd3_0 Rlt_0_1))). Qed.
(** One round of trials: k steps are rejected, each multiplying the damping by ten, then one is accepted and divides it by ten; or all eleven are
    rejected and the point stays. *)
Theorem C82_damping : forall ldlt cw A b fuel (s s' : lm R), 0 < lm_lambda s -> lm_inner fuel ldlt cw A b 0 s = Some s' ->
  exists k, (k <= 10)%nat /\ lm_calls s' = (lm_calls s + k + 1)%nat /\
    if lm_reduced s' then lm_lambda s' = lowered (raised (lm_lambda s) k) /\ lm_cost s' < lm_cost s
    else k = 10%nat /\ lm_lambda s' = raised (lm_lambda s) 11 /\ lm_sol s' = lm_sol s /\ lm_cost s' = lm_cost s.
Proof. exact lm_round. Qed.
Print Assumptions C82_damping.
Example C82_damping_example : 0 < @lambda0 R _ /\ exists s', lm_inner 11 cramer (map tri_cw t_vs) (M33 (17 / 5) 0 0 0 (17 / 5) 0 0 0 0) (V3 huber 0 0) 0
  (Lm (V3 0 0 1) t_p lambda0 (reproj_cost t_vs (V3 0 0 1)) 0 false 0) = Some s' /\ lm_sol s' = V3 0 0 1.
Proof. exact (conj lambda0_pos t_round). Qed.
(** The rounds start with the damping 0.001 and end with the first whose last trial is no longer than 5e-7, or with the eleventh. *)
Theorem C82_stop : forall ldlt qs ps ns vs p0 fuel ok p calls, views qs ps ns = Ok vs -> tri_iterative fuel ldlt qs ps ns p0 = Ok (Some (ok, p, calls)) ->
  exists n a z, (n <= 10)%nat /\
    steps (fun x y => round fuel ldlt (map tri_cw vs) x y /\ tiny < lm_dnorm y) n (Lm (from_inverse p0) p0 (8589935 / 8589934592) (tri_cost (map tri_cw vs) p0) 0 false 0) a /\
    round fuel ldlt (map tri_cw vs) a z /\ (n = 10%nat \/ lm_dnorm z <= tiny) /\ p = from_inverse (lm_sol z) /\ calls = lm_calls z.
Proof. exact iterative_stop. Qed.
Print Assumptions C82_stop.
Example C82_stop_example : views t_qs t_ps t_ns = Ok t_vs /\ exists calls, tri_iterative 11 cramer t_qs t_ps t_ns t_p = Ok (Some (true, t_p, calls)).
Proof. exact stop_example. Qed.
(** When no residual exceeds 0.01, every step goes downhill or the point is stationary, for every damping and exact solver. *)
Theorem C82_descent : forall ldlt vs p l, solves_spd ldlt -> 0 < l -> v3z p <> 0 -> List.Forall unit_view vs -> List.Forall (near huber p) vs ->
  let x := inv_depth p in let '(A, b) := tri_normal (map tri_cw vs) x in let d := ldlt (m33add A (m33scale l m33id)) b in
  (d = V3 0 0 0 /\ forall e, is_derive (cost_along vs x e) 0 0) \/ exists D, D < 0 /\ is_derive (cost_along vs x (v3opp d)) 0 D.
Proof. exact descent. Qed.
Print Assumptions C82_descent.
Example C82_descent_example : solves_spd cramer /\ v3z t_p <> 0 /\ List.Forall (near huber t_p) (firstn 3 t_vs) /\ List.Forall unit_view (firstn 3 t_vs).
Proof. exact (conj cramer_solves (conj R1_neq_R0 t_near)). Qed.
(** Without any bound on the residuals, the same holds for the cost that grows linearly beyond 0.01. *)
Theorem C82_robust : forall ldlt vs p l, solves_spd ldlt -> 0 < l -> v3z p <> 0 -> List.Forall unit_view vs -> List.Forall (clear_of huber p) vs ->
  let x := inv_depth p in let '(A, b) := tri_normal (map tri_cw vs) x in let d := ldlt (m33add A (m33scale l m33id)) b in
  (d = V3 0 0 0 /\ forall e, is_derive (soft_along vs x e) 0 0) \/ exists D, D < 0 /\ is_derive (soft_along vs x (v3opp d)) 0 D.
Proof. exact soft_descent. Qed.
Print Assumptions C82_robust.
Example C82_robust_example : solves_spd cramer /\ v3z t_p <> 0 /\ List.Forall (clear_of huber t_p) u_vs /\ List.Forall unit_view u_vs.
Proof. exact (conj cramer_solves (conj R1_neq_R0 u_clear)). Qed.
(** From a point that is stationary for that cost, the loops reject eleven steps of length zero and return the very point. *)
Theorem C82_still : forall ldlt qs ps ns vs p fuel, solves_spd ldlt -> views qs ps ns = Ok vs -> v3z p <> 0 -> List.Forall unit_view vs ->
  List.Forall (clear_of huber p) vs -> (forall d, is_derive (soft_along vs (inv_depth p) d) 0 0) -> (11 <= fuel)%nat ->
  tri_iterative fuel ldlt qs ps ns p = Ok (Some (true, p, 11%nat)).
Proof. exact iterative_still. Qed.
Print Assumptions C82_still.
(** Four small residuals balance a large one. *)
Example C82_still_example : solves_spd cramer /\ views bal_qs bal_ps bal_ns = Ok bal_vs /\ v3z t_p <> 0 /\ List.Forall unit_view bal_vs /\
  List.Forall (clear_of huber t_p) bal_vs /\ forall d, is_derive (soft_along bal_vs (inv_depth t_p) d) 0 0.
Proof. exact bal_example. Qed.
(** False with a larger residual: the weights of the system are missing in the cost, so every step can go uphill. Here the estimate never moves, with
    any exact solver, although points arbitrarily close have a smaller cost. *)
Theorem C82_descent_refuted : exists qs ps ns vs p0, views qs ps ns = Ok vs /\ List.Forall unit_view vs /\
  (exists r, 0 < r /\ forall e, 0 < e < r -> reproj_cost vs (v3add p0 (V3 e 0 0)) < reproj_cost vs p0) /\
  (exists ldlt, solves_spd ldlt) /\
  forall ldlt fuel ok p calls, solves_spd ldlt -> tri_iterative fuel ldlt qs ps ns p0 = Ok (Some (ok, p, calls)) -> p = p0.
Proof. exists t_qs, t_ps, t_ns, t_vs, t_p. exact t_turned. Qed.
Print Assumptions C82_descent_refuted.
