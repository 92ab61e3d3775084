(** Properties C51-C58: triangulation, pose refinement and RANSAC. *)
From Coq Require Import ZArith Reals Bool List.
From Flocq Require Import IEEE754.BinarySingleNaN.
From Verif Require Import Fp Scalar Base LinAlg MathLib Triangulate Pnp MatFacts QuatFacts GeoSpec TriFacts PnpFacts P3pFacts GeoWitness.
Import ListNotations.
Local Open Scope R_scope.

(** C51: the true point is in the kernel of the system built from exact observations ... *)
Theorem C51_true_point_in_kernel : forall vs P, Forall unit_view vs -> Forall (sees P) vs ->
  forall i, (i < mr (tri_A vs))%nat -> ssum 4 (fun j => me (tri_A vs) i j * match j with 0%nat => v3x P | 1%nat => v3y P | 2%nat => v3z P | _ => 1 end) = 0.
Proof. exact true_point_kernel. Qed.
Print Assumptions C51_true_point_in_kernel.
(** ... every kernel vector with non-zero last component gives an exactly reprojecting point ... *)
Theorem C51_kernel_reprojects : forall vs x, (forall i, (i < mr (tri_A vs))%nat -> ssum 4 (fun j => me (tri_A vs) i j * x j) = 0) ->
  x 3%nat <> 0 -> Forall unit_view vs -> forall q t n, In (q, t, n) vs ->
  exists c, at_camera q t (v3div (V3 (x 0%nat) (x 1%nat) (x 2%nat)) (x 3%nat)) c /\ v3x c = v2x n * v3z c /\ v3y c = v2y n * v3z c.
Proof. exact kernel_reprojects. Qed.
Print Assumptions C51_kernel_reprojects.
(** ... so with a correct decomposition and two non-parallel rays the result is the true point ... *)
Theorem C51_exact : forall svd qs ps ns vs P p0 v1 v2, views qs ps ns = Ok vs ->
  Forall unit_view vs -> Forall (sees P) vs -> In v1 vs -> In v2 vs -> v3cross (ray v1) (ray v2) <> v3zero ->
  v3dot P P <= 999999 * 999999 -> smallest_singular (tri_A vs) (svd (tri_A vs)) ->
  tri_analytic svd qs ps ns p0 = Ok (true, P).
Proof. exact tri_analytic_exact. Qed.
Print Assumptions C51_exact.
Example C51_example : views two_q two_p front_n = Ok front_v /\ Forall unit_view front_v /\ Forall (sees front_P) front_v /\
  (exists a b, In a front_v /\ In b front_v /\ v3cross (ray a) (ray b) <> v3zero) /\ v3dot front_P front_P <= 999999 * 999999 /\
  exists x, smallest_singular (tri_A front_v) x.
Proof. exact front_hyp. Qed.
(** ... and success of any decomposition means two views, the dehomogenized vector and no negative depth. *)
Theorem C51_success : forall svd qs ps ns p0 p, tri_analytic svd qs ps ns p0 = Ok (true, p) ->
  exists vs, views qs ps ns = Ok vs /\ (2 <= length qs)%nat /\
    let x := svd (tri_A vs) in B2R d1em6 <= Rabs (x 3%nat) /\ v3scale p (x 3%nat) = V3 (x 0%nat) (x 1%nat) (x 2%nat) /\
    forall q t n, In (q, t, n) vs -> 0 <= v3z (qrot (qinv q) (v3sub p t)).
Proof. exact tri_analytic_success. Qed.
Print Assumptions C51_success.
(** Fewer than two views: refused, output untouched (any scalar type). *)
Theorem C51_refuse : forall T (SO : SOps T) svd (qs : list (quat T)) ps ns p0, (length qs < 2)%nat ->
  tri_analytic svd qs ps ns p0 = Ok (false, p0).
Proof. exact tri_refuse. Qed.
Print Assumptions C51_refuse.
(** "A finite point" is false in float arithmetic: a decomposition made of NaN is a success. *)
Theorem C51_finite_refuted : forall lm, exists svd qs ps ns p0 p, @tri_analytic f32 (ops_f32 lm) svd qs ps ns p0 = Ok (true, p) /\
  is_nan (v3x p) = true /\ is_nan (v3y p) = true /\ is_nan (v3z p) = true.
Proof. exact nan_success. Qed.
Print Assumptions C51_finite_refuted.

(** C52: a refused point behind the cameras has already replaced the output, even with a correct decomposition. *)
Theorem C52_unchanged_refuted : exists svd vs qs ps ns p0 p, smallest_singular (tri_A vs) (svd (tri_A vs)) /\ views qs ps ns = Ok vs /\
  tri_analytic svd qs ps ns p0 = Ok (false, p) /\ p <> p0.
Proof. exact back_unchanged_refuted. Qed.
Print Assumptions C52_unchanged_refuted.
(** It is the only way: otherwise the output is unchanged. *)
Theorem C52_unchanged_otherwise : forall svd qs ps ns p0 p, tri_analytic svd qs ps ns p0 = Ok (false, p) ->
  p = p0 \/ exists vs q t n, views qs ps ns = Ok vs /\ In (q, t, n) vs /\
    v3scale p (svd (tri_A vs) 3%nat) = V3 (svd (tri_A vs) 0%nat) (svd (tri_A vs) 1%nat) (svd (tri_A vs) 2%nat) /\
    v3z (qrot (qinv q) (v3sub p t)) < 0.
Proof. exact tri_false_cases. Qed.
Print Assumptions C52_unchanged_otherwise.

(** C53: the loops end after at most 11 * 11 inner passes and the result is success, for every scalar type,
    every solver and every input whose vectors have equal lengths. *)
Theorem C53_terminates : forall T (SO : SOps T) ldlt (qs : list (quat T)) ps ns vs p0, views qs ps ns = Ok vs ->
  exists p calls, (1 <= calls <= 11 * 11)%nat /\
    forall fuel, (11 <= fuel)%nat -> tri_iterative fuel ldlt qs ps ns p0 = Ok (Some (true, p, calls)).
Proof. exact @tri_iterative_terminates. Qed.
Print Assumptions C53_terminates.
(** In exact arithmetic the reprojection cost never grows: the point is kept or the cost is strictly smaller. *)
Theorem C53_cost : forall ldlt qs ps ns vs p0 fuel ok p calls, views qs ps ns = Ok vs -> Forall unit_view vs -> v3z p0 <> 0 ->
  tri_iterative fuel ldlt qs ps ns p0 = Ok (Some (ok, p, calls)) ->
  ok = true /\ (p = p0 \/ reproj_cost vs p < reproj_cost vs p0).
Proof. exact tri_iterative_cost_R. Qed.
Print Assumptions C53_cost.
(** In float arithmetic: the point went through the inverse depth twice, or the computed cost is smaller. *)
Theorem C53_cost_float : forall lm ldlt qs ps ns vs p0 fuel ok p calls, views qs ps ns = Ok vs ->
  @tri_iterative f32 (ops_f32 lm) fuel ldlt qs ps ns p0 = Ok (Some (ok, p, calls)) ->
  ok = true /\ (p = @inv_depth f32 (ops_f32 lm) (@inv_depth f32 (ops_f32 lm) p0) \/
    f32_ltb (@tri_cost f32 (ops_f32 lm) (map (@tri_cw f32 (ops_f32 lm)) vs) p) (@tri_cost f32 (ops_f32 lm) (map (@tri_cw f32 (ops_f32 lm)) vs) p0) = true).
Proof. exact tri_iterative_float. Qed.
Print Assumptions C53_cost_float.
Example C53_example : views two_q two_p front_n = Ok front_v /\ Forall unit_view front_v /\ v3z (V3 0 0 1) <> 0.
Proof. exact iter_hyp. Qed.

(** C54: bad input is refused without touching the pose ... *)
Theorem C54_refuse : forall T (SO : SOps T) cfg ldlt (p3 : list (v3 T)) (p2 : list (v2 T)) q p, length p3 <> length p2 \/ p3 = [] ->
  pnp_estimate cfg ldlt p3 p2 q p = PnpOut false q p 0 /\ pnp_kernel cfg ldlt p3 p2 q p = PnpOut false q p 0.
Proof. exact @pnp_refuse. Qed.
Print Assumptions C54_refuse.
(** ... the number of passes is bounded by the parameter ... *)
Theorem C54_bounded : forall T (SO : SOps T) cfg ldlt (p3 : list (v3 T)) (p2 : list (v2 T)) q p,
  (po_calls (pnp_estimate cfg ldlt p3 p2 q p) <= pc_iter cfg)%nat /\ (po_calls (pnp_kernel cfg ldlt p3 p2 q p) <= pc_iter cfg)%nat.
Proof. exact @pnp_bounded. Qed.
Print Assumptions C54_bounded.
(** ... the attitude stays a unit quaternion, for any solver ... *)
Theorem C54_unit : forall cfg ldlt p3 p2 (q : quat R) p, qnorm2 q = 1 ->
  qnorm2 (po_q (pnp_estimate cfg ldlt p3 p2 q p)) = 1 /\ qnorm2 (po_q (pnp_kernel cfg ldlt p3 p2 q p)) = 1.
Proof. exact pnp_unit. Qed.
Print Assumptions C54_unit.
(** ... and an exact pose is a fixed point, for any solver that answers 0 to a zero right-hand side. *)
Theorem C54_fixed_point : forall cfg ldlt p3 p2 (q : quat R) p, qnorm2 q = 1 ->
  (forall H b, (forall i, me b i 0%nat = 0) -> forall i, (i < 6)%nat -> ldlt H b i = 0) -> length p3 = length p2 -> p3 <> [] ->
  (forall pt obs, In (pt, obs) (combine p3 p2) -> reprojects q p pt obs) ->
  (let r := pnp_estimate cfg ldlt p3 p2 q p in po_ok r = true /\ po_q r = q /\ po_p r = p) /\
  (let r := pnp_kernel cfg ldlt p3 p2 q p in po_ok r = true /\ po_q r = q /\ po_p r = p).
Proof. exact pnp_fix. Qed.
Print Assumptions C54_fixed_point.
Example C54_example : zero_solver (fun _ b i => me b i 0%nat) /\ length sq_pts = length sq_obs /\ sq_pts <> [] /\
  forall pt obs, In (pt, obs) (combine sq_pts sq_obs) -> reprojects qid (V3 0 0 0) pt obs.
Proof. exact sq_hyp. Qed.

(** EstimatePoseP3P reports success exactly for equally many points and image points, at least three, and never touches the pose. *)
Theorem C54_p3p : forall T (SO : SOps T) (p3 : list (v3 T)) (p2 : list (v2 T)) q p, let r := pnp_p3p p3 p2 q p in
  (po_ok r = true <-> length p3 = length p2 /\ (3 <= length p3)%nat) /\ po_q r = q /\ po_p r = p.
Proof. exact p3p_accepts. Qed.
Print Assumptions C54_p3p.
Example C54_p3p_example : length sq_pts = length sq_obs /\ (3 <= length sq_pts)%nat.
Proof. exact (conj eq_refl (le_n 3)). Qed.
(** False that a pose reported as found by EstimatePoseP3P has anything to do with the points: it is the caller's guess. *)
Theorem C54_p3p_refuted : exists (p3 : list (v3 R)) (p2 : list (v2 R)) (q : quat R) (p : v3 R) (q0 : quat R) (p0 : v3 R), length p3 = 3%nat /\ qnorm2 q = 1 /\ qnorm2 q0 = 1 /\
  (forall pt obs, In (pt, obs) (combine p3 p2) -> reprojects q p pt obs) /\
  (let r := pnp_p3p p3 p2 q0 p0 in po_ok r = true /\ forall pt obs, In (pt, obs) (combine p3 p2) -> ~ reprojects (po_q r) (po_p r) pt obs).
Proof. exact p3p_blind. Qed.
Print Assumptions C54_p3p_refuted.
(** C55: the sampling loop can run forever (for every random stream) ... *)
Theorem C55_terminates_refuted : exists cfg ldlt (p3 : list (v3 R)) (p2 : list (v2 R)) q p, length p2 = length p3 /\ p3 <> [] /\
  forall fuel rnd pos, pnp_ransac fuel cfg ldlt rnd pos p3 p2 q p = Ok None.
Proof. exact ransac_never_ends. Qed.
Print Assumptions C55_terminates_refuted.
(** ... it always does so with one or two points ... *)
Theorem C55_small_never_ends : forall T (SO : SOps T) cfg ldlt fuel rnd pos (p3 : list (v3 T)) (p2 : list (v2 T)) q p,
  (0 < length p3 < 3)%nat -> length p2 = length p3 -> (0 < ra_iter cfg)%nat ->
  pnp_ransac fuel cfg ldlt rnd pos p3 p2 q p = Ok None.
Proof. exact @ransac_small. Qed.
Print Assumptions C55_small_never_ends.
(** ... and whenever three different indices keep being drawn it ends. *)
Theorem C55_terminates_if_fair : forall T (SO : SOps T) cfg ldlt rnd pos (p3 : list (v3 T)) (p2 : list (v2 T)) q p,
  (0 < length p3)%nat -> length p2 = length p3 -> fair (length p3) rnd ->
  exists F o, ro_ok o = true /\ forall fuel, (F <= fuel)%nat -> pnp_ransac fuel cfg ldlt rnd pos p3 p2 q p = Ok (Some o).
Proof. exact @ransac_ends. Qed.
Print Assumptions C55_terminates_if_fair.
Example C55_example : fair 3 (fun k => k).
Proof. exact fair_id. Qed.

(** C56: the pose left is that of the last model tried, not of the best one. *)
Theorem C56_best_refuted : forall lm, let SO := ops_f32 lm in exists ldlt rnd fuel p3 p2 q p o m,
  pnp_ransac fuel pnp_default ldlt rnd 0 p3 p2 q p = Ok (Some o) /\ ro_ok o = true /\ length p3 = length p2 /\ In m (ro_tried o) /\
  ra_score (ra_thr pnp_default) (combine p3 p2) (fst m) (snd m) = 3%nat /\
  ra_score (ra_thr pnp_default) (combine p3 p2) (ro_q o) (ro_p o) = 0%nat.
Proof. exact last_not_best. Qed.
Print Assumptions C56_best_refuted.
(** The last model is always the one left; at most the configured number of models is tried. *)
Theorem C56_last : forall T (SO : SOps T) cfg ldlt fuel rnd pos (p3 : list (v3 T)) (p2 : list (v2 T)) q p o,
  pnp_ransac fuel cfg ldlt rnd pos p3 p2 q p = Ok (Some o) -> ro_ok o = true ->
  (length (ro_tried o) <= ra_iter cfg)%nat /\
  ((ro_tried o = [] /\ ro_q o = q /\ ro_p o = p) \/
   exists l0, ro_tried o = l0 ++ [(ro_q o, ro_p o)] /\
     forall m, In m l0 -> sltb (ra_rate cfg) (rate_of (length p3) (ra_score (ra_thr cfg) (combine p3 p2) (fst m) (snd m))) = false).
Proof. exact @ransac_last. Qed.
Print Assumptions C56_last.
(** It is the best one when the loop was left through the inlier-rate exit. *)
Theorem C56_best_on_early_exit : forall cfg ldlt fuel rnd pos p3 p2 (q : quat R) p o, (Z.of_nat (length p3) < 2 ^ 32)%Z -> length p2 = length p3 ->
  pnp_ransac fuel cfg ldlt rnd pos p3 p2 q p = Ok (Some o) -> ro_ok o = true ->
  let score m := ra_score (ra_thr cfg) (combine p3 p2) (fst m) (snd m) in
  ra_rate cfg < rate_of (length p3) (score (ro_q o, ro_p o)) ->
  forall m, In m (ro_tried o) -> (score m <= score (ro_q o, ro_p o))%nat.
Proof. exact ransac_exit_best. Qed.
Print Assumptions C56_best_on_early_exit.
Example C56_example : exists (o : ra_out R) fl', pnp_ransac_flags 10 pnp_default (fun _ b i => me b i 0%nat) (fun k => k) 0 sq_pts sq_obs qid (V3 0 0 0) [] =
  Ok (Some (o, fl')) /\ ro_ok o = true.
Proof. exact flags_run. Qed.

(** C57: stale flags survive: three perfect points reported as outliers ... *)
Theorem C57_flags_refuted : forall lm, let SO := ops_f32 lm in exists ldlt rnd fuel p3 p2 q p fl o fl',
  pnp_ransac_flags fuel pnp_default ldlt rnd 0 p3 p2 q p fl = Ok (Some (o, fl')) /\ ro_ok o = true /\ length p3 = 3%nat /\
  fl' = [false; false; false] /\ forall pt, In pt (combine p3 p2) -> f32_ltb (pnp_err (ro_q o) (ro_p o) pt) (ra_thr pnp_default) = true.
Proof. exact stale_flags. Qed.
Print Assumptions C57_flags_refuted.
(** ... and a point whose error is NaN is reported as an inlier. *)
Theorem C57_flags_nan_refuted : forall lm, let SO := ops_f32 lm in exists ldlt rnd fuel p3 p2 q p o fl' pt,
  pnp_ransac_flags fuel pnp_default ldlt rnd 0 p3 p2 q p [] = Ok (Some (o, fl')) /\ ro_ok o = true /\
  nth_error (combine p3 p2) 2 = Some pt /\ nth_error fl' 2 = Some true /\
  f32_ltb (pnp_err (ro_q o) (ro_p o) pt) (ra_thr pnp_default) = false.
Proof. exact nan_flag. Qed.
Print Assumptions C57_flags_nan_refuted.
(** With an empty vector on entry the flags are right in exact arithmetic. *)
Theorem C57_flags_fresh : forall cfg ldlt fuel rnd pos p3 p2 (q : quat R) p o fl', qnorm2 q = 1 ->
  pnp_ransac_flags fuel cfg ldlt rnd pos p3 p2 q p [] = Ok (Some (o, fl')) -> ro_ok o = true ->
  length fl' = length p3 /\ forall i pt obs, nth_error p3 i = Some pt -> nth_error p2 i = Some obs ->
    (nth i fl' true = true <-> pair_err (ro_q o) (ro_p o) (pt, obs) < ra_thr cfg).
Proof. exact ransac_flags_fresh. Qed.
Print Assumptions C57_flags_fresh.
Example C57_example : qnorm2 (qid (T := R)) = 1 /\
  exists (o : ra_out R) fl', pnp_ransac_flags 10 pnp_default (fun _ b i => me b i 0%nat) (fun k => k) 0 sq_pts sq_obs qid (V3 0 0 0) [] =
  Ok (Some (o, fl')) /\ ro_ok o = true.
Proof. exact (conj qid_unit flags_run). Qed.

(** C58: the Cauchy weight with parameter 1 lies in (0, 1] and does not increase with the residual ... *)
Theorem C58_cauchy : forall x y : R, 0 < cauchy 1 x <= 1 /\ (x <= y -> cauchy 1 y <= cauchy 1 x).
Proof. exact (fun x y => conj (cauchy_range x) (cauchy_mono x y)). Qed.
Print Assumptions C58_cauchy.
(** ... and so does the (unused) Huber weight. *)
Theorem C58_huber : forall x y : R, 0 < huber 1 x <= 1 /\ (x <= y -> huber 1 y <= huber 1 x).
Proof. exact (fun x y => conj (huber_range x) (huber_mono x y)). Qed.
Print Assumptions C58_huber.
Example C58_example : cauchy 1 2 = ln 2 / 2 /\ cauchy 1 (1 / 2) = 1.
Proof. exact cauchy_values. Qed.
