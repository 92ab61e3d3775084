(** Property C89: the test programs of the geometry module. *)
From Coq Require Import Reals List Arith.
From Verif Require Import Fp Scalar Base LinAlg MathLib Triangulate Pnp QuatFacts GeoSpec PnpFacts InitSpec InitWitness StepSpec StepFacts AppGeometry AppGeoFacts AppPnpFacts.
Import ListNotations.
Local Open Scope R_scope.

(** test_trianglate, in exact arithmetic: with an exact decomposition the analytic test prints the point it has set twice, whatever the uninitialized
    result vector contained. *)
Theorem C89_analytic : forall svd junk, exact_svd svd -> app_tri_analytic cos sin svd junk = Ok (V3 2 2 2, V3 2 2 2).
Proof. exact analytic_prints. Qed.
Print Assumptions C89_analytic.
Example C89_analytic_example : exact_svd i_svd.
Proof. exact i_svd_exact. Qed.
(** The iterative test ends for every solver, prints the same point twice, and this point is the start or fits the six views better. *)
Theorem C89_iterative : forall ldlt, exists res, (forall fuel, (11 <= fuel)%nat -> app_tri_iterative cos sin fuel ldlt = Ok (Some (res, res))) /\
  (res = v3add (V3 2 2 2) tt_noise \/ reproj_cost tt_views res < reproj_cost tt_views (v3add (V3 2 2 2) tt_noise)).
Proof. exact iterative_prints. Qed.
Print Assumptions C89_iterative.
(** Each of the six views is an exact one of the point (2, 2, 2). *)
Theorem C89_views : Forall unit_view tt_views /\ Forall (sees (V3 2 2 2)) tt_views /\ length tt_views = 6%nat.
Proof. exact (conj views_unit (conj views_see eq_refl)). Qed.
Print Assumptions C89_views.
(** "What is printed as the point that was set is that point" is false. *)
Theorem C89_set_refuted : exists ldlt fuel s r, app_tri_iterative cos sin fuel ldlt = Ok (Some (s, r)) /\ s <> V3 2 2 2.
Proof. exact iterative_set_refuted. Qed.
Print Assumptions C89_set_refuted.

(** test_pnp: for every random stream, solver and scalar type no index is out of range ... *)
Theorem C89_pnp_safe : forall (T : Type) (SO : SOps T) fuel ldlt rnd, safe (app_pnp (T := T) fuel ldlt rnd).
Proof. exact @app_safe. Qed.
Print Assumptions C89_pnp_safe.
(** ... and it ends if three different indices keep being drawn. *)
Theorem C89_pnp_ends : forall (T : Type) (SO : SOps T) ldlt rnd, fair 729 rnd -> exists F r, forall fuel, (F <= fuel)%nat -> app_pnp (T := T) fuel ldlt rnd = Ok (Some r).
Proof. exact @app_ends. Qed.
Print Assumptions C89_pnp_ends.
Example C89_pnp_ends_example : fair 729 (fun k => k).
Proof. exact fair_729. Qed.
(** In exact arithmetic the observations are those of the pose (identity, (1, -3, 0)), except at the drawn indices, where they are none. *)
Theorem C89_scene : forall rnd, exists obs ix, tp_data (T := R) rnd = Ok (obs, ix) /\ length (tp_pts (T := R)) = 729%nat /\ length obs = 729%nat /\
  ix = map (fun i => Nat.modulo (rnd i) 729) (seq 0 7) /\
  forall i pt o, nth_error tp_pts i = Some pt -> nth_error obs i = Some o ->
    (In i ix -> v2x o = 10 /\ ~ reprojects qid (V3 1 (-3)%R 0) pt o) /\ (~ In i ix -> reprojects qid (V3 1 (-3)%R 0) pt o).
Proof. exact scene. Qed.
Print Assumptions C89_scene.
(** So the score of this pose in RANSAC is the number of undisturbed pairs, and RANSAC stops as soon as it tries this pose. *)
Theorem C89_score : forall rnd obs ix, tp_data (T := R) rnd = Ok (obs, ix) ->
  (ra_score (ra_thr pnp_default) (combine tp_pts obs) qid (V3 1%R (-3)%R 0%R) + length (nodup Nat.eq_dec ix) = 729)%nat.
Proof. exact true_pose_score. Qed.
Print Assumptions C89_score.
Theorem C89_stops : forall fuel ldlt rnd obs ix pos q p o, tp_data (T := R) rnd = Ok (obs, ix) ->
  pnp_ransac fuel pnp_default ldlt rnd pos tp_pts obs q p = Ok (Some o) -> In (qid, V3 1 (-3)%R 0) (ro_tried o) -> (ro_q o, ro_p o) = (qid, V3 1 (-3)%R 0).
Proof. exact ransac_stops. Qed.
Print Assumptions C89_stops.
Example C89_stops_example : exists ldlt obs ix (o : ra_out R), tp_data (T := R) good_rnd = Ok (obs, ix) /\
  pnp_ransac 10 pnp_default ldlt good_rnd 7 tp_pts obs qid (V3 1 (-3)%R 0) = Ok (Some o) /\ In (qid, V3 1 (-3)%R 0) (ro_tried o).
Proof. exact stops_example. Qed.
(** Both refinements leave this pose in their first pass: for neither of them is it the solution. *)
Theorem C89_leaves : forall cfg ldlt rnd obs ix, solves_psd ldlt -> pc_iter cfg = 1%nat -> tp_data (T := R) rnd = Ok (obs, ix) ->
  (let r := pnp_estimate cfg ldlt tp_pts obs qid (V3 1 (-3)%R 0) in po_ok r = true /\ (po_q r, po_p r) <> (qid, V3 1 (-3)%R 0)) /\
  (let r := pnp_kernel cfg ldlt tp_pts obs qid (V3 1 (-3)%R 0) in po_ok r = true /\ (po_q r, po_p r) <> (qid, V3 1 (-3)%R 0)).
Proof. exact estimates_leave. Qed.
Print Assumptions C89_leaves.
Example C89_leaves_example : solves_psd pinv6 /\ pc_iter (PnpCfg 1 0 0 0 (0 : R)) = 1%nat.
Proof. exact (conj pinv6_psd eq_refl). Qed.
(** The three printed poses are reached from the identity at the origin, independently of each other: the first by at most ten least-squares steps
    over all pairs, the second by at most ten steps for the loss of the Cauchy option, the third by steps for three pairs at a time. *)
Theorem C89_start : forall fuel ldlt rnd a b c, solves_psd ldlt -> app_pnp (T := R) fuel ldlt rnd = Ok (Some (a, b, c)) ->
  exists obs ix, tp_data (T := R) rnd = Ok (obs, ix) /\
  (exists n, (n <= 10)%nat /\ steps (refine_step same one never (combine tp_pts obs)) n (qid, V3 0 0 0) a) /\
  (exists n, (n <= 10)%nat /\ steps (refine_step capped capped_w at_one (combine tp_pts obs)) n (qid, V3 0 0 0) b) /\
  reaches (combine tp_pts obs) (qid, V3 0 0 0) c.
Proof. exact app_start. Qed.
Print Assumptions C89_start.
(** The hypotheses hold for the pseudo-inverse and the sequence of all numbers. *)
Example C89_start_example : solves_psd pinv6 /\ exists fuel a b c, app_pnp (T := R) fuel pinv6 (fun k => k) = Ok (Some (a, b, c)).
Proof. exact start_example. Qed.
