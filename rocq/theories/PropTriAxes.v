(** Triangulation and the world axes (C107). *)
From Coq Require Import Reals List Arith.
From Verif Require Import Fp Scalar Base LinAlg MathLib Triangulate QuatFacts GeoSpec InitSpec InitWitness TriAxesSpec TriAxesFacts.
Import ListNotations.
Local Open Scope R_scope.

(** C107: turning the world axes turns the triangulated point and keeps the verdict ... *)
Theorem C107_turn : forall u svd1 svd2 qs ps ns vs p0 b p, qunit u -> views qs ps ns = Ok vs -> Forall unit_view vs ->
  smallest_singular (tri_A vs) (svd1 (tri_A vs)) -> smallest_singular (tri_A (map (turned_view u) vs)) (svd2 (tri_A (map (turned_view u) vs))) ->
  one_direction (tri_A vs) -> tri_analytic svd1 qs ps ns p0 = Ok (b, p) ->
  tri_analytic svd2 (map (qmul u) qs) (map (qrot u) ps) ns (qrot u p0) = Ok (b, qrot u p).
Proof. exact tri_turned. Qed.
Print Assumptions C107_turn.
(** ... but with inexact observations the point depends on the origin: the homogeneous solution has unit length in the
    coordinates used, whatever the decomposition. *)
Theorem C107_shift_refuted : exists qs ps ns (o p : v3 R), List.Forall (fun q => qnorm2 q = 1) qs /\ (exists svd, exact_svd svd) /\
  forall svd p0, exact_svd svd -> tri_analytic svd qs ps ns p0 = Ok (true, p) /\ tri_analytic svd qs (map (fun t => v3add t o) ps) ns p0 <> Ok (true, v3add p o).
Proof. exact shift_refuted. Qed.
Print Assumptions C107_shift_refuted.

(** ... and on the unit of length. *)
Theorem C107_scale_refuted : exists qs ps ns k (p : v3 R), 0 < k /\ List.Forall (fun q => qnorm2 q = 1) qs /\ (exists svd, exact_svd svd) /\
  forall svd p0, exact_svd svd -> tri_analytic svd qs ps ns p0 = Ok (true, p) /\ tri_analytic svd qs (map (fun t => v3scale t k) ps) ns p0 <> Ok (true, v3scale p k).
Proof. exact scale_refuted. Qed.
Print Assumptions C107_scale_refuted.

(** Four cameras on a line whose rays to the point do not meet. *)
Example C107_example : qunit (Quat (3 / 5) 0 (4 / 5) 0) /\ views sh_q sh_p sh_n = Ok (sh_v 0) /\ Forall unit_view (sh_v 0) /\
  smallest_singular (tri_A (sh_v 0)) (i_svd (tri_A (sh_v 0))) /\
  smallest_singular (tri_A (map (turned_view (Quat (3 / 5) 0 (4 / 5) 0)) (sh_v 0))) (i_svd (tri_A (map (turned_view (Quat (3 / 5) 0 (4 / 5) 0)) (sh_v 0)))) /\
  one_direction (tri_A (sh_v 0)) /\ tri_analytic i_svd sh_q sh_p sh_n v3zero = Ok (true, V3 0 0 1).
Proof. exact sh_example. Qed.
