(** Specification of triangulation in other axes (C107). Nothing here is used by the model. *)
From Coq Require Import Reals List Arith.
From Verif Require Import Fp Scalar Base LinAlg MathLib Triangulate GeoSpec.
Import ListNotations.
Local Open Scope R_scope.

(** The same view after a turn [u] of the world axes. *)
Definition turned_view (u : quat R) (v : view R) : view R := let '(q, t, n) := v in (qmul u q, qrot u t, n).
(** The smallest right singular vector is unique but for its sign. *)
Definition one_direction (m : mat R) : Prop := forall x y, smallest_singular m x -> smallest_singular m y ->
  (forall j, (j < mc m)%nat -> y j = x j) \/ (forall j, (j < mc m)%nat -> y j = - x j).
