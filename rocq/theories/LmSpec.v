(** Specification vocabulary for the steps of the iterative triangulation (C82). Nothing here is used by the model. *)
From Coq Require Import Reals List.
From Coquelicot Require Import Coquelicot.
From Verif Require Import Scalar LinAlg GeoSpec.
Import ListNotations.
Local Open Scope R_scope.

(** Symmetric and positive definite. *)
Definition spd3 (m : m33 R) : Prop :=
  (forall u v, v3dot u (m33mulv m v) = v3dot (m33mulv m u) v) /\ forall v, v <> V3 0 0 0 -> 0 < v3dot v (m33mulv m v).
(** Two solvers agree on such systems; a solver solves such systems. *)
Definition agree_spd (f g : m33 R -> v3 R -> v3 R) : Prop := forall m b, spd3 m -> f m b = g m b.
Definition solves_spd (f : m33 R -> v3 R -> v3 R) : Prop := forall m b, spd3 m -> m33mulv m (f m b) = b.

(** The point with image coordinates (x, y) and inverse depth z in the world frame. *)
Definition from_inverse (x : v3 R) : v3 R := V3 (v3x x / v3z x) (v3y x / v3z x) (1 / v3z x).
(** The reprojection cost along a line in these coordinates. *)
Definition cost_along (vs : list (quat R * v3 R * v2 R)) (x d : v3 R) (s : R) : R := reproj_cost vs (from_inverse (v3add x (v3scale d s))).
(** No view has the point in its image plane, and every residual is at most [e]. *)
Definition near (e : R) (p : v3 R) (v : quat R * v3 R * v2 R) : Prop :=
  let '(q, t, n) := v in let c := qrot (qconj q) (v3sub p t) in v3z c <> 0 /\ reproj_err n c <= e * e.
(** The single precision number 0.01f. *)
Definition huber : R := 10737418 / 1073741824.
(** The damping after [k] rejected steps, and after an accepted step. The bounds 10^12 and 10^-10 are compared as doubles and stored as floats. *)
Definition raised (l : R) (k : nat) : R :=
  match k with O => l | _ => if Rlt_dec (l * 10 ^ k) 1000000000000 then l * 10 ^ k else 999999995904 end.
Definition lowered (l : R) : R :=
  if Rlt_dec (7737125245533627 / 77371252455336267181195264) (l / 10) then l / 10 else 14411519 / 144115188075855872.

(** The cost whose weighted normal equations are solved: squared up to [huber], then linear. *)
Definition soft (e2 : R) : R := if Rle_dec (R_sqrt.sqrt e2) huber then e2 else 4 * huber * R_sqrt.sqrt e2 - 3 * (huber * huber).
Fixpoint soft_cost (vs : list (quat R * v3 R * v2 R)) (p : v3 R) : R :=
  match vs with
  | [] => 0
  | (q, t, n) :: r => soft (reproj_err n (qrot (qconj q) (v3sub p t))) + soft_cost r p
  end.
Definition soft_along (vs : list (quat R * v3 R * v2 R)) (x d : v3 R) (s : R) : R := soft_cost vs (from_inverse (v3add x (v3scale d s))).
(** No view has the point in its image plane or its residual exactly at the corner. *)
Definition clear_of (e : R) (p : v3 R) (v : quat R * v3 R * v2 R) : Prop :=
  let '(q, t, n) := v in let c := qrot (qconj q) (v3sub p t) in v3z c <> 0 /\ reproj_err n c <> e * e.
