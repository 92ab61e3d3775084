(** Specification of the poses that the refinement leaves unchanged (C110). Nothing here is used by the model. *)
From Coq Require Import Reals List Arith.
From Coquelicot Require Import Coquelicot.
From Verif Require Import Scalar LinAlg MathLib GeoSpec StepSpec.
Import ListNotations.
Local Open Scope R_scope.

(** To first order no change of the pose changes the loss of the pairs off the camera plane. *)
Definition stationary (loss : R -> R) (pts : list (v3 R * v2 R)) (q : quat R) (p : v3 R) : Prop :=
  forall th dp, is_derive (pose_along loss (filter (off_plane q p) pts) q p th dp) 0 0.
