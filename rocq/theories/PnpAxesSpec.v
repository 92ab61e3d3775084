(** Specification of pose refinement in other axes (C108). Nothing here is used by the model. *)
From Coq Require Import Reals List Arith.
From Verif Require Import Fp Scalar Base LinAlg MathLib Triangulate Pnp UpdSpec.
Import ListNotations.
Local Open Scope R_scope.

(** The same point from axes turned by [u] with the origin moved by [o]. *)
Definition moved_point (u : quat R) (o p : v3 R) : v3 R := v3add (qrot u p) o.
(** The same result. *)
Definition moved_pose (u : quat R) (o : v3 R) (r : pnp_out R) : pnp_out R :=
  PnpOut (po_ok r) (qmul u (po_q r)) (moved_point u o (po_p r)) (po_calls r).
(** Only the zero vector is mapped to zero. *)
Definition regular6 (H : mat R) : Prop := forall x, (forall i, (i < 6)%nat -> mvec 6 (me H) x i = 0) -> forall i, (i < 6)%nat -> x i = 0.
(** The points fix the pose at every pose that the passes start from. *)
Definition well_posed (ldlt : mat R -> mat R -> nat -> R) (w : option (R -> R)) (eps : R) (pts : list (v3 R * v2 R)) (iter : nat) (q : quat R) (p : v3 R) : Prop :=
  forall k, (k < iter)%nat -> let r := pnp_loop ldlt w eps pts k 0 q p in regular6 (fst (pnp_normal w (po_q r) (po_p r) pts)).
