(** Specification vocabulary for derivatives. *)
From Coq Require Import Reals.
From Coquelicot Require Import Coquelicot.
From Verif Require Import Scalar LinAlg.
Local Open Scope R_scope.

(** Derivative of a curve of vectors. *)
Definition derive3 (f : R -> v3 R) (t : R) (d : v3 R) : Prop :=
  is_derive (fun s => v3x (f s)) t (v3x d) /\ is_derive (fun s => v3y (f s)) t (v3y d) /\ is_derive (fun s => v3z (f s)) t (v3z d).
(** Row i of a matrix with three columns, starting at column j, times a vector. *)
Definition row3 (m : mat R) (i j : nat) (d : v3 R) : R := me m i j * v3x d + me m i (S j) * v3y d + me m i (S (S j)) * v3z d.
(** Camera coordinates of the world point p_w for body attitude q_wb and position p_wb, and camera attitude
    q_bc and position p_bc on the body (unit quaternions). *)
Definition cam_point (q_wb : quat R) (p_wb : v3 R) (q_bc : quat R) (p_bc p_w : v3 R) : v3 R :=
  qrot (qconj q_bc) (v3sub (qrot (qconj q_wb) (v3sub p_w p_wb)) p_bc).
