(** Geometry of pinhole observations over the reals: specification side of C51-C58. *)
From Coq Require Import Reals List.
From Verif Require Import Scalar LinAlg.
Import ListNotations.
Local Open Scope R_scope.

(** Camera with attitude q (camera to world, unit) at position t, normalized image coordinates n: the
    world point P is at camera coordinates c. *)
Definition at_camera (q : quat R) (t P c : v3 R) : Prop := P = v3add t (qrot q c).
(** n is the exact observation of P, in front of the camera. *)
Definition sees (P : v3 R) (v : quat R * v3 R * v2 R) : Prop :=
  let '(q, t, n) := v in exists c, at_camera q t P c /\ 0 < v3z c /\ n = V2 (v3x c / v3z c) (v3y c / v3z c).
(** Direction of the viewing ray in the world. *)
Definition ray (v : quat R * v3 R * v2 R) : v3 R := let '(q, _, n) := v in qrot q (V3 (v2x n) (v2y n) 1).
Definition unit_view (v : quat R * v3 R * v2 R) : Prop := let '(q, _, _) := v in qnorm2 q = 1.

(** Squared length of m x for a matrix with c columns, and what a right singular vector of the smallest
    singular value is: a unit vector minimizing it. *)
Definition image_norm (m : mat R) (x : nat -> R) : R :=
  ssum (mr m) (fun i => ssum (mc m) (fun j => me m i j * x j) * ssum (mc m) (fun j => me m i j * x j)).
Definition sq_norm (n : nat) (x : nat -> R) : R := ssum n (fun i => x i * x i).
Definition smallest_singular (m : mat R) (x : nat -> R) : Prop :=
  sq_norm (mc m) x = 1 /\ forall y, sq_norm (mc m) y = 1 -> image_norm m x <= image_norm m y.

(** Squared reprojection error of p in one view (camera coordinates c of p), and the sum over views. *)
Definition reproj_err (n : v2 R) (c : v3 R) : R :=
  (v3x c / v3z c - v2x n) * (v3x c / v3z c - v2x n) + (v3y c / v3z c - v2y n) * (v3y c / v3z c - v2y n).
Fixpoint reproj_cost (vs : list (quat R * v3 R * v2 R)) (p : v3 R) : R :=
  match vs with
  | [] => 0
  | (q, t, n) :: r => reproj_err n (qrot (qconj q) (v3sub p t)) + reproj_cost r p
  end.

(** An infinite random stream in which three different residues modulo n keep appearing. *)
Definition fair (n : nat) (rnd : nat -> nat) : Prop :=
  forall k, exists a b c, (k <= a)%nat /\ (k <= b)%nat /\ (k <= c)%nat /\
    Nat.modulo (rnd a) n <> Nat.modulo (rnd b) n /\ Nat.modulo (rnd a) n <> Nat.modulo (rnd c) n /\
    Nat.modulo (rnd b) n <> Nat.modulo (rnd c) n.
(** obs is the exact image of pt under the pose (q, p). *)
Definition reprojects (q : quat R) (p pt : v3 R) (obs : v2 R) : Prop :=
  exists c, at_camera q p pt c /\ v3z c <> 0 /\ obs = V2 (v3x c / v3z c) (v3y c / v3z c).
(** Squared reprojection error of a 3D-2D pair under a pose, and how many pairs are below a threshold. *)
Definition pair_err (q : quat R) (p : v3 R) (pt : v3 R * v2 R) : R := reproj_err (snd pt) (qrot (qconj q) (v3sub (fst pt) p)).
