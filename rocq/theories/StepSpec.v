(** Specification vocabulary for the refinement of a pose from pairs of 3D points and 2D observations (C83). *)
From Coq Require Import Reals List.
From Coquelicot Require Import Coquelicot.
From Verif Require Import Scalar LinAlg MatFacts GeoSpec.
Import ListNotations.
Local Open Scope R_scope.

(** The attitude q followed by the rotation with half-angle tangents th / 2. *)
Definition turned_by (q : quat R) (th : v3 R) : quat R := qnormalize (qmul q (Quat 1 (v3x th / 2) (v3y th / 2) (v3z th / 2))).
(** The pairs whose point is not within 1e-6 (as a double) of the camera plane. *)
Definition off_plane (q : quat R) (p : v3 R) (pt : v3 R * v2 R) : bool :=
  if Rle_dec (4722366482869645 / 4722366482869645213696) (Rabs (v3z (qrot (qconj q) (v3sub (fst pt) p)))) then true else false.
Fixpoint lsum {A} (f : A -> R) (l : list A) : R := match l with [] => 0 | x :: r => f x + lsum f r end.
(** Sum of a loss of the squared reprojection errors, and along a change of the pose. *)
Definition pose_cost (loss : R -> R) (pts : list (v3 R * v2 R)) (q : quat R) (p : v3 R) : R := lsum (fun pt => loss (pair_err q p pt)) pts.
Definition pose_along (loss : R -> R) (pts : list (v3 R * v2 R)) (q : quat R) (p th dp : v3 R) (t : R) : R :=
  pose_cost loss pts (turned_by q (v3scale th t)) (v3add p (v3scale dp t)).
(** Squared reprojection error of the pair with the projection replaced by its linear approximation at the pose. *)
Definition linear_err (q : quat R) (p : v3 R) (pt : v3 R * v2 R) (th dp : v3 R) : R :=
  let c t := qrot (qconj (turned_by q (v3scale th t))) (v3sub (fst pt) (v3add p (v3scale dp t))) in
  let u := v3x (c 0) / v3z (c 0) + Derive (fun t => v3x (c t) / v3z (c t)) 0 in
  let v := v3y (c 0) / v3z (c 0) + Derive (fun t => v3y (c t) / v3z (c t)) 0 in
  Rsqr (u - v2x (snd pt)) + Rsqr (v - v2y (snd pt)).
Definition linear_cost (w : R -> R) (pts : list (v3 R * v2 R)) (q : quat R) (p th dp : v3 R) : R :=
  lsum (fun pt => w (pair_err q p pt) * linear_err q p pt th dp) pts.

(** One refinement step from pose a to pose b for the weights w: the correction minimises the weighted linearised cost of the usable pairs;
    and, unless a used error is at a corner of the loss, the loss decreases in this direction or is stationary in every direction. *)
Definition refine_step (loss w : R -> R) (corner : R -> Prop) (pts : list (v3 R * v2 R)) (a b : quat R * v3 R) : Prop :=
  exists th dp, let '(q, p) := a in let used := filter (off_plane q p) pts in
    b = (turned_by q th, v3add p dp) /\
    (forall th' dp', linear_cost w used q p th dp <= linear_cost w used q p th' dp') /\
    ((forall pt, In pt used -> ~ corner (pair_err q p pt)) ->
     (forall th' dp', is_derive (pose_along loss used q p th' dp') 0 0) \/ exists D, D < 0 /\ is_derive (pose_along loss used q p th dp) 0 D).
(** n steps. *)
Inductive steps {A} (r : A -> A -> Prop) : nat -> A -> A -> Prop :=
| steps_0 : forall a, steps r 0 a a
| steps_S : forall n a b c, r a b -> steps r n b c -> steps r (S n) a c.

(** Least squares; and the weights of the Cauchy option with the loss they come from: linear beyond a residual of 1, with slope 2 ln 2. *)
Definition one (_ : R) : R := 1.
Definition same (e2 : R) : R := e2.
Definition never (_ : R) : Prop := False.
Definition capped_w (e2 : R) : R := if Rle_dec (R_sqrt.sqrt e2) 1 then 1 else ln 2 / R_sqrt.sqrt e2.
Definition capped (e2 : R) : R := if Rle_dec (R_sqrt.sqrt e2) 1 then e2 else 1 + 2 * ln 2 * (R_sqrt.sqrt e2 - 1).
Definition at_one (e2 : R) : Prop := e2 = 1.

(** The solver solves every positive semidefinite 6x6 system that has a solution. *)
Definition solves_psd (f : mat R -> mat R -> nat -> R) : Prop := forall H b, fpsd 6 (me H) ->
  (exists y, forall i, (i < 6)%nat -> fvec 6 (me H) y i = me b i 0%nat) -> forall i, (i < 6)%nat -> fvec 6 (me H) (f H b) i = me b i 0%nat.
(** A correction of the pose whose six components have a squared norm at least e^2, and one below it. *)
Definition long_step (e : R) (a b : quat R * v3 R) : Prop := exists th dp,
  b = (turned_by (fst a) th, v3add (snd a) dp) /\ e * e <= v3dot dp dp + v3dot th th.
Definition short_step (e : R) (a b : quat R * v3 R) : Prop := exists th dp,
  b = (turned_by (fst a) th, v3add (snd a) dp) /\ v3dot dp dp + v3dot th th < e * e.
(** A step for three of the pairs, and what such steps lead to. *)
Definition sample_step (pts : list (v3 R * v2 R)) (a b : quat R * v3 R) : Prop :=
  exists sub, length sub = 3%nat /\ (forall x, In x sub -> In x pts) /\ refine_step same one never sub a b.
Definition reaches (pts : list (v3 R * v2 R)) (a b : quat R * v3 R) : Prop := exists n, steps (sample_step pts) n a b.
