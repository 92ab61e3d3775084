(** Specification of what a vision update cannot observe (C79). *)
From Coq Require Import Reals List Arith ZArith.
From stdpp Require Import gmap.
From Verif Require Import Fp Scalar Base LinAlg MathLib MatFacts Msg FeatureManager FrameManager Window WindowSpec Propagator VisionUpdate
  UpdSpec ProcSpec.
Import ListNotations.
Local Open Scope nat_scope.

(** The error-state direction [d] moves the whole world: every pose of the window is shifted by [t] and turned about
    the origin by [phi] (small, in world axes; attitude errors are in the body frame), the camera mountings do not
    change. Velocity and biases may change in any way. *)
Definition moves_world (ne : nat) (fs : list (frame R)) (t phi : v3 R) (d : nat -> R) : Prop :=
  let nf := length fs in
  (forall k f, nth_error fs k = Some f ->
     part d (col_pos ne nf k - 3) = v3add t (v3cross phi (fr_p f)) /\
     part d (col_att ne nf k - 3) = qrot (qconj (fr_q f)) phi) /\
  (forall j, 15 <= j < 15 + 6 * ne -> d j = 0%R).
(** The orthogonal factors of matrices with three columns are exact. *)
Definition exact_qr3 (o : voracle R) : Prop := forall A : mat R, mc A = 3 -> qr_of (mr A) 3 (me A) (vo_qr o A).
(** A feature whose observations all fall into the window of [nf] frames from id [b] on and come from known cameras,
    at least two of them. *)
Definition usable (ne : nat) (b : Z) (nf : nat) (f : feature R) : Prop :=
  (exists k, ft_first f = (b + Z.of_nat k)%Z /\ k + length (ft_obs f) <= nf) /\
  ft_num f = total_obs (ft_obs f) /\ (2 <= ft_num f)%Z /\ (2 * ft_num f < 4294967296)%Z /\
  List.Forall (fun o : observe R => forall c z, o !! c = Some z -> (0 <= c < Z.of_nat ne)%Z) (ft_obs f).
(** The rank-one covariance c d d^t of an error along [d]. *)
Definition along (c : R) (d : nat -> R) : fmat := fun i j => Rmult c (Rmult (d i) (d j)).
