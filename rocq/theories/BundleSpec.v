(** Specification of the estimation problem that a vision update solves (C90). *)
From Coq Require Import Reals List Arith ZArith.
From stdpp Require Import gmap.
From Verif Require Import Fp Scalar Base LinAlg MathLib MatFacts Msg FeatureManager FrameManager Window WindowSpec Propagator VisionUpdate
  UpdSpec ProcSpec BlindSpec.
Import ListNotations.
Local Open Scope R_scope.

Section Bundle.
Context (nord : observe R -> list (Z * v2 R)) (b : Z) (exts : list (extrinsic R)) (fs : list (frame R)).

(** The measurements of a track; the window starts with frame id [b]. *)
Definition meas_of (f : feature R) : list (nat * nat * v2 R) := track_meas nord (Z.to_nat (ft_first f - b)) (ft_obs f).
(** What is left of coordinate [r] of the measurement [m] of a point at [pw] when the point is moved by [dp] and the
    state by [x], to first order (the Jacobians are those of C48). *)
Definition misfit (pw : v3 R) (m : nat * nat * v2 R) (r : nat) (dp : v3 R) (x : nat -> R) : R :=
  let ne := length exts in let nf := length fs in
  let entry := meas_entry ne nf exts fs pw m r in
  entry (col_res ne nf) - rsum 3 (fun k => entry k * v3get dp k) - rsum (err_size ne (nf - 1)) (fun j => entry (j + 3)%nat * x j).
(** Sum of the squared misfits of a track. *)
Definition track_cost (f : feature R) (dp : v3 R) (x : nat -> R) : R :=
  fold_right (fun m acc => misfit (ft_pw f) m 0 dp x ^ 2 + misfit (ft_pw f) m 1 dp x ^ 2 + acc) 0 (meas_of f).
(** ... and of all tracks, every point moved by its own amount. *)
Fixpoint tracks_cost (l : list (feature R)) (dps : nat -> v3 R) (x : nat -> R) : R :=
  match l with
  | [] => 0
  | f :: r => track_cost f (dps O) x + tracks_cost r (fun i => dps (S i)) x
  end.
(** The whole problem. The state correction is x = P y, so that y^t P y is x^t P^-1 x when P is invertible; a cloned
    pose makes P singular. [noise] is the standard deviation of a coordinate. *)
Definition bundle_cost (P : fmat) (noise : R) (l : list (feature R)) (y : nat -> R) (dps : nat -> v3 R) : R :=
  let n := err_size (length exts) (length fs - 1) in
  qform n P y + tracks_cost l dps (mvec n P y) / noise ^ 2.
(** The measurements determine the point: no movement of the point alone goes unseen. *)
Definition locatable (f : feature R) : Prop :=
  forall dp, (forall m r, In m (meas_of f) -> (r < 2)%nat ->
     rsum 3 (fun k => meas_entry (length exts) (length fs) exts fs (ft_pw f) m r k * v3get dp k) = 0) -> dp = V3 0 0 0.
End Bundle.
(** Exact orthogonal factors of every matrix. *)
Definition exact_qr (o : voracle R) : Prop := forall A : mat R, qr_of (mr A) (mc A) (me A) (vo_qr o A).
