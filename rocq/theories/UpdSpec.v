(** Specification vocabulary for the vision update (C40, C43-C50, C65). Nothing here is used by the model; of the
    model only the Jacobian blocks (tied to derivatives by C48) and the residual are mentioned. *)
From Coq Require Import Reals List Arith ZArith.
From stdpp Require Import gmap.
From Verif Require Import Fp Scalar Base LinAlg MathLib MatFacts Msg FeatureManager FrameManager Window Propagator VisionUpdate.
Import ListNotations.
Local Open Scope nat_scope.

(** ** State augmentation *)

(** Size of the error state with [ne] cameras and [nc] cloned poses. *)
Definition err_size (ne nc : nat) : nat := 15 + 6 * ne + 6 * nc.
(** The error state of size [n] extended by a copy of position (entries 0-2) and attitude (entries 6-8): which
    old component a new component equals. *)
Definition clone_of (n i : nat) : nat := if i <? n then i else if i <? n + 3 then i - n else i - n + 3.

(** ** Marginalization *)

(** Positions of the window that are kept, oldest first. *)
Definition kept (p : marg_policy) (nf : nat) : list nat :=
  match p with
  | NoMarg => seq 0 nf
  | MargOldest => seq 1 (nf - 1)
  | MargNewest => seq 0 (nf - 1)
  | MargSubnew => seq 0 (nf - 2) ++ [nf - 1]
  end.
(** Component of the old error state that becomes component [i] when only the frames at the positions [ks] are
    kept; the first [s] components (IMU and extrinsics) stay. *)
Definition keep_of (s : nat) (ks : list nat) (i : nat) : nat :=
  if i <? s then i else s + 6 * nth ((i - s) / 6) ks 0 + (i - s) mod 6.

(** ** Kalman update *)

(** Diagonal matrix and orthogonal matrix of size n. *)
Definition fdiag (d : nat -> R) : fmat := fun i j => if i =? j then d i else 0%R.
Definition orth (n : nat) (v : fmat) : Prop := feq n n (fmul n (ftr v) v) fid /\ feq n n (fmul n v (ftr v)) fid.
(** [v] and [d] are an eigen-decomposition of the symmetric matrix [a]. *)
Definition eigen_of (n : nat) (a v : fmat) (d : nat -> R) : Prop :=
  orth n v /\ feq n n a (fmul n (fmul n v (fdiag d)) (ftr v)).
(** Innovation covariance H P H^t + s I of [m] measurements with Jacobian [h] on [n] states. *)
Definition innov_cov (n : nat) (p h : fmat) (s : R) : fmat := fadd (fmul n (fmul n h p) (ftr h)) (fscale s fid).
(** Covariance of the estimate after a linear update with an arbitrary gain [k] (Joseph form):
    (I - K H) P (I - K H)^t + s K K^t. *)
Definition joseph (n m : nat) (p h k : fmat) (s : R) : fmat :=
  let a := fsub fid (fmul m k h) in
  fadd (fmul n (fmul n a p) (ftr a)) (fscale s (fmul m k (ftr k))).
(** Matrix times vector. *)
Definition mvec (n : nat) (a : fmat) (x : nat -> R) (i : nat) : R := ssum n (fun k => Rmult (a i k) (x k)).

(** ** QR factorization *)

(** [q] is the orthogonal factor of a QR factorization of the r x c matrix [a]: q^t a is upper triangular. *)
Definition qr_of (r c : nat) (a q : fmat) : Prop :=
  orth r q /\ forall i j, i < r -> j < c -> j < i -> fmul r (ftr q) a i j = 0%R.

(** ** Measurement matrix of one feature *)

Section Layout.
Context {T : Type} {S : SOps T}.

(** The measurements of a track whose first observation belongs to window position [k], in the order in which they
    are visited: window position, camera, normalized coordinates. *)
Fixpoint track_meas (nord : observe T -> list (Z * v2 T)) (k : nat) (obs : list (observe T)) : list (nat * nat * v2 T) :=
  match obs with
  | [] => []
  | o :: r => map (fun cz => (k, Z.to_nat (fst cz), snd cz)) (nord o) ++ track_meas nord (Datatypes.S k) r
  end.

(** Columns of the measurement matrix [ p_w (3) | IMU (15) | cameras (6 each) | cloned poses (6 each) | residual ] for a
    window of [nf] frames: the newest frame is the IMU state itself. *)
Definition col_pos (ne nf k : nat) : nat := if k =? nf - 1 then 3 else 3 + 15 + 6 * ne + 6 * k.
Definition col_att (ne nf k : nat) : nat := if k =? nf - 1 then 3 + 6 else 3 + 15 + 6 * ne + 6 * k + 3.
Definition col_ext (cam : nat) : nat := 3 + 15 + 6 * cam.
Definition col_res (ne nf : nat) : nat := 3 + 15 + 6 * ne + 6 * (nf - 1).
(** Column [j] lies in the block of three columns starting at [c]. *)
Definition in3 (c j : nat) : bool := (c <=? j) && (j <? c + 3).
(** Entry (row [r] of 0, 1; column [j]) of the two rows of one measurement. *)
Definition meas_entry (ne nf : nat) (exts : list (extrinsic T)) (fs : list (frame T)) (p_w : v3 T) (m : nat * nat * v2 T)
    (r j : nat) : T :=
  let '(k, cam, z) := m in
  match nth_error exts cam, nth_error fs k with
  | Some e, Some f =>
      if sltb szero (sabs (v3z (meas_pc e f p_w))) then
        if in3 0 j then me (jac_pw e f p_w) r j
        else if in3 (col_pos ne nf k) j then me (jac_pwb e f p_w) r (j - col_pos ne nf k)
        else if in3 (col_att ne nf k) j then me (jac_Rwb e f p_w) r (j - col_att ne nf k)
        else if in3 (col_ext cam) j then me (jac_pbc e f p_w) r (j - col_ext cam)
        else if in3 (col_ext cam + 3) j then me (jac_Rbc e f p_w) r (j - (col_ext cam + 3))
        else if j =? col_res ne nf then (if r =? 0 then v2x (meas_res e f p_w z) else v2y (meas_res e f p_w z))
        else s0
      else s0
  | _, _ => s0
  end.
(** A camera id of an observation is the index of an extrinsic. *)
Definition known_cams (nord : observe T -> list (Z * v2 T)) (ne : nat) (obs : list (observe T)) : Prop :=
  Forall (fun o => Forall (fun cz : Z * v2 T => (0 <= fst cz < Z.of_nat ne)%Z) (nord o)) obs.
(** The iteration order of an observation's cameras. *)
Definition valid_norder (nord : observe T -> list (Z * v2 T)) : Prop := forall o, nord o ≡ₚ map_to_list o.
End Layout.

(** Every attitude of the state is a unit quaternion: camera extrinsics, frames, queued and initial states. *)
Definition all_unit (s : vstate R) : Prop :=
  List.Forall (fun e => qnorm2 (ex_q e) = 1%R) (vs_ext s) /\ List.Forall (fun f => qnorm2 (fr_q f) = 1%R) (wn_frames (vs_win s)) /\
  qnorm2 (mo_q (pq_init (vs_pq s))) = 1%R /\ List.Forall (fun it => qnorm2 (mo_q (pi_mo it)) = 1%R) (pq_items (vs_pq s)).

(** ** Selection *)

(** Feature state solved; identity and observations unchanged (only the estimate and its status may change). *)
Definition solved {T : Type} (h : heap T) (p : nat) : Prop := exists f, hp_cells h !! p = Some f /\ ft_status f = FSolved.
Definition same_track {T : Type} (f g : feature T) : Prop :=
  ft_id g = ft_id f /\ ft_first g = ft_first f /\ ft_obs g = ft_obs f /\ ft_num g = ft_num f.
