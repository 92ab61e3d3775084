(** PropagateQueue: include/propagate/sequence_propagator.hpp, src/propagate/sequence_propagator.cpp,
    include/propagate/imu_state.hpp. *)
From Coq Require Import ZArith List Bool.
From Verif Require Import Fp Scalar Base LinAlg MathLib.
Import ListNotations.

(** IMUMotionState (imu_state.hpp 63-79). *)
Record motion (T : Type) := Motion { mo_p : v3 T; mo_v : v3 T; mo_q : quat T }.
Arguments Motion {T}. Arguments mo_p {T}. Arguments mo_v {T}. Arguments mo_q {T}.

(** IMUPropagateQueueItem (sequence_propagator.hpp 10-27); by value, only the queue holds items. [pi_cov] is
    15x15 and [pi_ecov] 15 x (extrinsics and cameras). *)
Record pitem (T : Type) := PItem {
  pi_mo : motion T; pi_cov : mat T; pi_ecov : mat T; pi_a : v3 T; pi_g : v3 T; pi_ts : f64 }.
Arguments PItem {T}. Arguments pi_mo {T}. Arguments pi_cov {T}. Arguments pi_ecov {T}.
Arguments pi_a {T}. Arguments pi_g {T}. Arguments pi_ts {T}.

(** PropagateQueue members (sequence_propagator.hpp 33-48); the frame manager pointer only serves for the
    number of extrinsics, which is passed as an argument. *)
Record pqueue (T : Type) := PQueue {
  pq_items : list (pitem T);
  pq_ecc : mat T;            (* exCamCov *)
  pq_ba : v3 T; pq_bg : v3 T;
  pq_init : motion T;
  pq_F : mat T; pq_G : mat T; pq_Q : mat T }.
Arguments PQueue {T}. Arguments pq_items {T}. Arguments pq_ecc {T}. Arguments pq_ba {T}. Arguments pq_bg {T}.
Arguments pq_init {T}. Arguments pq_F {T}. Arguments pq_G {T}. Arguments pq_Q {T}.

(** IMU_STATE_SIZE, IMU_NOISE_SIZE (imu_state.hpp 8-9). *)
Definition imu_size : nat := 15.
Definition noise_size : nat := 12.
(** INDEX_P .. INDEX_BG (imu_state.hpp 11-15), INDEX_NA .. INDEX_NWG (imu_state.hpp 17-20). *)
Definition ix_p : nat := 0.
Definition ix_v : nat := 3.
Definition ix_r : nat := 6.
Definition ix_ba : nat := 9.
Definition ix_bg : nat := 12.
Definition ix_na : nat := 0.
Definition ix_ng : nat := 3.
Definition ix_nwa : nat := 6.
Definition ix_nwg : nat := 9.

Section Propagator.
Context {T : Type} {S : SOps T}.
Local Open Scope sc_scope.

(** The time step [static_cast<Scalar>(item_1->timeStamp - item_0->timeStamp)] (sequence_propagator.cpp 90, 115). *)
Definition step_dt (t0 t1 : f64) : T := sof32 (f64_to_f32 (f64_sub t1 t0)).

(** PropagateMotionNominalState (sequence_propagator.cpp 83-104): new motion state, midAccel, midGyro. *)
Definition nominal_step (grav ba bg : v3 T) (m0 : motion T) (a0 g0 a1 g1 : v3 T) (dt : T)
  : motion T * v3 T * v3 T :=
  let mid_g := v3sub (v3scale (v3add g0 g1) shalf) bg in
  let q1 := qnormalize (qmul (mo_q m0) (delta_q (v3scale mid_g dt))) in
  let mid_a := v3sub (v3scale (v3add a0 a1) shalf) ba in
  let mid_w := v3scale (v3add (qrot (mo_q m0) (v3sub a0 ba)) (qrot q1 (v3sub a1 ba))) shalf in
  let v1 := v3add (mo_v m0) (v3scale (v3sub mid_w grav) dt) in
  let p1 := v3add (mo_p m0) (v3scale (v3scale (v3add (mo_v m0) v1) shalf) dt) in
  (Motion p1 v1 q1, mid_a, mid_g).

(** The F and G blocks written by PropagateFullErrorStateCovariance (sequence_propagator.cpp 115-131); the
    other entries keep the values they had. *)
Definition write_F (F : mat T) (q0 : quat T) (mid_a mid_g : v3 T) (dt : T) : mat T :=
  let R := qmat q0 in
  let Idt := m33scale dt m33id in
  let F1 := set_block F ix_p ix_v (mat_of_m33 Idt) in
  let F2 := set_block F1 ix_v ix_r (mat_of_m33 (m33mul (m33scale (- dt) R) (skew mid_a))) in
  let F3 := set_block F2 ix_v ix_ba (mat_of_m33 (m33scale (- dt) R)) in
  let F4 := set_block F3 ix_r ix_r (mat_of_m33 (m33sub m33id (m33scale dt (skew mid_g)))) in
  set_block F4 ix_r ix_bg (mat_of_m33 (m33opp Idt)).
Definition write_G (G : mat T) (q0 : quat T) (dt : T) : mat T :=
  let R := qmat q0 in
  let Idt := m33scale dt m33id in
  let G1 := set_block G ix_p ix_na (mat_of_m33 (m33scale (shalf * dt * dt) R)) in
  let G2 := set_block G1 ix_v ix_na (mat_of_m33 (m33scale dt R)) in
  let G3 := set_block G2 ix_r ix_ng (mat_of_m33 Idt) in
  let G4 := set_block G3 ix_ba ix_nwa (mat_of_m33 Idt) in
  set_block G4 ix_bg ix_nwg (mat_of_m33 Idt).

(** PropagateFullErrorStateCovariance (sequence_propagator.cpp 134, 147): imuCov and imuExCamCov of item_1.
    Sums are added left to right (Eigen does not specify the order); the diagonal check 137-144 only logs. *)
Definition cov_step (F G Q cov : mat T) : mat T :=
  madd (mmul (mmul F cov) (mtr F)) (mmul (mmul G Q) (mtr G)).
Definition ecov_step (F ecov : mat T) : mat T := mmul F ecov.

(** One midpoint step from [it0] to the measurement (a1, g1, t1) (sequence_propagator.cpp 45-57, 68-76). *)
Definition prop_item (grav ba bg : v3 T) (F G Q : mat T) (it0 : pitem T) (a1 g1 : v3 T) (t1 : f64)
  : pitem T * mat T * mat T :=
  let dt := step_dt (pi_ts it0) t1 in
  let '(m1, mid_a, mid_g) := nominal_step grav ba bg (pi_mo it0) (pi_a it0) (pi_g it0) a1 g1 dt in
  let F' := write_F F (mo_q (pi_mo it0)) mid_a mid_g dt in
  let G' := write_G G (mo_q (pi_mo it0)) dt in
  (PItem m1 (cov_step F' G' Q (pi_cov it0)) (ecov_step F' (pi_ecov it0)) a1 g1 t1, F', G').

(** ResetProcessFunction (sequence_propagator.cpp 163-166). *)
Definition F_reset : mat T := midn imu_size.
Definition G_reset : mat T := mzero imu_size noise_size.

(** PropagateQueue::Propagate (sequence_propagator.cpp 9-59); [n_ext] is the number of extrinsics. The test
    [camExSize > 0] (line 28) always holds. Always returns true. *)
Definition pq_propagate (grav : v3 T) (n_ext : nat) (q : pqueue T) (accel gyro : v3 T) (ts : f64) : pqueue T :=
  match back (pq_items q) with
  | Ub _ =>
      let n := (n_ext * 6 + 6)%nat in
      let it := PItem (pq_init q) (mzero imu_size imu_size) (mzero imu_size n) accel gyro ts in
      PQueue (pq_items q ++ [it]) (mzero n n) (pq_ba q) (pq_bg q) (pq_init q) F_reset G_reset (pq_Q q)
  | Ok it0 =>
      let '(it1, F', G') := prop_item grav (pq_ba q) (pq_bg q) (pq_F q) (pq_G q) (pq_Q q) it0 accel gyro ts in
      PQueue (pq_items q ++ [it1]) (pq_ecc q) (pq_ba q) (pq_bg q) (pq_init q) F' G' (pq_Q q)
  end.

(** The loop of Repropagate (sequence_propagator.cpp 64-77) from item [it0] on: the rewritten items after it. *)
Fixpoint reprop_loop (grav ba bg : v3 T) (Q F G : mat T) (it0 : pitem T) (l : list (pitem T))
  : list (pitem T) * mat T * mat T :=
  match l with
  | [] => ([], F, G)
  | it1 :: r =>
      let '(it1', F', G') := prop_item grav ba bg F G Q it0 (pi_a it1) (pi_g it1) (pi_ts it1) in
      let '(r', F'', G'') := reprop_loop grav ba bg Q F' G' it1' r in
      (it1' :: r', F'', G'')
  end.
(** PropagateQueue::Repropagate (sequence_propagator.cpp 63-79); always returns true. *)
Definition pq_repropagate (grav : v3 T) (q : pqueue T) : pqueue T :=
  match pq_items q with
  | [] => q
  | it0 :: r =>
      let '(r', F', G') := reprop_loop grav (pq_ba q) (pq_bg q) (pq_Q q) (pq_F q) (pq_G q) it0 r in
      PQueue (it0 :: r') (pq_ecc q) (pq_ba q) (pq_bg q) (pq_init q) F' G' (pq_Q q)
  end.

(** Packing and unpacking the error state (IMUFullState, imu_state.hpp 23-59): ErrorStateConvert
    (sequence_propagator.cpp 170-189). *)
Record full_state := FullState { fs_p : v3 T; fs_v : v3 T; fs_q : quat T; fs_theta : v3 T; fs_ba : v3 T; fs_bg : v3 T }.
Definition seg3 (x : mat T) (i : nat) : v3 T := V3 (me x i 0%nat) (me x (i + 1)%nat 0%nat) (me x (i + 2)%nat 0%nat).
Definition error_pack (junk : nat -> nat -> T) (e : full_state) : mat T :=
  set_block (set_block (set_block (set_block (set_block (mraw junk imu_size 1)
    ix_p 0 (mat_of_v3 (fs_p e))) ix_v 0 (mat_of_v3 (fs_v e))) ix_r 0 (mat_of_v3 (fs_theta e)))
    ix_ba 0 (mat_of_v3 (fs_ba e))) ix_bg 0 (mat_of_v3 (fs_bg e)).
Definition error_unpack (x : mat T) : full_state :=
  FullState (seg3 x ix_p) (seg3 x ix_v) qid (seg3 x ix_r) (seg3 x ix_ba) (seg3 x ix_bg).

(** InitializeProcessNoiseMatrix (sequence_propagator.cpp 193-202). *)
Definition noise_Q (na ng nwa nwg : T) : mat T :=
  Mat noise_size noise_size (fun i j =>
    if Nat.eqb i j then
      (if Nat.ltb i 3 then s1 * na else if Nat.ltb i 6 then s1 * ng
       else if Nat.ltb i 9 then s1 * nwa else s1 * nwg)
    else s0).

(** The loop of ResetOrigin (sequence_propagator.cpp 210-215): [None] when it empties the queue. *)
Fixpoint origin_loop (ts thr : f64) (l : list (pitem T)) : option (list (pitem T)) :=
  match l with
  | [] => None
  | it :: r => if f64_ltb thr (f64_sub ts (pi_ts it)) then origin_loop ts thr r else Some l
  end.
Definition with_items (q : pqueue T) (l : list (pitem T)) : pqueue T :=
  PQueue l (pq_ecc q) (pq_ba q) (pq_bg q) (pq_init q) (pq_F q) (pq_G q) (pq_Q q).
(** PropagateQueue::ResetOrigin (sequence_propagator.cpp 206-219). *)
Definition pq_reset_origin (q : pqueue T) (ts thr : f64) : pqueue T * bool :=
  match origin_loop ts thr (pq_items q) with
  | None => (with_items q [], false)
  | Some l => (with_items q l, true)
  end.

(** PublishPropagateState / PublishUpdateState read the last / first item (backend.cpp 117-143). *)
Definition pq_publish (q : pqueue T) (it : out (pitem T)) : option (motion T * v3 T * v3 T * f64) :=
  match it with Ub _ => None | Ok i => Some (pi_mo i, pq_ba q, pq_bg q, pi_ts i) end.
Definition pq_publish_newest (q : pqueue T) := pq_publish q (back (pq_items q)).
Definition pq_publish_oldest (q : pqueue T) := pq_publish q (front (pq_items q)).

End Propagator.
Arguments FullState {T}. Arguments fs_p {T}. Arguments fs_v {T}. Arguments fs_q {T}. Arguments fs_theta {T}.
Arguments fs_ba {T}. Arguments fs_bg {T}. Arguments full_state : clear implicits.
