(** Specification of the error-state process model of the propagator (C68), as a linear map on error states
    rather than as matrix blocks. *)
From Coq Require Import Reals List Arith.
From Verif Require Import Fp Scalar Base LinAlg MathLib Propagator MatFacts NumSpec.
Import ListNotations.
Local Open Scope R_scope.

(** The three entries of [x] from [k] on, and the 15 entries of five stacked vectors. *)
Definition part (x : nat -> R) (k : nat) : v3 R := V3 (x k) (x (k + 1)%nat) (x (k + 2)%nat).
Definition stack (p v th ba bg : v3 R) (i : nat) : R :=
  if Nat.ltb i 3 then v3get p i else if Nat.ltb i 6 then v3get v (i - 3) else if Nat.ltb i 9 then v3get th (i - 6)
  else if Nat.ltb i 12 then v3get ba (i - 9) else v3get bg (i - 12).

(** How an error (position, velocity, rotation, accelerometer bias, gyro bias) grows over a step [dt] with
    attitude [q], unbiased acceleration [a] and rate [w]:
      p' = p + v dt,  v' = v - R (a x th + ba) dt,  th' = th - (w x th + bg) dt,  biases unchanged. *)
Definition flow (q : quat R) (a w : v3 R) (dt : R) (x : nat -> R) : nat -> R :=
  let p := part x 0 in let v := part x 3 in let th := part x 6 in let ba := part x 9 in let bg := part x 12 in
  stack (v3add p (v3scale v dt))
        (v3sub v (v3scale (qrot q (v3add (v3cross a th) ba)) dt))
        (v3sub th (v3scale (v3add (v3cross w th) bg) dt)) ba bg.
(** The error caused by accelerometer and gyro noise and bias drift during the step. *)
Definition drive (q : quat R) (dt : R) (n : nat -> R) : nat -> R :=
  let na := part n 0 in let ng := part n 3 in let nwa := part n 6 in let nwg := part n 9 in
  stack (v3scale (qrot q na) (dt * dt / 2)) (v3scale (qrot q na) dt) (v3scale ng dt) (v3scale nwa dt) (v3scale nwg dt).
(** The matrix of a linear map. *)
Definition matrix_of (f : (nat -> R) -> nat -> R) : fmat := fun i j => f (fun k => if Nat.eqb k j then 1 else 0) i.
(** The noise intensities: uncorrelated, one value for each group of three. *)
Definition noise_cov (na ng nwa nwg : R) : fmat := fun i j =>
  if Nat.eqb i j then nth (i / 3) [na; ng; nwa; nwg] 0 else 0.

(** Covariance of item [it1] obtained from the item [it0] before it: errors flow, noise is added. *)
Definition carried (noise : fmat) (ba bg : v3 R) (n : nat) (it0 it1 : pitem R) : Prop :=
  let dt := real_step (pi_ts it0) (pi_ts it1) in
  let a := v3sub (v3scale (v3add (pi_a it0) (pi_a it1)) (1 / 2)) ba in
  let w := v3sub (v3scale (v3add (pi_g it0) (pi_g it1)) (1 / 2)) bg in
  let F := matrix_of (flow (mo_q (pi_mo it0)) a w dt) in
  let G := matrix_of (drive (mo_q (pi_mo it0)) dt) in
  feq 15 15 (me (pi_cov it1)) (fadd (fmul 15 (fmul 15 F (me (pi_cov it0))) (ftr F)) (fmul 12 (fmul 12 G noise) (ftr G))) /\
  feq 15 n (me (pi_ecov it1)) (fmul 15 F (me (pi_ecov it0))).

(** Queues that can arise: the queue starts empty, is propagated, repropagated and cut, and other code (the
    vision update, the back end) may rewrite everything but the process matrices, without adding items to an
    empty queue. *)
Inductive queue_history (grav : v3 R) (noise : mat R) : pqueue R -> Prop :=
| QH_start : forall q, pq_items q = [] -> pq_Q q = noise -> queue_history grav noise q
| QH_propagate : forall q n_ext a g t, queue_history grav noise q -> queue_history grav noise (pq_propagate grav n_ext q a g t)
| QH_repropagate : forall q, queue_history grav noise q -> queue_history grav noise (pq_repropagate grav q)
| QH_reset : forall q ts thr, queue_history grav noise q -> queue_history grav noise (fst (pq_reset_origin q ts thr))
| QH_rewrite : forall q items ecc ba bg m, queue_history grav noise q -> (pq_items q = [] -> items = []) ->
    queue_history grav noise (PQueue items ecc ba bg m (pq_F q) (pq_G q) (pq_Q q)).
(** Items of the usual sizes. *)
Definition square_items (q : pqueue R) : Prop :=
  Forall (fun it => mc (pi_cov it) = 15%nat) (pq_items q).
