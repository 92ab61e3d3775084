(** Linearisation of the propagation step (C78). *)
From Coq Require Import Reals List Arith Lra.
From Coquelicot Require Import Coquelicot.
From Verif Require Import Fp Scalar Base LinAlg MathLib Propagator QuatFacts DerivSpec ProcSpec LinSpec LinFacts.
Local Open Scope R_scope.

Theorem C78_linearised : forall grav (x : R -> nav) (z : R -> meas) (d : nat -> R) (na ng : v3 R), leaves x d -> noisy z na ng ->
  let q := mo_q (nv_m (x 0)) in
  let a := v3sub (v3scale (v3add (ma0 (z 0)) (ma1 (z 0))) (1 / 2)) (nv_ba (x 0)) in
  let w := v3sub (v3scale (v3add (mg0 (z 0)) (mg1 (z 0))) (1 / 2)) (nv_bg (x 0)) in
  exists D : R -> nat -> R,
    (forall dt, leaves (fun e => after grav (x e) (z e) dt) (D dt)) /\
    (forall i, (i < 15)%nat -> D 0 i = d i) /\
    (forall i, (i < 15)%nat ->
       is_derive (fun dt => D dt i - (flow q a w dt d i + drive q dt (stack na ng v3zero v3zero v3zero) i)) 0 0) /\
    (forall dt i, (i < 3)%nat -> D dt i = d i + (d (3 + i)%nat + D dt (3 + i)%nat) / 2 * dt).
Proof. exact step_linearised. Qed.
Print Assumptions C78_linearised.

(** The direction [D dt] of the theorem is the only one. *)
Theorem C78_unique : forall x d d', leaves x d -> leaves x d' -> forall i, (i < 15)%nat -> d i = d' i.
Proof. exact direction_unique. Qed.
Print Assumptions C78_unique.

(** A tilted, moving state with an error in each of its parts, and noisy measurements. *)
Example C78_ex :
  let d := fun i => INR (S i) in
  let x := fun e => Nav (Motion (v3add (V3 1 2 3) (v3scale (part d 0) e)) (v3add (V3 4 5 6) (v3scale (part d 3) e))
    (qnormalize (qmul (Quat (3 / 5) (4 / 5) 0 0) (delta_q (v3scale (part d 6) e)))))
    (v3add (V3 (1 / 10) 0 0) (v3scale (part d 9) e)) (v3add (V3 0 (1 / 20) 0) (v3scale (part d 12) e)) in
  let z := fun e => Meas (v3add (V3 0 1 9) (v3scale (V3 1 0 2) e)) (v3add (V3 1 0 0) (v3scale (V3 0 3 1) e))
    (v3add (V3 1 1 10) (v3scale (V3 1 0 2) e)) (v3add (V3 0 1 0) (v3scale (V3 0 3 1) e)) in
  leaves x d /\ noisy z (V3 1 0 2) (V3 0 3 1) /\ d 6%nat <> 0.
Proof.
  split; [apply injected_leaves; unfold qunit; vunf; field|]. split; [apply linear_noise|].
  apply not_0_INR. discriminate.
Qed.
