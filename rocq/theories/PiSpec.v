(** Specification of the feedback of the attitude estimator (C80). *)
From Coq Require Import Reals List.
From Verif Require Import Fp Scalar Base LinAlg MathLib Attitude QuatFacts NumSpec.
Import ListNotations.
Local Open Scope R_scope.

(** A sample: acceleration, rate, time. *)
Definition sample : Type := v3 R * v3 R * f64.
(** A vector divided by its length. *)
Definition along_unit (a : v3 R) : v3 R := v3div a (v3norm a).
(** The error seen by the accelerometer at attitude [q]: measured direction times expected direction. *)
Definition tilt (grav : v3 R) (q : quat R) (a : v3 R) : v3 R := v3cross (along_unit a) (along_unit (qrot (qconj q) grav)).
(** The errors of a series of samples, each with the item before it. *)
Definition tilts (grav : v3 R) (its : list (att_item R)) (l : list sample) : list (v3 R) :=
  map (fun x : att_item R * sample => tilt grav (ai_q (fst x)) (fst (fst (snd x)))) (combine its l).
Definition vsum (l : list (v3 R)) : v3 R := fold_right v3add v3zero l.
(** No sample is earlier than the one before it. *)
Fixpoint in_order (t0 : f64) (l : list sample) : Prop :=
  match l with [] => True | s :: r => f64_ltb (snd s) t0 = false /\ in_order (snd s) r end.
(** The two gains: the single precision numbers 1e-3 and 1e-4. *)
Definition gain_p : R := 8589935 / 8589934592.
Definition gain_i : R := 13743895 / 137438953472.
(** The double 0.04. *)
Definition gate_width : R := 5764607523034235 / 144115188075855872.
(** Item [k + 1] follows from item [k] and sample [k]: the mean of the two rates, corrected by a part of the present
    error and by a part of the sum [E0] of all earlier errors, the present one included. *)
Definition follows (grav ba bg E0 : v3 R) (its : list (att_item R)) (l : list sample) : Prop :=
  length its = Datatypes.S (length l) /\
  forall k i0 i1 a g t, nth_error its k = Some i0 -> nth_error its (Datatypes.S k) = Some i1 -> nth_error l k = Some (a, g, t) ->
    ai_a i1 = v3sub a ba /\ ai_g i1 = v3sub g bg /\ ai_ts i1 = t /\
    let w := v3scale (v3add (ai_g i0) (v3sub g bg)) (1 / 2) in
    let e := tilt grav (ai_q i0) a in
    let sum := v3add E0 (v3scale (vsum (firstn (Datatypes.S k) (tilts grav its l))) gain_i) in
    ai_q i1 = qnormalize (qmul (ai_q i0) (delta_q (v3scale (v3add (v3add w (v3scale e gain_p)) sum) (- real_step (ai_ts i0) t)))).
(** A rotation about the y axis. *)
Definition about_y (q : quat R) : Prop := qx q = 0 /\ qz q = 0 /\ qunit q.
