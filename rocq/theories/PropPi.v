(** The feedback of the attitude estimator (C80) and its first sample (C26). *)
From Coq Require Import Reals List Lra.
From Verif Require Import Fp Scalar Base LinAlg MathLib Attitude QuatFacts NumSpec QueueSpec PiSpec PiFacts.
Import ListNotations.
Local Open Scope R_scope.

(** C80: proportional and integral correction of the rate ... *)
Theorem C80_feedback : forall grav (st : att R) pre i0 l, at_items st = pre ++ [i0] -> qunit (ai_q i0) -> in_order (ai_ts i0) l ->
  exists its, let st' := att_feed grav st l in
    at_items st' = pre ++ i0 :: its /\ at_ba st' = at_ba st /\ at_bg st' = at_bg st /\
    follows grav (at_ba st) (at_bg st) (at_err st) (i0 :: its) l /\
    at_err st' = v3add (at_err st) (v3scale (vsum (tilts grav (i0 :: its) l)) gain_i).
Proof. exact feedback. Qed.
Print Assumptions C80_feedback.
(** ... the integral changes by at most Ki per sample ... *)
Theorem C80_bound : forall grav (st : att R) pre i0 l, at_items st = pre ++ [i0] -> qunit (ai_q i0) -> in_order (ai_ts i0) l ->
  v3norm (v3sub (at_err (att_feed grav st l)) (at_err st)) <= gain_i * INR (length l).
Proof. exact feedback_bound. Qed.
Print Assumptions C80_bound.
(** ... and has no other bound: at any times there are samples of the length of gravity, without rotation, with which it
    grows by Ki at every one of them. *)
Theorem C80_windup : forall g (st : att R) pre i0 ts e, 0 < g -> at_items st = pre ++ [i0] -> about_y (ai_q i0) -> ai_g i0 = v3zero ->
  at_err st = V3 0 e 0 -> in_order (ai_ts i0) (map (fun t => (v3zero, v3zero, t)) ts) ->
  exists l : list sample, map snd l = ts /\ List.Forall (fun s : sample => v3norm (fst (fst s)) = g /\ snd (fst s) = at_bg st) l /\
    at_err (att_feed (V3 0 0 g) st l) = V3 0 (e - gain_i * INR (length ts)) 0.
Proof. exact windup. Qed.
Print Assumptions C80_windup.

(** A tilted start with a bias, samples at 1, 2 and 4 seconds. *)
Example C80_example :
  let i0 := AttItem (Quat (3 / 5) 0 (4 / 5) 0) (V3 0 0 9) v3zero (f64_of_Z 1) in
  let st := Att [i0] (V3 1 0 0) (V3 0 1 0) (V3 0 5 0) in
  at_items st = [] ++ [i0] /\ qunit (ai_q i0) /\ about_y (ai_q i0) /\ ai_g i0 = v3zero /\ at_err st = V3 0 5 0 /\
  in_order (ai_ts i0) (map (fun t => (v3zero, v3zero, t)) [f64_of_Z 1; f64_of_Z 2; f64_of_Z 4]).
Proof.
  assert (H : qunit (Quat (3 / 5) 0 (4 / 5) 0)) by (unfold qunit; vunf; field).
  split; [reflexivity|]. split; [exact H|]. split; [repeat split; exact H|]. split; [reflexivity|]. split; [reflexivity|].
  repeat split.
Qed.

(** C26: the first sample is accepted exactly if the length of its acceleration differs from gravity by at most 0.04. *)
Theorem C26_gate : forall grav (st : att R) a g t, at_items st = [] ->
  (snd (att_propagate grav st a g t) = true <-> Rabs (v3norm grav - v3norm (v3sub a (at_ba st))) <= gate_width).
Proof. exact first_accepted. Qed.
Print Assumptions C26_gate.
Example C26_gate_example : at_items (Att (T := R) [] (V3 1 0 0) v3zero v3zero) = [] /\ v3sub (V3 1 0 9) (V3 1 0 0) = V3 0 0 9 :> v3 R.
Proof. split; [reflexivity|]. vring. Qed.
