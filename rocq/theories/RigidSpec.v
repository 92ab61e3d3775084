(** Specification of a change of the world axes for a vision update (C106). Nothing here is used by the model. *)
From Coq Require Import Reals List Arith.
From stdpp Require Import gmap.
From Verif Require Import Fp Scalar Base LinAlg MathLib Msg FeatureManager FrameManager Window Propagator VisionUpdate MatFacts UpdSpec ProcSpec YawSpec.
Import ListNotations.
Local Open Scope nat_scope.

(** The error state in blocks of three: position, velocity, attitude and two biases of the body, position and attitude of
    each of [ne] cameras, position and attitude of each cloned frame. The world axes matter for the positions and the
    velocity of bodies only. *)
Definition world_block (ne c : nat) : bool := (c <? 2) || ((5 + 2 * ne <=? c) && Nat.even (c - (5 + 2 * ne))).
(** The same error after a turn [u] of the axes. *)
Definition turn_all (u : quat R) (ne : nat) (x : nat -> R) : nat -> R := fun i =>
  let c := i / 3 in v3get (if world_block ne c then qrot u (part x (3 * c)) else part x (3 * c)) (i mod 3).
(** The same frame and feature from axes turned by [u] with the origin moved by [o]. *)
Definition moved_frame (u : quat R) (o : v3 R) (f f' : frame R) : Prop :=
  fr_p f' = v3add (qrot u (fr_p f)) o /\ fr_q f' = qmul u (fr_q f) /\ fr_id f' = fr_id f /\ fr_v f' = qrot u (fr_v f).
Definition moved_feature (u : quat R) (o : v3 R) (f f' : feature R) : Prop :=
  ft_pw f' = v3add (qrot u (ft_pw f)) o /\ ft_first f' = ft_first f /\ ft_obs f' = ft_obs f /\ ft_num f' = ft_num f.
(** The same states, as far as a correction changes them: the first queued state, biases, cameras and frames. *)
Definition moved_state (u : quat R) (o : v3 R) (s s' : vstate R) : Prop :=
  (exists it r it' r', pq_items (vs_pq s) = it :: r /\ pq_items (vs_pq s') = it' :: r' /\ pi_mo it' = moved_motion u o (pi_mo it)) /\
  pq_ba (vs_pq s') = pq_ba (vs_pq s) /\ pq_bg (vs_pq s') = pq_bg (vs_pq s) /\ vs_ext s' = vs_ext s /\
  List.Forall2 (moved_frame u o) (wn_frames (vs_win s)) (wn_frames (vs_win s')).
