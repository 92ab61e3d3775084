(** Properties C23-C29 and C64: attitude estimator queue and propagation queue (src/propagate). *)
From Coq Require Import ZArith List Bool.
From Flocq Require Import IEEE754.BinarySingleNaN.
From Verif Require Import Fp Scalar Base LinAlg MathLib Attitude Propagator QueueSpec AttitudeFacts PropagatorFacts QueueWitness.
Import ListNotations.

(** C23: GetAttitude never leaves its queue; a success is a stored attitude, close enough, and nearest. *)
Theorem C23_get_attitude_nearest : forall (T : Type) (st : att T) t thr, exists r, att_get st t thr = Ok r /\
  forall q, r = Some q -> exists it, In it (at_items st) /\ ai_q it = q /\ f64_ltb (tdist t (ai_ts it)) thr = true /\
    (time_sorted (map ai_ts (at_items st)) ->
     forall x, In x (at_items st) -> f64_ltb (tdist t (ai_ts x)) (tdist t (ai_ts it)) = false).
Proof. exact @get_attitude_nearest. Qed.
Print Assumptions C23_get_attitude_nearest.
Example C23_example : forall (T : Type) (S : SOps T),
  time_sorted (map ai_ts (at_items (aq (T := T) [f64_of_Z 1; f64_of_Z 2; f64_of_Z 4]))) /\
  f64_ltb (tdist (f64_lit 5 (-1)) (f64_of_Z 2)) (f64_of_Z 1) = true /\
  att_get (aq (T := T) [f64_of_Z 1; f64_of_Z 2; f64_of_Z 4]) (f64_lit 5 (-1)) (f64_of_Z 1) = Ok (Some qid).
Proof. exact @get_attitude_demo. Qed.

(** C24: false for a single item later than the request ... *)
Theorem C24_get_attitude_finds_refuted : forall (T : Type) (S : SOps T), exists (st : att T) t thr x,
  time_sorted (map ai_ts (at_items st)) /\ In x (at_items st) /\ f64_ltb (tdist t (ai_ts x)) thr = true /\
  att_get st t thr = Ok None.
Proof. exact @get_attitude_misses. Qed.
Print Assumptions C24_get_attitude_finds_refuted.
(** ... and true in every other case. *)
Theorem C24_get_attitude_finds : forall (T : Type) (st : att T) t thr x, time_sorted (map ai_ts (at_items st)) ->
  In x (at_items st) -> f64_ltb (tdist t (ai_ts x)) thr = true ->
  ((1 < length (at_items st))%nat \/ f64_leb (ai_ts x) t = true) ->
  exists q, att_get st t thr = Ok (Some q).
Proof. exact @get_attitude_finds. Qed.
Print Assumptions C24_get_attitude_finds.
(** C23_example meets these hypotheses too. *)

(** C25: CleanOldItems runs past the end of its queue ... *)
Theorem C25_clean_old_refuted : forall (T : Type) (S : SOps T), exists (st : att T) t thr,
  f64_leb (f64_of_Z 0) t = true /\ at_items st <> [] /\ att_clean st t thr = Ub UbEmptyFront.
Proof. exact @clean_empties. Qed.
Print Assumptions C25_clean_old_refuted.
(** ... only if every item is old; otherwise it drops exactly the old prefix. *)
Theorem C25_clean_old_exact : forall (T : Type) (st : att T) t thr,
  match att_clean st t thr with
  | Ub r => r = UbEmptyFront /\ at_items st <> [] /\ Forall (fun i => older32 thr t (ai_ts i)) (at_items st)
  | Ok st' => drops (fun i => older32 thr t (ai_ts i)) (at_items st) (at_items st') /\
              (at_items st <> [] -> at_items st' <> []) /\
              at_ba st' = at_ba st /\ at_bg st' = at_bg st /\ at_err st' = at_err st
  end.
Proof. exact @att_clean_complete. Qed.
Print Assumptions C25_clean_old_exact.
Example C25_example : forall (T : Type) (S : SOps T),
  ~ (at_items (aq (T := T) [f64_of_Z 1; f64_of_Z 2; f64_of_Z 4]) <> [] /\
    Forall (fun i => older32 (f32_lit 1 (-1)) (f64_of_Z 3) (ai_ts i)) (at_items (aq (T := T) [f64_of_Z 1; f64_of_Z 2; f64_of_Z 4]))) /\
  att_clean (aq (T := T) [f64_of_Z 1; f64_of_Z 2; f64_of_Z 4]) (f64_of_Z 3) (f32_lit 1 (-1)) = Ok (aq [f64_of_Z 4]).
Proof. exact @clean_demo. Qed.

(** C26: what AttitudeEstimate::Propagate accepts and stores ... *)
Theorem C26_attitude_rule : forall (T : Type) (S : SOps T) grav (st : att T) a g t,
  match rev (at_items st) with
  | [] => if sgt64 (sabs (ssub (v3norm grav) (v3norm (v3sub a (at_ba st))))) f64_0_04
          then att_propagate grav st a g t = (st, false)
          else exists q, att_propagate grav st a g t =
                 (Att [AttItem q (v3sub a (at_ba st)) (v3sub g (at_bg st)) t] (at_ba st) (at_bg st) (at_err st), true)
  | b :: _ => if f64_ltb t (ai_ts b) then att_propagate grav st a g t = (st, false)
              else exists q e, att_propagate grav st a g t =
                 (Att (at_items st ++ [AttItem q (v3sub a (at_ba st)) (v3sub g (at_bg st)) t]) (at_ba st) (at_bg st) e, true)
  end.
Proof. exact @att_propagate_rule. Qed.
Print Assumptions C26_attitude_rule.
(** ... so the queue stays ordered. *)
Theorem C26_attitude_ordered : forall (T : Type) (S : SOps T) grav (st : att T) l,
  Forall (fun s => f64_isnan (snd s) = false) l ->
  time_sorted (map ai_ts (at_items st)) -> time_sorted (map ai_ts (at_items (att_feed grav st l))).
Proof. exact @att_queue_ordered. Qed.
Print Assumptions C26_attitude_ordered.
Example C26_example : forall (T : Type) (S : SOps T),
  Forall (fun s => f64_isnan (snd s) = false) [asmp (T := T) 1; asmp 3; asmp 2; asmp 4] /\
  map ai_ts (at_items (att_feed v3zero (aq (T := T) [f64_of_Z 1]) [asmp 1; asmp 3; asmp 2; asmp 4])) =
    [f64_of_Z 1; f64_of_Z 1; f64_of_Z 3; f64_of_Z 4].
Proof. intros T S. split; [exact samples_notnan|reflexivity]. Qed.

(** C27: ResetOrigin. *)
Theorem C27_reset_origin_exact : forall (T : Type) (q : pqueue T) t thr, exists l',
  pq_reset_origin q t thr = (with_items q l', match l' with [] => false | _ => true end) /\
  drops (fun i => older thr t (pi_ts i)) (pq_items q) l' /\
  (l' = [] <-> Forall (fun i => older thr t (pi_ts i)) (pq_items q)).
Proof. exact @reset_origin_complete. Qed.
Print Assumptions C27_reset_origin_exact.
Example C27_example : forall (T : Type) (S : SOps T),
  pq_reset_origin (pq (T := T) [f64_of_Z 1; f64_of_Z 2; f64_of_Z 4]) (f64_of_Z 6) (f64_of_Z 1) = (pq [], false).
Proof. exact @reset_demo_fail. Qed.

(** C28: the head need not be the nearest state, nor near at all. *)
Theorem C28_nearest_refuted : forall (T : Type) (S : SOps T), exists (q : pqueue T) t thr h r x,
  time_sorted (map pi_ts (pq_items q)) /\
  pq_reset_origin q t thr = (with_items q (h :: r), true) /\ In x r /\
  f64_ltb (tdist t (pi_ts x)) (tdist t (pi_ts h)) = true.
Proof. exact @reset_not_nearest. Qed.
Print Assumptions C28_nearest_refuted.
Theorem C28_within_threshold_refuted : forall (T : Type) (S : SOps T), exists (q : pqueue T) t thr h,
  time_sorted (map pi_ts (pq_items q)) /\
  pq_reset_origin q t thr = (with_items q [h], true) /\ f64_ltb thr (tdist t (pi_ts h)) = true.
Proof. exact @reset_head_far. Qed.
Print Assumptions C28_within_threshold_refuted.
(** A head not later than the image is within the threshold, and no item up to it is nearer. *)
Theorem C28_head_before_image : forall (T : Type) (q : pqueue T) t thr h r, is_finite t = true ->
  time_sorted (map pi_ts (pq_items q)) -> pq_items (fst (pq_reset_origin q t thr)) = h :: r ->
  f64_leb (pi_ts h) t = true -> f64_leb (f64_of_Z 0) thr = true ->
  f64_ltb thr (tdist t (pi_ts h)) = false /\
  forall x, In x (pq_items q) -> f64_leb (pi_ts x) (pi_ts h) = true -> f64_ltb (tdist t (pi_ts x)) (tdist t (pi_ts h)) = false.
Proof. exact @reset_origin_head. Qed.
Print Assumptions C28_head_before_image.
Example C28_example : forall (T : Type) (S : SOps T),
  time_sorted (map pi_ts (pq_items (pq (T := T) [f64_of_Z 1; f64_of_Z 2; f64_of_Z 4]))) /\
  pq_reset_origin (pq (T := T) [f64_of_Z 1; f64_of_Z 2; f64_of_Z 4]) (f64_lit 5 (-1)) (f64_of_Z 1) = (pq [f64_of_Z 2; f64_of_Z 4], true) /\
  f64_leb (f64_of_Z 2) (f64_lit 5 (-1)) = true.
Proof. exact @reset_demo. Qed.

(** C29: Repropagate is a replay. *)
Theorem C29_repropagate_replays : forall (T : Type) (S : SOps T) grav n (q : pqueue T),
  map meas (pq_items (pq_repropagate grav q)) = map meas (pq_items q) /\
  match pq_items q with
  | [] => pq_repropagate grav q = q
  | h :: r => pq_repropagate grav q = pq_feed grav n (with_items q [h]) (map meas r)
  end.
Proof. exact @repropagate_replays. Qed.
Print Assumptions C29_repropagate_replays.
Example C29_example : forall (T : Type) (S : SOps T), pq_items (pq (T := T) [f64_of_Z 1; f64_of_Z 2; f64_of_Z 4]) <> [] /\
  map meas (pq_items (pq_repropagate v3zero (pq (T := T) [f64_of_Z 1; f64_of_Z 2; f64_of_Z 4]))) =
    [(v3zero, v3zero, f64_of_Z 1); (v3zero, v3zero, f64_of_Z 2); (v3zero, v3zero, f64_of_Z 4)].
Proof. exact @reprop_demo. Qed.

(** C64: error state packing. *)
Theorem C64_error_state_roundtrip : forall (T : Type) (S : SOps T) junk (e : full_state T),
  let x := error_pack junk e in
  mr x = 15%nat /\ mc x = 1%nat /\
  fs_p (error_unpack x) = fs_p e /\ fs_v (error_unpack x) = fs_v e /\ fs_theta (error_unpack x) = fs_theta e /\
  fs_ba (error_unpack x) = fs_ba e /\ fs_bg (error_unpack x) = fs_bg e.
Proof. exact @error_state_roundtrip. Qed.
Print Assumptions C64_error_state_roundtrip.
Theorem C64_blocks_cover : forall (T : Type) (S : SOps T) junk junk' (x : mat T) i, mr x = 15%nat -> mc x = 1%nat -> (i < 15)%nat ->
  me (error_pack junk (error_unpack x)) i 0%nat = me x i 0%nat /\
  forall e : full_state T, me (error_pack junk e) i 0%nat = me (error_pack junk' e) i 0%nat.
Proof. exact @error_state_covers. Qed.
Print Assumptions C64_blocks_cover.
Example C64_example : forall (T : Type) (S : SOps T), mr (mzero (T := T) 15 1) = 15%nat /\ mc (mzero (T := T) 15 1) = 1%nat.
Proof. intros. split; reflexivity. Qed.
