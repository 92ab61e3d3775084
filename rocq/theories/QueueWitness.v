(** Concrete queues and combined statements for C23-C29, C37 and C64. *)
From Coq Require Import ZArith List Bool Lia.
From Verif Require Import Fp FpFacts Scalar Base LinAlg MathLib Attitude Propagator QueueSpec AttitudeFacts PropagatorFacts.
Import ListNotations.

Section Witness.
Context {T : Type} {S : SOps T}.

Definition ait (x : f64) : att_item T := AttItem qid v3zero v3zero x.
Definition aq (l : list f64) : att T := Att (map ait l) v3zero v3zero v3zero.
Definition pit (x : f64) : pitem T := PItem (Motion v3zero v3zero qid) (mzero 15 15) (mzero 15 6) v3zero v3zero x.
Definition pq (l : list f64) : pqueue T :=
  PQueue (map pit l) (mzero 6 6) v3zero v3zero (Motion v3zero v3zero qid) F_reset G_reset (mzero 12 12).

Lemma aq_sorted3 : time_sorted [f64_of_Z 1; f64_of_Z 2; f64_of_Z 4].
Proof.
  repeat split; try reflexivity; intros y H; repeat (destruct H as [<-|H]; [reflexivity|]); destruct H.
Qed.

(** C23, C24: three items, request nearer to the middle one. *)
Lemma get_attitude_demo : time_sorted (map ai_ts (at_items (aq [f64_of_Z 1; f64_of_Z 2; f64_of_Z 4]))) /\
  f64_ltb (tdist (f64_lit 5 (-1)) (f64_of_Z 2)) (f64_of_Z 1) = true /\
  att_get (aq [f64_of_Z 1; f64_of_Z 2; f64_of_Z 4]) (f64_lit 5 (-1)) (f64_of_Z 1) = Ok (Some qid).
Proof. split; [apply aq_sorted3|]. split; reflexivity. Qed.

(** C24 refuted: the only item is at 1.0, the request at 0.998, the threshold 0.00275 (0.55 IMU periods). *)
Lemma get_attitude_misses : exists (st : att T) t thr x, time_sorted (map ai_ts (at_items st)) /\
  In x (at_items st) /\ f64_ltb (tdist t (ai_ts x)) thr = true /\ att_get st t thr = Ok None.
Proof.
  exists (aq [f64_of_Z 1]), (f64_lit 511 (-9)), (f64_lit 1 (-8)), (ait (f64_of_Z 1)).
  split; [repeat split; intros ? []|]. split; [left; reflexivity|]. split; reflexivity.
Qed.

(** C25 refuted: the only item is 1 s old, the threshold 1/128 s. *)
Lemma clean_empties : exists (st : att T) t thr, f64_leb (f64_of_Z 0) t = true /\ at_items st <> [] /\ att_clean st t thr = Ub UbEmptyFront.
Proof.
  exists (aq [f64_of_Z 1]), (f64_of_Z 2), (f32_lit 1 (-7)). split; [reflexivity|]. split; [discriminate|]. reflexivity.
Qed.
Lemma clean_demo : ~ (at_items (aq [f64_of_Z 1; f64_of_Z 2; f64_of_Z 4]) <> [] /\
    Forall (fun i => older32 (f32_lit 1 (-1)) (f64_of_Z 3) (ai_ts i)) (at_items (aq [f64_of_Z 1; f64_of_Z 2; f64_of_Z 4]))) /\
  att_clean (aq [f64_of_Z 1; f64_of_Z 2; f64_of_Z 4]) (f64_of_Z 3) (f32_lit 1 (-1)) = Ok (aq [f64_of_Z 4]).
Proof.
  split; [|reflexivity]. intros [_ H]. inversion H as [|? ? _ H1]; subst. inversion H1 as [|? ? _ H2]; subst.
  inversion H2 as [|? ? H3 _]; subst. discriminate H3.
Qed.

Definition asmp (n : Z) : v3 T * v3 T * f64 := (v3zero, v3zero, f64_of_Z n).
Lemma samples_notnan : Forall (fun s => f64_isnan (snd s) = false) [asmp 1; asmp 3; asmp 2; asmp 4].
Proof. repeat constructor. Qed.

Lemma att_clean_complete : forall (st : att T) t thr,
  match att_clean st t thr with
  | Ub r => r = UbEmptyFront /\ at_items st <> [] /\ Forall (fun i => older32 thr t (ai_ts i)) (at_items st)
  | Ok st' => drops (fun i => older32 thr t (ai_ts i)) (at_items st) (at_items st') /\
              (at_items st <> [] -> at_items st' <> []) /\
              at_ba st' = at_ba st /\ at_bg st' = at_bg st /\ at_err st' = at_err st
  end.
Proof.
  intros st t thr. destruct (clean_old_exact st t thr) as [H1 H2].
  destruct (att_clean st t thr) as [st'|r] eqn:E.
  - destruct H2 as (l' & E' & Hd & Hn).
    + intros H. apply H1 in H. congruence.
    + injection E' as ->. cbn. auto.
  - assert (H : at_items st <> [] /\ Forall (fun i => older32 thr t (ai_ts i)) (at_items st)).
    { unfold att_clean in E. destruct (at_items st) as [|h l] eqn:El; [discriminate|]. split; [discriminate|].
      destruct (clean_loop_spec t thr (h :: l)) as [[Hf Hs]|(l' & Hs & Hn & Hd)]; [exact Hf|]. rewrite Hs in E. discriminate. }
    split; [|exact H]. specialize (H1 H). congruence.
Qed.

(** C27, C28. *)
Lemma reset_demo : time_sorted (map pi_ts (pq_items (pq [f64_of_Z 1; f64_of_Z 2; f64_of_Z 4]))) /\
  pq_reset_origin (pq [f64_of_Z 1; f64_of_Z 2; f64_of_Z 4]) (f64_lit 5 (-1)) (f64_of_Z 1) = (pq [f64_of_Z 2; f64_of_Z 4], true) /\
  f64_leb (f64_of_Z 2) (f64_lit 5 (-1)) = true.
Proof. split; [apply aq_sorted3|]. split; reflexivity. Qed.
Lemma reset_demo_fail : pq_reset_origin (pq [f64_of_Z 1; f64_of_Z 2; f64_of_Z 4]) (f64_of_Z 6) (f64_of_Z 1) = (pq [], false).
Proof. reflexivity. Qed.

(** The head stays at 1 although the next item coincides with the image time 2. *)
Lemma reset_not_nearest : exists (q : pqueue T) t thr h r x, time_sorted (map pi_ts (pq_items q)) /\
  pq_reset_origin q t thr = (with_items q (h :: r), true) /\ In x r /\
  f64_ltb (tdist t (pi_ts x)) (tdist t (pi_ts h)) = true.
Proof.
  exists (pq [f64_of_Z 1; f64_of_Z 2]), (f64_of_Z 2), (f64_of_Z 1), (pit (f64_of_Z 1)), [pit (f64_of_Z 2)], (pit (f64_of_Z 2)).
  split; [repeat split; try reflexivity; intros y H; repeat (destruct H as [<-|H]; [reflexivity|]); destruct H|]. split; [reflexivity|]. split; [left; reflexivity|]. reflexivity.
Qed.
(** A head 98 s after the image is accepted with a threshold of 1/256 s. *)
Lemma reset_head_far : exists (q : pqueue T) t thr h, time_sorted (map pi_ts (pq_items q)) /\
  pq_reset_origin q t thr = (with_items q [h], true) /\ f64_ltb thr (tdist t (pi_ts h)) = true.
Proof.
  exists (pq [f64_of_Z 100]), (f64_of_Z 2), (f64_lit 1 (-8)), (pit (f64_of_Z 100)).
  split; [repeat split; intros ? []|]. split; reflexivity.
Qed.
Lemma reset_origin_complete : forall (q : pqueue T) t thr, exists l',
  pq_reset_origin q t thr = (with_items q l', match l' with [] => false | _ => true end) /\
  drops (fun i => older thr t (pi_ts i)) (pq_items q) l' /\
  (l' = [] <-> Forall (fun i => older thr t (pi_ts i)) (pq_items q)).
Proof.
  intros q t thr. destruct (reset_origin_exact q t thr) as (l' & E & H). exists l'. split; [exact E|]. split; [exact H|].
  destruct H as (pre & Eq & Hp & Hl). rewrite Eq. split.
  - intros ->. rewrite app_nil_r. exact Hp.
  - intros Hf. destruct l' as [|x l']; [reflexivity|]. apply Forall_app in Hf as [_ Hf]. inversion Hf; subst. contradiction.
Qed.

(** C29, C37. *)
Lemma reprop_demo : pq_items (pq [f64_of_Z 1; f64_of_Z 2; f64_of_Z 4]) <> [] /\
  map meas (pq_items (pq_repropagate v3zero (pq [f64_of_Z 1; f64_of_Z 2; f64_of_Z 4]))) =
    [(v3zero, v3zero, f64_of_Z 1); (v3zero, v3zero, f64_of_Z 2); (v3zero, v3zero, f64_of_Z 4)].
Proof. split; [discriminate|]. rewrite (proj1 (repropagate_replays v3zero 0 _)). reflexivity. Qed.
Lemma publish_demo : exists m1 m2, pq_publish_oldest (pq [f64_of_Z 1; f64_of_Z 2; f64_of_Z 4]) = Some (m1, v3zero, v3zero, f64_of_Z 1) /\
  pq_publish_newest (pq [f64_of_Z 1; f64_of_Z 2; f64_of_Z 4]) = Some (m2, v3zero, v3zero, f64_of_Z 4).
Proof. eexists _, _. split; reflexivity. Qed.

End Witness.
