(** Proofs about the propagation queue that do not depend on the arithmetic (C27-C29, C37, C64). *)
From Coq Require Import ZArith Reals Lra Lia List Bool.
From Flocq Require Import Core BinarySingleNaN.
From Verif Require Import Fp FpFacts Scalar Base LinAlg MathLib Attitude Propagator QueueSpec AttitudeFacts.
Import ListNotations.
Local Open Scope nat_scope.

Section Facts.
Context {T : Type} {S : SOps T}.

(** ** ResetOrigin (C27, C28) *)
Lemma origin_loop_spec : forall t thr (l : list (pitem T)),
  (Forall (fun i => older thr t (pi_ts i)) l /\ origin_loop t thr l = None) \/
  exists l', origin_loop t thr l = Some l' /\ l' <> [] /\ drops (fun i => older thr t (pi_ts i)) l l'.
Proof.
  intros t thr. induction l as [|h l IH]; cbn [origin_loop].
  - left. split; [constructor|reflexivity].
  - destruct (f64_ltb thr (f64_sub t (pi_ts h))) eqn:E.
    + destruct IH as [[Hf Hs]|(l' & Hs & Hn & pre & -> & Hp & Hl)].
      * left. split; [constructor; assumption|exact Hs].
      * right. exists l'. split; [exact Hs|]. split; [exact Hn|]. exists (h :: pre). split; [reflexivity|]. split; [constructor; assumption|exact Hl].
    + right. exists (h :: l). split; [reflexivity|]. split; [discriminate|]. exists []. split; [reflexivity|]. split; [constructor|].
      unfold older. congruence.
Qed.

(** C27 *)
Theorem reset_origin_exact : forall (q : pqueue T) t thr, exists l',
  pq_reset_origin q t thr = (with_items q l', match l' with [] => false | _ => true end) /\
  drops (fun i => older thr t (pi_ts i)) (pq_items q) l'.
Proof.
  intros q t thr. unfold pq_reset_origin. destruct (origin_loop_spec t thr (pq_items q)) as [[Hf Hs]|(l' & Hs & Hn & Hd)]; rewrite Hs.
  - exists []. split; [reflexivity|]. exists (pq_items q). split; [symmetry; apply app_nil_r|]. split; [exact Hf|exact I].
  - exists l'. split; [destruct l'; [congruence|reflexivity]|exact Hd].
Qed.

(** C28, what remains true: a head that is not later than the image is within the threshold, and no dropped
    item is closer to the image. *)
Theorem reset_origin_head : forall (q : pqueue T) t thr h r, is_finite t = true ->
  time_sorted (map pi_ts (pq_items q)) -> pq_items (fst (pq_reset_origin q t thr)) = h :: r ->
  f64_leb (pi_ts h) t = true -> f64_leb (f64_of_Z 0) thr = true ->
  f64_ltb thr (tdist t (pi_ts h)) = false /\
  forall x, In x (pq_items q) -> f64_leb (pi_ts x) (pi_ts h) = true -> f64_ltb (tdist t (pi_ts x)) (tdist t (pi_ts h)) = false.
Proof.
  intros q t thr h r Ft Hs E Hh Hthr. destruct (reset_origin_exact q t thr) as (l' & El & pre & Eq & Hp & Hl).
  rewrite El in E. cbn in E. subst l'. unfold older in Hl.
  assert (Nt : f64_isnan t = false) by (apply fin_notnan; exact Ft).
  assert (Nh : f64_isnan (pi_ts h) = false) by (apply f64_leb_iff in Hh; tauto).
  pose proof (sub_fin_notnan t (pi_ts h) Ft Nh) as Nth.
  assert (Nthr : f64_isnan thr = false) by (apply f64_leb_iff in Hthr; tauto).
  split.
  - apply f64_ltb_false_iff; [exact Nthr|rewrite isnan_tdist; exact Nth|]. rewrite tdist_left by assumption.
    destruct (f64_ltb thr (f64_sub t (pi_ts h))) eqn:Ef; [congruence|]. apply f64_ltb_false_iff in Ef; assumption.
  - intros x Hx Hxh. apply not_closer. intros N1 N2. apply tdist_mono_left; assumption.
Qed.

(** ** Repropagate (C29) *)
Lemma pq_propagate_snoc : forall grav n (q : pqueue T) l it0 a g t, pq_items q = l ++ [it0] ->
  pq_propagate grav n q a g t =
  let '(it1, F', G') := prop_item grav (pq_ba q) (pq_bg q) (pq_F q) (pq_G q) (pq_Q q) it0 a g t in
  PQueue (pq_items q ++ [it1]) (pq_ecc q) (pq_ba q) (pq_bg q) (pq_init q) F' G' (pq_Q q).
Proof. intros grav n q l it0 a g t E. unfold pq_propagate. rewrite E at 1. rewrite back_snoc. reflexivity. Qed.

Lemma reprop_replay : forall grav n l (q : pqueue T) pre it0, pq_items q = pre ++ [it0] ->
  pq_feed grav n q (map meas l) =
  let '(l', F', G') := reprop_loop grav (pq_ba q) (pq_bg q) (pq_Q q) (pq_F q) (pq_G q) it0 l in
  PQueue (pq_items q ++ l') (pq_ecc q) (pq_ba q) (pq_bg q) (pq_init q) F' G' (pq_Q q).
Proof.
  intros grav n l. induction l as [|x l IH]; intros q pre it0 E.
  - cbn. rewrite app_nil_r. destruct q; reflexivity.
  - cbn [map pq_feed meas reprop_loop]. rewrite (pq_propagate_snoc grav n q pre it0) by exact E.
    destruct (prop_item grav (pq_ba q) (pq_bg q) (pq_F q) (pq_G q) (pq_Q q) it0 (pi_a x) (pi_g x) (pi_ts x)) as [[it1 F1] G1].
    erewrite IH by (cbn [pq_items]; reflexivity). cbn [pq_items pq_ecc pq_ba pq_bg pq_init pq_F pq_G pq_Q].
    destruct (reprop_loop _ _ _ _ F1 G1 it1 l) as [[l' F'] G']. rewrite <- app_assoc. reflexivity.
Qed.

Lemma prop_item_meas : forall grav ba bg F G Q (it0 : pitem T) a g t,
  meas (fst (fst (prop_item grav ba bg F G Q it0 a g t))) = (a, g, t).
Proof.
  intros. unfold prop_item. destruct (nominal_step grav ba bg _ _ _ a g _) as [[m ma] mg]. reflexivity.
Qed.
Lemma reprop_meas : forall grav ba bg Q l F G (it0 : pitem T),
  map meas (fst (fst (reprop_loop grav ba bg Q F G it0 l))) = map meas l.
Proof.
  intros grav ba bg Q l. induction l as [|x l IH]; intros F G it0; [reflexivity|].
  cbn [reprop_loop]. pose proof (prop_item_meas grav ba bg F G Q it0 (pi_a x) (pi_g x) (pi_ts x)) as H.
  destruct (prop_item grav ba bg F G Q it0 (pi_a x) (pi_g x) (pi_ts x)) as [[it1 F1] G1].
  specialize (IH F1 G1 it1). destruct (reprop_loop grav ba bg Q F1 G1 it1 l) as [[l' F'] G']. cbn in *. rewrite H, IH. reflexivity.
Qed.

Theorem repropagate_replays : forall grav n (q : pqueue T), 
  map meas (pq_items (pq_repropagate grav q)) = map meas (pq_items q) /\
  match pq_items q with
  | [] => pq_repropagate grav q = q
  | h :: r => pq_repropagate grav q = pq_feed grav n (with_items q [h]) (map meas r)
  end.
Proof.
  intros grav n q. unfold pq_repropagate. destruct (pq_items q) as [|h r] eqn:E; [rewrite E; split; reflexivity|].
  pose proof (reprop_meas grav (pq_ba q) (pq_bg q) (pq_Q q) r (pq_F q) (pq_G q) h) as Hm.
  pose proof (reprop_replay grav n r (with_items q [h]) [] h eq_refl) as Hr. cbn in Hr.
  destruct (reprop_loop _ _ _ _ _ _ h r) as [[r' F'] G']. cbn in *. split; [f_equal; exact Hm|]. symmetry. exact Hr.
Qed.

(** ** Publishing (C37) *)
Theorem publish_states : forall (q : pqueue T),
  match pq_items q with
  | [] => pq_publish_newest q = None /\ pq_publish_oldest q = None
  | h :: r => pq_publish_oldest q = Some (pi_mo h, pq_ba q, pq_bg q, pi_ts h) /\
              pq_publish_newest q = Some (pi_mo (last r h), pq_ba q, pq_bg q, pi_ts (last r h))
  end.
Proof.
  intros q. unfold pq_publish_newest, pq_publish_oldest. destruct (pq_items q) as [|h r]; [split; reflexivity|].
  split; [reflexivity|]. assert (H : forall r (h : pitem T), back (h :: r) = Ok (last r h)).
  { induction r0 as [|x r0 IH]; intros y; [reflexivity|]. change (back (y :: x :: r0)) with (back (x :: r0)). rewrite IH.
    f_equal. cbn [last]. destruct r0 as [|z r0]; [reflexivity|].
    clear. revert z. induction r0 as [|w r0 IH]; intros z; [reflexivity|]. apply (IH w). }
  rewrite H. reflexivity.
Qed.

(** ** Error state (C64) *)
Theorem error_state_roundtrip : forall junk (e : full_state T),
  let x := error_pack junk e in
  mr x = 15 /\ mc x = 1 /\
  fs_p (error_unpack x) = fs_p e /\ fs_v (error_unpack x) = fs_v e /\ fs_theta (error_unpack x) = fs_theta e /\
  fs_ba (error_unpack x) = fs_ba e /\ fs_bg (error_unpack x) = fs_bg e.
Proof.
  intros junk [[] [] ? [] [] []]. repeat split.
Qed.
(** Every entry of the packed vector is written: nothing unspecified survives, and unpacking determines it. *)
Theorem error_state_covers : forall junk junk' (x : mat T) i, mr x = 15 -> mc x = 1 -> i < 15 ->
  me (error_pack junk (error_unpack x)) i 0 = me x i 0 /\
  forall e : full_state T, me (error_pack junk e) i 0 = me (error_pack junk' e) i 0.
Proof.
  intros junk junk' x i Hr Hc Hi.
  do 15 (destruct i as [|i]; [split; [reflexivity|intros [[] [] ? [] [] []]; reflexivity]|]). lia.
Qed.

End Facts.
