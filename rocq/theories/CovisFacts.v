(** Proofs for C101: features linked in two frames. *)
From Coq Require Import ZArith List Bool Lia.
From stdpp Require Import gmap list.
From Verif Require Import Fp Scalar Base LinAlg Msg FeatureManager FrameManager Window WindowSpec FrameFacts FeatureFacts WindowFacts.
Import ListNotations.
Local Open Scope Z_scope.

Section CovisFacts.
Context {T : Type} {S : SOps T}.

Lemma covisible_in : forall ord (a b : frame T) p, valid_order ord -> In p (covisible ord a b) <-> exists id, fr_feats a !! id = Some p /\ is_Some (fr_feats b !! id).
Proof.
  intros ord a b p Ho. unfold covisible. rewrite in_map_iff. split.
  - intros ((id & p') & <- & H). apply filter_In in H as (H & K). cbn [fst snd] in *. exists id. split.
    + apply elem_of_list_In in H. rewrite (Ho (fr_feats a)) in H. apply elem_of_map_to_list in H. exact H.
    + destruct (fr_feats b !! id); [eauto|discriminate].
  - intros (id & H & q & K). exists (id, p). split; [reflexivity|]. apply filter_In. cbn [fst]. rewrite K. split; [|reflexivity].
    apply elem_of_list_In. rewrite (Ho (fr_feats a)). apply elem_of_map_to_list. exact H.
Qed.
Lemma nodup_snd : forall (l : list (Z * nat)), List.NoDup (map fst l) -> (forall i j p, In (i, p) l -> In (j, p) l -> i = j) -> List.NoDup (map snd l).
Proof.
  induction l as [|[i p] l IH]; intros N H; cbn [map fst snd] in *; [constructor|]. inversion N as [|? ? N1 N2]; subst. constructor.
  - intros X. apply in_map_iff in X as ((j & p') & E & X). cbn in E. subst p'. assert (i = j) by (eapply H; [left; reflexivity|right; exact X]). subst j.
    apply N1. apply in_map_iff. exists (i, p). split; [reflexivity|exact X].
  - apply IH; [exact N2|]. intros a b q A B. eapply H; right; eassumption.
Qed.
Lemma nodup_filter_fst : forall g (l : list (Z * nat)), List.NoDup (map fst l) -> List.NoDup (map fst (List.filter g l)).
Proof.
  intros g. induction l as [|x l IH]; intros N; cbn [map List.filter] in *; [exact N|]. inversion N as [|? ? N1 N2]; subst. destruct (g x); [|auto].
  cbn [map]. constructor; [|auto]. intros X. apply N1. apply in_map_iff in X as (y & E & X). apply filter_In in X as [X _]. apply in_map_iff. eauto.
Qed.
Lemma covisible_nodup : forall ord (a b : frame T), valid_order ord -> (forall i j p, fr_feats a !! i = Some p -> fr_feats a !! j = Some p -> i = j) -> List.NoDup (covisible ord a b).
Proof.
  intros ord a b Ho Hi. unfold covisible. apply nodup_snd.
  - apply nodup_filter_fst. apply NoDup_ListNoDup. rewrite (Ho (fr_feats a)). apply NoDup_fst_map_to_list.
  - intros i j p X Y. apply filter_In in X as [X _], Y as [Y _]. apply elem_of_list_In in X, Y. rewrite (Ho (fr_feats a)) in X, Y.
    apply elem_of_map_to_list in X, Y. eapply Hi; eassumption.
Qed.

(** C101 *)
Theorem covisible_messages : forall ord ord' (ops : list (w_op T)), valid_order ord -> valid_order ord' -> good_history ops -> exists w, w_run ord window0 ops = Ok w /\
  forall i j fi fj mi mj, nth_error (wn_frames w) i = Some fi -> nth_error (wn_frames w) j = Some fj -> nth_error (a_run [] ops) i = Some mi -> nth_error (a_run [] ops) j = Some mj ->
    List.NoDup (covisible ord' fi fj) /\
    (forall p, In p (covisible ord' fi fj) <-> exists id f, wn_mgr w !! id = Some p /\ hp_cells (wn_heap w) !! p = Some f /\ ft_id f = id /\ reported mi id <> None /\ reported mj id <> None) /\
    covisible ord' fi fj ≡ₚ covisible ord' fj fi.
Proof.
  intros ord ord' ops Ho Ho' Hh. destruct (good_history_inv ord ops Ho Hh) as (w & b & E & I & Hb). exists w. split; [exact E|].
  assert (L : forall i fi mi, nth_error (wn_frames w) i = Some fi -> nth_error (a_run [] ops) i = Some mi -> forall id p, fr_feats fi !! id = Some p <-> wn_mgr w !! id = Some p /\ reported mi id <> None).
  { intros i fi mi Hi Mi id p. rewrite (wi_links _ _ _ I _ _ _ id Hi Mi). destruct (reported mi id); [|split; [discriminate|intros [_ X]; contradiction]].
    split; [intros X; split; [exact X|discriminate]|intros [X _]; exact X]. }
  assert (U : forall i fi mi, nth_error (wn_frames w) i = Some fi -> nth_error (a_run [] ops) i = Some mi -> forall a c p, fr_feats fi !! a = Some p -> fr_feats fi !! c = Some p -> a = c).
  { intros i fi mi Hi Mi a c p A C. apply (L _ _ _ Hi Mi) in A as [A _]. apply (L _ _ _ Hi Mi) in C as [C _].
    destruct (wi_filed _ _ _ I _ _ A) as (_ & f & Hf & Hid). destruct (wi_filed _ _ _ I _ _ C) as (_ & g & Hg & Hid'). rewrite Hf in Hg. injection Hg as <-. congruence. }
  assert (K : forall i j fi fj mi mj, nth_error (wn_frames w) i = Some fi -> nth_error (wn_frames w) j = Some fj -> nth_error (a_run [] ops) i = Some mi -> nth_error (a_run [] ops) j = Some mj ->
    forall p, In p (covisible ord' fi fj) <-> exists id f, wn_mgr w !! id = Some p /\ hp_cells (wn_heap w) !! p = Some f /\ ft_id f = id /\ reported mi id <> None /\ reported mj id <> None).
  { intros i j fi fj mi mj Hi Hj Mi Mj p. rewrite covisible_in by exact Ho'. split.
    - intros (id & A & q & B). apply (L _ _ _ Hi Mi) in A as [A1 A2]. apply (L _ _ _ Hj Mj) in B as [_ B2].
      destruct (wi_filed _ _ _ I _ _ A1) as (_ & f & Hf & Hid). exists id, f. auto.
    - intros (id & f & A & Hf & Hid & R1 & R2). exists id. split; [apply (L _ _ _ Hi Mi); auto|]. exists p. apply (L _ _ _ Hj Mj). auto. }
  intros i j fi fj mi mj Hi Hj Mi Mj. split; [apply covisible_nodup; [exact Ho'|exact (U _ _ _ Hi Mi)]|]. split; [exact (K _ _ _ _ _ _ Hi Hj Mi Mj)|].
  apply NoDup_Permutation; try (apply NoDup_ListNoDup, covisible_nodup; [exact Ho'|]; [exact (U _ _ _ Hi Mi)||exact (U _ _ _ Hj Mj)]).
  intros p. rewrite !elem_of_list_In, (K _ _ _ _ _ _ Hi Hj Mi Mj), (K _ _ _ _ _ _ Hj Hi Mj Mi). clear. split; intros (id & f & A & B & C & D & F); exists id, f; auto.
Qed.
(** With any links: the features of one frame whose id is linked in the other, the other's own links do not matter. *)
Theorem covisible_links : forall ord (a b : frame T) p, valid_order ord -> In p (covisible ord a b) <-> exists id, fr_feats a !! id = Some p /\ is_Some (fr_feats b !! id).
Proof. exact covisible_in. Qed.
End CovisFacts.
