(** Proofs about the state correction (C71). *)
From Coq Require Import ZArith Lia List Bool.
From stdpp Require Import gmap.
From Verif Require Import Fp Scalar Base LinAlg Msg MathLib FeatureManager FrameManager Window Propagator VisionUpdate UpdSpec InjectSpec
  FrameFacts WindowFacts BackLenFacts.
Import ListNotations.
Local Open Scope nat_scope.

Section InjectFacts.
Context {T : Type} {SO : SOps T}.

Lemma turned_correct : forall (q : quat T) th, q_correct q th = turned q th.
Proof. reflexivity. Qed.
Lemma seg3c_three : forall (dx : mat T) i v, seg3c dx i = Ok v -> v = three dx i.
Proof. intros dx i v H. unfold seg3c in H. destruct (Nat.leb _ _); [injection H as <-; reflexivity|discriminate]. Qed.

Lemma correct_ext_nth : forall dx (l l' : list (extrinsic T)) i, correct_ext dx i l = Ok l' ->
  forall c e, nth_error l c = Some e ->
  nth_error l' c = Some (Extrinsic (turned (ex_q e) (three dx (15 + (i + c) * 6 + 3))) (v3add (ex_p e) (three dx (15 + (i + c) * 6)))).
Proof.
  intros dx. induction l as [|x r IH]; intros l' i H c e Hn; [destruct c; discriminate|]. cbn [correct_ext] in H.
  binv H. binv H. binv H. injection H as <-. apply seg3c_three in E, E0. subst. destruct c as [|c]; cbn [nth_error] in *.
  - injection Hn as ->. rewrite Nat.add_0_r. reflexivity.
  - rewrite (IH _ _ E1 _ _ Hn). replace (Datatypes.S i + c) with (i + Datatypes.S c) by lia. reflexivity.
Qed.

Lemma correct_frames_nth : forall dx off nid (m : motion T) (l l' : list (frame T)) i, correct_frames dx off i nid m l = Ok l' ->
  (forall k f, nth_error l k = Some f -> fr_id f = nid -> k = length l - 1) ->
  (forall f, nth_error l (length l - 1) = Some f -> fr_id f = nid) ->
  forall k f, nth_error l k = Some f ->
  nth_error l' k = Some (if k =? length l - 1 then Frame (fr_feats f) (mo_q m) (mo_p m) (mo_v m) (fr_id f) (fr_ts f)
    else Frame (fr_feats f) (turned (fr_q f) (three dx (off + (i + k) * 6 + 3))) (v3add (fr_p f) (three dx (off + (i + k) * 6))) (fr_v f) (fr_id f) (fr_ts f)).
Proof.
  intros dx off nid m. induction l as [|x r IH]; intros l' i H H1 H2 k f Hn; [destruct k; discriminate|]. cbn [correct_frames] in H.
  destruct (Z.eqb_spec (fr_id x) nid) as [e|e].
  - injection H as <-. pose proof (H1 0 x eq_refl e) as L. cbn [length] in L. assert (r = []) by (destruct r; [reflexivity|cbn in L; lia]). subst r.
    destruct k as [|[|k]]; try discriminate. injection Hn as <-. reflexivity.
  - binv H. binv H. binv H. injection H as <-. apply seg3c_three in E, E0. subst.
    destruct r as [|y r]; [exfalso; apply e; apply H2; reflexivity|].
    destruct k as [|k]; cbn [nth_error] in Hn |- *.
    + injection Hn as ->. cbn [length Nat.sub Nat.eqb]. rewrite Nat.add_0_r. reflexivity.
    + erewrite (IH _ _ E1); [|..|exact Hn].
      * replace (Datatypes.S i + k) with (i + Datatypes.S k) by lia. cbn [length]. replace (Datatypes.S (Datatypes.S (length r)) - 1) with (Datatypes.S (length r)) by lia.
        replace (Datatypes.S (length r) - 1) with (length r) by lia. reflexivity.
      * intros k' f' Hk' Hi'. pose proof (H1 (Datatypes.S k') f' Hk' Hi') as L. cbn [length] in L |- *. lia.
      * intros f' Hf'. apply H2. cbn [length] in Hf' |- *. replace (Datatypes.S (Datatypes.S (length r)) - 1) with (Datatypes.S (length r)) by lia.
        replace (Datatypes.S (length r) - 1) with (length r) in Hf' by lia. exact Hf'.
Qed.

Lemma back_nth : forall {A} (l : list A) x, back l = Ok x -> nth_error l (length l - 1) = Some x.
Proof. intros A l x H. exact (proj1 (back_ok_nth l x H)). Qed.

Theorem apply_delta_corrected : forall dx (s s' : vstate T), apply_delta dx s = Ok s' -> newest_alone (wn_frames (vs_win s)) -> corrected dx s s'.
Proof.
  intros dx s s' H Hu. pose proof (apply_delta_len _ _ _ H) as [L1 L2]. unfold apply_delta in H.
  destruct (pq_items (vs_pq s)) as [|it r] eqn:Hi; [discriminate|]. cbn [front obind] in H.
  binv H. rename x into m. binv H. binv H. binv H. binv H. rename x2 into ex. binv H. rename x2 into fs'. injection H as <-.
  unfold with_head in E0. rewrite Hi in E0. injection E0 as <-. apply seg3c_three in E1, E2. subst.
  unfold correct_motion in E. binv E. binv E. binv E. injection E as <-. apply seg3c_three in E0, E1, E2. subst.
  exists it, r. split; [exact Hi|]. cbn [vs_pq vs_ext vs_win wn_heap wn_mgr wn_frames] in *.
  split; [reflexivity|]. split; [exact L2|]. split.
  { intros c e Hc. rewrite (correct_ext_nth _ _ _ _ E3 _ _ Hc). unfold col_ext.
    replace (15 + (0 + c) * 6 + 3) with (3 + 15 + 6 * c) by lia. replace (15 + (0 + c) * 6) with (3 + 15 + 6 * c - 3) by lia. reflexivity. }
  split; [reflexivity|]. split; [reflexivity|]. split; [exact L1|].
  intros k f Hk. assert (Eb : exists b, back (wn_frames (vs_win s)) = Ok b /\
     correct_frames dx (15 + length (vs_ext s) * 6) 0 (fr_id b)
       (Motion (v3add (mo_p (pi_mo it)) (three dx ix_p)) (v3add (mo_v (pi_mo it)) (three dx ix_v)) (q_correct (mo_q (pi_mo it)) (three dx ix_r)))
       (wn_frames (vs_win s)) = Ok fs').
  { destruct (wn_frames (vs_win s)); [destruct k; discriminate|]. binv E4. eauto. }
  destruct Eb as (b & Eb & Ec). apply back_nth in Eb.
  rewrite (fun H1 H2 => correct_frames_nth _ _ _ _ _ _ _ Ec H1 H2 k f Hk).
  - unfold col_att, col_pos. destruct (k =? length (wn_frames (vs_win s)) - 1); [reflexivity|].
    replace (15 + length (vs_ext s) * 6 + (0 + k) * 6 + 3) with (3 + 15 + 6 * length (vs_ext s) + 6 * k + 3 - 3) by lia.
    replace (15 + length (vs_ext s) * 6 + (0 + k) * 6) with (3 + 15 + 6 * length (vs_ext s) + 6 * k - 3) by lia. reflexivity.
  - intros k' f' Hk' Hi'. exact (Hu _ _ _ Hk' Eb Hi').
  - intros f' Hf'. rewrite Eb in Hf'. injection Hf' as <-. reflexivity.
Qed.

Lemma finish_head : forall (o : voracle T) c pol P s s', finish_update o c pol P s = Ok s' -> newest_is_head s -> newest_is_head s'.
Proof.
  intros o c pol P s s' H (it & r & f & Hi & Hn & Hq & Hp & Hv). unfold finish_update in H. binv H. binv H. binv H. injection H as <-.
  unfold update_cov in E1. destruct (Nat.ltb _ _); [discriminate|]. rewrite Hi in E1. cbn [front obind] in E1.
  binv E1. binv E1. binv E1. unfold with_head in E1. rewrite Hi in E1. cbn [obind] in E1. injection E1 as <-.
  unfold newest_is_head. cbn [vs_pq vs_win]. unfold pq_repropagate. cbn [with_ecc with_items pq_items].
  destruct (reprop_loop _ _ _ _ _ _ _ _) as [[r' F'] G']. cbn [pq_items]. do 3 eexists. split; [reflexivity|]. split; [exact Hn|]. cbn [pi_mo]. auto.
Qed.

Lemma corrected_head : forall dx (s s' : vstate T), corrected dx s s' -> newest_is_head s -> newest_is_head s'.
Proof.
  intros dx s s' (it & r & Hi & Hq & _ & _ & _ & _ & Hl & Hf) (it0 & r0 & f & Hi0 & Hn & _).
  specialize (Hf _ _ Hn). cbv zeta in Hf. rewrite Nat.eqb_refl in Hf.
  unfold newest_is_head. rewrite Hq, Hl. cbn [pq_items]. do 3 eexists. split; [reflexivity|]. split; [exact Hf|].
  cbn [fr_q fr_p fr_v pi_mo mo_q mo_p mo_v]. unfold col_att, col_pos. rewrite Nat.eqb_refl. auto.
Qed.

Theorem vision_update_head : forall (o : voracle T) c s ts thr s' pol, vision_update o c s ts thr = Ok (s', true, pol) ->
  newest_alone (wn_frames (vs_win s)) -> newest_is_head s'.
Proof.
  intros o c s ts thr s' pol H Hu. unfold vision_update in H. destruct (pq_reset_origin _ _ _) as [q found].
  destruct (negb found); [discriminate|].
  binv H. rename x into pol'. binv H. destruct x as [P|]; [|discriminate].
  binv H. destruct x as [fs|]; [|discriminate]. binv H. rename x into sel.
  unfold update_newest in E1. destruct (wn_frames (vs_win s)) as [|f0 r0] eqn:Ef; [discriminate|]. rewrite <- Ef in *.
  binv E1. rename x into b. destruct (pq_items q) as [|it r] eqn:Hi; [discriminate|]. cbn [front obind] in E1. injection E1 as <-.
  set (fs := set_last (wn_frames (vs_win s)) (frame_of_motion b (pi_mo it))) in *.
  assert (Ne : wn_frames (vs_win s) <> []) by (rewrite Ef; discriminate).
  destruct (exists_last Ne) as (l0 & y & El).
  assert (Ey : y = b) by (apply back_nth in E3; rewrite El, app_length, nth_error_app2 in E3 by (cbn; lia); cbn [length] in E3;
    replace (length l0 + 1 - 1 - length l0) with 0 in E3 by lia; injection E3; auto).
  subst y.
  assert (Efs : fs = l0 ++ [frame_of_motion b (pi_mo it)]).
  { unfold fs, set_last. rewrite El. rewrite removelast_last. reflexivity. }
  set (s1 := VState _ _ q) in *.
  assert (Hh : newest_is_head s1).
  { exists it, r, (frame_of_motion b (pi_mo it)). split; [exact Hi|]. split; [|auto].
    cbn [s1 vs_win wn_frames]. rewrite Efs, app_length, nth_error_app2 by (cbn; lia). cbn [length].
    replace (length l0 + 1 - 1 - length l0) with 0 by lia. reflexivity. }
  assert (Hu1 : newest_alone (wn_frames (vs_win s1))).
  { cbn [s1 vs_win wn_frames]. rewrite Efs. rewrite El in Hu. intros i f g. rewrite app_length. cbn [length]. intros Hf Hg Hid.
    specialize (Hu i). rewrite app_length in Hu. cbn [length] in Hu. destruct (Nat.eq_dec i (length l0 + 1 - 1)) as [e|n]; [exact e|].
    assert (i < length l0).
    { assert (i < length (l0 ++ [frame_of_motion b (pi_mo it)])) by (apply nth_error_Some; rewrite Hf; discriminate).
      rewrite app_length in H0. cbn in H0. lia. }
    rewrite nth_error_app1 in Hf by lia. rewrite nth_error_app2 in Hg by lia.
    replace (length l0 + 1 - 1 - length l0) with 0 in Hg by lia. injection Hg as <-. apply (Hu f b); [| |exact Hid].
    - rewrite nth_error_app1 by lia. exact Hf.
    - rewrite nth_error_app2 by lia. replace (length l0 + 1 - 1 - length l0) with 0 by lia. reflexivity. }
  destruct (snd sel) as [|p0 q0].
  - binv H. injection H as <- <-. eapply finish_head; eassumption.
  - binv H. destruct x as [Hr|]; [|discriminate]. binv H. binv H. injection H as <- <-.
    unfold update_state in E4. binv E4. destruct x1 as [[K dx] P']. binv E4. injection E4 as <-. cbn [fst snd] in E5.
    eapply finish_head; [exact E5|]. eapply corrected_head; [eapply apply_delta_corrected; [eassumption|exact Hu1]|exact Hh].
Qed.
End InjectFacts.
