(** Concrete histories and derived statements for the window properties (C13-C22, C67). *)
From Coq Require Import ZArith List Bool Lia.
From stdpp Require Import gmap list.
From Verif Require Import Fp Scalar Base LinAlg Msg FeatureManager FrameManager Window WindowSpec FrameFacts FeatureFacts WindowFacts.
Import ListNotations.
Local Open Scope Z_scope.

Lemma valid_map_to_list : valid_order map_to_list.
Proof. intros m. reflexivity. Qed.
Lemma sublist_full {B} (l1 l2 : list B) : l1 `sublist_of` l2 -> (length l2 <= length l1)%nat -> l1 = l2.
Proof.
  induction 1 as [|x l1 l2 H IH|x l1 l2 H IH]; intros Hl; [reflexivity| |].
  - simpl in Hl. f_equal. apply IH. lia.
  - simpl in Hl. apply sublist_length in H. lia.
Qed.

Section Witness.
Context {T : Type} {S : SOps T}.

Definition ob0 : observe T := {[0 := V2 s0 s0]}.
Definition ob1 : observe T := {[1 := V2 s0 s0]}.
Definition ob2 : observe T := <[0 := V2 s0 s0]> {[1 := V2 s0 s0]}.
Definition wmsg (ids : list Z) (ob : observe T) (n : Z) : feat_msg T := FeatMsg ids (map (fun _ => ob) ids) (map (fun _ => 0) ids) (f64_lit n 0).

(** Three messages; feature 1 is lost in the third, feature 3 appears in the second. *)
Definition demo_hist : list (w_op T) :=
  [WMsg (wmsg [1; 2] ob2 1); WMsg (wmsg [2; 1; 3] ob2 2); WMsg (wmsg [3; 2] ob0 3); WMarg MargSubnew; WMarg MargOldest].

Lemma good_wmsg ids ob n : List.NoDup ids -> osize ob <> 0 -> good_msg (wmsg ids ob n).
Proof.
  intros H Ho. split; [cbn [wmsg fm_ids fm_obs]; rewrite map_length; reflexivity|]. split; [exact H|].
  cbn [wmsg fm_obs]. apply Forall_forall. intros o Hi. apply elem_of_list_In, in_map_iff in Hi as (_ & <- & _). exact Ho.
Qed.
Lemma reported_wmsg ids ob n id : reported (wmsg ids ob n) id = if existsb (Z.eqb id) ids then Some ob else None.
Proof.
  unfold reported, wmsg. cbn [fm_ids fm_obs]. induction ids as [|i ids IH]; [reflexivity|]. cbn [map combine assoc existsb].
  rewrite (Z.eqb_sym i id). destruct (id =? i); [reflexivity|exact IH].
Qed.
Ltac nodup := repeat (constructor; [simpl; intuition discriminate|]); constructor.

Lemma demo_good : good_history demo_hist.
Proof.
  split; [|split; [|split]].
  - repeat constructor; try (simpl; intuition discriminate); try (vm_compute; discriminate).
  - intros id a b c Hs Ha Hc. apply sublist_full in Hs; [|simpl; lia]. cbn [demo_hist msgs] in Hs. injection Hs as -> -> ->.
    rewrite reported_wmsg in *. destruct (existsb _ [1; 2]) eqn:E1; [|congruence]. destruct (existsb _ [3; 2]) eqn:E2; [|congruence].
    cbn [existsb] in *. destruct (id =? 1) eqn:Ea, (id =? 2) eqn:Eb, (id =? 3) eqn:Ec; try discriminate;
    apply Z.eqb_eq in Ea, Ec; lia.
  - simpl. lia.
  - simpl. lia.
Qed.
(** What is left of it: the third message only, feature 3 seen in the remaining frame by camera 0 only. *)
Lemma demo_left : a_run [] demo_hist = [wmsg [3; 2] ob0 3].
Proof. reflexivity. Qed.

(** C20 without contiguous tracks: feature 1 is reported in the first and third message only. *)
Definition gap_hist : list (w_op T) := [WMsg (wmsg [1] ob0 1); WMsg (wmsg [] ob0 2); WMsg (wmsg [1] ob0 3)].

Definition lookup_tbl (r : out (window T)) (q : list (Z * Z * Z)) : list bool :=
  match r with
  | Ok w => map (fun x => match lookup_norm (wn_heap w) (wn_mgr w) (fst (fst x)) (snd (fst x)) (snd x) with Some _ => true | None => false end) q
  | Ub _ => []
  end.
Definition ids_tbl (r : out (window T)) : list Z := match r with Ok w => map fr_id (wn_frames w) | Ub _ => [] end.

Lemma lookup_from_tbl r w q k id fr cam b : r = Ok w -> nth_error q k = Some (id, fr, cam) -> nth_error (lookup_tbl r q) k = Some b ->
  (if b then lookup_norm (wn_heap w) (wn_mgr w) id fr cam <> None else lookup_norm (wn_heap w) (wn_mgr w) id fr cam = None).
Proof.
  intros -> Hq Ht. cbn [lookup_tbl] in Ht. rewrite nth_error_map, Hq in Ht. cbn [option_map fst snd] in Ht. injection Ht as <-.
  destruct (lookup_norm _ _ id fr cam); congruence.
Qed.
Lemma ids_from_tbl r w k id : r = Ok w -> nth_error (ids_tbl r) k = Some id -> exists fr, nth_error (wn_frames w) k = Some fr /\ fr_id fr = id.
Proof.
  intros -> H. cbn [ids_tbl] in H. rewrite nth_error_map in H. destruct (nth_error (wn_frames w) k) as [f|]; [|discriminate].
  injection H as <-. eauto.
Qed.

Lemma gap_refuted : exists (ops : list (w_op T)) w i fr m id cam,
  Forall good_msg (msgs ops) /\ margs_ok [] ops /\ w_run map_to_list window0 ops = Ok w /\
  nth_error (wn_frames w) i = Some fr /\ nth_error (a_run [] ops) i = Some m /\
  reported m id = None /\ lookup_norm (wn_heap w) (wn_mgr w) id (fr_id fr) cam <> None.
Proof.
  assert (lookup_tbl (w_run map_to_list window0 gap_hist) [(1, 2, 0)] = [true]) as Ht by (vm_compute; reflexivity).
  assert (ids_tbl (w_run map_to_list window0 gap_hist) = [1; 2; 3]) as Hi by (vm_compute; reflexivity).
  destruct (w_run map_to_list window0 gap_hist) as [w|] eqn:E; [|discriminate].
  destruct (ids_from_tbl _ w 1 2 eq_refl) as (fr & Hfr & Hid); [rewrite Hi; reflexivity|].
  exists gap_hist, w, 1%nat, fr, (wmsg [] ob0 2), 1, 0. split; [|split; [|split; [|split; [|split; [|split]]]]].
  - cbn [gap_hist msgs]. constructor; [|constructor; [|constructor; [|constructor]]]; apply good_wmsg; try nodup; vm_compute; discriminate.
  - simpl. tauto.
  - exact E.
  - exact Hfr.
  - reflexivity.
  - reflexivity.
  - rewrite Hid. exact (lookup_from_tbl (Ok w) w [(1, 2, 0)] 0 1 2 0 true eq_refl eq_refl (f_equal (fun l => nth_error l 0) Ht)).
Qed.

(** C67: MARG_SUBNEW on two frames. *)
Definition two_hist : list (w_op T) := [WMsg (wmsg [1] ob0 1); WMsg (wmsg [1] ob0 2); WMarg MargSubnew].

Lemma subnew_two_refuted : exists (ops : list (w_op T)) w i fr m id cam,
  Forall good_msg (msgs ops) /\ contiguous (msgs ops) /\ w_run map_to_list window0 (ops ++ [WMarg MargSubnew]) = Ok w /\
  length (a_run [] ops) = 2%nat /\
  nth_error (wn_frames w) i = Some fr /\ nth_error (a_run [] (ops ++ [WMarg MargSubnew])) i = Some m /\
  match reported m id with Some o => o !! cam <> None | None => False end /\
  lookup_norm (wn_heap w) (wn_mgr w) id (fr_id fr) cam = None.
Proof.
  assert (lookup_tbl (w_run map_to_list window0 two_hist) [(1, 2, 0)] = [false]) as Ht by (vm_compute; reflexivity).
  assert (ids_tbl (w_run map_to_list window0 two_hist) = [2]) as Hi by (vm_compute; reflexivity).
  destruct (w_run map_to_list window0 two_hist) as [w|] eqn:E; [|discriminate].
  destruct (ids_from_tbl _ w 0 2 eq_refl) as (fr & Hfr & Hid); [rewrite Hi; reflexivity|].
  exists [WMsg (wmsg [1] ob0 1); WMsg (wmsg [1] ob0 2)], w, 0%nat, fr, (wmsg [1] ob0 2), 1, 0.
  split; [|split; [|split; [|split; [|split; [|split; [|split]]]]]].
  - cbn [msgs]. constructor; [|constructor; [|constructor]]; apply good_wmsg; try nodup; vm_compute; discriminate.
  - intros id a b c Hs. apply sublist_length in Hs. simpl in Hs. lia.
  - exact E.
  - reflexivity.
  - exact Hfr.
  - reflexivity.
  - vm_compute. discriminate.
  - rewrite Hid. exact (lookup_from_tbl (Ok w) w [(1, 2, 0)] 0 1 2 0 false eq_refl eq_refl (f_equal (fun l => nth_error l 0) Ht)).
Qed.

(** Frame-manager demo. *)
Definition fr_demo : list (fr_op T) :=
  [FAdd (new_frame (f64_lit 1 0)); FAdd (new_frame (f64_lit 2 0)); FAdd (new_frame (f64_lit 3 0)); FAdd (new_frame (f64_lit 4 0)); FRemove 2; FRemove 0; FRemove 7].
Lemma fr_demo_ok : Forall fr_op_ok fr_demo /\ map fr_id (fst (fr_run [] fr_demo)) = [2; 3] /\
  snd (fr_run [] fr_demo) = [true; true; true; true; true; true; false].
Proof. split; [|split; reflexivity]. unfold fr_demo. repeat constructor; simpl; lia. Qed.

Definition fr_two : list (frame T) := [with_id (new_frame (f64_lit 1 0)) 5; with_id (new_frame (f64_lit 2 0)) 6].
Lemma fr_two_consecutive : consecutive 5 fr_two /\ get_frame fr_two 6 = Some 1%nat /\ get_frame fr_two 7 = None /\ max_frame_id fr_two = 6.
Proof. split; [|auto]. intros [|[|[|i]]] f H; simpl in H; try discriminate; injection H as <-; reflexivity. Qed.
Lemma remove_demo : map fr_id (fst (remove_frame (fst (fr_run [] (firstn 4 fr_demo))) 1)) = [1; 2; 3].
Proof. reflexivity. Qed.
Lemma add_demo : exists nf, fst (add_new_frame fr_two (new_frame (f64_lit 9 0))) = fr_two ++ [nf] /\ fr_id nf = 7.
Proof. eexists. split; reflexivity. Qed.

(** Feature-manager demo: a feature seen by two cameras in frame 5 and one camera in frame 6. *)
Definition ft_demo : list (ft_op T) :=
  [TAdd [7; 8] [ob2; ob0] 5; TAdd [7; 9] [ob1; ob2] 6; TAdd [7] [ob2] 7; TRemoveFrame 6 true; TRemoveId 8].
Definition num_tbl (r : out (heap T * gmap Z nat)) (ids : list Z) : list (option (Z * Z * nat)) :=
  match r with
  | Ok hm => map (fun id => match managed (fst hm) (snd hm) id with Some f => Some (ft_first f, ft_num f, length (ft_obs f)) | None => None end) ids
  | Ub _ => []
  end.
Lemma ft_demo_ok : Forall ft_op_ok ft_demo /\
  num_tbl (ft_run map_to_list (Heap 0 ∅, ∅) ft_demo) [7; 8; 9] = [Some (5, 4, 2%nat); None; None].
Proof. split; [|vm_compute; reflexivity]. unfold ft_demo. repeat constructor; simpl; lia. Qed.

(** A single feature with first frame 5 and two observations. *)
Definition ft_one : feature T := Feature 7 5 [ob2; ob0] 3 v3zero FUnsolved.
Definition h_one : heap T := Heap 1 {[0%nat := ft_one]}.
Definition m_one : gmap Z nat := {[7 := 0%nat]}.
Lemma ft_one_good : good_track ft_one.
Proof. split; [discriminate|]. simpl. lia. Qed.
Lemma one_managed id f : managed h_one m_one id = Some f -> f = ft_one.
Proof.
  unfold managed, m_one. destruct (decide (7 = id)) as [<-|Hne].
  - rewrite lookup_singleton. cbn [h_one hp_cells]. rewrite lookup_singleton. congruence.
  - rewrite lookup_singleton_ne by exact Hne. discriminate.
Qed.
Lemma one_ok : filed h_one m_one /\ (forall id f, managed h_one m_one id = Some f -> good_track f) /\
  (forall id f, managed h_one m_one id = Some f -> 5 <= ft_first f) /\ managed h_one m_one 7 = Some ft_one /\
  get_norm ft_one 6 0 <> None /\ get_norm ft_one 6 1 = None /\ get_norm ft_one 4 0 = None.
Proof.
  split.
  { intros id p Hp. unfold m_one in Hp. apply lookup_singleton_Some in Hp as [<- <-]. split; [simpl; lia|]. exists ft_one.
    split; [apply lookup_singleton|reflexivity]. }
  split. { intros id f H. apply one_managed in H. subst f. apply ft_one_good. }
  split. { intros id f H. apply one_managed in H. subst f. simpl. lia. }
  split; [reflexivity|]. split; [vm_compute; discriminate|]. split; vm_compute; reflexivity.
Qed.

(** Keyframe demo: the window of the demo history before marginalization. *)
Definition key_win : out (window T) := w_run map_to_list window0 (firstn 3 demo_hist).

(** C22, all cases. *)
Lemma keyframe_cases ord h fs minTracked maxTrans : valid_order ord ->
  is_keyframe ord h fs minTracked maxTrans None = Ok false /\
  (forall f, nth_error fs 0 = Some f -> is_keyframe ord h fs minTracked maxTrans (Some 0%nat) = Ok true) /\
  (forall i, (length fs <= i)%nat -> is_keyframe ord h fs minTracked maxTrans (Some i) = Ub UbNull) /\
  (forall i fr pre, nth_error fs i = Some pre -> nth_error fs (Datatypes.S i) = Some fr ->
     live_links h fr -> live_links h pre -> Z.of_nat (size (fr_feats fr)) < 4294967296 ->
     is_keyframe ord h fs minTracked maxTrans (Some (Datatypes.S i)) =
     Ok ((Z.of_nat (length (List.filter (tracked_both h fr pre) (map_to_list (fr_feats fr)))) <? minTracked)
         || sltb maxTrans (v3norm (v3sub (fr_p fr) (fr_p pre))))).
Proof.
  intros Ho. split; [reflexivity|]. split; [|split].
  - intros f Hf. unfold is_keyframe. rewrite Hf. reflexivity.
  - intros i Hi. unfold is_keyframe. apply nth_error_None in Hi. rewrite Hi. reflexivity.
  - intros i fr pre H1 H2 H3 H4 H5. exact (is_keyframe_rule ord h fs minTracked maxTrans i fr pre Ho H1 H2 H3 H4 H5).
Qed.

End Witness.

(** Live links in every window of a good history. *)
Lemma history_live {T} {S : SOps T} ord (ops : list (w_op T)) w fr : valid_order ord -> good_history ops -> w_run ord window0 ops = Ok w ->
  In fr (wn_frames w) -> live_links (wn_heap w) fr.
Proof.
  intros Ho Hg E Hin id p Hp. destruct (links_agree ord ops Ho Hg) as (w' & E' & H). rewrite E in E'. injection E' as <-.
  apply In_nth_error in Hin as [i Hi]. apply (H i fr id p Hi) in Hp as (_ & f & Hf & _). eauto.
Qed.
Lemma key_demo_good {T} {S : SOps T} : good_history (T := T) (firstn 3 demo_hist) /\
  match key_win (T := T) with
  | Ok w => match wn_frames w with
            | [f1; f2; f3] => length (List.filter (tracked_both (wn_heap w) f3 f2) (map_to_list (fr_feats f3))) = 2%nat
            | _ => False end
  | Ub _ => False end.
Proof.
  split; [|vm_compute; reflexivity]. destruct (demo_good (T := T)) as (H1 & H2 & _ & H4).
  split; [exact H1|]. split; [exact H2|]. split; [simpl; tauto|exact H4].
Qed.
(** The one-point scalars used by the concrete examples (the window does not depend on scalar values). *)
Definition ops_one : SOps unit := ops_unit true.
