(** Proofs about the whole window: the managers store exactly the messages in the window (C20, C21). *)
From Coq Require Import ZArith List Bool Lia.
From stdpp Require Import gmap list.
From Verif Require Import Fp Scalar Base LinAlg Msg FeatureManager FrameManager Window WindowSpec FrameFacts FeatureFacts.
Import ListNotations.
Local Open Scope Z_scope.

Section WindowFacts.
Context {T : Type} {S : SOps T}.
Implicit Types (w : window T) (A : list (feat_msg T)) (m : feat_msg T).

Definition win_managed w (id : Z) : option (feature T) := managed (wn_heap w) (wn_mgr w) id.

Record WInv (b : Z) A w : Prop := {
  wi_filed : filed (wn_heap w) (wn_mgr w);
  wi_b : 1 <= b;
  wi_len : length (wn_frames w) = length A;
  wi_ids : consecutive b (wn_frames w);
  wi_ts : forall i fr m, nth_error (wn_frames w) i = Some fr -> nth_error A i = Some m -> fr_ts fr = fm_ts m;
  wi_links : forall i fr m id, nth_error (wn_frames w) i = Some fr -> nth_error A i = Some m ->
     fr_feats fr !! id = match reported m id with Some _ => wn_mgr w !! id | None => None end;
  wi_range : forall id f, win_managed w id = Some f ->
     ft_obs f <> [] /\ b <= ft_first f /\ ft_first f + Z.of_nat (length (ft_obs f)) <= b + Z.of_nat (length A);
  wi_obs : forall id i m, nth_error A i = Some m ->
     reported m id = match win_managed w id with Some f => obs_at f (b + Z.of_nat i) | None => None end }.

Lemma obs_at_none f fr : fr < ft_first f \/ ft_first f + Z.of_nat (length (ft_obs f)) <= fr -> obs_at f fr = None (A := observe T).
Proof.
  intros H. unfold obs_at. destruct (Z.leb_spec (ft_first f) fr); [|reflexivity]. apply nth_error_None. lia.
Qed.
Lemma obs_at_some f fr : ft_first f <= fr < ft_first f + Z.of_nat (length (ft_obs f)) -> exists o : observe T, obs_at f fr = Some o.
Proof.
  intros H. unfold obs_at. rewrite (proj2 (Z.leb_le _ _)) by lia.
  destruct (nth_error _ _) as [o|] eqn:E; [eauto|]. apply nth_error_None in E. lia.
Qed.
Lemma obs_at_in (f : feature T) fr o : obs_at f fr = Some o -> ft_first f <= fr < ft_first f + Z.of_nat (length (ft_obs f)).
Proof.
  unfold obs_at. destruct (Z.leb_spec (ft_first f) fr); [|discriminate]. intros E. apply nth_some_lt in E. lia.
Qed.

Lemma winv_good b A w : b + Z.of_nat (length A) < 4294967296 -> WInv b A w ->
  forall id f, win_managed w id = Some f -> good_track f.
Proof. intros Hl I id f Hf. pose proof (wi_b _ _ _ I). destruct (wi_range _ _ _ I _ _ Hf) as (H1 & H2 & H3). split; [exact H1|lia]. Qed.

Lemma winv_empty : WInv 1 [] window0.
Proof.
  constructor; simpl; try lia.
  - intros id p H. rewrite lookup_empty in H. discriminate.
  - intros [|i] f H; discriminate.
  - intros [|i] fr m H; discriminate.
  - intros [|i] fr m id H; discriminate.
  - intros id f H. unfold win_managed, managed in H. cbn [wn_mgr window0] in H. rewrite lookup_empty in H. discriminate.
  - intros id [|i] m H; discriminate.
Qed.

(** ** A new message *)
Lemma sublist_one {B} (l : list B) x : In x l -> [x] `sublist_of` l.
Proof.
  induction l as [|a l IH]; [intros []|]. intros [->|H].
  - apply sublist_skip. apply sublist_nil_l.
  - apply sublist_cons. auto.
Qed.
Lemma sublist_two {B} (l : list B) i j x y : (i < j)%nat -> nth_error l i = Some x -> nth_error l j = Some y -> [x; y] `sublist_of` l.
Proof.
  revert i j. induction l as [|a l IH]; intros i j Hij Hi Hj; [destruct i; discriminate|].
  destruct j as [|j]; [lia|]. destruct i as [|i].
  - injection Hi as <-. apply sublist_skip. apply sublist_one. simpl in Hj. apply nth_error_In in Hj. exact Hj.
  - apply sublist_cons. apply (IH i j); [lia|exact Hi|exact Hj].
Qed.

Lemma add_links_spec (h : heap T) : forall (l : list (Z * observe T)) ps (mg : gmap Z nat) (links : gmap Z nat), filed h mg ->
  Forall2 (fun io p => mg !! fst io = Some p) l ps ->
  (forall id p, links !! id = Some p -> mg !! id = Some p) ->
  exists links', add_links h ps links = Ok links' /\
    forall id, links' !! id = match links !! id with Some p => Some p | None => if decide (id ∈ map fst l) then mg !! id else None end.
Proof.
  induction l as [|[id o] l IH]; intros ps mg links F H2 Hl; inversion H2 as [|? p ? ps' Hp H2']; subst; cbn [add_links].
  - exists links. split; [reflexivity|]. intros id. destruct (links !! id); [reflexivity|].
    destruct (decide _) as [H|]; [apply elem_of_nil in H; destruct H|reflexivity].
  - cbn [fst] in Hp. destruct (F _ _ Hp) as (_ & f & Hf & Hid). rewrite (hget_ok _ _ _ Hf). cbn [obind]. rewrite Hid.
    set (links1 := match links !! id with Some _ => links | None => <[id:=p]> links end).
    assert (forall i q, links1 !! i = Some q -> mg !! i = Some q) as Hl1.
    { intros i q. unfold links1. destruct (links !! id) eqn:E; [apply Hl|]. destruct (decide (id = i)) as [->|Hne].
      - rewrite lookup_insert. congruence.
      - rewrite lookup_insert_ne by exact Hne. apply Hl. }
    destruct (IH ps' mg links1 F H2' Hl1) as (links' & -> & Hs). exists links'. split; [reflexivity|].
    intros i. rewrite Hs. unfold links1. cbn [map fst]. destruct (decide (i = id)) as [->|Hne].
    + destruct (links !! id) as [q|] eqn:E; [rewrite E; reflexivity|]. rewrite lookup_insert.
      destruct (decide _) as [|Hx]; [congruence|]. exfalso. apply Hx. left.
    + assert ((match links !! id with Some _ => links | None => <[id:=p]> links end) !! i = links !! i) as ->.
      { destruct (links !! id); [reflexivity|]. apply lookup_insert_ne. congruence. }
      destruct (links !! i); [reflexivity|].
      destruct (decide (i ∈ map fst l)) as [H|H]; destruct (decide (i ∈ id :: map fst l)) as [H'|H']; try reflexivity;
        rewrite elem_of_cons in H'; tauto.
Qed.

Lemma combine_fst {X Y} (a : list X) (b : list Y) : length a = length b -> map fst (combine a b) = a.
Proof.
  revert b. induction a as [|x a IH]; intros [|y b] H; try discriminate; [reflexivity|]. simpl. f_equal. apply IH. simpl in H. lia.
Qed.

Lemma reported_pos m id o : good_msg m -> reported m id = Some o -> osize o <> 0 /\ id ∈ map fst (combine (fm_ids m) (fm_obs m)).
Proof.
  intros (_ & _ & Hs) H. apply assoc_some_in in H. split.
  - apply in_combine_r in H. rewrite Forall_forall in Hs. apply Hs. apply elem_of_list_In. exact H.
  - apply elem_of_list_In. apply (in_map fst) in H. exact H.
Qed.
Lemma reported_none m id : List.NoDup (fm_ids m) -> length (fm_ids m) = length (fm_obs m) -> reported m id = None <-> id ∉ map fst (combine (fm_ids m) (fm_obs m)).
Proof.
  intros Hnd Hl. unfold reported. split.
  - intros H Hin. apply elem_of_list_In in Hin. apply in_map_iff in Hin as ([i o] & E & Hin). cbn [fst] in E. subst i.
    rewrite (assoc_in id _ o) in H; [discriminate| |exact Hin]. rewrite combine_fst; assumption.
  - intros H. apply assoc_none. intros Hin. apply H. apply elem_of_list_In. exact Hin.
Qed.

Lemma set_last_app {B} (l : list B) x y : set_last (l ++ [x]) y = l ++ [y].
Proof. unfold set_last. rewrite removelast_last. reflexivity. Qed.

Lemma obs_at_app (f : feature T) o num fr :
  obs_at (Feature (ft_id f) (ft_first f) (ft_obs f ++ [o]) num (ft_pw f) (ft_status f)) fr =
  if fr =? ft_first f + Z.of_nat (length (ft_obs f)) then Some o else obs_at f fr.
Proof.
  unfold obs_at. cbn [ft_first ft_obs]. destruct (Z.eqb_spec fr (ft_first f + Z.of_nat (length (ft_obs f)))) as [->|Hne].
  - rewrite (proj2 (Z.leb_le _ _)) by lia. rewrite nth_error_app2 by lia.
    replace (Z.to_nat _ - length (ft_obs f))%nat with O by lia. reflexivity.
  - destruct (Z.leb_spec (ft_first f) fr); [|reflexivity].
    destruct (Nat.lt_ge_cases (Z.to_nat (fr - ft_first f)) (length (ft_obs f))).
    + apply nth_error_app1. assumption.
    + rewrite nth_error_app2 by assumption. destruct (Z.to_nat (fr - ft_first f) - length (ft_obs f))%nat as [|k] eqn:E; [lia|].
      rewrite (proj2 (nth_error_None (ft_obs f) _)) by assumption. destruct k; reflexivity.
Qed.

(** UpdateFeatureFrameManager: the message becomes the newest element of the window. *)
Lemma update_window_inv b A w m : WInv b A w -> good_msg m -> contiguous (A ++ [m]) ->
  b + Z.of_nat (length A) < 4294967295 ->
  exists w' b', update_window w m = Ok w' /\ WInv b' (A ++ [m]) w' /\
    b' + Z.of_nat (length (A ++ [m])) <= b + Z.of_nat (length A) + 1 /\
    (forall i fr, nth_error (wn_frames w) i = Some fr -> nth_error (wn_frames w') i = Some fr) /\
    (exists nf, nth_error (wn_frames w') (length A) = Some nf /\
       (forall bk, back (wn_frames w) = Ok bk -> fr_q nf = fr_q bk /\ fr_p nf = fr_p bk /\ fr_v nf = fr_v bk)) /\
    (forall id f, win_managed w id = Some f -> exists f', win_managed w' id = Some f' /\ ft_pw f' = ft_pw f /\ ft_status f' = ft_status f) /\
    (forall id p, wn_mgr w !! id = Some p -> wn_mgr w' !! id = Some p).
Proof.
  intros I Hm Hcont Hlen. pose proof (wi_b _ _ _ I) as Hb. pose proof Hm as Hgm. destruct Hm as (Hlm & Hnd & Hsz).
  (* the number of the new frame *)
  assert (exists b0, 1 <= b0 /\ WInv b0 A w /\ b0 + Z.of_nat (length A) <= b + Z.of_nat (length A) /\
    exists nf, fst (add_new_frame (wn_frames w) (new_frame (fm_ts m))) = wn_frames w ++ [nf] /\ fr_id nf = b0 + Z.of_nat (length A) /\
      fr_ts nf = fm_ts m /\ fr_feats nf = ∅ /\
      (forall bk, back (wn_frames w) = Ok bk -> fr_q nf = fr_q bk /\ fr_p nf = fr_p bk /\ fr_v nf = fr_v bk)) as (b0 & Hb0 & I0 & Hle & nf & Efs & Hid & Hts & Hfe & Hpose).
  { destruct (add_new_frame_spec (wn_frames w) (new_frame (fm_ts m))) as (nf & E & Hts & He & Hbk).
    destruct (back (wn_frames w)) as [bk|] eqn:Eb.
    - exists b. split; [exact Hb|]. split; [exact I|]. split; [lia|]. exists nf. split; [exact E|].
      destruct (Hbk _ eq_refl) as (Hi & Hf & Hq & Hp & Hv). apply back_ok_nth in Eb as [Eb Hne].
      pose proof (wi_len _ _ _ I) as HL. assert (length (wn_frames w) <> O) by (destruct (wn_frames w); simpl; congruence).
      split. { rewrite Hi, (wi_ids _ _ _ I _ _ Eb). rewrite u32_small by lia. lia. }
      split; [exact Hts|]. split; [exact Hf|]. intros bk' Hx. injection Hx as <-. auto.
    - apply back_nil_inv in Eb. pose proof (wi_len _ _ _ I) as HL. rewrite Eb in HL. simpl in HL.
      assert (A = []) as -> by (destruct A; simpl in *; congruence).
      exists 1. split; [lia|]. destruct (He Eb) as (Hi & Hf & _).
      assert (forall id, win_managed w id = None) as Hnone.
      { intros id. destruct (win_managed w id) as [f|] eqn:Ef; [|reflexivity]. destruct (wi_range _ _ _ I _ _ Ef) as (Hne & H1 & H2).
        simpl in H2. destruct (ft_obs f); simpl in *; [congruence|lia]. }
      split.
      { constructor.
        - exact (wi_filed _ _ _ I).
        - lia.
        - rewrite Eb. reflexivity.
        - rewrite Eb. intros [|i] x Hx; discriminate.
        - intros i fr mm Hfr Hmm. destruct i; discriminate.
        - intros i fr mm id Hfr Hmm. destruct i; discriminate.
        - intros id f Hf'. rewrite Hnone in Hf'. discriminate.
        - intros id i mm Hmm. destruct i; discriminate. }
      split; [simpl; lia|]. exists nf. split; [exact E|]. split; [rewrite Hi; simpl; lia|]. split; [exact Hts|]. split; [exact Hf|].
      intros bk Hx. discriminate. }
  clear I Hb. rename I0 into I.
  unfold update_window. destruct (add_new_frame _ _) as [fs rb] eqn:Eadd. cbn [fst] in Efs. subst fs.
  rewrite back_app. cbn [obind]. unfold add_new_features. rewrite Hlm, Nat.eqb_refl. cbn [negb].
  destruct (add_loop_exact (fr_id nf) (combine (fm_ids m) (fm_obs m)) (wn_heap w) (wn_mgr w) [] (wi_filed _ _ _ I))
    as (h' & mg' & ps & -> & F' & _ & Hk & Hoth & H2 & Hmg).
  { rewrite combine_fst by exact Hlm. exact Hnd. }
  cbn [obind app]. rewrite Hfe.
  destruct (add_links_spec h' _ ps mg' ∅ F' H2) as (links & -> & Hlinks).
  { intros id p Hp. rewrite lookup_empty in Hp. discriminate. }
  cbn [obind]. rewrite set_last_app.
  set (w' := Window h' mg' (wn_frames w ++ [with_feats nf links])). exists w', b0. split; [reflexivity|].
  (* features already tracked end at the previous frame *)
  assert (forall id f o, win_managed w id = Some f -> reported m id = Some o ->
    ft_first f + Z.of_nat (length (ft_obs f)) = b0 + Z.of_nat (length A)) as Hend.
  { intros id f o Hf Ho. destruct (wi_range _ _ _ I _ _ Hf) as (Hne & H1 & H3).
    destruct (Z.eq_dec (ft_first f + Z.of_nat (length (ft_obs f))) (b0 + Z.of_nat (length A))) as [|Hx]; [assumption|exfalso].
    assert (length (ft_obs f) <> O) by (destruct (ft_obs f); simpl; congruence).
    set (i := Z.to_nat (ft_first f - b0)). set (j := (length A - 1)%nat).
    destruct (nth_error A i) as [mi|] eqn:Ei; [|apply nth_error_None in Ei; lia].
    destruct (nth_error A j) as [mj|] eqn:Ej; [|apply nth_error_None in Ej; lia].
    assert (reported mi id <> None) as Hri.
    { rewrite (wi_obs _ _ _ I id _ _ Ei), Hf. destruct (obs_at_some f (b0 + Z.of_nat i)) as [x ->]; [lia|discriminate]. }
    assert (reported mj id = None) as Hrj.
    { rewrite (wi_obs _ _ _ I id _ _ Ej), Hf. apply obs_at_none. lia. }
    apply (Hcont id mi mj m); [|exact Hri|rewrite Ho; discriminate|exact Hrj].
    change [mi; mj; m] with ([mi; mj] ++ [m]). apply sublist_app; [|reflexivity]. apply (sublist_two A i j); [lia|exact Ei|exact Ej]. }
  assert (forall id, win_managed w' id = match reported m id with
    | None => win_managed w id
    | Some o => match win_managed w id with Some f => Some (add_observe f o) | None => Some (new_feature id (fr_id nf) o) end end) as Hmg' by exact Hmg.
  assert (forall (f : feature T) (o : observe T), osize o <> 0 -> add_observe f o = Feature (ft_id f) (ft_first f) (ft_obs f ++ [o]) (u32 (ft_num f + osize o)) (ft_pw f) (ft_status f)) as Hadd.
  { intros f o Hx. unfold add_observe. rewrite (proj2 (Z.eqb_neq _ _) Hx). reflexivity. }
  split.
  { constructor.
    - exact F'.
    - exact Hb0.
    - cbn [w' wn_frames]. rewrite !app_length. simpl. rewrite (wi_len _ _ _ I). reflexivity.
    - cbn [w' wn_frames]. apply consecutive_app; [exact (wi_ids _ _ _ I)|]. cbn [with_feats fr_id]. rewrite Hid, (wi_len _ _ _ I). reflexivity.
    - cbn [w' wn_frames]. intros i fr mm Hfr Hmm. pose proof (wi_len _ _ _ I) as HL. destruct (Nat.lt_ge_cases i (length A)).
      + rewrite nth_error_app1 in Hfr by lia. rewrite nth_error_app1 in Hmm by lia. exact (wi_ts _ _ _ I _ _ _ Hfr Hmm).
      + rewrite nth_error_app2 in Hfr by lia. rewrite nth_error_app2 in Hmm by lia. rewrite HL in Hfr.
        destruct (i - length A)%nat as [|[|k]]; try discriminate. injection Hfr as <-. injection Hmm as <-. exact Hts.
    - cbn [w' wn_frames wn_mgr]. intros i fr mm id Hfr Hmm. pose proof (wi_len _ _ _ I) as HL. destruct (Nat.lt_ge_cases i (length A)).
      + rewrite nth_error_app1 in Hfr by lia. rewrite nth_error_app1 in Hmm by lia. rewrite (wi_links _ _ _ I _ _ _ id Hfr Hmm).
        pose proof (wi_obs _ _ _ I id _ _ Hmm) as Ho. destruct (reported mm id) as [o|]; [|reflexivity].
        destruct (win_managed w id) as [f|] eqn:Ef; [|discriminate]. apply managed_inv in Ef as (p & Hp & _). rewrite Hp. symmetry. auto.
      + rewrite nth_error_app2 in Hfr by lia. rewrite nth_error_app2 in Hmm by lia. rewrite HL in Hfr.
        destruct (i - length A)%nat as [|[|k]]; try discriminate. injection Hfr as <-. injection Hmm as <-.
        cbn [with_feats fr_feats]. rewrite Hlinks, lookup_empty. destruct (decide _) as [Hin|Hin].
        * destruct (reported m id) eqn:Er; [reflexivity|]. apply reported_none in Er; [tauto|assumption|assumption].
        * apply reported_none in Hin; [|assumption|assumption]. rewrite Hin. reflexivity.
    - intros id f' Hf'. rewrite Hmg' in Hf'. rewrite app_length. simpl length. destruct (reported m id) as [o|] eqn:Er.
      + destruct (reported_pos _ _ _ Hgm Er) as [Hpos _]. destruct (win_managed w id) as [f|] eqn:Ef; injection Hf' as <-.
        * rewrite (Hadd _ _ Hpos). cbn [ft_obs ft_first]. destruct (wi_range _ _ _ I _ _ Ef) as (_ & H1 & _). pose proof (Hend _ _ _ Ef Er).
          rewrite app_length. simpl length. split; [destruct (ft_obs f); discriminate|]. split; lia.
        * cbn [new_feature ft_obs ft_first length]. split; [discriminate|]. lia.
      + destruct (wi_range _ _ _ I _ _ Hf') as (H1 & H3 & H4). split; [exact H1|]. split; lia.
    - intros id i mm Hmm. rewrite Hmg'. destruct (Nat.lt_ge_cases i (length A)).
      + rewrite nth_error_app1 in Hmm by lia. rewrite (wi_obs _ _ _ I id _ _ Hmm). destruct (reported m id) as [o|] eqn:Er; [|reflexivity].
        destruct (reported_pos _ _ _ Hgm Er) as [Hpos _]. destruct (win_managed w id) as [f|] eqn:Ef.
        * rewrite (Hadd _ _ Hpos), obs_at_app. pose proof (Hend _ _ _ Ef Er). destruct (Z.eqb_spec (b0 + Z.of_nat i) (ft_first f + Z.of_nat (length (ft_obs f)))); [lia|reflexivity].
        * symmetry. apply obs_at_none. cbn [new_feature ft_first]. lia.
      + rewrite nth_error_app2 in Hmm by lia. destruct (i - length A)%nat as [|[|k]] eqn:Ei; try discriminate. injection Hmm as <-.
        assert (i = length A) as -> by lia.
        destruct (reported m id) as [o|] eqn:Er.
        * destruct (reported_pos _ _ _ Hgm Er) as [Hpos _]. destruct (win_managed w id) as [f|] eqn:Ef.
          -- rewrite (Hadd _ _ Hpos), obs_at_app. rewrite (Hend _ _ _ Ef Er), Z.eqb_refl. reflexivity.
          -- unfold obs_at. cbn [new_feature ft_first ft_obs]. rewrite Hid, Z.leb_refl, Z.sub_diag. reflexivity.
        * destruct (win_managed w id) as [f|] eqn:Ef; [|reflexivity]. symmetry. apply obs_at_none.
          destruct (wi_range _ _ _ I _ _ Ef) as (_ & _ & H4). lia. }
  split. { rewrite app_length. simpl length. lia. }
  split. { intros i fr Hfr. cbn [w' wn_frames]. rewrite nth_error_app1; [exact Hfr|]. eapply nth_some_lt; eauto. }
  split. { exists (with_feats nf links). split.
    - cbn [w' wn_frames]. rewrite <- (wi_len _ _ _ I). rewrite nth_error_app2 by lia. rewrite Nat.sub_diag. reflexivity.
    - exact Hpose. }
  split.
  { intros id f Hf. rewrite Hmg', Hf. destruct (reported m id) as [o|] eqn:Er; [|eauto].
    eexists; split; [reflexivity|]. unfold add_observe. destruct (_ =? _); auto. }
  exact Hk.
Qed.

(** ** Dropping a frame *)
Lemma shift_bounds frame (f : feature T) fd lo hi : 0 <= frame < 4294967296 -> good_track f -> remove_frame_shift frame f = Ok fd -> snd fd = false ->
  1 <= lo -> lo <= frame < hi -> lo <= ft_first f -> ft_first f + Z.of_nat (length (ft_obs f)) <= hi ->
  lo <= ft_first (fst fd) /\ ft_first (fst fd) + Z.of_nat (length (ft_obs (fst fd))) <= hi - 1.
Proof.
  intros Hfr Hg E Hs Hlo Hfl H1 H2. pose proof (final_exact f Hg) as Hfin. destruct Hg as (Hne & H0 & Hl).
  unfold remove_frame_shift in E. rewrite Hfin in E. destruct (_ && _) eqn:Ec.
  - apply andb_true_iff in Ec as [Ea Eb]. apply Z.leb_le in Ea, Eb. destruct (Nat.eqb _ _); [injection E as <-; discriminate|].
    unfold at_ in E. destruct (nth_error _ _) as [o|] eqn:En; [|discriminate]. cbn [obind] in E. injection E as <-.
    cbn [fst ft_first ft_obs]. pose proof (nth_some_lt _ _ _ En) as Hx. rewrite erase_length by exact Hx. lia.
  - destruct (Z.ltb_spec frame (ft_first f)); injection E as <-; cbn [fst ft_first ft_obs].
    + rewrite u32_small by lia. lia.
    + apply andb_false_iff in Ec as [Ec|Ec]; apply Z.leb_gt in Ec; lia.
Qed.

(** Common part of all marginalizations: frame [j] goes away and the features are renumbered accordingly. *)
Lemma drop_frame_inv b A w b' j (w' : window T) (tb : feature T -> feature T * bool) : WInv b A w -> (j < length A)%nat -> 1 <= b' ->
  filed (wn_heap w') (wn_mgr w') ->
  (forall id p, wn_mgr w' !! id = Some p -> wn_mgr w !! id = Some p) ->
  (forall id, win_managed w' id = match win_managed w id with Some f => if snd (tb f) : bool then None else Some (fst (tb f)) | None => None end) ->
  (forall id f, win_managed w id = Some f -> snd (tb f) = true <-> ft_first f = b + Z.of_nat j /\ length (ft_obs f) = 1%nat) ->
  (forall id f, win_managed w id = Some f -> snd (tb f) = false -> ft_obs (fst (tb f)) <> [] /\ b' <= ft_first (fst (tb f)) /\
     ft_first (fst (tb f)) + Z.of_nat (length (ft_obs (fst (tb f)))) <= b' + Z.of_nat (length A) - 1) ->
  (forall id f i, win_managed w id = Some f -> snd (tb f) = false ->
     obs_at (fst (tb f)) (b' + Z.of_nat i) = obs_at f (b + Z.of_nat (if Nat.ltb i j then i else Datatypes.S i))) ->
  length (wn_frames w') = (length A - 1)%nat ->
  (forall i fr', nth_error (wn_frames w') i = Some fr' ->
     exists fr, nth_error (wn_frames w) (if Nat.ltb i j then i else Datatypes.S i) = Some fr /\
       fr_ts fr' = fr_ts fr /\ fr_feats fr' = fr_feats fr) ->
  consecutive b' (wn_frames w') ->
  WInv b' (erase_at A j) w'.
Proof.
  intros I Hj Hb' F' Hsub Hmg Hdel Hrange Hobs Hlen Hfr Hcons.
  assert (forall id i m, nth_error (erase_at A j) i = Some m ->
     reported m id = match win_managed w' id with Some f => obs_at f (b' + Z.of_nat i) | None => None end) as Hobs'.
  { intros id i m Hm. rewrite nth_erase in Hm by exact Hj. rewrite (wi_obs _ _ _ I id _ _ Hm), Hmg.
    destruct (win_managed w id) as [f|] eqn:Ef; [|reflexivity]. destruct (snd (tb f)) eqn:Es.
    - apply (Hdel _ _ Ef) in Es as [E1 E2]. apply obs_at_none. destruct (Nat.ltb_spec i j); lia.
    - symmetry. eapply Hobs; eauto. }
  constructor; try assumption.
  - rewrite erase_length by exact Hj. exact Hlen.
  - intros i fr m Hf Hm. destruct (Hfr _ _ Hf) as (fr0 & H0 & -> & _). rewrite nth_erase in Hm by exact Hj. exact (wi_ts _ _ _ I _ _ _ H0 Hm).
  - intros i fr m id Hf Hm. pose proof (Hobs' id _ _ Hm) as Ho. destruct (Hfr _ _ Hf) as (fr0 & H0 & _ & ->).
    rewrite nth_erase in Hm by exact Hj. rewrite (wi_links _ _ _ I _ _ _ id H0 Hm). destruct (reported m id) as [o|]; [|reflexivity].
    destruct (win_managed w' id) as [f|] eqn:Ef; [|discriminate]. apply managed_inv in Ef as (p & Hp & _). rewrite Hp. apply Hsub. exact Hp.
  - intros id f Hf. rewrite Hmg in Hf. destruct (win_managed w id) as [g|] eqn:Eg; [|discriminate].
    destruct (snd (tb g)) eqn:Es; [discriminate|]. injection Hf as <-. rewrite erase_length by exact Hj.
    destruct (Hrange _ _ Eg Es) as (H1 & H2 & H3). split; [exact H1|]. split; [exact H2|]. lia.
Qed.

(** What marginalization preserves besides the contents. *)
Definition keeps w w' : Prop :=
  forall id g, win_managed w' id = Some g -> exists f, win_managed w id = Some f /\ ft_pw g = ft_pw f /\ ft_status g = ft_status f.

Lemma marg_shift_inv ord b A w j : valid_order ord -> WInv b A w -> b + Z.of_nat (length A) < 4294967296 ->
  (j < length A)%nat -> (j <> O \/ length A = 1%nat) ->
  exists r, remove_by_frame ord (b + Z.of_nat j) true (wn_heap w) (wn_mgr w) = Ok r /\
    let w' := Window (fst r) (snd r) (fst (remove_frame (wn_frames w) (Z.of_nat j))) in
    WInv b (erase_at A j) w' /\ keeps w w'.
Proof.
  intros Ho I Hl Hj Hj0. pose proof (wi_b _ _ _ I) as Hb. pose proof (winv_good _ _ _ Hl I) as HG. unfold win_managed in HG.
  assert (0 <= b + Z.of_nat j < 4294967296) as Hfr by lia.
  destruct (remove_by_frame_spec ord (b + Z.of_nat j) true _ _ Ho (wi_filed _ _ _ I)) as (h' & m' & E & F' & _ & Hsub & Hm).
  { intros id f Hf. destruct (shift_body _ f Hfr (HG _ _ Hf)) as (fd & Hfd & _). eauto. }
  exists (h', m'). split; [exact E|]. cbn [fst snd]. cbv zeta.
  pose proof (wi_len _ _ _ I) as HL.
  destruct (remove_frame_nth (wn_frames w) (Z.of_nat j)) as (_ & Hlen & Hn); [lia|]. rewrite Nat2Z.id in Hn.
  split.
  { apply (drop_frame_inv b A w b j _ (total_body (frame_body (b + Z.of_nat j) true))); try assumption.
  - intros id f Hf. destruct (shift_body _ f Hfr (HG _ _ Hf)) as (fd & Hfd & Hd & _). unfold total_body, frame_body. rewrite Hfd. exact Hd.
  - intros id f Hf Hs. destruct (shift_body _ f Hfr (HG _ _ Hf)) as (fd & Hfd & Hd & Hgt & _). unfold total_body, frame_body in *. rewrite Hfd in *.
    split; [apply Hgt; exact Hs|]. destruct (wi_range _ _ _ I _ _ Hf) as (_ & H1 & H2).
    apply (shift_bounds _ f fd b (b + Z.of_nat (length A)) Hfr (HG _ _ Hf) Hfd Hs); lia.
  - intros id f i Hf Hs. destruct (shift_body _ f Hfr (HG _ _ Hf)) as (fd & Hfd & _ & _ & _ & _ & _ & Hob). unfold total_body, frame_body in *. rewrite Hfd in *.
    rewrite Hob by lia. destruct (Z.ltb_spec (b + Z.of_nat i) (b + Z.of_nat j)); destruct (Nat.ltb_spec i j); try lia; [reflexivity|]. f_equal. lia.
  - cbn [wn_frames]. lia.
  - cbn [wn_frames]. intros i fr' Hf'. rewrite Hn in Hf'. destruct (Nat.ltb i j).
    + exists fr'. auto.
    + destruct (nth_error (wn_frames w) (Datatypes.S i)) as [g|]; [|discriminate]. exists g. injection Hf' as <-.
      destruct (0 <? Z.of_nat j); auto.
  - cbn [wn_frames]. intros i fr' Hf'. pose proof (nth_some_lt _ _ _ Hf') as Hi. rewrite Hlen in Hi. rewrite Hn in Hf'. destruct (Nat.ltb_spec i j).
    + apply (wi_ids _ _ _ I). exact Hf'.
    + destruct (nth_error (wn_frames w) (Datatypes.S i)) as [g|] eqn:Eg; [|discriminate]. injection Hf' as <-.
      destruct (Z.ltb_spec 0 (Z.of_nat j)); [|lia]. cbn [with_id fr_id]. rewrite (wi_ids _ _ _ I _ _ Eg). rewrite u32_small by lia. lia. }
  intros id g Hg. unfold win_managed in Hg. cbn [wn_heap wn_mgr] in Hg. rewrite Hm in Hg. unfold win_managed.
  destruct (managed (wn_heap w) (wn_mgr w) id) as [f|] eqn:Ef; [|discriminate]. exists f. split; [reflexivity|].
  destruct (shift_body _ f Hfr (HG _ _ Ef)) as (fd & Hfd & _ & _ & Hp & Hst & _). unfold total_body, frame_body in Hg. rewrite Hfd in Hg.
  destruct (snd fd); [discriminate|]. injection Hg as <-. auto.
Qed.

Lemma marg_head_inv ord b A w : valid_order ord -> WInv b A w -> b + Z.of_nat (length A) < 4294967296 ->
  (0 < length A)%nat ->
  exists r, remove_by_frame ord b false (wn_heap w) (wn_mgr w) = Ok r /\
    let w' := Window (fst r) (snd r) (fst (remove_frame (wn_frames w) 0)) in
    WInv (b + 1) (erase_at A 0) w' /\ keeps w w'.
Proof.
  intros Ho I Hl Hj. pose proof (wi_b _ _ _ I) as Hb. pose proof (winv_good _ _ _ Hl I) as HG. unfold win_managed in HG.
  assert (0 <= b < 4294967296) as Hfr by lia.
  assert (forall id f, managed (wn_heap w) (wn_mgr w) id = Some f -> b <= ft_first f) as Hold.
  { intros id f Hf. destruct (wi_range _ _ _ I _ _ Hf) as (_ & H & _). exact H. }
  destruct (remove_by_frame_spec ord b false _ _ Ho (wi_filed _ _ _ I)) as (h' & m' & E & F' & _ & Hsub & Hm).
  { intros id f Hf. destruct (head_body _ f Hfr (HG _ _ Hf) (Hold _ _ Hf)) as (fd & Hfd & _). eauto. }
  exists (h', m'). split; [exact E|]. cbn [fst snd]. cbv zeta.
  pose proof (wi_len _ _ _ I) as HL.
  destruct (remove_frame_nth (wn_frames w) 0) as (_ & Hlen & Hn); [lia|]. cbn [Z.to_nat Nat.ltb Nat.leb Z.ltb Z.compare] in Hn.
  split.
  { apply (drop_frame_inv b A w (b + 1) 0 _ (total_body (frame_body b false))); try assumption.
  - lia.
  - intros id f Hf. destruct (head_body _ f Hfr (HG _ _ Hf) (Hold _ _ Hf)) as (fd & Hfd & Hd & _). unfold total_body, frame_body. rewrite Hfd.
    rewrite Hd. simpl Z.of_nat. rewrite Z.add_0_r. reflexivity.
  - intros id f Hf Hs. destruct (head_body _ f Hfr (HG _ _ Hf) (Hold _ _ Hf)) as (fd & Hfd & Hd & Hgt & _). unfold total_body, frame_body in *. rewrite Hfd in *.
    destruct (Hgt Hs) as [(Hne & _) Hlt]. split; [exact Hne|]. split; [lia|]. destruct (wi_range _ _ _ I _ _ Hf) as (Hnef & H1 & H2).
    clear - Hfd Hs H2 Hne Hfr Hnef H1 Hl Hb. unfold remove_frame_head in Hfd. destruct (Z.eqb_spec (ft_first f) b).
    + destruct (Nat.eqb _ _); [injection Hfd as <-; discriminate|]. unfold at_ in Hfd. destruct (nth_error _ _) eqn:En; [|discriminate].
      cbn [obind] in Hfd. injection Hfd as <-. cbn [fst ft_first ft_obs]. pose proof (nth_some_lt _ _ _ En) as Hx. rewrite erase_length by exact Hx.
      rewrite u32_small by lia. lia.
    + injection Hfd as <-. cbn [fst]. lia.
  - intros id f i Hf Hs. destruct (head_body _ f Hfr (HG _ _ Hf) (Hold _ _ Hf)) as (fd & Hfd & _ & _ & _ & _ & _ & Hob). unfold total_body, frame_body in *. rewrite Hfd in *.
    rewrite Hob by lia. destruct (Z.eqb_spec (b + 1 + Z.of_nat i) b); [lia|]. cbn [Nat.ltb Nat.leb]. f_equal. lia.
  - cbn [wn_frames]. lia.
  - cbn [wn_frames Nat.ltb Nat.leb]. intros i fr' Hf'. rewrite Hn in Hf'.
    destruct (nth_error (wn_frames w) (Datatypes.S i)) as [g|]; [|discriminate]. exists g. injection Hf' as <-. auto.
  - cbn [wn_frames]. intros i fr' Hf'. rewrite Hn in Hf'.
    destruct (nth_error (wn_frames w) (Datatypes.S i)) as [g|] eqn:Eg; [|discriminate]. injection Hf' as <-.
    rewrite (wi_ids _ _ _ I _ _ Eg). lia. }
  intros id g Hg. unfold win_managed in Hg. cbn [wn_heap wn_mgr] in Hg. rewrite Hm in Hg. unfold win_managed.
  destruct (managed (wn_heap w) (wn_mgr w) id) as [f|] eqn:Ef; [|discriminate]. exists f. split; [reflexivity|].
  destruct (head_body _ f Hfr (HG _ _ Ef) (Hold _ _ Ef)) as (fd & Hfd & _ & _ & Hp & Hst & _). unfold total_body, frame_body in Hg. rewrite Hfd in Hg.
  destruct (snd fd); [discriminate|]. injection Hg as <-. auto.
Qed.

(** MarginalizeFeatureFrameManager removes one message from the window. *)
Lemma marginalize_inv ord b A w p : valid_order ord -> WInv b A w -> b + Z.of_nat (length A) < 4294967296 -> marg_ok A (WMarg p) ->
  exists w' b', marginalize ord w p = Ok w' /\ WInv b' (a_step A (WMarg p)) w' /\
    b' + Z.of_nat (length (a_step A (WMarg p))) <= b + Z.of_nat (length A) /\ keeps w w' /\
    wn_frames w' = match p with
      | MargOldest => fst (remove_frame (wn_frames w) 0)
      | MargNewest => fst (remove_frame (wn_frames w) (Z.of_nat (length A - 1)))
      | MargSubnew => fst (remove_frame (wn_frames w) (Z.of_nat (length A - 2)))
      | NoMarg => wn_frames w end.
Proof.
  intros Ho I Hl Hok. pose proof (wi_len _ _ _ I) as HL. pose proof (wi_b _ _ _ I) as Hb. unfold marginalize. cbv zeta. rewrite HL.
  destruct p; cbn [marg_ok a_step] in *.
  - assert (wn_frames w <> []) as Hne by (intros Hx; rewrite Hx in HL; simpl in HL; lia).
    destruct (wn_frames w) as [|f0 fs] eqn:Ef; [congruence|]. cbn [front obind].
    assert (fr_id f0 = b) as -> by (rewrite (wi_ids _ _ _ I O f0); [simpl; lia|rewrite Ef; reflexivity]).
    destruct (marg_head_inv ord b A w Ho I Hl) as (r & -> & H & K); [lia|]. cbn [obind]. rewrite Ef in H, K. eexists _, (b + 1). split; [reflexivity|].
    split; [exact H|]. rewrite erase_length by lia. split; [lia|]. split; [exact K|reflexivity].
  - destruct (back_ex (wn_frames w)) as [bk Eb]; [intros Hx; rewrite Hx in HL; simpl in HL; lia|]. rewrite Eb. cbn [obind].
    apply back_ok_nth in Eb as [Eb _]. rewrite (wi_ids _ _ _ I _ _ Eb), HL.
    destruct (marg_shift_inv ord b A w (length A - 1) Ho I Hl) as (r & -> & H & K); [lia|lia|]. cbn [obind].
    rewrite u32_small by lia. replace (Z.of_nat (length A) - 1) with (Z.of_nat (length A - 1)) by lia. eexists _, b. split; [reflexivity|].
    split; [exact H|]. rewrite erase_length by lia. split; [lia|]. split; [exact K|reflexivity].
  - destruct (back_ex (wn_frames w)) as [bk Eb]; [intros Hx; rewrite Hx in HL; simpl in HL; lia|]. rewrite Eb. cbn [obind].
    apply back_ok_nth in Eb as [Eb _]. rewrite (wi_ids _ _ _ I _ _ Eb), HL.
    destruct (marg_shift_inv ord b A w (length A - 2) Ho I Hl) as (r & E & H & K); [lia|lia|].
    rewrite !u32_small by lia. replace (b + Z.of_nat (length A - 1) - 1) with (b + Z.of_nat (length A - 2)) by lia. rewrite E. cbn [obind].
    replace (Z.of_nat (length A) - 2) with (Z.of_nat (length A - 2)) by lia. eexists _, b. split; [reflexivity|].
    split; [exact H|]. rewrite erase_length by lia. split; [lia|]. split; [exact K|reflexivity].
  - exists w, b. split; [reflexivity|]. split; [exact I|]. split; [lia|]. split; [|reflexivity]. intros id g Hg. eauto.
Qed.

(** ** Histories *)
Lemma erase_sublist {B} (l : list B) i : erase_at l i `sublist_of` l.
Proof.
  unfold erase_at. revert i. induction l as [|a l IH]; intros i; [destruct i; reflexivity|]. destruct i as [|i].
  - cbn [firstn skipn app]. apply sublist_cons. reflexivity.
  - cbn [firstn skipn app]. apply sublist_skip. apply IH.
Qed.
Lemma a_step_sublist A p : a_step A (WMarg p) `sublist_of` A.
Proof. destruct p; cbn [a_step]; try apply erase_sublist. reflexivity. Qed.
Lemma contiguous_sub A B : A `sublist_of` B -> contiguous B -> contiguous A.
Proof. intros Hs Hc id x y z Hx. apply Hc. etransitivity; eassumption. Qed.

Lemma w_run_inv ord ops : valid_order ord -> forall b A w, WInv b A w ->
  Forall good_msg (msgs ops) -> (forall P, P `sublist_of` (A ++ msgs ops) -> contiguous P) -> margs_ok A ops ->
  b + Z.of_nat (length A) + Z.of_nat (length (msgs ops)) < 4294967296 ->
  exists w' b', w_run ord w ops = Ok w' /\ WInv b' (a_run A ops) w' /\ b' + Z.of_nat (length (a_run A ops)) < 4294967296.
Proof.
  intros Ho. induction ops as [|op ops IH]; intros b A w I Hg Hc Hok Hl; cbn [w_run].
  - exists w, b. split; [reflexivity|]. split; [exact I|]. simpl in *. lia.
  - destruct Hok as [Hop Hok]. destruct op as [m|p]; cbn [w_step msgs] in *.
    + inversion Hg as [|? ? Hgm Hg']; subst. simpl length in Hl.
      destruct (update_window_inv b A w m I Hgm) as (w' & b' & -> & I' & Hl' & _).
      { apply Hc. apply sublist_app; [reflexivity|]. apply sublist_skip. apply sublist_nil_l. } { lia. }
      cbn [obind]. apply (IH b' (A ++ [m]) w' I' Hg').
      * intros P HP. apply Hc. rewrite <- app_assoc in HP. exact HP.
      * exact Hok.
      * lia.
    + destruct (marginalize_inv ord b A w p Ho I) as (w' & b' & -> & I' & Hl' & _); [lia|exact Hop|]. cbn [obind].
      apply (IH b' (a_step A (WMarg p)) w' I' Hg).
      * intros P HP. apply Hc. etransitivity; [exact HP|]. apply sublist_app; [apply a_step_sublist|reflexivity].
      * exact Hok.
      * lia.
Qed.

Lemma good_history_inv ord ops : valid_order ord -> good_history ops ->
  exists w b, w_run ord window0 ops = Ok w /\ WInv b (a_run [] ops) w /\ b + Z.of_nat (length (a_run [] ops)) < 4294967296.
Proof.
  intros Ho (Hg & Hc & Hok & Hl). destruct (w_run_inv ord ops Ho 1 [] window0 winv_empty Hg) as (w & b & E & I & Hb).
  - intros P HP. eapply contiguous_sub; eassumption.
  - exact Hok.
  - simpl. lia.
  - eauto.
Qed.

(** C20 *)
Lemma window_stores_messages ord ops : valid_order ord -> good_history ops ->
  exists w, w_run ord window0 ops = Ok w /\ length (wn_frames w) = length (a_run [] ops) /\
    forall i fr m, nth_error (wn_frames w) i = Some fr -> nth_error (a_run [] ops) i = Some m ->
      fr_ts fr = fm_ts m /\
      forall id cam, lookup_norm (wn_heap w) (wn_mgr w) id (fr_id fr) cam =
        match reported m id with Some o => o !! cam | None => None end.
Proof.
  intros Ho Hh. destruct (good_history_inv ord ops Ho Hh) as (w & b & E & I & Hb). exists w. split; [exact E|].
  split; [exact (wi_len _ _ _ I)|]. intros i fr m Hfr Hm. split; [exact (wi_ts _ _ _ I _ _ _ Hfr Hm)|].
  intros id cam. pose proof (wi_b _ _ _ I). pose proof (nth_some_lt _ _ _ Hm).
  rewrite (wi_ids _ _ _ I _ _ Hfr). rewrite lookup_obs; [|exact (winv_good _ _ _ Hb I)|lia].
  rewrite (wi_obs _ _ _ I id _ _ Hm). unfold win_managed. destruct (managed _ _ _); reflexivity.
Qed.

(** C21 *)
Lemma links_agree ord ops : valid_order ord -> good_history ops ->
  exists w, w_run ord window0 ops = Ok w /\
    forall i fr id p, nth_error (wn_frames w) i = Some fr ->
      fr_feats fr !! id = Some p <->
      wn_mgr w !! id = Some p /\ exists f, hp_cells (wn_heap w) !! p = Some f /\ ft_id f = id /\
        ft_first f <= fr_id fr < ft_first f + Z.of_nat (length (ft_obs f)).
Proof.
  intros Ho Hh. destruct (good_history_inv ord ops Ho Hh) as (w & b & E & I & Hb). exists w. split; [exact E|].
  intros i fr id p Hfr. pose proof (nth_some_lt _ _ _ Hfr) as Hi. rewrite (wi_len _ _ _ I) in Hi.
  destruct (nth_error (a_run [] ops) i) as [m|] eqn:Hm; [|apply nth_error_None in Hm; lia].
  rewrite (wi_links _ _ _ I _ _ _ id Hfr Hm). pose proof (wi_obs _ _ _ I id _ _ Hm) as Hob. rewrite <- (wi_ids _ _ _ I _ _ Hfr) in Hob.
  split.
  - destruct (reported m id) as [o|]; [|discriminate]. intros Hp. split; [exact Hp|].
    destruct (wi_filed _ _ _ I _ _ Hp) as (_ & f & Hf & Hid). exists f. split; [exact Hf|]. split; [exact Hid|].
    unfold win_managed, managed in Hob. rewrite Hp, Hf in Hob. symmetry in Hob. eapply obs_at_in; eauto.
  - intros (Hp & f & Hf & Hid & Hr). unfold win_managed, managed in Hob. rewrite Hp, Hf in Hob.
    destruct (obs_at_some f _ Hr) as [o Ho']. rewrite Ho' in Hob. rewrite Hob. exact Hp.
Qed.

End WindowFacts.
