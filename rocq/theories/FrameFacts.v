(** Proofs about the frame manager (C13-C16, C22). *)
From Coq Require Import ZArith List Bool Lia.
From stdpp Require Import gmap list.
From Verif Require Import Fp Scalar Base LinAlg Msg FeatureManager FrameManager Window WindowSpec.
Import ListNotations.
Local Open Scope Z_scope.

Lemma u32_small z : 0 <= z < 4294967296 -> u32 z = z.
Proof. intros H. unfold u32. apply Z.mod_small. exact H. Qed.
Lemma u32_range z : 0 <= u32 z < 4294967296.
Proof. unfold u32. apply Z.mod_pos_bound. lia. Qed.
Lemma u32_idem_add a b : u32 (u32 a + b) = u32 (a + b).
Proof. unfold u32. apply Zplus_mod_idemp_l. Qed.
Lemma u32_idem_sub a b : u32 (u32 a - b) = u32 (a - b).
Proof. unfold u32. apply Zminus_mod_idemp_l. Qed.

Lemma back_app {A} (l : list A) x : back (l ++ [x]) = Ok x.
Proof. induction l as [|a l IH]; [reflexivity|]. simpl. destruct (l ++ [x]) eqn:E; [destruct l; discriminate|exact IH]. Qed.
Lemma back_nil_inv {A} (l : list A) r : back l = Ub r -> l = [].
Proof. induction l as [|a l IH]; [auto|]. simpl. destruct l; [discriminate|]. intros H. specialize (IH H). discriminate. Qed.
Lemma back_ok_nth {A} (l : list A) x : back l = Ok x -> nth_error l (length l - 1) = Some x /\ l <> [].
Proof.
  intros H. destruct (exists_last (l := l)) as (l' & y & ->); [intros ->; discriminate|].
  rewrite back_app in H. injection H as <-. rewrite app_length. simpl.
  rewrite nth_error_app2 by lia. replace (length l' + 1 - 1 - length l')%nat with 0%nat by lia.
  split; [reflexivity|]. destruct l'; discriminate.
Qed.
Lemma back_ex {A} (l : list A) : l <> [] -> exists x, back l = Ok x.
Proof. intros H. destruct (back l) eqn:E; [eauto|]. apply back_nil_inv in E. congruence. Qed.

Lemma nth_erase {A} (l : list A) i j : (i < length l)%nat ->
  nth_error (erase_at l i) j = nth_error l (if Nat.ltb j i then j else Datatypes.S j).
Proof.
  intros Hi. unfold erase_at. destruct (Nat.ltb_spec j i).
  - rewrite nth_error_app1 by (rewrite firstn_length; lia). apply nth_error_firstn || idtac.
    revert i j Hi H. induction l as [|a l IH]; intros i j Hi H; [simpl in Hi; lia|].
    destruct i; [lia|]. destruct j; [reflexivity|]. simpl. apply IH; simpl in *; lia.
  - rewrite nth_error_app2 by (rewrite firstn_length; lia). rewrite firstn_length.
    replace (Nat.min i (length l)) with i by lia.
    rewrite <- (firstn_skipn (Datatypes.S i) l) at 2.
    rewrite nth_error_app2; rewrite firstn_length; [f_equal; lia|lia].
Qed.
Lemma erase_length {A} (l : list A) i : (i < length l)%nat -> length (erase_at l i) = (length l - 1)%nat.
Proof. intros H. unfold erase_at. rewrite app_length, firstn_length, skipn_length. lia. Qed.

Lemma firstn_pre {A} (l r : list A) : firstn (length l) (l ++ r) = l.
Proof. induction l; [destruct r; reflexivity|]. simpl. f_equal. exact IHl. Qed.
Lemma skipn_pre {A} (l r : list A) : skipn (length l) (l ++ r) = r.
Proof. induction l; [reflexivity|]. exact IHl. Qed.
Lemma erase_app {A} (l r : list A) x : erase_at (l ++ x :: r) (length l) = l ++ r.
Proof. unfold erase_at. induction l; [reflexivity|]. cbn [length app firstn skipn]. f_equal. exact IHl. Qed.

Section FrameFacts.
Context {T : Type} {S : SOps T}.
Implicit Types fs : list (frame T).

Lemma ids_from_iff fs : forall b, 0 <= b -> b + Z.of_nat (length fs) < 4294967296 ->
  ids_from b fs = true <-> consecutive b fs.
Proof.
  induction fs as [|f fs IH]; intros b Hb Hl.
  - split; auto. intros _ i f H. destruct i; discriminate.
  - cbn [ids_from length] in *. destruct (Z.eqb_spec (fr_id f) b) as [E|E].
    + destruct fs as [|g fs].
      * split; auto. intros _ [|[|i]] x H; simpl in H; try discriminate. injection H as <-. lia.
      * rewrite u32_small by (simpl length in Hl; lia). rewrite IH by lia. split; intros H.
        -- intros [|i] x Hx; [injection Hx as <-; lia|]. rewrite (H i x Hx). lia.
        -- intros i x Hx. rewrite (H (Datatypes.S i) x Hx). lia.
    + split; [discriminate|]. intros H. specialize (H O f eq_refl). lia.
Qed.

(** AddNewFrame, with the position-wise description of the new window. *)
Lemma add_new_frame_spec fs nf : exists nf',
  fst (add_new_frame fs nf) = fs ++ [nf'] /\ fr_ts nf' = fr_ts nf /\
  (fs = [] -> fr_id nf' = 1 /\ fr_feats nf' = ∅ /\ fr_q nf' = qid /\ fr_p nf' = v3zero /\ fr_v nf' = v3zero) /\
  (forall b, back fs = Ok b -> fr_id nf' = u32 (fr_id b + 1) /\ fr_feats nf' = fr_feats nf /\
     fr_q nf' = fr_q b /\ fr_p nf' = fr_p b /\ fr_v nf' = fr_v b).
Proof.
  unfold add_new_frame. cbn [fst]. destruct (back fs) as [b|r] eqn:E; eexists; split; try reflexivity.
  - repeat split; intros; try (injection H as <-; reflexivity); subst fs; discriminate.
  - apply back_nil_inv in E. subst fs. repeat split; discriminate.
Qed.


Lemma consecutive_app b fs f : consecutive b fs -> fr_id f = b + Z.of_nat (length fs) -> consecutive b (fs ++ [f]).
Proof.
  intros H Hf i x Hx. destruct (Nat.lt_ge_cases i (length fs)) as [Hi|Hi].
  - rewrite nth_error_app1 in Hx by exact Hi. auto.
  - rewrite nth_error_app2 in Hx by exact Hi. destruct (i - length fs)%nat as [|k] eqn:E.
    + injection Hx as <-. rewrite Hf. f_equal. f_equal. lia.
    + destruct k; discriminate.
Qed.

Lemma remove_frame_nth fs k : 0 <= k < Z.of_nat (length fs) ->
  snd (remove_frame fs k) = true /\
  length (fst (remove_frame fs k)) = (length fs - 1)%nat /\
  forall j, nth_error (fst (remove_frame fs k)) j =
    if Nat.ltb j (Z.to_nat k) then nth_error fs j
    else option_map (fun f => if 0 <? k then with_id f (u32 (fr_id f - 1)) else f) (nth_error fs (Datatypes.S j)).
Proof.
  intros [H0 H1]. unfold remove_frame. rewrite (proj2 (Z.leb_gt _ _)) by exact H1. cbn [fst snd].
  assert ((Z.to_nat k < length fs)%nat) as Hk by lia. split; [reflexivity|].
  destruct (Z.ltb_spec 0 k) as [Hp|Hp].
  - set (fs' := firstn _ fs ++ _).
    assert (length fs' = length fs) as Hlen.
    { unfold fs'. rewrite app_length, map_length, firstn_length, skipn_length. lia. }
    assert (forall j, nth_error fs' j = if Nat.ltb j (Z.to_nat k) then nth_error fs j
              else option_map (fun f => with_id f (u32 (fr_id f - 1))) (nth_error fs j)) as Hn.
    { intros j. unfold fs'. assert (nth_error fs j = nth_error (firstn (Z.to_nat k) fs ++ skipn (Z.to_nat k) fs) j) as -> by (rewrite firstn_skipn; reflexivity).
      destruct (Nat.ltb_spec j (Z.to_nat k)).
      - rewrite !nth_error_app1; auto; rewrite firstn_length; lia.
      - rewrite !nth_error_app2 by (rewrite firstn_length; lia). rewrite nth_error_map. reflexivity. }
    split; [rewrite erase_length; lia|]. intros j. rewrite nth_erase by lia. rewrite Hn.
    destruct (Nat.ltb_spec j (Z.to_nat k)).
    + destruct (Nat.ltb_spec j (Z.to_nat k)); [reflexivity|lia].
    + destruct (Nat.ltb_spec (Datatypes.S j) (Z.to_nat k)); [lia|reflexivity].
  - split; [rewrite erase_length; lia|]. intros j. rewrite nth_erase by lia.
    destruct (Nat.ltb j (Z.to_nat k)); [reflexivity|]. destruct (nth_error fs _); reflexivity.
Qed.

Lemma remove_frame_bad fs k : Z.of_nat (length fs) <= k -> remove_frame fs k = (fs, false).
Proof. intros H. unfold remove_frame. rewrite (proj2 (Z.leb_le _ _) H). reflexivity. Qed.

Lemma nth_some_lt {A} (l : list A) i x : nth_error l i = Some x -> (i < length l)%nat.
Proof. intros H. apply nth_error_Some. congruence. Qed.

Lemma remove_consecutive b fs k : 1 <= b -> b + Z.of_nat (length fs) <= 4294967296 -> 0 <= k < 4294967296 -> consecutive b fs ->
  exists b', 1 <= b' /\ b' + Z.of_nat (length (fst (remove_frame fs k))) <= b + Z.of_nat (length fs) /\
    consecutive b' (fst (remove_frame fs k)).
Proof.
  intros Hb Hl Hk Hc. destruct (Z.le_gt_cases (Z.of_nat (length fs)) k) as [H|H].
  - exists b. rewrite remove_frame_bad by exact H. cbn [fst]. split; [lia|]. split; [lia|exact Hc].
  - destruct (remove_frame_nth fs k) as (_ & Hlen & Hn); [lia|].
    destruct (Z.ltb_spec 0 k) as [Hp|Hp].
    + exists b. split; [lia|]. rewrite Hlen. split; [lia|]. intros i f Hf. rewrite Hn in Hf.
      destruct (Nat.ltb i (Z.to_nat k)); [apply Hc in Hf; exact Hf|].
      destruct (nth_error fs (Datatypes.S i)) as [g|] eqn:E; [|discriminate]. injection Hf as <-.
      cbn [with_id fr_id]. pose proof (nth_some_lt _ _ _ E). rewrite (Hc _ _ E). rewrite u32_small by lia. lia.
    + exists (b + 1). split; [lia|]. rewrite Hlen. split; [lia|]. intros i f Hf. rewrite Hn in Hf.
      assert (k = 0) as -> by lia. simpl in Hf. destruct (nth_error fs (Datatypes.S i)) as [g|] eqn:E;
        [|destruct fs as [|f0 fs]; simpl in *; [discriminate|]; rewrite E in Hf; discriminate].
      destruct fs as [|f0 fs]; [discriminate|]. simpl in Hf. simpl in E. rewrite E in Hf. injection Hf as <-.
      rewrite (Hc (Datatypes.S i) g E). lia.
Qed.


Lemma fr_run_inv ops : forall fs b, Forall fr_op_ok ops -> 1 <= b -> consecutive b fs ->
  b + Z.of_nat (length fs) + Z.of_nat (fr_adds ops) < 4294967296 ->
  (exists b', consecutive b' (fst (fr_run fs ops))) /\ adds_true ops (snd (fr_run fs ops)).
Proof.
  induction ops as [|op ops IH]; intros fs b Hok Hb Hc Hl.
  - simpl. eauto.
  - inversion Hok as [|? ? Hop Hops]; subst. destruct op as [nf|k]; cbn [fr_run].
    + destruct (add_new_frame fs nf) as [fs' r] eqn:E.
      destruct (add_new_frame_spec fs nf) as (nf' & E1 & _ & He & Hbk). rewrite E in E1. cbn [fst] in E1. subst fs'.
      unfold fr_adds in Hl. cbn [List.filter length] in Hl. fold (fr_adds ops) in Hl.
      assert (exists b', 1 <= b' /\ b' + Z.of_nat (length (fs ++ [nf'])) + Z.of_nat (fr_adds ops) < 4294967296 /\ consecutive b' (fs ++ [nf'])) as (b' & Hb' & Hl' & Hc').
      { destruct (back fs) as [bk|] eqn:Eb.
        - destruct (Hbk _ eq_refl) as [Hid _]. apply back_ok_nth in Eb as [Eb Hne].
          exists b. split; [exact Hb|]. rewrite app_length. simpl length. split; [lia|].
          apply consecutive_app; [exact Hc|]. rewrite Hid, (Hc _ _ Eb).
          assert (length fs <> O) by (destruct fs; simpl; congruence). rewrite u32_small by lia. lia.
        - apply back_nil_inv in Eb. subst fs. destruct (He eq_refl) as [Hid _]. exists 1. split; [lia|].
          simpl length. split; [simpl in Hl; lia|].
          intros [|[|i]] x Hx; simpl in Hx; try discriminate. injection Hx as <-. simpl. lia. }
      destruct (IH (fs ++ [nf']) b' Hops Hb' Hc' Hl') as [Hx Hy].
      destruct (fr_run (fs ++ [nf']) ops) as [g bs]. cbn [fst snd adds_true] in *. split; [exact Hx|]. split; [|exact Hy].
      unfold add_new_frame in E. injection E as E2 <-. apply app_inj_tail in E2 as [_ E2]. rewrite E2.
      destruct (fs ++ [nf']) as [|f0 rest] eqn:Eapp; [reflexivity|]. rewrite (Hc' O f0 eq_refl).
      rewrite Z.add_0_r. apply ids_from_iff; [lia|lia|exact Hc'].
    + destruct (remove_consecutive b fs k Hb) as (b' & Hb' & Hl' & Hc'); [lia|exact Hop|exact Hc|].
      destruct (remove_frame fs k) as [fs' r]. cbn [fst] in *.
      destruct (IH fs' b' Hops Hb' Hc') as [Hx Hy].
      { unfold fr_adds in *. cbn [List.filter] in Hl. lia. }
      destruct (fr_run fs' ops) as [g bs]. cbn [fst snd adds_true] in *. split; assumption.
Qed.

(** C13 *)
Lemma frame_ids_consecutive ops : Forall fr_op_ok ops -> Z.of_nat (fr_adds ops) < 4294967295 ->
  (exists b, consecutive b (fst (fr_run [] ops))) /\ adds_true ops (snd (fr_run [] ops)).
Proof.
  intros Hok Hl. apply (fr_run_inv ops [] 1); auto; simpl; try lia. intros [|i] f H; discriminate.
Qed.

(** C14 *)
Lemma find_frame_spec fs id : forall i,
  match find_frame fs id i with
  | Some k => (i <= k)%nat /\ exists f, nth_error fs (k - i) = Some f /\ fr_id f = id
  | None => forall f, In f fs -> fr_id f <> id
  end.
Proof.
  induction fs as [|f fs IH]; intros i; cbn [find_frame]; [intros f []|].
  destruct (Z.eqb_spec (fr_id f) id) as [E|E].
  - split; [lia|]. exists f. rewrite Nat.sub_diag. auto.
  - specialize (IH (Datatypes.S i)). destruct (find_frame fs id (Datatypes.S i)) as [k|].
    + destruct IH as (Hk & g & Hg & Hid). split; [lia|]. exists g. split; [|exact Hid].
      replace (k - i)%nat with (Datatypes.S (k - Datatypes.S i)) by lia. exact Hg.
    + intros g [<-|Hg]; auto.
Qed.

Lemma get_frame_spec b fs id : consecutive b fs ->
  match get_frame fs id with
  | Some k => exists f, nth_error fs k = Some f /\ fr_id f = id
  | None => forall f, In f fs -> fr_id f <> id
  end.
Proof.
  intros Hc. unfold get_frame. destruct fs as [|f0 fs]; [intros f []|]. cbn [front].
  destruct (back_ex (f0 :: fs)) as [bk Eb]; [discriminate|]. rewrite Eb.
  apply back_ok_nth in Eb as [Eb _].
  destruct ((id <? fr_id f0) || (fr_id bk <? id))%bool eqn:E.
  - intros f Hf. apply In_nth_error in Hf as [i Hi]. pose proof (nth_some_lt _ _ _ Hi) as Hlt.
    rewrite (Hc _ _ Hi). pose proof (Hc O f0 eq_refl). pose proof (Hc _ _ Eb).
    apply orb_true_iff in E as [E|E]; apply Z.ltb_lt in E; lia.
  - pose proof (find_frame_spec (f0 :: fs) id 0) as H. destruct (find_frame (f0 :: fs) id 0) as [k|]; [|exact H].
    destruct H as (_ & f & Hf & Hid). rewrite Nat.sub_0_r in Hf. eauto.
Qed.

Lemma get_frame_at b fs i : consecutive b fs -> (i < length fs)%nat -> get_frame fs (b + Z.of_nat i) = Some i.
Proof.
  intros Hc Hi. pose proof (get_frame_spec b fs (b + Z.of_nat i) Hc) as H.
  destruct (nth_error fs i) as [f|] eqn:E; [|apply nth_error_None in E; lia].
  destruct (get_frame fs (b + Z.of_nat i)) as [k|].
  - destruct H as (g & Hg & Hid). rewrite (Hc _ _ Hg) in Hid. f_equal. lia.
  - exfalso. apply (H f); [eapply nth_error_In; exact E|]. apply Hc. exact E.
Qed.

Lemma get_frame_exact b fs id : consecutive b fs ->
  (forall k, get_frame fs id = Some k <-> exists f, nth_error fs k = Some f /\ fr_id f = id) /\
  (get_frame fs id = None <-> forall f, In f fs -> fr_id f <> id) /\
  max_frame_id fs = match rev fs with [] => 0 | f :: _ => fr_id f end.
Proof.
  intros Hc. pose proof (get_frame_spec b fs id Hc) as H. repeat split.
  - intros E. rewrite E in H. exact H.
  - intros (f & Hf & Hid). rewrite <- Hid, (Hc _ _ Hf). apply get_frame_at; [exact Hc|]. eapply nth_some_lt; eauto.
  - intros E. rewrite E in H. exact H.
  - intros Hn. destruct (get_frame fs id) as [k|]; [|reflexivity]. destruct H as (f & Hf & Hid).
    exfalso. apply (Hn f); [eapply nth_error_In; exact Hf|exact Hid].
  - unfold max_frame_id. destruct (rev fs) as [|f r] eqn:E.
    + apply (f_equal (@rev _)) in E. rewrite rev_involutive in E. subst fs. reflexivity.
    + apply (f_equal (@rev _)) in E. rewrite rev_involutive in E. subst fs. simpl. rewrite back_app. reflexivity.
Qed.

(** C15 *)
Lemma remove_frame_exact fs k : 0 <= k ->
  (Z.of_nat (length fs) <= k -> remove_frame fs k = (fs, false)) /\
  (k < Z.of_nat (length fs) -> exists pre x post, fs = pre ++ x :: post /\ length pre = Z.to_nat k /\
     remove_frame fs k =
       (pre ++ map (fun f => if 0 <? k then with_id f (u32 (fr_id f - 1)) else f) post, true)).
Proof.
  intros Hk. split; [apply remove_frame_bad|]. intros Hl.
  destruct (nth_error fs (Z.to_nat k)) as [x|] eqn:E; [|apply nth_error_None in E; lia].
  destruct (nth_error_split _ _ E) as (pre & post & -> & Hp). exists pre, x, post. split; [reflexivity|]. split; [exact Hp|].
  unfold remove_frame. rewrite (proj2 (Z.leb_gt _ _)) by exact Hl. rewrite <- Hp. f_equal.
  destruct (0 <? k).
  - rewrite firstn_pre, skipn_pre. cbn [map]. apply erase_app.
  - rewrite erase_app, map_id. reflexivity.
Qed.

(** C16: AddNewFrame. *)
Lemma add_new_frame_exact fs nf : exists nf',
  fst (add_new_frame fs nf) = fs ++ [nf'] /\ fr_ts nf' = fr_ts nf /\
  match rev fs with
  | [] => fr_id nf' = 1 /\ fr_feats nf' = ∅ /\ fr_q nf' = qid /\ fr_p nf' = v3zero /\ fr_v nf' = v3zero
  | b :: _ => fr_id nf' = u32 (fr_id b + 1) /\ fr_feats nf' = fr_feats nf /\
              fr_q nf' = fr_q b /\ fr_p nf' = fr_p b /\ fr_v nf' = fr_v b
  end.
Proof.
  destruct (add_new_frame_spec fs nf) as (nf' & H1 & H2 & H3 & H4). exists nf'. split; [exact H1|]. split; [exact H2|].
  destruct (rev fs) as [|f r] eqn:E; apply (f_equal (@rev _)) in E; rewrite rev_involutive in E.
  - apply H3. exact E.
  - apply H4. rewrite E. simpl. apply back_app.
Qed.

(** C22 *)
Lemma tracked_loop_spec h fr pre : live_links h pre -> forall l n par,
  Forall (fun kp => is_Some (hp_cells h !! snd kp)) l ->
  exists par', tracked_loop h l fr pre n par = Ok (fold_left (fun n kp => if tracked_both h fr pre kp then u32 (n + 1) else n) l n, par').
Proof.
  intros Hp. induction l as [|[id p] l IH]; intros n par Hl.
  - exists par. reflexivity.
  - inversion Hl as [|? ? [f Hf] Hl']; subst. cbn [tracked_loop fold_left snd] in *. unfold tracked_both at 2. cbn [fst snd].
    destruct (fr_feats pre !! id) as [pp|] eqn:E; [|apply IH; exact Hl'].
    unfold hget, deref. rewrite Hf. cbn [obind]. destruct (Hp _ _ E) as [pf Hpf]. rewrite Hpf.
    destruct (get_norm f (fr_id fr) 0); [|apply IH; exact Hl']. cbn [obind].
    destruct (get_norm pf (fr_id pre) 0); apply IH; exact Hl'.
Qed.

Lemma count_fold {A} (g : A -> bool) l : forall n, 0 <= n -> n + Z.of_nat (length (List.filter g l)) < 4294967296 ->
  fold_left (fun n kp => if g kp then u32 (n + 1) else n) l n = n + Z.of_nat (length (List.filter g l)).
Proof.
  induction l as [|a l IH]; intros n Hn Hl; simpl in *; [lia|]. destruct (g a); simpl in *; [|apply IH; lia].
  rewrite u32_small by lia. rewrite IH by lia. lia.
Qed.

Lemma filter_perm {A} (g : A -> bool) (l l' : list A) : l ≡ₚ l' -> length (List.filter g l) = length (List.filter g l').
Proof.
  induction 1 as [|x l l' H IH|x y l|l l' l'' H1 IH1 H2 IH2]; simpl.
  - reflexivity.
  - destruct (g x); simpl; congruence.
  - destruct (g x), (g y); reflexivity.
  - congruence.
Qed.

Lemma filter_len {A} (g : A -> bool) (l : list A) : (length (List.filter g l) <= length l)%nat.
Proof. induction l; simpl; [lia|]. destruct (g a); simpl; lia. Qed.

Lemma is_keyframe_rule ord h fs minTracked maxTrans i fr pre : valid_order ord ->
  nth_error fs i = Some pre -> nth_error fs (Datatypes.S i) = Some fr ->
  live_links h fr -> live_links h pre -> Z.of_nat (size (fr_feats fr)) < 4294967296 ->
  is_keyframe ord h fs minTracked maxTrans (Some (Datatypes.S i)) =
  Ok ((Z.of_nat (length (List.filter (tracked_both h fr pre) (map_to_list (fr_feats fr)))) <? minTracked)
      || sltb maxTrans (v3norm (v3sub (fr_p fr) (fr_p pre)))).
Proof.
  intros Ho Hpre Hfr Lfr Lpre Hs. unfold is_keyframe. rewrite Hfr. unfold at_. rewrite Hpre. cbn [obind].
  pose proof (Ho (fr_feats fr)) as Hperm.
  destruct (tracked_loop_spec h fr pre Lpre (ord (fr_feats fr)) 0 s0) as [par' ->].
  { apply Forall_forall. intros [id p] Hin. apply Lfr with id. apply elem_of_map_to_list. rewrite <- Hperm. exact Hin. }
  cbn [obind fst]. rewrite count_fold.
  - rewrite (filter_perm _ _ _ Hperm). rewrite Z.add_0_l.
    destruct (_ <? _); [reflexivity|]. destruct (sltb _ _); reflexivity.
  - lia.
  - rewrite (filter_perm _ _ _ Hperm).
    pose proof (filter_len (tracked_both h fr pre) (map_to_list (fr_feats fr))) as H.
    unfold size, map_size in Hs. lia.
Qed.

End FrameFacts.
