(** Proofs about the feature manager (C17-C19). *)
From Coq Require Import ZArith List Bool Lia.
From stdpp Require Import gmap list.
From Verif Require Import Fp Scalar Base LinAlg Msg FeatureManager FrameManager Window WindowSpec FrameFacts.
Import ListNotations.
Local Open Scope Z_scope.

Section FeatureFacts.
Context {T : Type} {S : SOps T}.
Implicit Types (h : heap T) (m : fmgr) (f : feature T).

Lemma hget_ok h p f : hp_cells h !! p = Some f -> hget h p = Ok f.
Proof. intros H. unfold hget, deref. rewrite H. reflexivity. Qed.

Lemma filed_inj h m a b p : filed h m -> m !! a = Some p -> m !! b = Some p -> a = b.
Proof.
  intros F Ha Hb. destruct (F _ _ Ha) as (_ & f & Hf & <-). destruct (F _ _ Hb) as (_ & g & Hg & <-). congruence.
Qed.
Lemma filed_managed h m id p : filed h m -> m !! id = Some p -> exists f, hp_cells h !! p = Some f /\ managed h m id = Some f /\ ft_id f = id.
Proof. intros F H. destruct (F _ _ H) as (_ & f & Hf & E). exists f. unfold managed. rewrite H. auto. Qed.
Lemma managed_inv h m id f : managed h m id = Some f -> exists p, m !! id = Some p /\ hp_cells h !! p = Some f.
Proof. unfold managed. destruct (m !! id) as [p|]; [eauto|discriminate]. Qed.
Lemma managed_none h m id : filed h m -> managed h m id = None <-> m !! id = None.
Proof.
  intros F. unfold managed. destruct (m !! id) as [p|] eqn:E; [|tauto].
  destruct (F _ _ E) as (_ & f & -> & _). split; discriminate.
Qed.

Lemma add_observe_id f o : ft_id (add_observe f o) = ft_id f.
Proof. unfold add_observe. destruct (_ =? _); reflexivity. Qed.

(** One step of AddNewFeatures. *)
Lemma filed_hset h m id p f f' : filed h m -> m !! id = Some p -> hp_cells h !! p = Some f -> ft_id f' = ft_id f -> filed (hset h p f') m.
Proof.
  intros F Hp Hf E i q Hq. destruct (F _ _ Hq) as (Hlt & g & Hg & Hid). split; [exact Hlt|].
  unfold hset; cbn [hp_cells]. destruct (decide (p = q)) as [->|Hne].
  - rewrite lookup_insert. exists f'. split; [reflexivity|]. congruence.
  - rewrite lookup_insert_ne by exact Hne. eauto.
Qed.
Lemma managed_hset h m id p f f' : filed h m -> m !! id = Some p -> hp_cells h !! p = Some f ->
  forall i, managed (hset h p f') m i = if Z.eqb i id then Some f' else managed h m i.
Proof.
  intros F Hp Hf i. unfold managed. destruct (Z.eqb_spec i id) as [->|Hne].
  - rewrite Hp. unfold hset; cbn [hp_cells]. apply lookup_insert.
  - destruct (m !! i) as [q|] eqn:Hq; [|reflexivity]. unfold hset; cbn [hp_cells].
    rewrite lookup_insert_ne; [reflexivity|]. intros ->. apply Hne. eapply filed_inj; eauto.
Qed.
Lemma filed_halloc h m id f : filed h m -> ft_id f = id ->
  filed (fst (halloc h f)) (<[id := snd (halloc h f)]> m).
Proof.
  intros F E i q Hq. cbn [halloc fst snd hp_next hp_cells] in *. destruct (decide (id = i)) as [->|Hne].
  - rewrite lookup_insert in Hq. injection Hq as <-. split; [lia|]. exists f. rewrite lookup_insert. auto.
  - rewrite lookup_insert_ne in Hq by exact Hne. destruct (F _ _ Hq) as (Hlt & g & Hg & Hid). split; [lia|].
    exists g. rewrite lookup_insert_ne by lia. auto.
Qed.
Lemma managed_halloc h m id f : filed h m ->
  forall i, managed (fst (halloc h f)) (<[id := snd (halloc h f)]> m) i = if Z.eqb i id then Some f else managed h m i.
Proof.
  intros F i. unfold managed. cbn [halloc fst snd hp_next hp_cells]. destruct (Z.eqb_spec i id) as [->|Hne].
  - rewrite lookup_insert, lookup_insert. reflexivity.
  - rewrite lookup_insert_ne by congruence. destruct (m !! i) as [q|] eqn:Hq; [|reflexivity].
    destruct (F _ _ Hq) as (Hlt & _). rewrite lookup_insert_ne by lia. reflexivity.
Qed.

(** AddNewFeatures keeps every invariant of single features. *)
Lemma add_loop_inv (P : feature T -> Prop) frame : (forall f o, P f -> P (add_observe f o)) ->
  (forall id o, P (new_feature id frame o)) -> forall l h m acc, filed h m -> (forall id f, managed h m id = Some f -> P f) ->
  exists h' m' acc', add_features_loop l frame h m acc = Ok (h', m', acc') /\ filed h' m' /\
    forall id f, managed h' m' id = Some f -> P f.
Proof.
  intros Ha Hn. induction l as [|[id o] l IH]; intros h m acc F HP; cbn [add_features_loop].
  - eauto 10.
  - destruct (m !! id) as [p|] eqn:E.
    + destruct (filed_managed _ _ _ _ F E) as (f & Hf & Hm & Hid). rewrite (hget_ok _ _ _ Hf). cbn [obind].
      apply IH.
      * eapply filed_hset; eauto. apply add_observe_id.
      * intros i g Hg. rewrite (managed_hset _ _ _ _ _ _ F E Hf) in Hg. destruct (i =? id).
        -- injection Hg as <-. apply Ha. eauto.
        -- eauto.
    + apply (IH (fst (halloc h (new_feature id frame o))) (<[id := snd (halloc h (new_feature id frame o))]> m)).
      * apply filed_halloc; [exact F|reflexivity].
      * intros i g Hg. rewrite managed_halloc in Hg by exact F. destruct (i =? id); [injection Hg as <-; apply Hn|eauto].
Qed.

(** Exact effect of AddNewFeatures on a message that lists each feature once. *)
Lemma assoc_none id (l : list (Z * observe T)) : ~ In id (map fst l) -> assoc id l = None.
Proof.
  induction l as [|[i o] l IH]; [reflexivity|]. cbn [map fst In assoc]. intros H.
  destruct (Z.eqb_spec i id); [tauto|]. apply IH. tauto.
Qed.
Lemma assoc_some_in id (l : list (Z * observe T)) o : assoc id l = Some o -> In (id, o) l.
Proof.
  induction l as [|[i o'] l IH]; [discriminate|]. cbn [assoc]. destruct (Z.eqb_spec i id) as [->|].
  - intros H. injection H as <-. left. reflexivity.
  - right. auto.
Qed.
Lemma assoc_in id (l : list (Z * observe T)) o : List.NoDup (map fst l) -> In (id, o) l -> assoc id l = Some o.
Proof.
  induction l as [|[i o'] l IH]; [intros _ []|]. cbn [map fst assoc]. intros Hnd [H|H].
  - injection H as -> ->. rewrite Z.eqb_refl. reflexivity.
  - inversion Hnd as [|? ? Hni Hnd']; subst. destruct (Z.eqb_spec i id) as [->|].
    + exfalso. apply Hni. apply (in_map fst) in H. exact H.
    + auto.
Qed.

Lemma add_loop_exact frame : forall l h m acc, filed h m -> List.NoDup (map fst l) ->
  exists h' m' ps, add_features_loop l frame h m acc = Ok (h', m', acc ++ ps) /\ filed h' m' /\
    (hp_next h <= hp_next h')%nat /\
    (forall id p, m !! id = Some p -> m' !! id = Some p) /\
    (forall id, ~ In id (map fst l) -> m' !! id = m !! id) /\
    Forall2 (fun io p => m' !! fst io = Some p) l ps /\
    forall id, managed h' m' id =
      match assoc id l with
      | None => managed h m id
      | Some o => match managed h m id with Some f => Some (add_observe f o) | None => Some (new_feature id frame o) end
      end.
Proof.
  induction l as [|[id o] l IH]; intros h m acc F Hnd; cbn [add_features_loop].
  - exists h, m, []. rewrite app_nil_r. split; [reflexivity|]. split; [exact F|]. split; [lia|]. split; [auto|].
    split; [auto|]. split; [constructor|]. intros; reflexivity.
  - cbn [map fst] in Hnd. inversion Hnd as [|? ? Hni Hnd']; subst.
    destruct (m !! id) as [p|] eqn:E.
    + destruct (filed_managed _ _ _ _ F E) as (f & Hf & Hm & Hid). rewrite (hget_ok _ _ _ Hf). cbn [obind].
      destruct (IH (hset h p (add_observe f o)) m (acc ++ [p])) as (h' & m' & ps & -> & F' & Hn & Hk & Ho & H2 & Hmg).
      { eapply filed_hset; eauto. apply add_observe_id. } { exact Hnd'. }
      exists h', m', (p :: ps). rewrite <- app_assoc. cbn [app]. split; [reflexivity|]. split; [exact F'|].
      split; [exact Hn|]. split; [exact Hk|]. split; [intros i Hi; apply Ho; simpl in Hi; tauto|].
      split; [constructor; [cbn [fst]; auto|exact H2]|]. intros i. rewrite Hmg.
      rewrite (managed_hset _ _ _ _ _ _ F E Hf). cbn [assoc]. rewrite (Z.eqb_sym id i). destruct (Z.eqb_spec i id) as [->|].
      * rewrite (assoc_none _ _ Hni), Hm. reflexivity.
      * reflexivity.
    + destruct (IH (fst (halloc h (new_feature id frame o))) (<[id := snd (halloc h (new_feature id frame o))]> m) (acc ++ [hp_next h]))
        as (h' & m' & ps & E' & F' & Hn & Hk & Ho & H2 & Hmg).
      { apply filed_halloc; [exact F|reflexivity]. } { exact Hnd'. }
      cbn [halloc fst snd] in E'. exists h', m', (hp_next h :: ps). cbn [halloc]. rewrite E'. rewrite <- app_assoc. cbn [app].
      split; [reflexivity|]. split; [exact F'|]. split; [cbn [halloc fst hp_next] in Hn; lia|].
      split. { intros i q Hq. apply Hk. rewrite lookup_insert_ne; congruence. }
      split. { intros i Hi. cbn [map fst In] in Hi. rewrite Ho by tauto. apply lookup_insert_ne. tauto. }
      split. { constructor; [|exact H2]. cbn [fst]. apply Hk. cbn [halloc snd]. apply lookup_insert. }
      intros i. rewrite Hmg, managed_halloc by exact F. cbn [assoc]. rewrite (Z.eqb_sym id i). destruct (Z.eqb_spec i id) as [->|].
      * rewrite (assoc_none _ _ Hni). rewrite (proj2 (managed_none h m id F) E). reflexivity.
      * reflexivity.
Qed.

(** RemoveByFrameID, for a loop body that succeeds on every managed feature. *)
Definition total_body (body : feature T -> out (feature T * bool)) f : feature T * bool :=
  match body f with Ok x => x | Ub _ => (f, false) end.

Lemma remove_loop_spec body : forall (l : list (Z * nat)) h del, NoDup (map snd l) ->
  Forall (fun kp => exists f fd, hp_cells h !! snd kp = Some f /\ body f = Ok fd) l ->
  exists h' del', remove_loop body l h del = Ok (h', del ++ del') /\ hp_next h' = hp_next h /\
    (forall p, p ∉ map snd l -> hp_cells h' !! p = hp_cells h !! p) /\
    (forall p f, p ∈ map snd l -> hp_cells h !! p = Some f -> hp_cells h' !! p = Some (fst (total_body body f))) /\
    (forall id, id ∈ del' <-> exists p f, p ∈ map snd l /\ hp_cells h !! p = Some f /\ ft_id f = id /\ snd (total_body body f) = true).
Proof.
  induction l as [|[id p] l IH]; intros h del Hnd HF; cbn [remove_loop].
  - exists h, []. rewrite app_nil_r. repeat split; auto.
    + intros q f Hq. apply elem_of_nil in Hq. destruct Hq.
    + intros Hq. apply elem_of_nil in Hq. destruct Hq.
    + intros (q & f & Hq & _). apply elem_of_nil in Hq. destruct Hq.
  - cbn [map snd] in *. apply NoDup_cons in Hnd as [Hni Hnd]. inversion HF as [|? ? (f & fd & Hf & Hb) HF']; subst.
    cbn [snd] in Hf. rewrite (hget_ok _ _ _ Hf). cbn [obind]. rewrite Hb. cbn [obind].
    assert (total_body body f = fd) as Htb by (unfold total_body; rewrite Hb; reflexivity).
    destruct (IH (hset h p (fst fd)) (if snd fd then del ++ [ft_id f] else del)) as (h' & del' & E & Hn & Hout & Hin & Hd).
    { exact Hnd. }
    { apply Forall_forall. intros [i q] Hq. rewrite Forall_forall in HF'. destruct (HF' _ Hq) as (g & gd & Hg & Hgb).
      exists g, gd. split; [|exact Hgb]. unfold hset; cbn [hp_cells snd]. rewrite lookup_insert_ne; [exact Hg|].
      intros ->. apply Hni. apply (elem_of_list_fmap_1 snd) in Hq. exact Hq. }
    exists h', (if snd fd then ft_id f :: del' else del'). split; [|split; [|split; [|split]]].
    + rewrite E. destruct (snd fd); [rewrite <- app_assoc|]; reflexivity.
    + exact Hn.
    + intros q Hq. rewrite not_elem_of_cons in Hq. destruct Hq as [Hqp Hql]. rewrite Hout by exact Hql. unfold hset; cbn [hp_cells].
      apply lookup_insert_ne. congruence.
    + intros q g Hq Hg. rewrite elem_of_cons in Hq. destruct (decide (q = p)) as [->|Hne].
      * rewrite Hout by exact Hni. unfold hset; cbn [hp_cells]. rewrite lookup_insert.
        assert (g = f) as -> by congruence. rewrite Htb. reflexivity.
      * apply Hin; [tauto|]. unfold hset; cbn [hp_cells]. rewrite lookup_insert_ne; congruence.
    + intros i. assert (i ∈ (if snd fd then ft_id f :: del' else del') <-> (snd fd = true /\ i = ft_id f) \/ i ∈ del') as ->.
      { destruct (snd fd); rewrite ?elem_of_cons; intuition congruence. }
      rewrite Hd. split.
      * intros [[Ht ->]|(q & g & Hq & Hg & Hi & Ht)].
        -- exists p, f. rewrite elem_of_cons, Htb. auto.
        -- exists q, g. rewrite elem_of_cons. split; [auto|]. split; [|auto]. unfold hset in Hg; cbn [hp_cells] in Hg.
           rewrite lookup_insert_ne in Hg; [exact Hg|]. intros ->. auto.
      * intros (q & g & Hq & Hg & Hi & Ht). rewrite elem_of_cons in Hq. destruct (decide (q = p)) as [->|Hne].
        -- left. assert (g = f) as -> by congruence. rewrite Htb in Ht. auto.
        -- right. exists q, g. split; [tauto|]. unfold hset; cbn [hp_cells]. rewrite lookup_insert_ne by congruence. auto.
Qed.

Lemma fold_delete (l : list Z) : forall m id,
  fold_left (fun m' id => delete id m') l m !! id = if decide (id ∈ l) then None else m !! id.
Proof.
  induction l as [|a l IH]; intros m id; cbn [fold_left].
  - destruct (decide (id ∈ [])) as [H|]; [apply elem_of_nil in H; destruct H|reflexivity].
  - rewrite IH. destruct (decide (id ∈ l)) as [H|H]; destruct (decide (id ∈ a :: l)) as [H'|H']; rewrite elem_of_cons in H'; try tauto.
    + destruct H' as [->|H']; [|tauto]. apply lookup_delete.
    + apply lookup_delete_ne. intros ->. tauto.
Qed.

Lemma filed_nodup h m : filed h m -> NoDup (map snd (map_to_list m)).
Proof.
  intros F. apply NoDup_fmap_2_strong; [|apply NoDup_map_to_list].
  intros [a p] [b q] Ha Hb E. cbn [snd] in E. subst q. apply elem_of_map_to_list in Ha, Hb.
  f_equal. eapply filed_inj; eauto.
Qed.

Definition frame_body (frame : Z) (offset : bool) : feature T -> out (feature T * bool) :=
  if offset then remove_frame_shift frame else remove_frame_head frame.

Lemma body_id frame offset f : ft_id (fst (total_body (frame_body frame offset) f)) = ft_id f.
Proof.
  unfold total_body, frame_body, remove_frame_shift, remove_frame_head, at_, obind.
  destruct offset.
  - destruct (_ && _); [|destruct (_ <? _); reflexivity]. destruct (Nat.eqb _ _); [reflexivity|]. destruct (nth_error _ _); reflexivity.
  - destruct (_ =? _); [|reflexivity]. destruct (Nat.eqb _ _); [reflexivity|]. destruct (nth_error _ _); reflexivity.
Qed.

Lemma remove_by_frame_spec ord frame offset h m : valid_order ord -> filed h m ->
  (forall id f, managed h m id = Some f -> exists fd, frame_body frame offset f = Ok fd) ->
  exists h' m', remove_by_frame ord frame offset h m = Ok (h', m') /\ filed h' m' /\ hp_next h' = hp_next h /\
    (forall id p, m' !! id = Some p -> m !! id = Some p) /\
    (forall id, managed h' m' id =
      match managed h m id with
      | Some f => let fd := total_body (frame_body frame offset) f in if snd fd : bool then None else Some (fst fd)
      | None => None
      end).
Proof.
  intros Ho F Hb. pose proof (Ho m) as Hperm.
  assert (map snd (ord m) ≡ₚ map snd (map_to_list m)) as Hperm2 by (apply Permutation_map; exact Hperm).
  destruct (remove_loop_spec (frame_body frame offset) (ord m) h []) as (h' & del & E & Hn & Hout & Hin & Hd).
  { rewrite Hperm2. apply filed_nodup with h. exact F. }
  { apply Forall_forall. intros [id p] Hp. rewrite Hperm in Hp. apply elem_of_map_to_list in Hp. cbn [snd].
    destruct (filed_managed _ _ _ _ F Hp) as (f & Hf & Hm & _). destruct (Hb _ _ Hm) as [fd Hfd]. eauto. }
  assert (forall id p, m !! id = Some p -> p ∈ map snd (ord m)) as Hmem.
  { intros id p Hp. rewrite Hperm2. apply (elem_of_list_fmap_1 snd _ (id, p)). apply elem_of_map_to_list. exact Hp. }
  assert (forall id p f, m !! id = Some p -> hp_cells h !! p = Some f ->
    (id ∈ del <-> snd (total_body (frame_body frame offset) f) = true)) as Hdel.
  { intros id p f Hp Hf. rewrite Hd. split.
    - intros (q & g & Hq & Hg & Hi & Ht). rewrite Hperm2 in Hq. apply elem_of_list_fmap in Hq as ([i q'] & -> & Hq).
      apply elem_of_map_to_list in Hq. cbn [snd] in *. destruct (F _ _ Hq) as (_ & g' & Hg' & Hi').
      assert (i = id) as -> by congruence. congruence.
    - intros Ht. exists p, f. destruct (F _ _ Hp) as (_ & g & Hg & Hi). assert (g = f) as -> by congruence. eauto. }
  set (m' := fold_left (fun m' id => delete id m') del m).
  assert (forall id p, m' !! id = Some p -> m !! id = Some p) as Hsub.
  { intros id p. unfold m'. rewrite fold_delete. destruct (decide _); [discriminate|auto]. }
  exists h', m'. split; [|split; [|split; [|split]]].
  - unfold remove_by_frame. fold (frame_body frame offset). rewrite E. cbn [obind fst snd app]. reflexivity.
  - intros id p Hp. apply Hsub in Hp. destruct (F _ _ Hp) as (Hlt & f & Hf & Hi). split; [lia|].
    exists (fst (total_body (frame_body frame offset) f)). split; [|rewrite body_id; exact Hi]. apply Hin; eauto.
  - exact Hn.
  - exact Hsub.
  - intros id. unfold managed, m'. rewrite fold_delete. destruct (m !! id) as [p|] eqn:Hp; [|destruct (decide _); reflexivity].
    destruct (F _ _ Hp) as (_ & f & Hf & Hi). rewrite Hf. pose proof (Hdel _ _ _ Hp Hf) as Hdl.
    cbv zeta. destruct (snd (total_body (frame_body frame offset) f)) eqn:Et.
    + destruct (decide (id ∈ del)); [reflexivity|]. exfalso. tauto.
    + destruct (decide (id ∈ del)) as [Hx|]; [exfalso; apply Hdl in Hx; discriminate|]. apply Hin; eauto.
Qed.

(** ** C17 *)
Definition num_ok f : Prop :=
  0 <= ft_first f < 4294967296 /\ ft_obs f <> [] /\ ft_num f = u32 (total_obs (ft_obs f)).

Lemma total_obs_app (a b : list (observe T)) : total_obs (a ++ b) = total_obs a + total_obs b.
Proof. induction a as [|o a IH]; [reflexivity|]. cbn [app total_obs]. lia. Qed.
Lemma total_obs_erase (l : list (observe T)) i o : nth_error l i = Some o -> total_obs (erase_at l i) = total_obs l - osize o.
Proof.
  intros H. destruct (nth_error_split _ _ H) as (a & b & -> & <-). rewrite erase_app, !total_obs_app. cbn [total_obs]. lia.
Qed.

Lemma num_ok_add f o : num_ok f -> num_ok (add_observe f o).
Proof.
  intros (H1 & H2 & H3). unfold add_observe. destruct (_ =? _); [split; auto|]. split; [exact H1|]. cbn [ft_obs ft_num].
  split; [destruct (ft_obs f); discriminate|]. rewrite H3, u32_idem_add, total_obs_app. cbn [total_obs]. f_equal. lia.
Qed.
Lemma num_ok_new id frame o : 0 <= frame < 4294967296 -> num_ok (new_feature id frame o).
Proof. intros H. split; [exact H|]. split; [discriminate|]. cbn [new_feature ft_obs ft_num total_obs]. f_equal. lia. Qed.

Lemma final_le f : 0 <= ft_first f -> ft_obs f <> [] -> final_frame f <= ft_first f + Z.of_nat (length (ft_obs f)) - 1.
Proof.
  intros H Hn. unfold final_frame. assert (length (ft_obs f) <> O) by (destruct (ft_obs f); simpl; congruence). unfold u32. apply Z.mod_le; lia.
Qed.

Lemma body_ok frame offset f : 0 <= frame < 4294967296 -> num_ok f ->
  exists fd, frame_body frame offset f = Ok fd /\ (snd fd = false -> num_ok (fst fd)).
Proof.
  intros Hfr (H1 & H2 & H3). unfold frame_body. destruct offset.
  - unfold remove_frame_shift. destruct (_ && _) eqn:Ec.
    + apply andb_true_iff in Ec as [Ea Eb]. apply Z.leb_le in Ea, Eb.
      pose proof (final_le f (proj1 H1) H2). destruct (Nat.eqb_spec (length (ft_obs f)) 1); [eexists; split; [reflexivity|discriminate]|].
      rewrite u32_small by lia. unfold at_. destruct (nth_error _ _) as [o|] eqn:En; [|apply nth_error_None in En; lia].
      cbn [obind]. eexists; split; [reflexivity|]. intros _. cbn [fst]. split; [exact H1|]. cbn [ft_obs ft_num]. split.
      * intros Hc. apply (f_equal (@length _)) in Hc. rewrite erase_length in Hc by (eapply nth_some_lt; eauto).
        simpl in Hc. assert (length (ft_obs f) <> O) by (destruct (ft_obs f); simpl; congruence). lia.
      * rewrite (total_obs_erase _ _ _ En), H3, u32_idem_sub. reflexivity.
    + destruct (Z.ltb_spec frame (ft_first f)); eexists; split; try reflexivity; intros _; cbn [fst].
      * split; [cbn [ft_first]; rewrite u32_small; lia|]. split; assumption.
      * split; auto.
  - unfold remove_frame_head. destruct (Z.eqb_spec (ft_first f) frame); [|eexists; split; [reflexivity|]; intros _; split; auto].
    destruct (Nat.eqb_spec (length (ft_obs f)) 1); [eexists; split; [reflexivity|discriminate]|].
    unfold at_. destruct (nth_error (ft_obs f) 0) as [o|] eqn:En; [|apply nth_error_None in En; destruct (ft_obs f); simpl in *; [congruence|lia]].
    cbn [obind]. eexists; split; [reflexivity|]. intros _. cbn [fst]. split; [apply u32_range|]. cbn [ft_obs ft_num]. split.
    + intros Hc. apply (f_equal (@length _)) in Hc. rewrite erase_length in Hc by (eapply nth_some_lt; eauto).
      simpl in Hc. assert (length (ft_obs f) <> O) by (destruct (ft_obs f); simpl; congruence). lia.
    + rewrite (total_obs_erase _ _ _ En), H3, u32_idem_sub. reflexivity.
Qed.

Lemma ft_run_inv ord ops : valid_order ord -> forall h m, Forall ft_op_ok ops -> filed h m ->
  (forall id f, managed h m id = Some f -> num_ok f) ->
  exists h' m', ft_run ord (h, m) ops = Ok (h', m') /\ filed h' m' /\ forall id f, managed h' m' id = Some f -> num_ok f.
Proof.
  intros Ho. induction ops as [|op ops IH]; intros h m Hok F HP; cbn [ft_run].
  - eauto 10.
  - inversion Hok as [|? ? Hop Hops]; subst. destruct op as [ids obs frame|frame off|id]; cbn [ft_step fst snd ft_op_ok] in *.
    + unfold add_new_features. destruct (negb _); [cbn [obind fst]; apply IH; assumption|].
      destruct (add_loop_inv num_ok frame num_ok_add (fun id o => num_ok_new id frame o Hop) (combine ids obs) h m [] F HP)
        as (h' & m' & acc' & -> & F' & HP'). cbn [obind fst]. apply IH; assumption.
    + destruct (remove_by_frame_spec ord frame off h m Ho F) as (h' & m' & -> & F' & _ & _ & Hm).
      { intros id f Hf. destruct (body_ok frame off f Hop (HP _ _ Hf)) as (fd & Hfd & _). eauto. }
      cbn [obind]. apply IH; [assumption|assumption|]. intros id f Hf. rewrite Hm in Hf.
      destruct (managed h m id) as [g|] eqn:Hg; [|discriminate]. destruct (body_ok frame off g Hop (HP _ _ Hg)) as (fd & Hfd & Hnum).
      unfold total_body in Hf. rewrite Hfd in Hf. destruct (snd fd); [discriminate|]. injection Hf as <-. apply Hnum. reflexivity.
    + cbn [obind]. apply IH; [assumption| |].
      * intros i p Hp. unfold remove_by_id in Hp. apply lookup_delete_Some in Hp as [_ Hp]. apply F. exact Hp.
      * intros i f Hf. apply managed_inv in Hf as (p & Hp & Hf). unfold remove_by_id in Hp. apply lookup_delete_Some in Hp as [_ Hp].
        apply (HP i). unfold managed. rewrite Hp. exact Hf.
Qed.

Lemma observe_num_exact ord ops : valid_order ord -> Forall ft_op_ok ops ->
  exists h m, ft_run ord (Heap 0 ∅, ∅) ops = Ok (h, m) /\
    forall id f, managed h m id = Some f ->
      ft_id f = id /\ ft_obs f <> [] /\ ft_num f = u32 (total_obs (ft_obs f)).
Proof.
  intros Ho Hok. destruct (ft_run_inv ord ops Ho (Heap 0 ∅) ∅ Hok) as (h & m & E & F & HP).
  - intros id p Hp. rewrite lookup_empty in Hp. discriminate.
  - intros id f Hf. unfold managed in Hf. rewrite lookup_empty in Hf. discriminate.
  - exists h, m. split; [exact E|]. intros id f Hf. destruct (HP _ _ Hf) as (_ & H2 & H3). split; [|auto].
    apply managed_inv in Hf as (p & Hp & Hf). destruct (F _ _ Hp) as (_ & g & Hg & Hi). congruence.
Qed.

(** ** C19 *)
Lemma get_norm_char f frame cam : good_track f -> 0 <= frame < 4294967296 ->
  get_norm f frame cam =
    if (ft_first f <=? frame) then match nth_error (ft_obs f) (Z.to_nat (frame - ft_first f)) with Some o => o !! cam | None => None end else None.
Proof.
  intros (Hne & H0 & Hlen) Hf. unfold get_norm. cbv zeta. destruct (Z.leb_spec (ft_first f) frame) as [Hle|Hgt].
  - rewrite u32_small by lia. destruct (Z.ltb_spec (frame - ft_first f) (Z.of_nat (length (ft_obs f)))).
    + reflexivity.
    + destruct (nth_error _ _) as [o|] eqn:E; [|reflexivity]. apply nth_some_lt in E. lia.
  - assert (u32 (frame - ft_first f) = frame - ft_first f + 4294967296) as ->.
    { unfold u32. symmetry. apply Z.mod_unique with (-1); lia. }
    destruct (Z.ltb_spec (frame - ft_first f + 4294967296) (Z.of_nat (length (ft_obs f)))); [lia|reflexivity].
Qed.

Lemma get_norm_iff f frame cam x : good_track f -> 0 <= frame < 4294967296 ->
  get_norm f frame cam = Some x <->
  exists i o, frame = ft_first f + Z.of_nat i /\ nth_error (ft_obs f) i = Some o /\ o !! cam = Some x.
Proof.
  intros Hg Hf. rewrite get_norm_char by assumption. split.
  - destruct (Z.leb_spec (ft_first f) frame); [|discriminate]. destruct (nth_error _ _) as [o|] eqn:E; [|discriminate].
    intros Hx. exists (Z.to_nat (frame - ft_first f)), o. split; [lia|auto].
  - intros (i & o & -> & Ho & Hx). rewrite (proj2 (Z.leb_le _ _)) by lia.
    replace (Z.to_nat (ft_first f + Z.of_nat i - ft_first f)) with i by lia. rewrite Ho. exact Hx.
Qed.

(** ** C18 *)
Definition obs_at f (frame : Z) : option (observe T) :=
  if ft_first f <=? frame then nth_error (ft_obs f) (Z.to_nat (frame - ft_first f)) else None.
Lemma get_norm_obs f frame cam : good_track f -> 0 <= frame < 4294967296 ->
  get_norm f frame cam = match obs_at f frame with Some o => o !! cam | None => None end.
Proof. intros. rewrite get_norm_char by assumption. unfold obs_at. destruct (_ <=? _); reflexivity. Qed.

Lemma final_exact f : good_track f -> final_frame f = ft_first f + Z.of_nat (length (ft_obs f)) - 1.
Proof. intros (Hn & H0 & Hl). unfold final_frame. apply u32_small. assert (length (ft_obs f) <> O) by (destruct (ft_obs f); simpl; congruence). lia. Qed.

Lemma shift_body frame f : 0 <= frame < 4294967296 -> good_track f ->
  exists fd, remove_frame_shift frame f = Ok fd /\
    (snd fd = true <-> ft_first f = frame /\ length (ft_obs f) = 1%nat) /\
    (snd fd = false -> good_track (fst fd)) /\
    ft_pw (fst fd) = ft_pw f /\ ft_status (fst fd) = ft_status f /\ ft_id (fst fd) = ft_id f /\
    (forall fr, 0 <= fr -> obs_at (fst fd) fr = obs_at f (if fr <? frame then fr else fr + 1)).
Proof.
  intros Hfr Hg. pose proof (final_exact f Hg) as Hfin. destruct Hg as (Hne & H0 & Hl).
  assert (length (ft_obs f) <> O) as HnO by (destruct (ft_obs f); simpl; congruence).
  unfold remove_frame_shift. rewrite Hfin.
  destruct (_ && _) eqn:Ec.
  - apply andb_true_iff in Ec as [Ea Eb]. apply Z.leb_le in Ea, Eb.
    destruct (Nat.eqb_spec (length (ft_obs f)) 1) as [E1|E1].
    + eexists; split; [reflexivity|]. cbn [fst snd ft_pw ft_status ft_id]. assert (ft_first f = frame) by lia.
      repeat split; auto; try discriminate. intros fr Hr. unfold obs_at; cbn [ft_first ft_obs].
      destruct (ft_obs f) as [|o [|]]; try discriminate. destruct (Z.ltb_spec fr frame).
      * rewrite !(proj2 (Z.leb_gt _ _)) by lia. reflexivity.
      * rewrite (proj2 (Z.leb_le (ft_first f) fr)) by lia. rewrite (proj2 (Z.leb_le (ft_first f) (fr + 1))) by lia.
        destruct (Z.to_nat (fr + 1 - ft_first f)) as [|[|k]] eqn:Ek; [lia| |]; destruct (Z.to_nat (fr - ft_first f)); reflexivity.
    + rewrite u32_small by lia. unfold at_. destruct (nth_error _ _) as [o|] eqn:En; [|apply nth_error_None in En; lia].
      cbn [obind]. eexists; split; [reflexivity|]. cbn [fst snd ft_pw ft_status ft_id].
      assert (length (erase_at (ft_obs f) (Z.to_nat (frame - ft_first f))) = (length (ft_obs f) - 1)%nat) as Hel by (apply erase_length; eapply nth_some_lt; eauto).
      split. { split; [discriminate|lia]. }
      split. { intros _. split; [|cbn [ft_first ft_obs]; rewrite Hel; lia]. cbn [ft_obs]. intros Hc. rewrite Hc in Hel. simpl in Hel. lia. }
      split; [reflexivity|]. split; [reflexivity|]. split; [reflexivity|].
      intros fr Hr. unfold obs_at; cbn [ft_first ft_obs]. destruct (Z.leb_spec (ft_first f) fr).
      * rewrite nth_erase by (eapply nth_some_lt; eauto). destruct (Z.ltb_spec fr frame).
        -- rewrite (proj2 (Nat.ltb_lt _ _)) by lia. rewrite (proj2 (Z.leb_le _ _)) by lia. reflexivity.
        -- rewrite (proj2 (Nat.ltb_ge _ _)) by lia. rewrite (proj2 (Z.leb_le _ _)) by lia. f_equal. lia.
      * rewrite (proj2 (Z.ltb_lt fr frame)) by lia. rewrite (proj2 (Z.leb_gt _ _)) by lia. reflexivity.
  - destruct (Z.ltb_spec frame (ft_first f)) as [Hlt|Hge].
    + eexists; split; [reflexivity|]. cbn [fst snd ft_pw ft_status ft_id]. rewrite u32_small by lia.
      split. { split; [discriminate|lia]. }
      split. { intros _. split; [exact Hne|]. cbn [ft_first ft_obs]. lia. }
      split; [reflexivity|]. split; [reflexivity|]. split; [reflexivity|].
      intros fr Hr. unfold obs_at; cbn [ft_first ft_obs]. destruct (Z.ltb_spec fr frame).
      * rewrite !(proj2 (Z.leb_gt _ _)) by lia. reflexivity.
      * destruct (Z.leb_spec (ft_first f - 1) fr).
        -- rewrite (proj2 (Z.leb_le _ _)) by lia. f_equal. lia.
        -- rewrite (proj2 (Z.leb_gt _ _)) by lia. reflexivity.
    + eexists; split; [reflexivity|]. cbn [fst snd].
      assert (ft_first f + Z.of_nat (length (ft_obs f)) <= frame) as Hout.
      { apply andb_false_iff in Ec as [Ec|Ec]; apply Z.leb_gt in Ec; lia. }
      split. { split; [discriminate|lia]. }
      split. { intros _. split; [exact Hne|]. lia. }
      split; [reflexivity|]. split; [reflexivity|]. split; [reflexivity|].
      intros fr Hr. destruct (Z.ltb_spec fr frame); [reflexivity|]. unfold obs_at.
      rewrite !(proj2 (Z.leb_le _ _)) by lia.
      rewrite (proj2 (nth_error_None _ _)) by lia. symmetry. apply nth_error_None. lia.
Qed.

Lemma head_body frame f : 0 <= frame < 4294967296 -> good_track f -> frame <= ft_first f ->
  exists fd, remove_frame_head frame f = Ok fd /\
    (snd fd = true <-> ft_first f = frame /\ length (ft_obs f) = 1%nat) /\
    (snd fd = false -> good_track (fst fd) /\ frame < ft_first (fst fd)) /\
    ft_pw (fst fd) = ft_pw f /\ ft_status (fst fd) = ft_status f /\ ft_id (fst fd) = ft_id f /\
    (forall fr, 0 <= fr -> obs_at (fst fd) fr = if fr =? frame then None else obs_at f fr).
Proof.
  intros Hfr (Hne & H0 & Hl) Hle.
  assert (length (ft_obs f) <> O) as HnO by (destruct (ft_obs f); simpl; congruence).
  unfold remove_frame_head. destruct (Z.eqb_spec (ft_first f) frame) as [E|E].
  - destruct (Nat.eqb_spec (length (ft_obs f)) 1) as [E1|E1].
    + eexists; split; [reflexivity|]. cbn [fst snd ft_pw ft_status ft_id].
      repeat split; auto; try discriminate. intros fr Hr. unfold obs_at; cbn [ft_first ft_obs].
      destruct (ft_obs f) as [|o [|]]; try discriminate.
      destruct (Z.leb_spec (ft_first f) fr).
      * destruct (Z.eqb_spec fr frame); [destruct (Z.to_nat _); reflexivity|].
        destruct (Z.to_nat (fr - ft_first f)) as [|[|k]] eqn:Ek; [lia| |]; reflexivity.
      * destruct (_ =? _); reflexivity.
    + unfold at_. destruct (nth_error (ft_obs f) 0) as [o|] eqn:En; [|apply nth_error_None in En; lia].
      cbn [obind]. eexists; split; [reflexivity|]. cbn [fst snd ft_pw ft_status ft_id ft_first ft_obs].
      assert (length (erase_at (ft_obs f) 0) = (length (ft_obs f) - 1)%nat) as Hel by (apply erase_length; lia).
      rewrite u32_small by lia.
      split. { split; [discriminate|lia]. }
      split. { intros _. split; [|lia]. split; [|cbn [ft_first ft_obs]; rewrite Hel; lia]. cbn [ft_obs]. intros Hc. rewrite Hc in Hel. simpl in Hel. lia. }
      split; [reflexivity|]. split; [reflexivity|]. split; [reflexivity|].
      intros fr Hr. unfold obs_at; cbn [ft_first ft_obs]. destruct (Z.eqb_spec fr frame) as [->|Hne'].
      * rewrite (proj2 (Z.leb_gt _ _)) by lia. reflexivity.
      * destruct (Z.leb_spec (ft_first f + 1) fr).
        -- rewrite (proj2 (Z.leb_le _ _)) by lia. rewrite nth_erase by lia. cbn [Nat.ltb Nat.leb]. f_equal. lia.
        -- rewrite (proj2 (Z.leb_gt _ _)) by lia. reflexivity.
  - eexists; split; [reflexivity|]. cbn [fst snd].
    split. { split; [discriminate|lia]. }
    split. { intros _. split; [split; [exact Hne|]; lia|lia]. }
    split; [reflexivity|]. split; [reflexivity|]. split; [reflexivity|].
    intros fr Hr. destruct (Z.eqb_spec fr frame) as [->|]; [|reflexivity]. unfold obs_at. rewrite (proj2 (Z.leb_gt _ _)) by lia. reflexivity.
Qed.

Lemma lookup_obs h m id fr cam : (forall i f, managed h m i = Some f -> good_track f) -> 0 <= fr < 4294967296 ->
  lookup_norm h m id fr cam = match managed h m id with Some f => match obs_at f fr with Some o => o !! cam | None => None end | None => None end.
Proof. intros HG Hf. unfold lookup_norm. destruct (managed h m id) as [f|] eqn:E; [|reflexivity]. apply get_norm_obs; eauto. Qed.

Lemma remove_frame_shift_exact ord frame h m : valid_order ord -> filed h m ->
  (forall id f, managed h m id = Some f -> good_track f) -> 0 <= frame < 4294967296 ->
  exists h' m', remove_by_frame ord frame true h m = Ok (h', m') /\
    (forall id fr cam, 0 <= fr < 4294967295 ->
       lookup_norm h' m' id fr cam = lookup_norm h m id (if fr <? frame then fr else fr + 1) cam) /\
    (forall id f, managed h m id = Some f ->
       (managed h' m' id = None <-> ft_first f = frame /\ length (ft_obs f) = 1%nat)) /\
    (forall id g, managed h' m' id = Some g ->
       exists f, managed h m id = Some f /\ ft_pw g = ft_pw f /\ ft_status g = ft_status f).
Proof.
  intros Ho F HG Hfr.
  destruct (remove_by_frame_spec ord frame true h m Ho F) as (h' & m' & E & F' & _ & _ & Hm).
  { intros id f Hf. destruct (shift_body frame f Hfr (HG _ _ Hf)) as (fd & Hfd & _). eauto. }
  exists h', m'. split; [exact E|].
  assert (forall id g, managed h' m' id = Some g -> good_track g) as HG'.
  { intros id g Hg. rewrite Hm in Hg. destruct (managed h m id) as [f|] eqn:Ef; [|discriminate].
    destruct (shift_body frame f Hfr (HG _ _ Ef)) as (fd & Hfd & _ & Hgt & _). unfold total_body, frame_body in Hg. rewrite Hfd in Hg.
    destruct (snd fd); [discriminate|]. injection Hg as <-. auto. }
  split; [|split].
  - intros id fr cam Hr. rewrite !lookup_obs; try assumption; [|destruct (fr <? frame); lia|lia]. rewrite Hm.
    destruct (managed h m id) as [f|] eqn:Ef; [|reflexivity].
    destruct (shift_body frame f Hfr (HG _ _ Ef)) as (fd & Hfd & Hdel & _ & _ & _ & _ & Hobs). unfold total_body, frame_body. rewrite Hfd. cbv zeta.
    destruct (snd fd) eqn:Es.
    + destruct (proj1 Hdel eq_refl) as [Ha Hb]. unfold obs_at. destruct (Z.ltb_spec fr frame).
      * rewrite (proj2 (Z.leb_gt _ _)) by lia. reflexivity.
      * rewrite (proj2 (Z.leb_le _ _)) by lia. rewrite (proj2 (nth_error_None _ _)) by lia. reflexivity.
    + rewrite Hobs by lia. reflexivity.
  - intros id f Ef. rewrite Hm, Ef. destruct (shift_body frame f Hfr (HG _ _ Ef)) as (fd & Hfd & Hdel & _).
    unfold total_body, frame_body. rewrite Hfd. cbv zeta. rewrite <- Hdel. destruct (snd fd); split; congruence.
  - intros id g Hg. rewrite Hm in Hg. destruct (managed h m id) as [f|] eqn:Ef; [|discriminate]. exists f. split; [reflexivity|].
    destruct (shift_body frame f Hfr (HG _ _ Ef)) as (fd & Hfd & _ & _ & Hp & Hs & _). unfold total_body, frame_body in Hg. rewrite Hfd in Hg.
    destruct (snd fd); [discriminate|]. injection Hg as <-. auto.
Qed.

Lemma remove_frame_head_exact ord frame h m : valid_order ord -> filed h m ->
  (forall id f, managed h m id = Some f -> good_track f) -> 0 <= frame < 4294967296 ->
  (forall id f, managed h m id = Some f -> frame <= ft_first f) ->
  exists h' m', remove_by_frame ord frame false h m = Ok (h', m') /\
    (forall id fr cam, 0 <= fr < 4294967296 ->
       lookup_norm h' m' id fr cam = if fr =? frame then None else lookup_norm h m id fr cam) /\
    (forall id f, managed h m id = Some f ->
       (managed h' m' id = None <-> ft_first f = frame /\ length (ft_obs f) = 1%nat)) /\
    (forall id g, managed h' m' id = Some g ->
       exists f, managed h m id = Some f /\ ft_pw g = ft_pw f /\ ft_status g = ft_status f).
Proof.
  intros Ho F HG Hfr Hold.
  destruct (remove_by_frame_spec ord frame false h m Ho F) as (h' & m' & E & F' & _ & _ & Hm).
  { intros id f Hf. destruct (head_body frame f Hfr (HG _ _ Hf) (Hold _ _ Hf)) as (fd & Hfd & _). eauto. }
  exists h', m'. split; [exact E|].
  assert (forall id g, managed h' m' id = Some g -> good_track g) as HG'.
  { intros id g Hg. rewrite Hm in Hg. destruct (managed h m id) as [f|] eqn:Ef; [|discriminate].
    destruct (head_body frame f Hfr (HG _ _ Ef) (Hold _ _ Ef)) as (fd & Hfd & _ & Hgt & _). unfold total_body, frame_body in Hg. rewrite Hfd in Hg.
    destruct (snd fd); [discriminate|]. injection Hg as <-. apply Hgt. reflexivity. }
  split; [|split].
  - intros id fr cam Hr. rewrite !lookup_obs by (assumption || lia). rewrite Hm.
    destruct (managed h m id) as [f|] eqn:Ef; [|destruct (_ =? _); reflexivity].
    destruct (head_body frame f Hfr (HG _ _ Ef) (Hold _ _ Ef)) as (fd & Hfd & Hdel & _ & _ & _ & _ & Hobs). unfold total_body, frame_body. rewrite Hfd. cbv zeta.
    destruct (snd fd) eqn:Es.
    + destruct (proj1 Hdel eq_refl) as [Ha Hb]. destruct (Z.eqb_spec fr frame); [reflexivity|]. unfold obs_at.
      destruct (Z.leb_spec (ft_first f) fr); [|reflexivity]. rewrite (proj2 (nth_error_None _ _)) by lia. reflexivity.
    + rewrite Hobs by lia. destruct (_ =? _); reflexivity.
  - intros id f Ef. rewrite Hm, Ef. destruct (head_body frame f Hfr (HG _ _ Ef) (Hold _ _ Ef)) as (fd & Hfd & Hdel & _).
    unfold total_body, frame_body. rewrite Hfd. cbv zeta. rewrite <- Hdel. destruct (snd fd); split; congruence.
  - intros id g Hg. rewrite Hm in Hg. destruct (managed h m id) as [f|] eqn:Ef; [|discriminate]. exists f. split; [reflexivity|].
    destruct (head_body frame f Hfr (HG _ _ Ef) (Hold _ _ Ef)) as (fd & Hfd & _ & _ & Hp & Hs & _). unfold total_body, frame_body in Hg. rewrite Hfd in Hg.
    destruct (snd fd); [discriminate|]. injection Hg as <-. auto.
Qed.

End FeatureFacts.
