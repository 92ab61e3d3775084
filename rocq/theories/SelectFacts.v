(** SelectGoodFeatures and TrianglizeMultiFrame. *)
From Coq Require Import Lia List Arith Bool ZArith.
From stdpp Require Import gmap.
From Verif Require Import Fp Scalar Base LinAlg Msg FeatureManager FrameManager Window MathLib Propagator Triangulate Pnp
  VisionUpdate WindowSpec UpdSpec.
Import ListNotations.
Local Open Scope nat_scope.

Section Select.
Context {T : Type} {S : SOps T}.

Lemma firstn_in : forall (A : Type) (l : list A) k x, In x (firstn k l) -> In x l.
Proof.
  intros A. induction l as [|y r IH]; intros [|k] x Hp; cbn in *; try contradiction.
  destruct Hp as [->|Hp]; [left; reflexivity|right; eapply IH; exact Hp].
Qed.
Lemma firstn_nodup : forall (A : Type) (l : list A) k, List.NoDup l -> List.NoDup (firstn k l).
Proof.
  intros A. induction l as [|y r IH]; intros [|k] H; cbn; try constructor.
  - inversion H as [|? ? H1 H2]; subst. intros Hin. apply H1. eapply firstn_in. exact Hin.
  - apply IH. inversion H; assumption.
Qed.

(** ** The score map *)
Lemma score_insert_in : forall k p l x, In x (score_insert k p l) -> x = (k, p) \/ In x l.
Proof.
  intros k p. induction l as [|[k' p'] l IH]; intros x H; cbn [score_insert] in H; [destruct H as [<-|[]]; auto|].
  destruct (f32_ltb k' k); [destruct H as [<-|H]; auto|]. destruct (f32_ltb k k'); [|auto].
  destruct H as [<-|H]; [right; left; reflexivity|]. destruct (IH x H); [auto|right; right; assumption].
Qed.
Lemma score_insert_nodup : forall k p l, ~ In p (map snd l) -> List.NoDup (map snd l) -> List.NoDup (map snd (score_insert k p l)).
Proof.
  intros k p. induction l as [|[k' p'] l IH]; intros Hp Hn; cbn [score_insert map snd] in *; [constructor; auto|].
  destruct (f32_ltb k' k); [cbn [map snd]; constructor; [exact Hp|exact Hn]|].
  destruct (f32_ltb k k'); [|exact Hn]. cbn [map snd]. inversion Hn as [|? ? H1 H2]; subst. constructor.
  - intros H. apply in_map_iff in H as (x & E & H). apply score_insert_in in H as [->|H].
    + cbn in E. apply Hp. left. symmetry. exact E.
    + apply H1. apply in_map_iff. exists x. auto.
  - apply IH; [intros H; apply Hp; right; exact H|exact H2].
Qed.
Lemma score_insert_keep : forall k p l, Forall (fun kp => (f32_ltb (fst kp) k || f32_ltb k (fst kp)) = true) l ->
  forall x, In x (score_insert k p l) <-> x = (k, p) \/ In x l.
Proof.
  intros k p l Hl x. split; [apply score_insert_in|]. revert Hl. induction l as [|[k' p'] l IH]; intros Hl H; cbn [score_insert].
  - destruct H as [->|[]]. left. reflexivity.
  - inversion Hl as [|? ? H1 H2]; subst. cbn [fst] in H1. destruct (f32_ltb k' k).
    + destruct H as [->|H]; [left; reflexivity|right; exact H].
    + cbn in H1. rewrite H1. destruct H as [->|[<-|H]]; [right; apply IH; auto|left; reflexivity|right; apply IH; auto].
Qed.

(** ** One triangulation *)
Lemma trianglize_spec : forall (o : voracle T) exts fs h p h' b, trianglize o exts fs h p = Ok (h', b) ->
  exists f g, hp_cells h !! p = Some f /\ h' = hset h p g /\ same_track f g /\ ft_status g = if b : bool then FSolved else FUnsolved.
Proof.
  intros o exts fs h p h' b H. unfold trianglize in H. unfold hget in H. destruct (hp_cells h !! p) as [f|] eqn:Ef; [|discriminate].
  cbn [deref obind] in H. destruct (track_views _ _ _ _ _ _) as [vs|]; [|discriminate]. cbn [obind] in H.
  unfold solve_feature in H. destruct (tri_analytic _ _ _ _ _) as [[b' pw]|]; [|discriminate]. cbn [obind fst snd] in H.
  injection H as <- <-. exists f. eexists. split; [reflexivity|]. split; [reflexivity|]. split; [repeat split|reflexivity].
Qed.

(** Triangulating changes nothing but position and status of the features. *)
Definition only_solved (h h' : heap T) (l : list nat) : Prop :=
  hp_next h' = hp_next h /\
  (forall p, ~ In p l -> hp_cells h' !! p = hp_cells h !! p) /\
  (forall p, In p l -> exists f g, hp_cells h !! p = Some f /\ hp_cells h' !! p = Some g /\ same_track f g /\
     (ft_status g = FSolved \/ ft_status g = FUnsolved)).

Lemma select_loop_spec : forall (o : voracle T) exts fs l pos h good h' good',
  List.NoDup (map snd l) -> (forall p, In p (map snd good) -> ~ In p (map snd l)) -> List.NoDup (map snd good) ->
  select_loop o exts fs l pos h good = Ok (h', good') ->
  only_solved h h' (map snd l) /\ List.NoDup (map snd good') /\
  (forall p, In p (map snd good') -> In p (map snd good) \/ (In p (map snd l) /\ solved h' p)).
Proof.
  intros o exts fs. induction l as [|[id p] l IH]; intros pos h good h' good' Hn Hd Hg H; cbn [select_loop] in H.
  - injection H as <- <-. split; [|split; [exact Hg|auto]]. split; [reflexivity|]. split; [reflexivity|]. intros p [].
  - cbn [map snd] in *. inversion Hn as [|? ? Hp Hn']; subst.
    destruct (trianglize o exts fs h p) as [[h1 b]|] eqn:Et; [|discriminate]. cbn [obind fst snd] in H.
    apply trianglize_spec in Et as (f & g & Ef & -> & Hs & Hst).
    assert (Hpg : ~ In p (map snd good)) by (intros Hin; apply (Hd p Hin); left; reflexivity).
    set (good1 := if b then score_insert (f32_of_Z (vo_rand o pos)) p good else good).
    assert (Hsel : exists pos', select_loop o exts fs l pos' (hset h p g) good1 = Ok (h', good')) by (destruct b; eauto).
    destruct Hsel as [pos' Hsel].
    assert (G1 : forall x, In x (map snd good1) -> x = p /\ b = true \/ In x (map snd good)).
    { intros x Hx. unfold good1 in Hx. destruct b; [|right; exact Hx]. apply in_map_iff in Hx as (y & <- & Hy).
      apply score_insert_in in Hy as [->|Hy]; [left; auto|right; apply in_map; exact Hy]. }
    destruct (IH pos' (hset h p g) good1 h' good') as ((A0 & A1 & A2) & B & C).
    + exact Hn'.
    + intros x Hx Hl. destruct (G1 x Hx) as [[-> _]|Hx']; [contradiction|]. apply (Hd x Hx'). right. exact Hl.
    + unfold good1. destruct b; [apply score_insert_nodup; assumption|exact Hg].
    + exact Hsel.
    + assert (Ep : hp_cells h' !! p = Some g) by (rewrite A1 by exact Hp; cbn; apply lookup_insert).
      split; [|split; [exact B|]].
      * split; [exact A0|]. split.
        -- intros x Hx. rewrite A1 by (intros Hl; apply Hx; right; exact Hl). cbn. apply lookup_insert_ne. intros ->. apply Hx. left. reflexivity.
        -- intros x [<-|Hx].
           ++ exists f, g. split; [exact Ef|]. split; [exact Ep|]. split; [exact Hs|]. destruct b; auto.
           ++ destruct (A2 x Hx) as (f' & g' & E1 & E2 & E3 & E4). exists f', g'. split; [|auto]. cbn in E1.
              rewrite lookup_insert_ne in E1; [exact E1|]. intros <-. contradiction.
      * intros x Hx. destruct (C x Hx) as [Hx'|[Hx' Hs']]; [|right; split; [right; exact Hx'|exact Hs']].
        destruct (G1 x Hx') as [[-> ->]|Hg']; [|left; exact Hg']. right. split; [left; reflexivity|]. exists g. auto.
Qed.

(** Without score collisions every solved feature is entered. *)
Lemma select_loop_all : forall (o : voracle T) exts fs l pos h good h' good' N,
  List.NoDup (map snd l) -> pos + length l <= N ->
  (forall i j, i < j < N -> (f32_ltb (f32_of_Z (vo_rand o i)) (f32_of_Z (vo_rand o j)) ||
     f32_ltb (f32_of_Z (vo_rand o j)) (f32_of_Z (vo_rand o i))) = true) ->
  (forall kp, In kp good -> exists i, i < pos /\ fst kp = f32_of_Z (vo_rand o i)) ->
  select_loop o exts fs l pos h good = Ok (h', good') ->
  (forall p, In p (map snd good) -> In p (map snd good')) /\
  (forall p, In p (map snd l) -> solved h' p -> In p (map snd good')).
Proof.
  intros o exts fs. induction l as [|[id p] l IH]; intros pos h good h' good' N Hn HN Hc Hk H; cbn [select_loop] in H.
  - injection H as <- <-. split; [auto|]. intros p [].
  - cbn [map snd length] in *. inversion Hn as [|? ? Hp Hn']; subst.
    destruct (trianglize o exts fs h p) as [[h1 b]|] eqn:Et; [|discriminate]. cbn [obind fst snd] in H.
    apply trianglize_spec in Et as (f & g & Ef & -> & Hs & Hst).
    destruct b.
    + set (k := f32_of_Z (vo_rand o pos)) in *.
      assert (Hsep : Forall (fun kp => (f32_ltb (fst kp) k || f32_ltb k (fst kp)) = true) good).
      { apply List.Forall_forall. intros kp Hin. destruct (Hk kp Hin) as (i & Hi & ->). apply Hc. lia. }
      destruct (IH (Datatypes.S pos) _ _ _ _ N Hn' ltac:(lia) Hc ltac:(
        intros kp Hin; apply score_insert_in in Hin as [->|Hin]; [exists pos; split; [lia|reflexivity]|
          destruct (Hk kp Hin) as (i & Hi & E); exists i; split; [lia|exact E]]) H) as [A B].
      split.
      * intros x Hx. apply A. apply in_map_iff in Hx as (y & <- & Hy). apply in_map. apply score_insert_keep; [exact Hsep|auto].
      * intros x [<-|Hx] Hsol; [|apply B; assumption]. apply A. apply in_map_iff. exists (k, p). split; [reflexivity|].
        apply score_insert_keep; [exact Hsep|auto].
    + destruct (IH pos _ _ _ _ N Hn' ltac:(lia) Hc Hk H) as [A B]. split; [exact A|].
      intros x [<-|Hx] Hsol; [|apply B; assumption]. exfalso.
      (* a feature whose triangulation failed is not solved afterwards *)
      clear - H Hsol Hp Hst. assert (Hc : hp_cells h' !! p = Some g).
      { assert (E : hp_cells (hset h p g) !! p = Some g) by apply lookup_insert. revert H E Hp. generalize (hset h p g) pos good.
        induction l as [|[i q] l IH]; intros h0 pos0 good0 H E Hp; cbn [select_loop] in H; [injection H as <- <-; exact E|].
        destruct (trianglize o exts fs h0 q) as [[h1 b]|] eqn:Et; [|discriminate]. cbn [obind fst snd] in H.
        apply trianglize_spec in Et as (f1 & g1 & _ & -> & _ & _). cbn [map snd In] in Hp.
        assert (E' : hp_cells (hset h0 q g1) !! p = Some g) by (cbn; rewrite lookup_insert_ne; [exact E|intros ->; apply Hp; left; reflexivity]).
        destruct b; eapply IH; try exact H; try exact E'; intros Hin; apply Hp; right; exact Hin. }
      destruct Hsol as (f' & Ef' & Es). congruence.
Qed.

(** C50 *)
Theorem selection_exact : forall (o : voracle T) c exts (fs : list (frame T)) h nf h' l,
  valid_order (vo_ord o) -> back fs = Ok nf ->
  (forall i j p, fr_feats nf !! i = Some p -> fr_feats nf !! j = Some p -> i = j) ->
  select_good o c exts fs h = Ok (h', l) ->
  let linked p := exists id, fr_feats nf !! id = Some p in
  List.NoDup l /\ length l <= Z.to_nat (vc_maxfeat c) /\
  (forall p, In p l -> linked p /\ solved h' p) /\
  (* nothing else changes *)
  hp_next h' = hp_next h /\ (forall p, ~ linked p -> hp_cells h' !! p = hp_cells h !! p) /\
  (forall p, linked p -> exists f g, hp_cells h !! p = Some f /\ hp_cells h' !! p = Some g /\ same_track f g) /\
  (* all are used when they fit and the scores differ *)
  ((forall i j, i < j < size (fr_feats nf) -> (f32_ltb (f32_of_Z (vo_rand o i)) (f32_of_Z (vo_rand o j)) ||
     f32_ltb (f32_of_Z (vo_rand o j)) (f32_of_Z (vo_rand o i))) = true) ->
   size (fr_feats nf) <= Z.to_nat (vc_maxfeat c) -> forall p, linked p -> solved h' p -> In p l).
Proof.
  intros o c exts fs h nf h' l Ho Hb Hinj H linked. unfold select_good in H. rewrite Hb in H. cbn [obind] in H.
  destruct (select_loop _ _ _ _ _ _ _) as [[h1 good]|] eqn:E; [|discriminate]. cbn [obind fst snd] in H. injection H as <- <-.
  pose proof (Ho (fr_feats nf)) as Hperm.
  assert (Hlink : forall p, In p (map snd (vo_ord o (fr_feats nf))) <-> linked p).
  { intros p. unfold linked. rewrite in_map_iff. split.
    - intros ([id q] & <- & Hin). exists id. apply elem_of_list_In in Hin. rewrite Hperm in Hin. apply elem_of_map_to_list in Hin. exact Hin.
    - intros [id Hid]. exists (id, p). split; [reflexivity|]. apply elem_of_list_In. rewrite Hperm. apply elem_of_map_to_list. exact Hid. }
  assert (Hnd : List.NoDup (map snd (vo_ord o (fr_feats nf)))).
  { apply NoDup_ListNoDup. rewrite Hperm. apply NoDup_fmap_2_strong; [|apply NoDup_map_to_list].
    intros [a p] [b q] Ha Hb' Eq. cbn [snd] in Eq. subst q. apply elem_of_map_to_list in Ha, Hb'. rewrite (Hinj a b p Ha Hb'). reflexivity. }
  assert (Hlen : length (vo_ord o (fr_feats nf)) = size (fr_feats nf)) by (rewrite (Permutation_length Hperm); reflexivity).
  destruct (select_loop_spec o exts fs _ 0 h [] h1 good Hnd ltac:(intros p []) ltac:(constructor) E) as ((A0 & A1 & A2) & B & C).
  split; [apply firstn_nodup; exact B|].
  split; [rewrite firstn_length; lia|].
  assert (Hin : forall p, In p (firstn (Z.to_nat (vc_maxfeat c)) (map snd good)) -> In p (map snd good)).
  { intros p. apply firstn_in. }
  split. { intros p Hp. destruct (C p (Hin p Hp)) as [[]|[Hl Hs]]. split; [apply Hlink; exact Hl|exact Hs]. }
  split; [exact A0|]. split; [intros p Hp; apply A1; intros Hl; apply Hp, Hlink; exact Hl|].
  split. { intros p Hp. destruct (A2 p (proj2 (Hlink p) Hp)) as (f & g & E1 & E2 & E3 & _). exists f, g. auto. }
  intros Hcol Hmax p Hp Hs.
  destruct (select_loop_all o exts fs _ 0 h [] h1 good (size (fr_feats nf)) Hnd ltac:(lia) Hcol ltac:(intros kp []) E) as [_ D].
  assert (Hg : length (map snd good) <= Z.to_nat (vc_maxfeat c)).
  { etransitivity; [|exact Hmax]. rewrite <- Hlen. rewrite <- (map_length snd (vo_ord o (fr_feats nf))).
    apply List.NoDup_incl_length; [exact B|]. intros x Hx. destruct (C x Hx) as [[]|[Hl _]]. exact Hl. }
  rewrite firstn_all2 by exact Hg. apply D; [apply Hlink; exact Hp|exact Hs].
Qed.
End Select.
