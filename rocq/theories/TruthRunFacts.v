(** A filter that starts at the truth and is given exact data stays there, in every run (C84). *)
From Coq Require Import ZArith Reals List Bool Lia Lra Arith.
From stdpp Require Import gmap list.
From Verif Require Import Fp Scalar Base LinAlg Msg DataLoader FeatureManager FrameManager Window MathLib Attitude Propagator
  Triangulate Pnp VisionUpdate Backend WindowSpec QueueSpec UpdSpec GeoSpec BackendSpec MatFacts QuatFacts TriFacts PnpFacts FrameFacts FeatureFacts
  UpdCovFacts SafeFacts SelectFacts AttitudeFacts MotionFacts UnitFacts BackLenFacts BackDimFacts BlindFacts KalmanFacts DerivFacts UnitRunFacts InitSpec InitFacts TruthSpec TruthFacts.
Import ListNotations.
Local Open Scope R_scope.

(** ** Views of exact tracks *)
Lemma norder_in : forall (nord : observe R -> list (Z * v2 R)) ob cam z, valid_norder nord -> (In (cam, z) (nord ob) <-> ob !! cam = Some z).
Proof. intros nord ob cam z Hn. rewrite <- elem_of_list_In, (Hn ob). apply (elem_of_map_to_list (M := gmap Z) (ob : gmap Z (v2 R)) cam z). Qed.
Lemma get_frame_in : forall (fs : list (frame R)) id k f, get_frame fs id = Some k -> nth_error fs k = Some f -> In f fs /\ fr_id f = id.
Proof.
  intros fs id k f H Hk. unfold get_frame in H. destruct (front fs); [|discriminate]. destruct (back fs); [|discriminate]. destruct (_ || _)%bool; [discriminate|].
  pose proof (find_frame_spec fs id 0) as S. rewrite H in S. destruct S as (_ & g & Hg & Hid). rewrite Nat.sub_0_r, Hk in Hg. injection Hg as <-.
  split; [eapply nth_error_In; exact Hk|exact Hid].
Qed.
Lemma track_exact : forall nord exts fs first X, valid_norder nord -> List.Forall (fun e => qunit (ex_q e)) exts -> List.Forall (fun f => qunit (fr_q f)) fs ->
  forall obs i vs, (forall k ob f, nth_error obs k = Some ob -> In f fs -> fr_id f = u32 (i + Z.of_nat k + first) -> exact_obs exts (fr_q f) (fr_p f) X ob) ->
  track_views nord exts fs first i obs = Ok vs -> List.Forall unit_view vs /\ List.Forall (sees X) vs.
Proof.
  intros nord exts fs first X Hn He Hf. induction obs as [|ob obs IH]; intros i vs Hx H; cbn [track_views] in H; [injection H as <-; split; constructor|].
  binv H. binv H. binv H. binv H. injection H as <-. destruct (get_frame fs (u32 (i + first))) as [k|] eqn:Ek; [|discriminate]. injection E as <-.
  destruct (nth_error fs k) as [f|] eqn:Ef; [|discriminate]. injection E0 as <-. destruct (get_frame_in _ _ _ _ Ek Ef) as [Hin Hid].
  destruct (views_exact exts (fr_q f) (fr_p f) X (nord ob)) as (vs' & Ev & V1 & V2 & _); [rewrite List.Forall_forall in Hf; exact (Hf f Hin)|exact He| |].
  { intros cam z Hc. apply (norder_in nord ob cam z Hn) in Hc. apply (Hx 0%nat ob f eq_refl Hin); [|exact Hc]. rewrite Hid. f_equal. lia. }
  rewrite E1 in Ev. injection Ev as <-. destruct (IH (i + 1)%Z x2) as [W1 W2]; [|exact E2|].
  { intros k' ob' f' Hk Hi Hf'. apply (Hx (Datatypes.S k') ob' f' Hk Hi). rewrite Hf'. f_equal. lia. }
  split; apply List.Forall_app; split; assumption.
Qed.
Lemma track_member : forall nord exts fs first obs i vs, track_views nord exts fs first i obs = Ok vs -> vs <> [] ->
  exists ob f vs', In ob obs /\ In f fs /\ cam_views exts (fr_q f) (fr_p f) (nord ob) = Ok vs' /\ incl vs' vs.
Proof.
  intros nord exts fs first obs i vs H Hv. destruct obs as [|ob obs]; cbn [track_views] in H; [injection H as <-; destruct (Hv eq_refl)|].
  binv H. binv H. binv H. binv H. injection H as <-. destruct (get_frame fs (u32 (i + first))) as [k|] eqn:Ek; [|discriminate]. injection E as <-.
  destruct (nth_error fs k) as [f|] eqn:Ef; [|discriminate]. injection E0 as <-. exists ob, f, x1. split; [left; reflexivity|]. split; [eapply nth_error_In; exact Ef|]. split; [exact E1|].
  intros v Hin. apply in_or_app. left. exact Hin.
Qed.
Lemma image_obs : forall exts q p Y ob, exact_image exts Y ob -> exact_obs exts q p (v3add p (qrot q Y)) ob.
Proof.
  intros exts q p Y ob H cam z E. destruct (H cam z E) as (e & Ee & c & EY & Hc & Hz). exists e. split; [exact Ee|]. exists c. split; [rewrite EY; reflexivity|]. auto.
Qed.
Lemma body_sees_fun : forall e Y z z', qunit (ex_q e) -> body_sees e Y z -> body_sees e Y z' -> z = z'.
Proof.
  intros e Y z z' He (c & E & _ & ->) (c' & E' & _ & ->). rewrite E in E'.
  assert (G : forall x y w : v3 R, v3add w x = v3add w y -> x = y).
  { intros [x1 x2 x3] [y1 y2 y3] [z1 z2 z3] K. injection K as K1 K2 K3. cbn in K1, K2, K3. f_equal; lra. }
  apply G in E'. assert (c = c') as ->; [|reflexivity]. rewrite <- (qrot_inv_l (ex_q e) c He), <- (qrot_inv_l (ex_q e) c' He), E'. reflexivity.
Qed.
(** A solved point of a body at rest at (q, 0) lies on the line of sight of camera 0. *)
Lemma sight_of_view : forall exts q Y e z pw vs nord ob f vs', valid_norder nord -> qunit q -> List.Forall (fun e => qunit (ex_q e)) exts -> nth_error exts 0 = Some e ->
  exact_image exts Y ob -> is_Some (ob !! 0%Z) -> fr_q f = q -> fr_p f = v3zero -> cam_views exts (fr_q f) (fr_p f) (nord ob) = Ok vs' -> incl vs' vs ->
  List.Forall (fits pw) vs -> body_sees e Y z -> exists c, pw = qrot q (v3add (ex_p e) (qrot (ex_q e) c)) /\ v3x c = v2x z * v3z c /\ v3y c = v2y z * v3z c.
Proof.
  intros exts q Y e z pw vs nord ob f vs' Hn Hq He Ee Hi (z0 & Ez) Fq Fp Ev Hincl Hfit Hz.
  assert (Ue : qunit (ex_q e)) by (rewrite List.Forall_forall in He; exact (He e (nth_error_In _ _ Ee))).
  destruct (Hi 0%Z z0 Ez) as (e' & Ee' & Hs). change (Z.to_nat 0) with 0%nat in Ee'. rewrite Ee in Ee'. injection Ee' as <-. pose proof (body_sees_fun e Y z z0 Ue Hz Hs) as ->.
  rewrite Fq, Fp in Ev. destruct (views_exact exts q v3zero (v3add v3zero (qrot q Y)) (nord ob) Hq He) as (vs'' & Ev' & _ & _ & V3).
  { intros cam z Hc. apply (norder_in nord ob cam z Hn) in Hc. exact (image_obs exts q v3zero Y ob Hi cam z Hc). }
  rewrite Ev in Ev'. injection Ev' as <-. specialize (V3 0%Z z0 e (proj2 (norder_in nord ob 0%Z z0 Hn) Ez) Ee).
  rewrite List.Forall_forall in Hfit. destruct (Hfit _ (Hincl _ V3)) as (c & A & B & C). exists c. split; [|split; assumption]. rewrite A. unfold cam_q, cam_p.
  rewrite (qrot_mul q (ex_q e) c Hq Ue), qrot_add. destruct (qrot q (ex_p e)), (qrot q (qrot (ex_q e) c)). vring.
Qed.

(** ** Cells *)
(** What removing frames does to a track. *)
Definition shorter (f g : feature R) : Prop := ft_id g = ft_id f /\ ft_pw g = ft_pw f /\ ft_status g = ft_status f /\ incl (ft_obs g) (ft_obs f).
Lemma erase_incl : forall {A} (l : list A) i, incl (erase_at l i) l.
Proof. intros A l i x H. unfold erase_at in H. apply in_app_or in H as [H|H]; [eapply firstn_in; exact H|]. rewrite <- (firstn_skipn (Datatypes.S i) l). apply in_or_app. right. exact H. Qed.
Lemma shift_shorter : forall frame (f : feature R) x, remove_frame_shift frame f = Ok x -> shorter f (fst x).
Proof.
  intros frame f x H. unfold remove_frame_shift in H. repeat split; (destruct (_ && _)%bool; [destruct (Nat.eqb _ _); [injection H as <-|binv H; injection H as <-]|destruct (Z.ltb _ _); injection H as <-]); cbn; try reflexivity; try apply incl_refl; try (intros y []).
  apply erase_incl.
Qed.
Lemma head_shorter : forall frame (f : feature R) x, remove_frame_head frame f = Ok x -> shorter f (fst x).
Proof.
  intros frame f x H. unfold remove_frame_head in H. repeat split; (destruct (Z.eqb _ _); [destruct (Nat.eqb _ _); [injection H as <-|binv H; injection H as <-]|injection H as <-]); cbn; try reflexivity; try apply incl_refl; try (intros y []).
  apply (erase_incl (ft_obs f) 0).
Qed.
Section Cells.
Context (Q : feature R -> Prop) (HQ : forall f g, Q f -> shorter f g -> Q g).
Definition cells_ok (h : heap R) (mg : gmap Z nat) : Prop := filed h mg /\ forall p f, hp_cells h !! p = Some f -> Q f.
Lemma filed_set : forall (h : heap R) mg p f g, filed h mg -> hp_cells h !! p = Some f -> ft_id g = ft_id f -> filed (hset h p g) mg.
Proof.
  intros h mg p f g F Ef Eg id p' Hp. destruct (F id p' Hp) as (L & f' & Ef' & Hid). split; [exact L|]. cbn [hset hp_cells]. destruct (decide (p = p')) as [<-|N].
  - exists g. rewrite lookup_insert. split; [reflexivity|]. rewrite Ef in Ef'. injection Ef' as <-. congruence.
  - exists f'. rewrite lookup_insert_ne by exact N. auto.
Qed.
Lemma cells_set : forall h mg p f g, cells_ok h mg -> hp_cells h !! p = Some f -> ft_id g = ft_id f -> Q g -> cells_ok (hset h p g) mg.
Proof.
  intros h mg p f g (F & C) Ef Eg Hg. split; [eapply filed_set; eassumption|]. intros p' f' E. cbn [hset hp_cells] in E. destruct (decide (p = p')) as [<-|N].
  - rewrite lookup_insert in E. injection E as <-. exact Hg.
  - rewrite lookup_insert_ne in E by exact N. exact (C p' f' E).
Qed.
Lemma remove_loop_ok : forall body, (forall f x, body f = Ok x -> shorter f (fst x)) -> forall l h mg del h' del',
  cells_ok h mg -> remove_loop body l h del = Ok (h', del') -> cells_ok h' mg.
Proof.
  intros body Hb. induction l as [|[id p] l IH]; intros h mg del h' del' C H; cbn [remove_loop] in H; [injection H as <- <-; exact C|].
  unfold hget in H. destruct (hp_cells h !! p) as [f|] eqn:Ef; [|discriminate]. cbn [deref obind] in H. binv H. pose proof (Hb f x E) as S.
  refine (IH _ mg _ _ _ _ H). eapply cells_set; [exact C|exact Ef|exact (proj1 S)|]. eapply HQ; [|exact S]. exact (proj2 C p f Ef).
Qed.
Lemma filed_delete : forall (h : heap R) l mg, filed h mg -> filed h (fold_left (fun m' id => delete id m') l mg).
Proof.
  intros h. induction l as [|i l IH]; intros mg F; [exact F|]. cbn [fold_left]. apply IH. intros id p Hp. apply lookup_delete_Some in Hp as [_ Hp]. exact (F id p Hp).
Qed.
Lemma remove_by_frame_ok : forall ord frame off h mg h' mg', cells_ok h mg -> remove_by_frame ord frame off h mg = Ok (h', mg') -> cells_ok h' mg'.
Proof.
  intros ord frame off h mg h' mg' C H. unfold remove_by_frame in H. binv H. injection H as <- <-. destruct x as [h1 del]. cbn [fst snd].
  assert (C1 : cells_ok h1 mg).
  { refine (remove_loop_ok _ _ _ _ _ _ _ _ C E). destruct off; [apply shift_shorter|apply head_shorter]. }
  split; [apply filed_delete; exact (proj1 C1)|exact (proj2 C1)].
Qed.
Lemma marginalize_ok : forall ord (w w' : window R) p, cells_ok (wn_heap w) (wn_mgr w) -> marginalize ord w p = Ok w' -> cells_ok (wn_heap w') (wn_mgr w').
Proof.
  intros ord w w' p C H. unfold marginalize in H. destruct p; try (injection H as <-; exact C); binv H; binv H; injection H as <-; destruct x0 as [h mg]; eapply remove_by_frame_ok; eassumption.
Qed.
Lemma shrink_ok : forall fuel ord k (w w' : window R), cells_ok (wn_heap w) (wn_mgr w) -> shrink fuel ord k w = Ok w' -> cells_ok (wn_heap w') (wn_mgr w').
Proof.
  induction fuel as [|n IH]; intros ord k w w' C H; cbn [shrink] in H; destruct (Nat.ltb _ _); try (injection H as <-; exact C).
  binv H. eapply IH; [|exact H]. eapply marginalize_ok; eassumption.
Qed.
Lemma add_loop_ok : forall frame l h mg acc h' mg' acc', (forall id o, In (id, o) l -> Q (new_feature id frame o)) ->
  (forall f o, In (ft_id f, o) l -> Q f -> Q (add_observe f o)) -> cells_ok h mg -> add_features_loop l frame h mg acc = Ok (h', mg', acc') -> cells_ok h' mg'.
Proof.
  intros frame. induction l as [|[id o] l IH]; intros h mg acc h' mg' acc' Hnew Hadd C H; cbn [add_features_loop] in H; [injection H as <- <- _; exact C|].
  destruct (mg !! id) as [p|] eqn:Em.
  - destruct (proj1 C id p Em) as (_ & f & Ef & Hid). unfold hget in H. rewrite Ef in H. cbn [deref obind] in H.
    refine (IH _ _ _ _ _ _ _ _ _ H); [intros; apply Hnew; right; assumption|intros; apply Hadd; [right|]; assumption|].
    eapply cells_set; [exact C|exact Ef|apply add_observe_id|]. apply Hadd; [left; rewrite Hid; reflexivity|exact (proj2 C p f Ef)].
  - refine (IH _ _ _ _ _ _ _ _ _ H); [intros; apply Hnew; right; assumption|intros; apply Hadd; [right|]; assumption|]. split.
    + apply (filed_halloc h mg id (new_feature id frame o)); [exact (proj1 C)|reflexivity].
    + intros p f E. cbn [halloc hp_cells fst] in E. destruct (decide (hp_next h = p)) as [<-|N].
      * rewrite lookup_insert in E. injection E as <-. apply Hnew. left. reflexivity.
      * rewrite lookup_insert_ne in E by exact N. exact (proj2 C p f E).
Qed.
Lemma update_window_ok : forall (w w' : window R) m, (forall id frame o, In (id, o) (combine (fm_ids m) (fm_obs m)) -> Q (new_feature id frame o)) ->
  (forall f o, In (ft_id f, o) (combine (fm_ids m) (fm_obs m)) -> Q f -> Q (add_observe f o)) ->
  cells_ok (wn_heap w) (wn_mgr w) -> update_window w m = Ok w' -> cells_ok (wn_heap w') (wn_mgr w').
Proof.
  intros w w' m Hnew Hadd C H. unfold update_window in H. destruct (add_new_frame (wn_frames w) (new_frame (fm_ts m))) as [fs b]. binv H. binv H. destruct x0 as [[[h mg] ch] b0]. binv H. injection H as <-. cbn [wn_heap wn_mgr].
  unfold add_new_features in E0. destruct (negb _); [injection E0 as <- <- _ _; exact C|]. binv E0. destruct x1 as [[h1 mg1] acc]. injection E0 as <- <- _ _.
  eapply add_loop_ok; [| |exact C|exact E2]; [intros; apply Hnew; assumption|exact Hadd].
Qed.
End Cells.

(** ** Frames *)
Section FramesKept.
Context (P : frame R -> Prop) (Hid : forall f i, P f -> P (with_id f i)).
Lemma erase_at_P : forall l i, List.Forall P l -> List.Forall P (erase_at l i).
Proof. intros l i H. unfold erase_at. apply List.Forall_app. split; [apply Forall_take; exact H|apply Forall_drop; exact H]. Qed.
Lemma remove_frame_P : forall l k, List.Forall P l -> List.Forall P (fst (remove_frame l k)).
Proof.
  intros l k H. unfold remove_frame. destruct (_ <=? _)%Z; [exact H|]. cbn [fst]. apply erase_at_P. destruct (0 <? k)%Z; [|exact H].
  apply List.Forall_app. split; [apply Forall_take; exact H|]. apply List.Forall_map. apply (Forall_drop _ (Z.to_nat k)) in H.
  rewrite List.Forall_forall in H |- *. intros f Hin. apply Hid, H, Hin.
Qed.
Lemma marginalize_P : forall ord (w w' : window R) p, marginalize ord w p = Ok w' -> List.Forall P (wn_frames w) -> List.Forall P (wn_frames w').
Proof.
  intros ord w w' p H Hu. unfold marginalize in H. destruct p; try (injection H as <-; exact Hu); binv H; binv H; injection H as <-; apply remove_frame_P; exact Hu.
Qed.
End FramesKept.
Lemma update_window_frames : forall (w w' : window R) m, update_window w m = Ok w' -> exists f, wn_frames w' = wn_frames w ++ [f] /\
  ((wn_frames w = [] /\ fr_q f = qid) \/ exists l g, wn_frames w = l ++ [g] /\ fr_q f = fr_q g).
Proof.
  intros w w' m H. unfold update_window in H. destruct (add_new_frame (wn_frames w) (new_frame (fm_ts m))) as [fs b] eqn:Ef. binv H. binv H. destruct x0 as [[[h mg] ch] b0]. binv H. injection H as <-. cbn [wn_frames].
  unfold add_new_frame in Ef. injection Ef as <- _. rewrite FrameFacts.back_app in E. injection E as <-. unfold set_last. rewrite removelast_last. eexists. split; [reflexivity|]. cbn [with_feats fr_q].
  destruct (back_cases _ (wn_frames w)) as [[e Eb]|(l & y & e & Eb)]; rewrite Eb; [left; auto|right; exists l, y; auto].
Qed.
Lemma marg_oldest_len : forall ord (w w' : window R), (1 < length (wn_frames w))%nat -> marginalize ord w MargOldest = Ok w' -> length (wn_frames w') = (length (wn_frames w) - 1)%nat.
Proof.
  intros ord w w' Hl H. unfold marginalize in H. binv H. binv H. injection H as <-. cbn [wn_frames]. unfold remove_frame.
  destruct (Z.leb_spec (Z.of_nat (length (wn_frames w))) 0) as [L|L]; [lia|]. cbn [fst Z.ltb Z.compare Z.to_nat]. apply erase_length. lia.
Qed.
Lemma shrink_one : forall fuel ord k (w w' : window R), (length (wn_frames w) <= fuel)%nat -> shrink fuel ord k w = Ok w' -> (length (wn_frames w') <= 1)%nat.
Proof.
  induction fuel as [|n IH]; intros ord k w w' Hl H; cbn [shrink] in H; destruct (Nat.ltb_spec 1 (length (wn_frames w))) as [L|L]; try (injection H as <-; lia).
  binv H. eapply IH; [|exact H]. rewrite (marg_oldest_len _ _ _ L E). lia.
Qed.

(** ** A body at rest *)
Lemma half_twice : forall x : v3 R, v3scale (v3add x x) (1 / 2) = x.
Proof. intros []. vunf. apply v3_ext; rops; field. Qed.
Lemma sub_self : forall x : v3 R, v3sub x x = V3 0 0 0.
Proof. intros []. vring. Qed.
Lemma scale_zero : forall k : R, v3scale (V3 0 0 0) k = V3 0 0 0.
Proof. intros k. vring. Qed.
Lemma zero_zero : (v3zero : v3 R) = V3 0 0 0.
Proof. reflexivity. Qed.
Lemma rest_midpoint : forall grav ba bg q p a (it it' : pitem R), qunit q -> qrot q (v3sub a ba) = grav ->
  rest_item q p a bg it -> rest_item q p a bg it' -> midpoint grav ba bg it it'.
Proof.
  intros grav ba bg q p a it it' Hq Hg (E1 & E2 & E3) (F1 & F2 & F3). unfold midpoint. cbv zeta. rewrite E1, E2, E3, F1, F2, F3. cbn [mo_q mo_v mo_p].
  rewrite !half_twice, Hg, !sub_self, zero_zero, !scale_zero, !add_zero.
  split; [symmetry; exact (correct_zero q Hq)|]. split; reflexivity.
Qed.
Lemma rest_coherent : forall grav ba bg q p a (l : list (pitem R)), qunit q -> qrot q (v3sub a ba) = grav -> List.Forall (rest_item q p a bg) l -> coherent grav ba bg l.
Proof.
  intros grav ba bg q p a l Hq Hg. induction l as [|it [|it' l] IH]; intros H; [exact I|exact I|]. inversion H as [|? ? H1 H2]; subst. inversion H2 as [|? ? H3 H4]; subst.
  split; [eapply rest_midpoint; [exact Hq|reflexivity|exact H1|exact H3]|apply IH, H2].
Qed.
Lemma propagate_rest : forall grav n q p a ba bg (pq : pqueue R) t, qunit q -> qrot q (v3sub a ba) = grav -> pq_ba pq = ba -> pq_bg pq = bg ->
  List.Forall (rest_item q p a bg) (pq_items pq) -> (pq_items pq = [] -> pq_init pq = Motion p v3zero q) ->
  let pq' := pq_propagate grav n pq a bg t in pq_ba pq' = ba /\ pq_bg pq' = bg /\ pq_init pq' = pq_init pq /\ List.Forall (rest_item q p a bg) (pq_items pq') /\ pq_items pq' <> [].
Proof.
  intros grav n q p a ba bg pq t Hq Hg Hba Hbg Hr Hi pq'. subst pq'. unfold pq_propagate. destruct (back_cases _ (pq_items pq)) as [[e Eb]|(l & y & e & Eb)]; rewrite Eb.
  - cbn. split; [exact Hba|]. split; [exact Hbg|]. split; [reflexivity|]. rewrite e. split; [|discriminate]. constructor; [|constructor]. split; [cbn; auto|]. split; reflexivity.
  - rewrite e in Hr. pose proof Hr as Hr'. apply List.Forall_app in Hr' as [_ Hy]. assert (Ry : rest_item q p a bg y) by (inversion Hy; assumption).
    set (b := PItem (Motion p v3zero q) (mzero 0 0) (mzero 0 0) a bg t).
    pose proof (midpoint_nominal grav ba bg y b (rest_midpoint grav ba bg q p a y b Hq Hg Ry (conj eq_refl (conj eq_refl eq_refl)))) as N.
    unfold prop_item. rewrite Hba, Hbg. cbn [pi_a pi_g pi_ts pi_mo b] in N. destruct (nominal_step _ _ _ _ _ _ _ _ _) as [[m1 ma] mg]. cbn [fst] in N. subst m1. cbn. do 3 (split; [reflexivity|]).
    split; [|intros C; apply app_eq_nil in C as [_ C]; discriminate]. rewrite e. apply List.Forall_app. split; [exact Hr|]. constructor; [|constructor]. split; [reflexivity|]. split; reflexivity.
Qed.
Lemma rest_key : forall q p a g (l l' : list (pitem R)), map key l = map key l' -> List.Forall (rest_item q p a g) l' -> List.Forall (rest_item q p a g) l.
Proof.
  intros q p a g. induction l as [|x l IH]; intros [|y l'] E H; try discriminate; [constructor|]. inversion H as [|? ? (H1 & H2 & H3) H4]; subst. injection E as E1 E2 E3 E4 E5.
  constructor; [|exact (IH l' E5 H4)]. split; [congruence|]. split; congruence.
Qed.
Lemma rest_of_motion : forall q p (f : frame R), rest_frame q p f -> frame_of_motion f (Motion p v3zero q) = f.
Proof. intros q p [fe q1 p1 v1 i t] (A & B & C). cbn in *. subst. reflexivity. Qed.
Lemma filed_same : forall (h h' : heap R) mg, same_heap h h' -> filed h mg -> filed h' mg.
Proof.
  intros h h' mg (E & S) F id p Hp. destruct (F id p Hp) as (L & f & Ef & Hid). split; [rewrite E; exact L|]. destruct (S p f Ef) as (g & Eg & (T & _)). exists g. split; [exact Eg|congruence].
Qed.
Section Rest.
Context (Q : feature R -> Prop) (o : voracle R) (c : vcfg R) (exts : list (extrinsic R)) (Y : Z -> v3 R) (q : quat R) (p a ba bg : v3 R).
Context (Hs : exact_svd (vo_svd o)) (Hn : valid_norder (vo_nord o)) (Hq : qunit q) (Hg : qrot q (v3sub a ba) = vc_grav c) (He : List.Forall (fun e => qunit (ex_q e)) exts).
Context (Qx : forall f, Q f -> List.Forall (exact_image exts (Y (ft_id f))) (ft_obs f)).
Context (Qs : forall fs f g, List.Forall (rest_frame q p) fs -> Q f -> same_track f g -> (ft_status g = FSolved -> fitted o exts fs g) -> Q g).
Lemma rest_views : forall fs f, List.Forall (rest_frame q p) fs -> Q f -> exact_views o exts fs f.
Proof.
  intros fs f Hf HQ vs Ev. assert (U : List.Forall (fun f => qunit (fr_q f)) fs) by (eapply List.Forall_impl; [|exact Hf]; intros g (E & _); rewrite E; exact Hq).
  destruct (track_exact (vo_nord o) exts fs (ft_first f) (v3add p (qrot q (Y (ft_id f)))) Hn He U (ft_obs f) 0 vs) as [V1 V2]; [|exact Ev|eauto].
  intros k ob g Hk Hin _. rewrite List.Forall_forall in Hf. destruct (Hf g Hin) as (E1 & E2 & _). rewrite E1, E2. apply image_obs.
  specialize (Qx f HQ). rewrite List.Forall_forall in Qx. apply Qx. eapply nth_error_In. exact Hk.
Qed.
Lemma update_rest : forall s ts thr s' ok pol l f, vs_ext s = exts -> wn_frames (vs_win s) = l ++ [f] -> List.Forall (rest_frame q p) l -> qunit (fr_q f) ->
  pq_ba (vs_pq s) = ba -> pq_bg (vs_pq s) = bg -> List.Forall (rest_item q p a bg) (pq_items (vs_pq s)) -> cells_ok Q (wn_heap (vs_win s)) (wn_mgr (vs_win s)) ->
  vision_update o c s ts thr = Ok (s', ok, pol) ->
  vs_ext s' = exts /\ pq_ba (vs_pq s') = ba /\ pq_bg (vs_pq s') = bg /\ List.Forall (rest_item q p a bg) (pq_items (vs_pq s')) /\
  cells_ok Q (wn_heap (vs_win s')) (wn_mgr (vs_win s')) /\ (ok = true -> pq_items (vs_pq s') <> [] /\ List.Forall (rest_frame q p) (wn_frames (vs_win s'))).
Proof.
  intros s ts thr s' ok pol l f Ee Ew Hl Hf Hba Hbg Hi (F & C) H.
  assert (Sub : forall it r, left_of ts thr s it r -> List.Forall (rest_item q p a bg) (it :: r)).
  { intros it r L. destruct (origin_sub _ _ _ _ L) as [pre E]. rewrite E in Hi. apply List.Forall_app in Hi as [_ Hi]. exact Hi. }
  assert (New : forall it r fs', left_of ts thr s it r -> newest_at (wn_frames (vs_win s)) (pi_mo it) fs' -> List.Forall (rest_frame q p) fs').
  { intros it r fs' L (l' & f' & E1 & ->). rewrite Ew in E1. apply app_inj_tail in E1 as [<- <-]. apply List.Forall_app. split; [exact Hl|]. constructor; [|constructor].
    pose proof (Sub it r L) as K. assert (E : pi_mo it = Motion p v3zero q) by (inversion K as [|? ? KE]; exact (proj1 KE)). rewrite E. repeat split. }
  destruct (update_still o c s ts thr s' ok pol Q Hs) as (R1 & R2 & R3 & R4 & R5 & R6 & R7 & R8); [| | |exact C|exact H|].
  - split; [rewrite Ee; exact He|]. split.
    + rewrite Ew. apply List.Forall_app. split; [eapply List.Forall_impl; [|exact Hl]; intros g (E & _); rewrite E; exact Hq|constructor; [exact Hf|constructor]].
    + eapply List.Forall_impl; [|exact Hi]. intros it (E & _). rewrite E. exact Hq.
  - intros it r L. rewrite Hba, Hbg. eapply rest_coherent; [exact Hq|exact Hg|exact (Sub it r L)].
  - intros it r fs' L N. pose proof (New it r fs' L N) as Hr. pose proof (Sub it r L) as K. assert (E : pi_mo it = Motion p v3zero q) by (inversion K as [|? ? KE]; exact (proj1 KE)). rewrite E, Ee. split; [|split].
    + intros _ _ g _ Hg' _. apply rest_of_motion. rewrite List.Forall_forall in Hr. exact (Hr g Hg').
    + intros _ _ p' ft _ _ Ep. apply rest_views; [exact Hr|exact (C p' ft Ep)].
    + intros f1 g1. apply Qs. exact Hr.
  - rewrite R1, R2, R3. split; [exact Ee|]. split; [exact Hba|]. split; [exact Hbg|]. destruct R8 as [(-> & pre & E)|(-> & it & r & L & N & E)].
    + split; [rewrite E in Hi; apply List.Forall_app in Hi as [_ Hi]; exact Hi|]. split; [split; [rewrite R5; eapply filed_same; eassumption|exact R7]|discriminate].
    + split; [eapply rest_key; [exact E|exact (Sub it r L)]|]. split; [split; [rewrite R5; eapply filed_same; eassumption|exact R7]|]. intros _. split; [|exact (New it r _ L N)].
      intros C'. rewrite C' in E. discriminate.
Qed.
End Rest.

(** ** One update of a moving body *)
Lemma origin_from : forall ts thr (l l' : list (pitem R)), from_image ts thr l l' -> origin_loop ts thr l = Some l'.
Proof.
  intros ts thr l l' (pre & it & r & -> & -> & Hp & Hi). induction pre as [|x pre IH]; cbn [app origin_loop]; [rewrite Hi; reflexivity|].
  inversion Hp as [|? ? H1 H2]; subst. rewrite H1. exact (IH H2).
Qed.
Lemma update_moving : forall (o : voracle R) c (s s' : vstate R) ts thr pol it r fs' b,
  valid_order (vo_ord o) -> valid_norder (vo_nord o) -> exact_svd (vo_svd o) -> all_unit s -> consecutive b (wn_frames (vs_win s)) ->
  from_image ts thr (pq_items (vs_pq s)) (it :: r) -> coherent (vc_grav c) (pq_ba (vs_pq s)) (pq_bg (vs_pq s)) (it :: r) ->
  newest_at (wn_frames (vs_win s)) (pi_mo it) fs' ->
  (forall l f id p ft, wn_frames (vs_win s) = l ++ [f] -> fr_feats f !! id = Some p -> hp_cells (wn_heap (vs_win s)) !! p = Some ft -> exists X, exact_track (vs_ext s) fs' X ft) ->
  vision_update o c s ts thr = Ok (s', true, pol) ->
  vs_ext s' = vs_ext s /\ pq_ba (vs_pq s') = pq_ba (vs_pq s) /\ pq_bg (vs_pq s') = pq_bg (vs_pq s) /\ wn_frames (vs_win s') = fs' /\
  map (fun x => (pi_mo x, pi_a x, pi_g x, pi_ts x)) (pq_items (vs_pq s')) = map (fun x => (pi_mo x, pi_a x, pi_g x, pi_ts x)) (it :: r).
Proof.
  intros o c s s' ts thr pol it r fs' b Ho Hn Hs (He & Hf & Hi & Hq) Hc Hfrom Hcoh Hnew Hex H. pose proof (origin_from _ _ _ _ Hfrom) as Eo.
  assert (Det : forall it' r', left_of ts thr s it' r' -> it' = it /\ r' = r) by (intros it' r' L; unfold left_of in L; rewrite Eo in L; injection L as <- <-; auto).
  destruct Hnew as (l & f & Ew & Ef).
  assert (DetF : forall fs2, newest_at (wn_frames (vs_win s)) (pi_mo it) fs2 -> fs2 = fs').
  { intros fs2 (l2 & f2 & E2 & ->). rewrite Ew in E2. apply app_inj_tail in E2 as [<- <-]. symmetry. exact Ef. }
  assert (Uit : qunit (mo_q (pi_mo it))).
  { destruct Hfrom as (pre & it2 & r2 & E1 & E2 & _). injection E2 as <- <-. rewrite E1 in Hq. apply List.Forall_app in Hq as [_ Hq]. inversion Hq. assumption. }
  assert (Ufs : List.Forall (fun f => qunit (fr_q f)) fs').
  { rewrite Ef. rewrite Ew in Hf. apply List.Forall_app in Hf as [Hf _]. apply List.Forall_app. split; [exact Hf|]. constructor; [exact Uit|constructor]. }
  destruct (update_still o c s ts thr s' true pol (fun _ => True) Hs) as (R1 & R2 & R3 & _ & _ & _ & _ & [(C & _)|(_ & it' & r' & L & N & E)]); [| | | |exact H|discriminate|].
  - split; [exact He|]. split; [exact Hf|exact Hq].
  - intros it' r' L. destruct (Det it' r' L) as [-> ->]. exact Hcoh.
  - intros it' r' fs2 L N. destruct (Det it' r' L) as [-> ->]. pose proof (DetF fs2 N) as ->. split; [|split; [|auto]].
    + intros l2 f2 g E2 Hg Hid. assert (E3 : g = f2).
      { assert (Hc' : consecutive b fs').
        { rewrite Ew in Hc. rewrite Ef. intros i x Hx. destruct (Nat.lt_ge_cases i (length l)) as [Li|Li].
          - rewrite nth_error_app1 in Hx by exact Li. apply (Hc i x). rewrite nth_error_app1 by exact Li. exact Hx.
          - rewrite nth_error_app2 in Hx by exact Li. destruct (i - length l)%nat as [|k] eqn:Ek; [|destruct k; discriminate]. cbn in Hx. injection Hx as <-. cbn [fr_id].
            apply (Hc i f). rewrite nth_error_app2 by exact Li. rewrite Ek. reflexivity. }
        apply In_nth_error in Hg as [i Hi']. assert (Hj : nth_error fs' (length l2) = Some f2) by (rewrite E2, nth_error_app2, Nat.sub_diag by lia; reflexivity).
        pose proof (Hc' i g Hi') as A1. pose proof (Hc' _ f2 Hj) as A2. assert (i = length l2) by lia. subst i. rewrite Hj in Hi'. congruence. }
      subst g. rewrite Ef in E2. apply app_inj_tail in E2 as [_ <-]. reflexivity.
    + intros l2 f2 p ft E2 Hin Ep. rewrite Ew in E2. apply app_inj_tail in E2 as [<- <-]. apply in_map_iff in Hin as ([id p'] & E3 & Hin). cbn in E3. subst p'.
      apply (order_in _ _ _ _ Ho) in Hin. destruct (Hex l f id p ft Ew Hin Ep) as (X & HX). intros vs Ev.
      destruct (track_exact (vo_nord o) (vs_ext s) fs' (ft_first ft) X Hn He Ufs (ft_obs ft) 0 vs) as [V1 V2]; [|exact Ev|eauto].
      intros k ob g Hk Hg Hid. apply (HX k ob g Hk Hg). rewrite Hid. f_equal. lia.
  - auto.
  - destruct (Det it' r' L) as [-> ->]. split; [exact R1|]. split; [exact R2|]. split; [exact R3|]. split; [exact (DetF _ N)|].
    assert (K : forall x y : list (pitem R), map key x = map key y -> map (fun x => (pi_mo x, pi_a x, pi_g x, pi_ts x)) x = map (fun x => (pi_mo x, pi_a x, pi_g x, pi_ts x)) y).
    { induction x as [|x1 x IH]; intros [|y1 y] K; try discriminate; [reflexivity|]. injection K as K1 K2 K3 K4 K5. cbn [map]. rewrite K1, K2, K3, K4, (IH y K5). reflexivity. }
    exact (K _ _ E).
Qed.

(** ** Runs of an initialized back end *)
Section Loader.
Context (PI : imu_msg R -> Prop) (PF : feat_msg R -> Prop) (HI : forall m t, PI m -> PI (imu_set_ts m t)) (HF : forall m t, PF m -> PF (feat_set_ts m t)).
Definition load_ok (l : loader R) : Prop := List.Forall PI (dl_imu l) /\ List.Forall PF (dl_feat l).
Lemma push_imu_ok : forall s m, load_ok (b_dl s) -> PI m -> load_ok (b_dl (fst (b_imu s m))).
Proof.
  intros s m (H1 & H2) Hm. unfold b_imu, dl_push_imu. cbn. split; [|exact H2]. destruct (f64_ltb _ _); [|exact H1]. cbn. apply List.Forall_app. split; [exact H1|]. constructor; [apply HI, Hm|constructor].
Qed.
Lemma push_feat_ok : forall s m, load_ok (b_dl s) -> PF m -> load_ok (b_dl (fst (b_feat s m))).
Proof.
  intros s m (H1 & H2) Hm. unfold b_feat, dl_push_feat. destruct (negb _); [split; assumption|]. cbn. split; [exact H1|]. destruct (f64_ltb _ _); [|exact H2]. cbn. apply List.Forall_app. split; [exact H2|]. constructor; [apply HF, Hm|constructor].
Qed.
Lemma pop_ok : forall l l' m ok d, load_ok l -> dl_pop_one l = (l', m, ok, d) -> load_ok l' /\ List.Forall PI (cm_imu m) /\ forall f, cm_feat m = Some f -> PF f.
Proof.
  intros l l' m ok d (H1 & H2) H. unfold dl_pop_one in H. destruct (dl_imu l) as [|i li] eqn:Ei; destruct (dl_feat l) as [|f lf] eqn:Ef.
  - injection H as <- <- _ _. split; [split; [rewrite Ei|rewrite Ef]; constructor|]. split; [constructor|discriminate].
  - inversion H2 as [|? ? F1 F2]. injection H as <- <- _ _. split; [split; [constructor|assumption]|]. split; [constructor|]. cbn. intros g E. injection E as <-. assumption.
  - inversion H1 as [|? ? F1 F2]. injection H as <- <- _ _. split; [split; [assumption|constructor]|]. split; [repeat constructor; assumption|]. discriminate.
  - pose proof H1 as H1'. pose proof H2 as H2'. inversion H1 as [|? ? F1 F2]. inversion H2 as [|? ? F3 F4]. destruct (f64_leb _ _); [destruct (f64_ltb _ _)|]; injection H as <- <- _ _; cbn [dl_imu dl_feat cm_imu cm_feat];
    (split; [split; assumption|]); (split; [repeat constructor; assumption|]); try discriminate; intros g E; injection E as <-; assumption.
Qed.
End Loader.
Lemma sample_ts : forall a g m t, rest_sample a g m -> rest_sample a g (imu_set_ts m t).
Proof. intros a g m t H. exact H. Qed.
Lemma msg_ts : forall exts Y m t, exact_msg exts Y m -> exact_msg exts Y (feat_set_ts m t).
Proof. intros exts Y m t H. exact H. Qed.
Definition exact_ft (exts : list (extrinsic R)) (Y : Z -> v3 R) (f : feature R) : Prop := List.Forall (exact_image exts (Y (ft_id f))) (ft_obs f).
Lemma exact_shorter : forall exts Y f g, exact_ft exts Y f -> shorter f g -> exact_ft exts Y g.
Proof. intros exts Y f g H (E & _ & _ & I). unfold exact_ft in *. rewrite List.Forall_forall in *. rewrite E. intros ob Hin. apply H, I, Hin. Qed.
Lemma exact_new : forall exts Y m id frame o, exact_msg exts Y m -> In (id, o) (combine (fm_ids m) (fm_obs m)) -> exact_ft exts Y (new_feature id frame o).
Proof. intros exts Y m id frame o H Hin. constructor; [exact (H id o Hin)|constructor]. Qed.
Lemma exact_add : forall exts Y m f o, exact_msg exts Y m -> In (ft_id f, o) (combine (fm_ids m) (fm_obs m)) -> exact_ft exts Y f -> exact_ft exts Y (add_observe f o).
Proof.
  intros exts Y m f o H Hin Hf. unfold add_observe. destruct (Z.eqb _ _); [exact Hf|]. apply List.Forall_app. split; [exact Hf|]. constructor; [exact (H _ o Hin)|constructor].
Qed.
Lemma exact_track_same : forall exts Y f g, exact_ft exts Y f -> same_track f g -> exact_ft exts Y g.
Proof. intros exts Y f g H (E1 & _ & E2 & _). unfold exact_ft. rewrite E1, E2. exact H. Qed.
Lemma rest_id : forall q p (f : frame R) i, rest_frame q p f -> rest_frame q p (with_id f i).
Proof. intros q p f i H. exact H. Qed.

Lemma resting_step : forall c exts Y q p a ba bg op s s', resting (vc_grav c) exts Y q p a ba bg s -> rest_op exts Y a bg op -> b_status s = Initialized ->
  b_step c s op = Ok s' -> b_status s' = Initialized -> resting (vc_grav c) exts Y q p a ba bg s'.
Proof.
  intros c exts Y q p a ba bg op s s' H Hop Hst E Hst'. destruct H as [Hq Hg Hext Hexts (Hba & Hbg) (Hqu & Hne) Hfr Htr Hld].
  destruct op as [m|m|o| |]; cbn [b_step rest_op] in *.
  - injection E as <-. constructor; auto. exact (push_imu_ok _ (exact_msg exts Y) (sample_ts a bg) s m Hld Hop).
  - assert (Es : s' = fst (b_feat s m)) by congruence. subst s'. pose proof (push_feat_ok (rest_sample a bg) _ (msg_ts exts Y) s m Hld Hop) as L. unfold b_feat in *. destruct (dl_push_feat _ _ _) as [[[st l] m'] r]. constructor; auto.
  - destruct Hop as (Hn & Hs). binv E. injection E as <-. unfold run_once in E0. destruct (dl_pop_one (b_dl s)) as [[[l m] ok] d] eqn:Ep.
    destruct (pop_ok _ _ _ _ _ _ _ Hld Ep) as (L & Li & Lf). destruct ok; cbn [negb] in E0.
    2:{ injection E0 as <-. constructor; auto. }
    destruct (match cm_imu m with [] => (_, true) | i :: _ => imu_step c _ i end) as [s1 r1] eqn:E1.
    assert (R1 : resting (vc_grav c) exts Y q p a ba bg s1 /\ b_status s1 = Initialized).
    { destruct (cm_imu m) as [|i l0]; [injection E1 as <- _; split; [constructor; auto|exact Hst]|]. inversion Li as [|? ? (I1 & I2) _]. unfold imu_step in E1. destruct (att_propagate _ _ _ _ _) as [at' r].
      cbn [with_dl with_att b_status b_pq b_ext] in E1. rewrite Hst in E1. injection E1 as <- _. rewrite I1, I2.
      destruct (propagate_rest (vc_grav c) (length (b_ext s)) q p a ba bg (b_pq s) (im_ts i) Hq Hg Hba Hbg Hqu) as (P1 & P2 & _ & P3 & P4); [intros C; destruct (Hne C)|].
      split; [constructor; cbn; auto|exact Hst]. }
    destruct (cm_feat m) as [f|] eqn:Ef; [|injection E0 as <-; exact (proj1 R1)]. specialize (Lf f eq_refl). binv E0. injection E0 as <-. cbn [fst] in *. clear E1 L Li Hst Hext Hexts Hba Hbg Hqu Hne Hfr Htr Hld.
    destruct R1 as ([_ _ Hext Hexts (Hba & Hbg) (Hqu & Hne) Hfr Htr Hld] & Hst). unfold feat_step in E. binv E. binv E. binv E.
    unfold init_step in E1. cbn [with_win b_status] in E1. rewrite Hst in E1. injection E1 as <-.
    pose proof (update_window_ok (exact_ft exts Y) _ _ _ (fun id fr o' Hin => exact_new exts Y f id fr o' Lf Hin) (fun g o' Hin => exact_add exts Y f g o' Lf Hin) Htr E0) as Ck.
    destruct (update_window_frames _ _ _ E0) as (nf & Ew & Hnf).
    assert (Un : qunit (fr_q nf)).
    { destruct Hnf as [(_ & ->)|(l' & g & Eg & ->)]; [exact qid_unit|]. rewrite Eg in Hfr. apply List.Forall_app in Hfr as [_ Hfr]. inversion Hfr as [|? ? (G & _) _]. rewrite G. exact Hq. }
    unfold update_step in E2. cbn [with_win b_status] in E2. rewrite Hst in E2. binv E2. destruct x1 as [[v okv] pol]. cbn [with_win b_win b_ext b_pq b_dl] in E1.
    destruct (update_rest (exact_ft exts Y) (bo_vis o) c exts Y q p a ba bg Hs Hn Hq Hg Hexts (fun f H => H) (fun fs f g _ H S _ => exact_track_same exts Y f g H S)
      (VState x (b_ext s1) (b_pq s1)) _ _ _ _ _ _ _ Hext Ew Hfr Un Hba Hbg Hqu Ck E1) as (V1 & V2 & V3 & V4 & V5 & V6).
    assert (Sx : forall s2 s3 : bstate R, clean_step s2 = Ok s3 -> b_status s3 = b_status s2 /\ b_ext s3 = b_ext s2 /\ b_pq s3 = b_pq s2 /\ b_win s3 = b_win s2 /\ b_dl s3 = b_dl s2).
    { intros s2 s3 K. unfold clean_step in K. destruct (Nat.ltb _ _); [|injection K as <-; auto]. binv K. binv K. injection K as <-. auto. }
    destruct (Sx _ _ E) as (S1 & S2 & S3 & S4 & S5).
    destruct okv; [|binv E2; injection E2 as <-; rewrite S1 in Hst'; discriminate]. destruct (V6 eq_refl) as (V7 & V8). binv E2. injection E2 as <-. cbn in S2, S3, S4, S5.
    constructor; rewrite ?S2, ?S3, ?S4, ?S5; auto.
    + eapply marginalize_P; [apply rest_id|exact E3|exact V8].
    + eapply marginalize_ok; [apply exact_shorter|exact V5|exact E3].
  - injection E as <-. unfold run_once_test. destruct (dl_pop_one (b_dl s)) as [[[l m] ok] d] eqn:Ep. destruct (pop_ok _ _ _ _ _ _ _ Hld Ep) as (L & _). constructor; auto.
  - injection E as <-. discriminate.
Qed.
Theorem resting_run : forall c exts Y q p a ba bg ops s0 s, resting (vc_grav c) exts Y q p a ba bg s0 -> List.Forall (rest_op exts Y a bg) ops ->
  stays_initialized c s0 ops -> b_hist c s0 ops = Ok s -> resting (vc_grav c) exts Y q p a ba bg s.
Proof.
  intros c exts Y q p a ba bg. induction ops as [|op ops IH]; intros s0 s H Hop Hst E; cbn [b_hist] in E; [injection E as <-; exact H|].
  binv E. inversion Hop as [|? ? O1 O2]; subst. apply (IH x s); [|exact O2| |exact E].
  - refine (resting_step _ _ _ _ _ _ _ _ op s0 x H O1 (Hst [] (op :: ops) s0 eq_refl eq_refl) E0 (Hst [op] ops x eq_refl _)). cbn. rewrite E0. reflexivity.
  - intros pre post s1 Ep Ps. apply (Hst (op :: pre) post s1); [rewrite Ep; reflexivity|]. cbn. rewrite E0. exact Ps.
Qed.
Theorem resting_published : forall grav exts Y q p a ba bg s, resting grav exts Y q p a ba bg s ->
  exists t0 t1, b_publish_oldest s = Some (Motion p v3zero q, ba, bg, t0) /\ b_publish_newest s = Some (Motion p v3zero q, ba, bg, t1).
Proof.
  intros grav exts Y q p a ba bg s [_ _ _ _ (<- & <-) (Hqu & Hne) _ _ _]. unfold b_publish_newest, b_publish_oldest, pq_publish_newest, pq_publish_oldest.
  destruct (back_cases _ (pq_items (b_pq s))) as [[e Eb]|(k & y & e & Eb)]; [destruct (Hne e)|]. rewrite Eb. destruct (pq_items (b_pq s)) as [|x r]; [destruct (Hne eq_refl)|].
  assert (Hx : pi_mo x = Motion p v3zero q) by (inversion Hqu as [|? ? K]; exact (proj1 K)). rewrite e in Hqu. apply List.Forall_app in Hqu as [_ Hqu].
  assert (Hy : pi_mo y = Motion p v3zero q) by (inversion Hqu as [|? ? K]; exact (proj1 K)). exists (pi_ts x), (pi_ts y). unfold pq_publish. cbn [front]. rewrite Hx, Hy. split; reflexivity.
Qed.

(** ** Runs with new initializations *)
Section Settled.
Context (c : vcfg R) (exts : list (extrinsic R)) (Y : Z -> v3 R) (q : quat R) (a : v3 R).
Context (Hq : qunit q) (Hg : qrot q a = vc_grav c) (He : List.Forall (fun e => qunit (ex_q e)) exts).
Definition has_first (ob : observe R) : Prop := is_Some (ob !! 0%Z).
Definition sight_ft (f : feature R) : Prop := exact_ft exts Y f /\ List.Forall has_first (ft_obs f) /\
  (ft_status f = FSolved -> forall e, nth_error exts 0 = Some e -> on_sight e q (Y (ft_id f)) (ft_pw f)).
Lemma sight_shorter : forall f g, sight_ft f -> shorter f g -> sight_ft g.
Proof.
  intros f g (H1 & H2 & H3) S. pose proof S as (E1 & E2 & E3 & I). split; [eapply exact_shorter; eassumption|]. split; [|rewrite E1, E2, E3; exact H3].
  rewrite List.Forall_forall in *. intros ob Hin. apply H2, I, Hin.
Qed.
Lemma sight_new : forall m id frame o, exact_msg exts Y m -> first_camera m -> In (id, o) (combine (fm_ids m) (fm_obs m)) -> sight_ft (new_feature id frame o).
Proof.
  intros m id frame o H F Hin. split; [eapply exact_new; eassumption|]. split; [|discriminate]. constructor; [|constructor]. unfold first_camera in F. rewrite List.Forall_forall in F. apply F. eapply in_combine_r. exact Hin.
Qed.
Lemma sight_add : forall m f o, exact_msg exts Y m -> first_camera m -> In (ft_id f, o) (combine (fm_ids m) (fm_obs m)) -> sight_ft f -> sight_ft (add_observe f o).
Proof.
  intros m f o H F Hin (H1 & H2 & H3). split; [eapply exact_add; eassumption|]. unfold add_observe. destruct (Z.eqb _ _); [split; assumption|]. split; [|exact H3].
  apply List.Forall_app. split; [exact H2|]. constructor; [|constructor]. unfold first_camera in F. rewrite List.Forall_forall in F. apply F. eapply in_combine_r. exact Hin.
Qed.
Lemma sight_solved : forall o fs f g, valid_norder (vo_nord o) -> List.Forall (rest_frame q v3zero) fs -> sight_ft f -> same_track f g -> (ft_status g = FSolved -> fitted o exts fs g) -> sight_ft g.
Proof.
  intros o fs f g Hn Hf (H1 & H2 & _) S Hfit. split; [eapply exact_track_same; eassumption|]. pose proof S as (E1 & _ & E2 & _). split; [rewrite E2; exact H2|].
  intros Hs e Ee z Hz. destruct (Hfit Hs) as (vs & Ev & Hv & Ne). destruct (track_member _ _ _ _ _ _ _ Ev Ne) as (ob & fr & vs' & I1 & I2 & I3 & I4).
  rewrite E2 in I1. unfold exact_ft in H1. rewrite List.Forall_forall in H1, H2, Hf. destruct (Hf fr I2) as (F1 & F2 & _). rewrite E1 in Hz.
  eapply (sight_of_view exts q (Y (ft_id f)) e z (ft_pw g) vs (vo_nord o) ob fr vs' Hn Hq He Ee); try assumption; [exact (H1 ob I1)|exact (H2 ob I1)].
Qed.

(** The first frame. *)
Lemma tri_one_rest : forall o f h mg p h', valid_norder (vo_nord o) -> exact_svd (vo_svd o) -> fr_q f = q -> fr_p f = v3zero -> cells_ok sight_ft h mg -> tri_one o exts f h p = Ok h' -> cells_ok sight_ft h' mg.
Proof.
  intros o f h mg p h' Hn Hs Fq Fp C H. unfold tri_one, hget in H. destruct (hp_cells h !! p) as [ft|] eqn:Ef; [|discriminate]. cbn [deref obind] in H. binv H. binv H. unfold solve_feature in H.
  destruct (tri_analytic _ _ _ _ _) as [[b pw]|] eqn:Et; [|discriminate]. cbn [obind fst snd] in H. injection H as <-.
  pose proof (proj2 C p ft Ef) as (H1 & H2 & H3). assert (Hin : In x (ft_obs ft)) by (unfold at_ in E; destruct (nth_error _ _) eqn:En; [|discriminate]; injection E as <-; eapply nth_error_In; exact En).
  unfold exact_ft in H1. rewrite List.Forall_forall in H1, H2. pose proof (H1 x Hin) as Hx.
  eapply cells_set; [exact C|exact Ef|reflexivity|]. split; [unfold exact_ft; rewrite List.Forall_forall; exact H1|]. split; [rewrite List.Forall_forall; exact H2|]. cbn [ft_status ft_pw ft_id].
  destruct b; [|discriminate]. intros _ e Ee z Hz.
  destruct (views_exact exts (fr_q f) (fr_p f) (v3add v3zero (qrot q (Y (ft_id ft)))) (vo_nord o x)) as (vs & Ev & V1 & V2 & _); [rewrite Fq; exact Hq|exact He| |].
  { intros cam z' Hc. apply (norder_in _ x cam z' Hn) in Hc. rewrite Fq, Fp. exact (image_obs exts q v3zero _ x Hx cam z' Hc). }
  rewrite E0 in Ev. injection Ev as <-. destruct (tri_fits _ _ _ _ _ _ Hs V1 V2 Et) as (_ & T).
  eapply (sight_of_view exts q (Y (ft_id ft)) e z pw x0 (vo_nord o) x f x0 Hn Hq He Ee Hx (H2 x Hin) Fq Fp E0); [apply incl_refl|apply T; left; reflexivity|exact Hz].
Qed.
Lemma tri_loop_rest : forall o f mg, valid_norder (vo_nord o) -> exact_svd (vo_svd o) -> fr_q f = q -> fr_p f = v3zero -> forall l h h', cells_ok sight_ft h mg -> tri_loop o exts f l h = Ok h' -> cells_ok sight_ft h' mg.
Proof.
  intros o f mg Hn Hs Fq Fp. induction l as [|[id p] l IH]; intros h h' C H; cbn [tri_loop] in H; [injection H as <-; exact C|]. binv H. refine (IH _ _ _ H). eapply tri_one_rest; eassumption.
Qed.

(** The second pose. *)
Lemma accum_rest : forall w (qc : quat R) pc pts, qunit qc -> List.Forall (fun x : v3 R * v2 R => exists cc, at_camera qc pc (fst x) cc /\ v3x cc = v2x (snd x) * v3z cc /\ v3y cc = v2y (snd x) * v3z cc) pts ->
  forall acc i, me (snd acc) i 0%nat = 0 -> me (snd (fold_left (pnp_accum w qc pc) pts acc)) i 0%nat = 0.
Proof.
  intros w qc pc pts Hqc. induction pts as [|[pt obs] pts IH]; intros H acc i Ha; [exact Ha|]. inversion H as [|? ? (cc & C1 & C2 & C3) H2]; subst. cbn [fst snd] in C1, C2, C3.
  cbn [fold_left]. apply IH; [exact H2|]. unfold pnp_accum. destruct acc as [A b]. cbn [fst snd] in *.
  destruct (slt64 (sabs (v3z (pnp_pc qc pc pt))) d1em6) eqn:E; [exact Ha|].
  assert (Epc : pnp_pc qc pc pt = cc) by (unfold pnp_pc; exact (camera_of _ _ _ _ Hqc C1)).
  assert (Hz : v3z cc <> 0).
  { intros Z. apply not_true_iff_false in E. apply E. apply slt64_R. rewrite Epc, Z. cbn [sabs ops_R]. rewrite Rabs_R0, d1em6_val. lra. }
  assert (Er : pnp_res qc pc pt obs = V2 0 0).
  { unfold pnp_res. rewrite Epc. destruct obs as [ox oy], cc as [cx cy cz]. cbn in *. subst cx cy. unfold v2sub. f_equal; cbn; field; exact Hz. }
  rewrite Er. match goal with |- context [mmul (mopp (mtr ?J)) ?r] => set (db := mmul (mopp (mtr J)) r) end.
  assert (Hd : me db i 0%nat = 0) by (apply rsum_0; intros k _; cbn [me]; destruct k; cbn; ring).
  destruct w as [w|]; cbn [snd madd me sadd smul ops_R]; rewrite Ha, Hd; ring.
Qed.
Lemma loop_rest : forall ldlt w eps pts (qc : quat R) pc, qunit qc -> zero_solver ldlt ->
  List.Forall (fun x : v3 R * v2 R => exists cc, at_camera qc pc (fst x) cc /\ v3x cc = v2x (snd x) * v3z cc /\ v3y cc = v2y (snd x) * v3z cc) pts ->
  forall iter k, let r := pnp_loop ldlt w eps pts iter k qc pc in po_q r = qc /\ po_p r = pc.
Proof.
  intros ldlt w eps pts qc pc Hqc Hz Hp. induction iter as [|it IH]; intros k; cbn [pnp_loop]; [cbn; auto|].
  destruct (pnp_normal w qc pc pts) as [H b] eqn:N. cbn [sisnan ops_R].
  assert (Hb : forall i, me b i 0%nat = 0).
  { intros i. unfold pnp_normal in N. pose proof (accum_rest w qc pc pts Hqc Hp (mzero 6 6, mzero 6 1) i eq_refl) as K. rewrite N in K. exact K. }
  destruct (step_zero qc pc (ldlt H b) Hqc (Hz H b Hb)) as [-> ->]. destruct (sltb _ _); [cbn; auto|]. apply IH.
Qed.
Lemma points_rest : forall h mg f e, cells_ok sight_ft h mg -> nth_error exts 0 = Some e -> forall l pts, pose_points h f l = Ok pts ->
  List.Forall (fun x : v3 R * v2 R => exists cc, at_camera (cam_q q e) (cam_p q v3zero e) (fst x) cc /\ v3x cc = v2x (snd x) * v3z cc /\ v3y cc = v2y (snd x) * v3z cc) pts.
Proof.
  intros h mg f e C Ee. induction l as [|[id p] l IH]; intros pts H; cbn [pose_points] in H; [injection H as <-; constructor|].
  unfold hget in H. destruct (hp_cells h !! p) as [ft|] eqn:Ef; [|discriminate]. cbn [deref obind] in H. binv H. injection H as <-. specialize (IH _ E).
  destruct (ft_status ft) eqn:Es; try exact IH. destruct (get_norm ft (fr_id f) 0) as [z|] eqn:Ez; [|exact IH]. constructor; [|exact IH]. cbn [fst snd].
  destruct (proj2 C p ft Ef) as (H1 & _ & H3). unfold get_norm in Ez. destruct (Z.ltb (u32 _) _); [|discriminate]. destruct (nth_error (ft_obs ft) _) as [ob|] eqn:En; [|discriminate].
  unfold exact_ft in H1. rewrite List.Forall_forall in H1. destruct (H1 ob (nth_error_In _ _ En) 0%Z z Ez) as (e' & Ee' & Hz). change (Z.to_nat 0) with 0%nat in Ee'. rewrite Ee in Ee'. injection Ee' as <-.
  assert (Ue : qunit (ex_q e)) by (rewrite List.Forall_forall in He; exact (He e (nth_error_In _ _ Ee))).
  destruct (H3 Es e Ee z Hz) as (cc & C1 & C2 & C3). exists cc. split; [|split; assumption]. unfold at_camera, cam_q, cam_p. rewrite C1, (qrot_mul q (ex_q e) cc Hq Ue), qrot_add.
  destruct (qrot q (ex_p e)), (qrot q (qrot (ex_q e) cc)). vring.
Qed.
Lemma pose_rest : forall o h mg f r, zero_solver (bo_ldlt o) -> cells_ok sight_ft h mg -> fr_q f = q -> fr_p f = v3zero -> estimate_pose o exts h f = Ok (Some r) -> r = (q, v3zero).
Proof.
  intros o h mg f r Hz C Fq Fp H. unfold estimate_pose in H. binv H. destruct (Nat.ltb _ _); [discriminate|]. binv H. cbv zeta in H. unfold at_ in E0. destruct (nth_error exts 0) as [e|] eqn:Ee; [|discriminate]. injection E0 as <-.
  assert (Ue : qunit (ex_q e)) by (rewrite List.Forall_forall in He; exact (He e (nth_error_In _ _ Ee))). rewrite Fq, Fp in H.
  pose proof (points_rest h mg f e C Ee _ _ E) as Hp.
  assert (K : let r := pnp_kernel pnp_default (bo_ldlt o) (map fst x) (map snd x) (cam_q q e) (cam_p q v3zero e) in po_q r = cam_q q e /\ po_p r = cam_p q v3zero e).
  { unfold pnp_kernel. destruct (_ || _)%bool; [cbn; auto|]. rewrite combine_split_map. apply loop_rest; [exact (qmul_unit _ _ Hq Ue)|exact Hz|exact Hp]. }
  destruct K as [K1 K2]. destruct (po_ok _); [|discriminate]. injection H as <-. rewrite K1, K2. unfold cam_q.
  assert (M : qmul (qmul q (ex_q e)) (qinv (ex_q e)) = q) by (rewrite qmul_assoc, (qinv_unit _ Ue), (qmul_conj_r _ Ue); apply qmul_id_r). rewrite M. f_equal. unfold cam_p. destruct (qrot q (ex_p e)). vring.
Qed.

(** The attitude estimator. *)
Definition att_rest (st : att R) : Prop := at_ba st = v3zero /\ at_bg st = v3zero /\ at_err st = v3zero /\ List.Forall (fun it => ai_q it = q /\ ai_a it = a /\ ai_g it = v3zero) (at_items st) /\ at_items st <> [].
Lemma att_propagate_rest : forall st t, att_rest st -> att_rest (fst (att_propagate (vc_grav c) st a v3zero t)).
Proof.
  intros st t (B1 & B2 & B3 & B4 & B5). unfold att_propagate. destruct (back_cases _ (at_items st)) as [[e Eb]|(l & y & e & Eb)]; rewrite Eb; [destruct (B5 e)|].
  destruct (f64_ltb _ _); [repeat split; assumption|]. cbn [fst]. pose proof B4 as B4'. rewrite e in B4. apply List.Forall_app in B4 as [_ B4]. inversion B4 as [|? ? (Y1 & Y2 & Y3) _]. clear H H0.
  rewrite Y1, Y3, B1, B2, B3, <- Hg, (qrot_inv_l q a Hq).
  assert (Ec : v3cross (v3div a (v3norm a)) (v3div a (v3norm (qrot q a))) = V3 0 0 0).
  { generalize (v3norm a) (v3norm (qrot q a)). intros k k'. destruct a as [x1 x2 x3]. vunf. apply v3_ext; rops; unfold Rdiv; ring. }
  rewrite Ec, zero_zero, !scale_zero, !sub_self, !add_zero, ?scale_zero, ?add_zero, ?scale_zero. repeat split.
  - apply List.Forall_app. split; [exact B4'|]. constructor; [|constructor]. cbn [ai_q ai_a ai_g]. split; [|split; [destruct a; vring|reflexivity]].
    replace (v3scale (v3opp (V3 0 0 0)) _) with (V3 0 0 0) by (vring). exact (correct_zero q Hq).
  - cbn. intros C. apply app_eq_nil in C as [_ C]. discriminate.
Qed.
Lemma att_clean_rest : forall st t thr st', att_rest st -> att_clean st t thr = Ok st' -> att_rest st'.
Proof.
  intros st t thr st' (B1 & B2 & B3 & B4 & B5) H. destruct (BackSafeFacts.att_clean_inv _ _ _ _ H) as ((pre & E) & N & A1 & A2 & A3).
  split; [congruence|]. split; [congruence|]. split; [congruence|]. split; [rewrite E in B4; apply List.Forall_app in B4; apply B4|exact (N B5)].
Qed.
Lemma att_search_rest : forall ts thr l pre x, List.Forall (fun it : att_item R => ai_q it = q) l -> (forall it, pre = Some it -> ai_q it = q) -> att_search ts thr pre l = Ok (Some x) -> x = q.
Proof.
  intros ts thr. induction l as [|it l IH]; intros pre x Hu Hp H; cbn [att_search] in H; [discriminate|]. inversion Hu as [|? ? H1 H2]; subst.
  destruct (f64_leb _ _).
  - destruct pre as [p|]; [|discriminate]. cbv zeta in H. destruct (_ && _)%bool; [injection H as <-; auto|]. destruct (f64_ltb _ _); [injection H as <-; reflexivity|discriminate].
  - eapply IH; [exact H2| |exact H]. intros i e. injection e as <-. reflexivity.
Qed.
Lemma att_get_rest : forall st ts thr x, att_rest st -> att_get st ts thr = Ok (Some x) -> x = q.
Proof.
  intros st ts thr x (_ & _ & _ & B4 & _) H. assert (Hu : List.Forall (fun it : att_item R => ai_q it = q) (at_items st)) by (eapply List.Forall_impl; [|exact B4]; intros it (E & _); exact E). clear B4.
  unfold att_get in H. destruct (at_items st) as [|i0 l] eqn:E0; [discriminate|]. assert (Hall : forall x, In x (i0 :: l) -> ai_q x = q) by (apply List.Forall_forall; exact Hu).
  binv H. destruct (back_cases _ (i0 :: l)) as [[e Eb]|(k & y & e & Eb)]; rewrite Eb in E; [discriminate|]. injection E as <-.
  destruct (f64_leb _ _).
  - destruct (f64_ltb _ _); [|discriminate]. injection H as <-. apply Hall. rewrite e. apply in_or_app. right. left. reflexivity.
  - cbn [front obind] in H. destruct (_ && _)%bool.
    + destruct (f64_ltb _ _); [|discriminate]. injection H as <-. apply Hall. left. reflexivity.
    + eapply (att_search_rest ts thr _ None); [|intros it e0; discriminate e0|exact H]. apply List.Forall_rev. exact Hu.
Qed.
Lemma replay_rest : forall n l (pq : pqueue R), List.Forall (fun it => ai_q it = q /\ ai_a it = a /\ ai_g it = v3zero) l -> pq_ba pq = v3zero -> pq_bg pq = v3zero ->
  List.Forall (rest_item q v3zero a v3zero) (pq_items pq) -> pq_init pq = Motion v3zero v3zero q ->
  let pq' := replay (vc_grav c) n pq l in pq_ba pq' = v3zero /\ pq_bg pq' = v3zero /\ List.Forall (rest_item q v3zero a v3zero) (pq_items pq').
Proof.
  intros n. induction l as [|it l IH]; intros pq Hl Hba Hbg Hr Hi; [cbn; auto|]. inversion Hl as [|? ? (I1 & I2 & I3) L2]. cbn [replay fold_left]. rewrite I2, I3.
  assert (Hg0 : qrot q (v3sub a v3zero) = vc_grav c) by (rewrite v3sub_0; exact Hg).
  destruct (propagate_rest (vc_grav c) n q v3zero a v3zero v3zero pq (ai_ts it) Hq Hg0 Hba Hbg Hr (fun _ => Hi)) as (P1 & P2 & P3 & P4 & _). apply IH; [exact L2|exact P1|exact P2|exact P4|congruence].
Qed.
End Settled.
