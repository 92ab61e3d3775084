(** The vision update runs without undefined behaviour on well-formed tracks. *)
From Coq Require Import ZArith List Bool Lia Arith.
From stdpp Require Import gmap list.
From Verif Require Import Fp Scalar Base LinAlg Msg FeatureManager FrameManager Window MathLib Propagator
  Triangulate Pnp VisionUpdate WindowSpec QueueSpec UpdSpec FrameFacts FeatureFacts WindowFacts UpdCovFacts MeasFacts
  SelectFacts BackLenFacts.
Import ListNotations.
Local Open Scope nat_scope.

Section Safe.
Context {T : Type} {S : SOps T}.

(** ** Heaps that differ only in estimates *)
Definition same_heap (h h' : heap T) : Prop :=
  hp_next h' = hp_next h /\ forall p f, hp_cells h !! p = Some f -> exists g, hp_cells h' !! p = Some g /\ same_track f g.
Definition same_frame (f g : frame T) : Prop := fr_id g = fr_id f /\ fr_ts g = fr_ts f /\ fr_feats g = fr_feats f.
Definition same_win (w w' : window T) : Prop :=
  same_heap (wn_heap w) (wn_heap w') /\ wn_mgr w' = wn_mgr w /\ Forall2 same_frame (wn_frames w) (wn_frames w').

Lemma same_track_refl : forall f : feature T, same_track f f.
Proof. intros f. repeat split. Qed.
Lemma same_track_trans : forall f g k : feature T, same_track f g -> same_track g k -> same_track f k.
Proof. intros f g k (a & b & c & d) (a' & b' & c' & d'). repeat split; congruence. Qed.
Lemma same_heap_refl : forall h, same_heap h h.
Proof. intros h. split; [reflexivity|]. eauto using same_track_refl. Qed.
Lemma same_heap_trans : forall h1 h2 h3, same_heap h1 h2 -> same_heap h2 h3 -> same_heap h1 h3.
Proof.
  intros h1 h2 h3 [A B] [C D]. split; [congruence|]. intros p f H. destruct (B p f H) as (g & G & Sg).
  destruct (D p g G) as (k & K & Sk). eauto using same_track_trans.
Qed.
Lemma same_heap_set : forall h p f g, hp_cells h !! p = Some f -> same_track f g -> same_heap h (hset h p g).
Proof.
  intros h p f g H Sg. split; [reflexivity|]. intros q k K. unfold hset. cbn [hp_cells]. destruct (decide (q = p)) as [->|n].
  - rewrite lookup_insert. assert (k = f) by congruence. subst k. eauto.
  - rewrite lookup_insert_ne by congruence. eauto using same_track_refl.
Qed.
Lemma same_frame_refl : forall f, same_frame f f.
Proof. intros f. repeat split. Qed.
Lemma same_frames_refl : forall l, Forall2 same_frame l l.
Proof. induction l; constructor; auto using same_frame_refl. Qed.
Lemma same_win_refl : forall w, same_win w w.
Proof. intros w. split; [apply same_heap_refl|]. split; [reflexivity|apply same_frames_refl]. Qed.
Lemma same_win_trans : forall a b c, same_win a b -> same_win b c -> same_win a c.
Proof.
  intros a b c (A1 & A2 & A3) (B1 & B2 & B3). split; [eapply same_heap_trans; eassumption|]. split; [congruence|].
  revert B3. generalize (wn_frames c). induction A3 as [|x y l l' H1 H2 IH]; intros r H; inversion H as [|? z ? ? Hz Hr]; subst; constructor; auto.
  destruct H1 as (p1 & p2 & p3), Hz as (q1 & q2 & q3). repeat split; congruence.
Qed.

Lemma same_frames_nth : forall l l' i f', Forall2 same_frame l l' -> nth_error l' i = Some f' -> exists f, nth_error l i = Some f /\ same_frame f f'.
Proof.
  intros l l' i f' H. revert i. induction H as [|x y a b H1 H2 IH]; intros i E; [destruct i; discriminate|].
  destruct i as [|i]; cbn [nth_error] in *; [injection E as <-; eauto|eauto].
Qed.
Lemma same_heap_managed : forall h h' (mg : gmap Z nat) id f, same_heap h h' -> managed h mg id = Some f ->
  exists g, managed h' mg id = Some g /\ same_track f g.
Proof. intros h h' mg id f [_ H] M. unfold managed in *. destruct (mg !! id); [|discriminate]. eauto. Qed.
Lemma same_heap_managed' : forall h h' (mg : gmap Z nat) id g, filed h mg -> same_heap h h' -> managed h' mg id = Some g ->
  exists f, managed h mg id = Some f /\ same_track f g.
Proof.
  intros h h' mg id g F [_ H] M. unfold managed in *. destruct (mg !! id) as [p|] eqn:E; [|discriminate].
  destruct (F id p E) as (_ & f & Hf & _). exists f. split; [exact Hf|]. destruct (H p f Hf) as (g' & G & Sg). congruence.
Qed.

Lemma winv_same : forall b A w w', WInv b A w -> same_win w w' -> WInv b A w'.
Proof.
  intros b A w w' I (Hh & Hm & Hf). destruct I as [If Ib Il Ii It Ik Ir Io]. constructor.
  - rewrite Hm. intros id p E. destruct (If id p E) as (L & f & C & D). destruct Hh as [Hn Hc]. rewrite Hn. split; [exact L|].
    destruct (Hc p f C) as (g & G & Sg). exists g. split; [exact G|]. destruct Sg as (-> & _). exact D.
  - exact Ib.
  - rewrite <- Il. symmetry. eapply Forall2_length; eassumption.
  - intros i f E. destruct (same_frames_nth _ _ _ _ Hf E) as (f0 & E0 & e & _). rewrite e. exact (Ii i f0 E0).
  - intros i f m E Em. destruct (same_frames_nth _ _ _ _ Hf E) as (f0 & E0 & _ & e & _). rewrite e. exact (It i f0 m E0 Em).
  - intros i f m id E Em. destruct (same_frames_nth _ _ _ _ Hf E) as (f0 & E0 & _ & _ & e). rewrite e, Hm. exact (Ik i f0 m id E0 Em).
  - intros id f M. unfold win_managed in *. rewrite Hm in M. destruct (same_heap_managed' _ _ _ _ _ If Hh M) as (g & G & _ & Sb & Sc & _).
    rewrite Sb, Sc. exact (Ir id g G).
  - intros id i m Em. rewrite (Io id i m Em). unfold win_managed. rewrite Hm.
    destruct (managed (wn_heap w) (wn_mgr w) id) as [f|] eqn:M.
    + destruct (same_heap_managed _ _ _ _ _ Hh M) as (g & -> & _ & Sb & Sc & _). unfold obs_at. rewrite Sb, Sc. reflexivity.
    + destruct (managed (wn_heap w') (wn_mgr w) id) as [g|] eqn:M'; [|reflexivity].
      destruct (same_heap_managed' _ _ _ _ _ If Hh M') as (f & F & _). congruence.
Qed.

(** ** Observation counts *)
Definition nums_ok (w : window T) : Prop := forall id f, win_managed w id = Some f -> num_ok f.
Lemma nums_same : forall w w', filed (wn_heap w) (wn_mgr w) -> nums_ok w -> same_win w w' -> nums_ok w'.
Proof.
  intros w w' F H (Hh & Hm & _) id g M. unfold win_managed in M. rewrite Hm in M.
  destruct (same_heap_managed' _ _ _ _ _ F Hh M) as (f & E & _ & Sb & Sc & Sd). specialize (H id f E).
  unfold num_ok in *. rewrite Sb, Sc, Sd. exact H.
Qed.
Lemma nums_update : forall w m w', filed (wn_heap w) (wn_mgr w) -> (forall f, back (wn_frames w) = Ok f -> (0 <= fr_id f < 4294967296)%Z) ->
  nums_ok w -> update_window w m = Ok w' -> nums_ok w'.
Proof.
  intros w m w' F Hid H E. unfold update_window in E.
  destruct (add_new_frame_spec (wn_frames w) (new_frame (fm_ts m))) as (nf & En & _ & N1 & N2).
  destruct (add_new_frame _ _) as [fs b]. cbn [fst] in En. subst fs. rewrite back_app in E. cbn [obind] in E. binv E.
  destruct x as [[[h mg] ch] bb]. binv E. injection E as <-. unfold nums_ok, win_managed. cbn [wn_heap wn_mgr].
  assert (Hn : (0 <= fr_id nf < 4294967296)%Z).
  { destruct (wn_frames w) as [|f0 r] eqn:Ef; [destruct (N1 eq_refl) as [-> _]; lia|].
    destruct (back_ex (f0 :: r)) as [y Hy]; [discriminate|]. destruct (N2 y Hy) as [-> _]. apply u32_range. }
  unfold add_new_features in E0. destruct (negb _).
  - injection E0 as <- <- <- <-. exact H.
  - binv E0. injection E0 as -> _. destruct (add_loop_inv num_ok (fr_id nf) num_ok_add (fun id o => num_ok_new id (fr_id nf) o Hn)
      (combine (fm_ids m) (fm_obs m)) (wn_heap w) (wn_mgr w) [] F H) as (h' & m' & a' & E1' & _ & HP).
    assert (Ex : (h, mg, ch) = (h', m', a')) by congruence. injection Ex as -> -> ->. exact HP.
Qed.
Lemma nums_remove : forall ord frame off (h : heap T) (mg : gmap Z nat) h' mg', valid_order ord -> (0 <= frame < 4294967296)%Z -> filed h mg ->
  (forall id f, managed h mg id = Some f -> num_ok f) -> remove_by_frame ord frame off h mg = Ok (h', mg') ->
  forall id (f : feature T), managed h' mg' id = Some f -> num_ok f.
Proof.
  intros ord frame off h mg h' mg' Ho Hf F H E id f M.
  destruct (remove_by_frame_spec ord frame off h mg Ho F) as (h2 & m2 & E2 & _ & _ & _ & Hm).
  { intros i g G. destruct (body_ok frame off g Hf (H i g G)) as (fd & B & _). eauto. }
  assert (Ex : (h2, m2) = (h', mg')) by congruence. injection Ex as -> ->.
  rewrite Hm in M. destruct (managed h mg id) as [g|] eqn:G; [|discriminate].
  destruct (body_ok frame off g Hf (H id g G)) as (fd & B & Hb). unfold total_body in M. rewrite B in M.
  destruct (snd fd) eqn:Es; [discriminate|]. injection M as <-. auto.
Qed.
Lemma nums_marg : forall ord w p w', valid_order ord -> filed (wn_heap w) (wn_mgr w) ->
  (forall f, In f (wn_frames w) -> (0 <= fr_id f < 4294967296)%Z) -> nums_ok w -> marginalize ord w p = Ok w' -> nums_ok w'.
Proof.
  intros ord w p w' Ho F Hid H E. unfold marginalize in E. destruct p.
  - destruct (wn_frames w) as [|f0 r] eqn:Ef; [discriminate|]. cbn [front obind] in E. binv E. destruct x as [h mg]. injection E as <-.
    unfold nums_ok, win_managed. cbn [wn_heap wn_mgr fst snd]. eapply nums_remove; [exact Ho| |exact F|exact H|exact E0].
    apply Hid. left. reflexivity.
  - binv E. binv E. destruct x0 as [h mg]. injection E as <-. unfold nums_ok, win_managed. cbn [wn_heap wn_mgr fst snd].
    eapply nums_remove; [exact Ho| |exact F|exact H|exact E1]. apply Hid. apply back_ok_nth in E0 as [E0 _]. eapply nth_error_In; eassumption.
  - binv E. binv E. destruct x0 as [h mg]. injection E as <-. unfold nums_ok, win_managed. cbn [wn_heap wn_mgr fst snd].
    eapply nums_remove; [exact Ho| |exact F|exact H|exact E1]. apply u32_range.
  - injection E as <-. exact H.
Qed.

(** ** Tracks inside the window *)
Definition cam_ok (ne : nat) (o : observe T) : Prop := forall c z, o !! c = Some z -> (0 <= c < Z.of_nat ne)%Z.
Definition tgood (ne : nat) (b : Z) (nf : nat) (f : feature T) : Prop :=
  (exists k, ft_first f = (b + Z.of_nat k)%Z /\ k + length (ft_obs f) <= nf) /\ ft_num f = u32 (total_obs (ft_obs f)) /\
  List.Forall (cam_ok ne) (ft_obs f).
Lemma tgood_same : forall ne b nf f g, tgood ne b nf f -> same_track f g -> tgood ne b nf g.
Proof. intros ne b nf f g H (_ & e1 & e2 & e3). unfold tgood in *. rewrite e1, e2, e3. exact H. Qed.

Lemma size_range : forall (A : Type) (m : gmap Z A) n, (forall c, is_Some (m !! c) -> (0 <= c < Z.of_nat n)%Z) -> (Z.of_nat (size m) <= Z.of_nat n)%Z.
Proof.
  intros A m n H. assert (L : size m <= n).
  { unfold size, map_size. rewrite <- (map_length fst).
    assert (ND : List.NoDup (map fst (map_to_list m))) by (apply NoDup_ListNoDup; apply (NoDup_fst_map_to_list m)).
    assert (Hi : incl (map fst (map_to_list m)) (map Z.of_nat (seq 0 n))).
    { intros c Hc. apply in_map_iff in Hc as ([c' z] & <- & Hc). apply elem_of_list_In, elem_of_map_to_list in Hc. cbn [fst].
      specialize (H c' ltac:(eauto)). apply in_map_iff. exists (Z.to_nat c'). split; [lia|]. apply in_seq. lia. }
    pose proof (NoDup_incl_length ND Hi) as L. rewrite (map_length Z.of_nat), seq_length in L. exact L. }
  lia.
Qed.
Lemma total_obs_bound : forall ne (l : list (observe T)), List.Forall (cam_ok ne) l ->
  (0 <= total_obs l <= Z.of_nat (length l) * Z.of_nat ne)%Z.
Proof.
  intros ne l H. induction H as [|o r Ho Hr IH]; [cbn; lia|]. cbn [total_obs length]. unfold osize.
  assert (Z.of_nat (size o) <= Z.of_nat ne)%Z by (apply size_range; intros c [z Hz]; exact (Ho c z Hz)). nia.
Qed.
Lemma tgood_total : forall ne b nf f, tgood ne b nf f -> (0 <= total_obs (ft_obs f) <= Z.of_nat nf * Z.of_nat ne)%Z.
Proof. intros ne b nf f ((k & _ & K) & _ & H). pose proof (total_obs_bound ne _ H). nia. Qed.

Lemma winv_tgood : forall ne b A w id f, WInv b A w -> nums_ok w ->
  List.Forall (fun m => List.Forall (cam_ok ne) (fm_obs m)) A -> win_managed w id = Some f -> tgood ne b (length A) f.
Proof.
  intros ne b A w id f I N HA M. destruct (wi_range b A w I id f M) as (R1 & R2 & R3). split; [|split].
  - exists (Z.to_nat (ft_first f - b)). split; lia.
  - exact (proj2 (proj2 (N id f M))).
  - apply List.Forall_forall. intros o Ho. apply In_nth_error in Ho as [j Hj].
    assert (Lj : j < length (ft_obs f)) by (apply nth_error_Some; congruence).
    set (i := Z.to_nat (ft_first f + Z.of_nat j - b)). assert (Hi : i < length A) by lia.
    destruct (nth_error A i) as [m|] eqn:Em; [|apply nth_error_None in Em; lia].
    pose proof (wi_obs b A w I id i m Em) as Hr. rewrite M in Hr. unfold obs_at in Hr.
    replace (b + Z.of_nat i)%Z with (ft_first f + Z.of_nat j)%Z in Hr by lia.
    assert (e : (ft_first f <=? ft_first f + Z.of_nat j)%Z = true) by (apply Z.leb_le; lia). rewrite e in Hr.
    replace (Z.to_nat (ft_first f + Z.of_nat j - ft_first f)) with j in Hr by lia. rewrite Hj in Hr.
    unfold reported in Hr. apply assoc_some_in in Hr. apply in_combine_r in Hr.
    apply nth_error_In in Em. rewrite List.Forall_forall in HA. specialize (HA m Em). rewrite List.Forall_forall in HA. auto.
Qed.

(** ** Triangulation and selection *)
Lemma at_ok : forall (A : Type) (l : list A) i, i < length l -> exists x, at_ l i = Ok x /\ nth_error l i = Some x.
Proof.
  intros A l i H. unfold at_. destruct (nth_error l i) as [x|] eqn:E; [eauto|apply nth_error_None in E; lia].
Qed.
Lemma cam_views_ok : forall (exts : list (extrinsic T)) q p l, List.Forall (fun cz : Z * v2 T => (0 <= fst cz < Z.of_nat (length exts))%Z) l ->
  exists vs, cam_views exts q p l = Ok vs /\ length vs = length l.
Proof.
  intros exts q p l H. induction H as [|[cam n] r Hc Hr IH]; cbn [cam_views]; [eauto|]. cbn [fst] in Hc.
  destruct (at_ok _ exts (Z.to_nat cam)) as (e & -> & _); [lia|]. destruct IH as (vs & -> & Lv). cbn [obind]. eexists. split; [reflexivity|].
  cbn [length]. lia.
Qed.
Lemma track_views_ok : forall nord (exts : list (extrinsic T)) b fs first, (1 <= b)%Z -> consecutive b fs ->
  (b + Z.of_nat (length fs) < 4294967296)%Z -> forall obs i k,
  (0 <= i)%Z -> (i + first = b + Z.of_nat k)%Z -> k + length obs <= length fs -> known_cams nord (length exts) obs ->
  exists vs, track_views nord exts fs first i obs = Ok vs /\ length vs = length (track_meas nord k obs).
Proof.
  intros nord exts b fs first Hb Hc Hl. induction obs as [|o r IH]; intros i k Hi He Hk Hn; cbn [track_views track_meas]; [eauto|].
  inversion Hn as [|? ? Hn1 Hn2]; subst. cbn [length] in Hk. rewrite He, u32_small by lia.
  rewrite (get_frame_at b fs k Hc) by lia. cbn [deref obind].
  destruct (nth_error fs k) as [f|] eqn:Ef; [|apply nth_error_None in Ef; lia]. cbn [deref obind].
  destruct (cam_views_ok exts (fr_q f) (fr_p f) (nord o) Hn1) as (vs & -> & L1). cbn [obind].
  destruct (IH (i + 1)%Z (Datatypes.S k)) as (vs' & -> & L2); [lia|lia|lia|exact Hn2|]. cbn [obind]. eexists. split; [reflexivity|].
  rewrite !app_length, map_length. lia.
Qed.
Lemma views_map : forall vs : list (view T), exists ws, views (map (fun v => fst (fst v)) vs) (map (fun v => snd (fst v)) vs) (map snd vs) = Ok ws.
Proof. induction vs as [|[[q p] n] r [ws IH]]; cbn; [eauto|]. rewrite IH. cbn. eauto. Qed.
Lemma solve_feature_ok : forall svd (f : feature T) vs, exists g b, solve_feature svd f vs = Ok (g, b) /\ same_track f g /\
  (b = true -> 2 <= length vs).
Proof.
  intros svd f vs. unfold solve_feature, tri_analytic. rewrite map_length. unfold view in *. destruct (Nat.ltb_spec (length vs) 2).
  - cbn [obind]. eexists _, _. split; [reflexivity|]. split; [repeat split|discriminate].
  - destruct (views_map vs) as (ws & ->). cbn [obind]. destruct (slt64 _ _); [|destruct (existsb _ _)]; cbn [obind fst snd];
      eexists _, _; (split; [reflexivity|]; split; [repeat split|intros _; exact H]).
Qed.

Lemma tgood_known : forall nord ne b nf f, valid_norder nord -> tgood ne b nf f -> known_cams nord ne (ft_obs f).
Proof. intros nord ne b nf f Hn (_ & _ & H). apply known_cams_of; [exact Hn|exact H]. Qed.

Lemma trianglize_ok : forall (o : voracle T) exts fs b h p f, valid_norder (vo_nord o) -> (1 <= b)%Z -> consecutive b fs ->
  (b + Z.of_nat (length fs) < 4294967296)%Z -> hp_cells h !! p = Some f -> tgood (length exts) b (length fs) f ->
  exists g r, trianglize o exts fs h p = Ok (hset h p g, r) /\ same_track f g /\ (r = true -> (2 <= total_obs (ft_obs f))%Z).
Proof.
  intros o exts fs b h p f Hn Hb Hc Hl Hp G. unfold trianglize. rewrite (hget_ok h p f Hp). cbn [obind].
  destruct G as ((k & K1 & K2) & Hnum & Hcam).
  destruct (track_views_ok (vo_nord o) exts b fs (ft_first f) Hb Hc Hl (ft_obs f) 0 k) as (vs & -> & Lv); [lia|lia|exact K2| |].
  { apply known_cams_of; assumption. }
  cbn [obind]. destruct (solve_feature_ok (vo_svd o) f vs) as (g & r & -> & Sg & Hr). cbn [obind fst snd].
  exists g, r. split; [reflexivity|]. split; [exact Sg|]. intros e. specialize (Hr e).
  rewrite <- (track_meas_length (vo_nord o) Hn (ft_obs f) k). lia.
Qed.

(** Pointers of the manager: live, with tracks in the window. *)
Definition live (D : nat -> Prop) (G : feature T -> Prop) (h : heap T) : Prop := forall p, D p -> exists f, hp_cells h !! p = Some f /\ G f.
Lemma live_same : forall D (G : feature T -> Prop) h h', (forall f g, G f -> same_track f g -> G g) -> same_heap h h' -> live D G h -> live D G h'.
Proof. intros D G h h' HG [_ Hs] L p Hp. destruct (L p Hp) as (f & E & Gf). destruct (Hs p f E) as (g & Eg & Sg). eauto. Qed.

Lemma select_loop_ok : forall (o : voracle T) exts fs b D, valid_norder (vo_nord o) -> (1 <= b)%Z -> consecutive b fs ->
  (b + Z.of_nat (length fs) < 4294967296)%Z -> forall l pos h good,
  live D (tgood (length exts) b (length fs)) h -> List.Forall (fun kp => D (snd kp)) l ->
  (forall p, In p (map snd good) -> D p /\ exists f, hp_cells h !! p = Some f /\ (2 <= total_obs (ft_obs f))%Z) ->
  exists h' good', select_loop o exts fs l pos h good = Ok (h', good') /\ same_heap h h' /\
    (forall p, In p (map snd good') -> D p /\ exists f, hp_cells h' !! p = Some f /\ (2 <= total_obs (ft_obs f))%Z).
Proof.
  intros o exts fs b D Hn Hb Hc Hl. induction l as [|[id p] r IH]; intros pos h good L HD Hg; cbn [select_loop].
  - exists h, good. split; [reflexivity|]. split; [apply same_heap_refl|exact Hg].
  - inversion HD as [|? ? Hp Hr]; subst. cbn [snd] in Hp. destruct (L p Hp) as (f & Ef & Gf).
    destruct (trianglize_ok o exts fs b h p f Hn Hb Hc Hl Ef Gf) as (g & ok & -> & Sg & H2). cbn [obind fst snd].
    assert (Sh : same_heap h (hset h p g)) by (eapply same_heap_set; eassumption).
    assert (L' : live D (tgood (length exts) b (length fs)) (hset h p g)) by (eapply live_same; [apply tgood_same|exact Sh|exact L]).
    assert (Hg' : forall q, In q (map snd good) -> D q /\ exists f, hp_cells (hset h p g) !! q = Some f /\ (2 <= total_obs (ft_obs f))%Z).
    { intros q Hq. destruct (Hg q Hq) as (Dq & k & Ek & Tk). split; [exact Dq|]. destruct (proj2 Sh q k Ek) as (k' & Ek' & Sk).
      exists k'. split; [exact Ek'|]. destruct Sk as (_ & _ & -> & _). exact Tk. }
    destruct ok.
    + destruct (IH (Datatypes.S pos) (hset h p g) (score_insert (f32_of_Z (vo_rand o pos)) p good) L' Hr) as (h' & good' & E & Sh' & Hgood).
      { intros q Hq. apply in_map_iff in Hq as (kq & <- & Hq). apply score_insert_in in Hq as [->|Hq].
        - cbn [snd]. split; [exact Hp|]. exists g. split; [unfold hset; cbn [hp_cells]; apply lookup_insert|].
          destruct Sg as (_ & _ & -> & _). auto.
        - apply Hg'. apply in_map. exact Hq. }
      exists h', good'. split; [exact E|]. split; [eapply same_heap_trans; eassumption|exact Hgood].
    + destruct (IH pos (hset h p g) good L' Hr Hg') as (h' & good' & E & Sh' & Hgood).
      exists h', good'. split; [exact E|]. split; [eapply same_heap_trans; eassumption|exact Hgood].
Qed.

Lemma select_good_ok : forall (o : voracle T) c exts fs b D h nf, valid_norder (vo_nord o) -> valid_order (vo_ord o) -> (1 <= b)%Z -> consecutive b fs ->
  (b + Z.of_nat (length fs) < 4294967296)%Z -> back fs = Ok nf -> live D (tgood (length exts) b (length fs)) h ->
  (forall id p, fr_feats nf !! id = Some p -> D p) ->
  exists h' l, select_good o c exts fs h = Ok (h', l) /\ same_heap h h' /\ length l <= Z.to_nat (vc_maxfeat c) /\
    (forall p, In p l -> D p /\ exists f, hp_cells h' !! p = Some f /\ (2 <= total_obs (ft_obs f))%Z).
Proof.
  intros o c exts fs b D h nf Hn Ho Hb Hc Hl Hbk L HD. unfold select_good. rewrite Hbk. cbn [obind].
  destruct (select_loop_ok o exts fs b D Hn Hb Hc Hl (vo_ord o (fr_feats nf)) 0 h [] L) as (h' & good & -> & Sh & Hg).
  - apply List.Forall_forall. intros [id p] Hin. cbn [snd]. apply (HD id).
    apply elem_of_map_to_list. rewrite <- (Ho (fr_feats nf)). apply elem_of_list_In. exact Hin.
  - intros p [].
  - cbn [obind fst snd]. eexists _, _. split; [reflexivity|]. split; [exact Sh|]. split; [rewrite firstn_length; lia|].
    intros p Hp. apply firstn_in in Hp. auto.
Qed.

(** ** Measurement matrix *)
Definition row_count (f : feature T) : nat := Z.to_nat (2 * ft_num f - 3).
Definition mgood (ne : nat) (b : Z) (nf : nat) (f : feature T) : Prop := tgood ne b nf f /\ (2 <= total_obs (ft_obs f))%Z.

Lemma meas_feature_ok : forall (o : voracle T) exts fs b f, valid_norder (vo_nord o) -> (1 <= b)%Z -> consecutive b fs -> 1 <= length fs ->
  (b + Z.of_nat (length fs) < 4294967296)%Z -> (2 * (Z.of_nat (length fs) * Z.of_nat (length exts)) < 4294967296)%Z ->
  mgood (length exts) b (length fs) f ->
  exists R, meas_feature o exts fs (hx_cols (length exts) (length fs)) f = Ok (Some R) /\
    mr R = sub_rows f /\ mc R = hx_cols (length exts) (length fs) + 1 /\ (Z.of_nat (sub_rows f) = 2 * total_obs (ft_obs f) - 3)%Z.
Proof.
  intros o exts fs b f Hn Hb Hc H1 Hl Hs [G H2]. pose proof (tgood_total _ _ _ _ G) as Ht.
  destruct G as ((k & K1 & K2) & Hnum & Hcam). rewrite u32_small in Hnum by lia.
  destruct (measurement_layout o b exts fs f k Hn Hb Hc Hl K1 K2 H1 Hnum ltac:(lia) Hcam) as (R1 & R2 & H & E & M1 & M2 & _).
  unfold meas_feature. rewrite E. cbn [obind].
  assert (Hsub : (Z.of_nat (sub_rows f) = 2 * total_obs (ft_obs f) - 3)%Z).
  { unfold sub_rows. rewrite u32_small by lia. lia. }
  unfold col_res, imu_size in M2.
  rewrite block_ok by lia. cbn [obind].
  change (mr (qr_apply (vo_qr o) (get_block H 0 0 (mr H) 3) H)) with (mr H).
  change (mc (qr_apply (vo_qr o) (get_block H 0 0 (mr H) 3) H)) with (mc H).
  destruct (Nat.ltb_spec (mr H) 3); [lia|].
  rewrite block_ok; [|cbn [qr_apply mmul mtr mr mc]; lia|cbn [qr_apply mmul mtr mr mc]; lia].
  cbn [obind]. eexists. split; [reflexivity|]. cbn [get_block mr mc]. split; [lia|]. split; [|exact Hsub].
  unfold hx_cols, imu_size. lia.
Qed.

Definition rows_sum (h : heap T) (l : list nat) (n : Z) : Prop :=
  n = fold_right (fun p a => match hp_cells h !! p with Some f => 2 * total_obs (ft_obs f) - 3 + a | None => a end)%Z 0%Z l.
Lemma sum_rows_ok : forall ne b nf (h : heap T) l acc, (2 * (Z.of_nat nf * Z.of_nat ne) < 4294967296)%Z ->
  (forall p, In p l -> exists f, hp_cells h !! p = Some f /\ mgood ne b nf f) -> (0 <= acc)%Z ->
  (acc + Z.of_nat (length l) * (2 * (Z.of_nat nf * Z.of_nat ne)) < 4294967296)%Z ->
  exists n, rows_sum h l n /\ (0 <= n)%Z /\ sum_rows h l acc = Ok (acc + n)%Z.
Proof.
  intros ne b nf h l. induction l as [|p r IH]; intros acc Hs Hl Ha Hb; cbn [sum_rows].
  - exists 0%Z. split; [reflexivity|]. split; [lia|]. f_equal. lia.
  - destruct (Hl p (or_introl eq_refl)) as (f & Ef & G & H2). rewrite (hget_ok h p f Ef). cbn [obind].
    pose proof (tgood_total _ _ _ _ G) as Ht. destruct G as (_ & Hnum & _). rewrite u32_small in Hnum by lia.
    cbn [length] in Hb. rewrite (u32_small (ft_num f * 2 - 3)) by lia.
    assert (Hlen : (Z.of_nat (length r) * (2 * (Z.of_nat nf * Z.of_nat ne)) >= 0)%Z) by nia.
    assert (Hb' : (acc + (2 * (Z.of_nat nf * Z.of_nat ne)) + Z.of_nat (length r) * (2 * (Z.of_nat nf * Z.of_nat ne)) < 4294967296)%Z) by nia.
    rewrite u32_small by lia.
    destruct (IH (acc + (ft_num f * 2 - 3))%Z Hs) as (n & R & Hn & ->); [intros q Hq; apply Hl; right; exact Hq|lia|lia|].
    exists (2 * total_obs (ft_obs f) - 3 + n)%Z. split; [|split; [lia|f_equal; lia]]. unfold rows_sum. cbn [fold_right]. rewrite Ef, R. reflexivity.
Qed.
Lemma stack_loop_ok : forall (o : voracle T) exts fs b h, valid_norder (vo_nord o) -> (1 <= b)%Z -> consecutive b fs -> 1 <= length fs ->
  (b + Z.of_nat (length fs) < 4294967296)%Z -> (2 * (Z.of_nat (length fs) * Z.of_nat (length exts)) < 4294967296)%Z ->
  forall l row H n, (forall p, In p l -> exists f, hp_cells h !! p = Some f /\ mgood (length exts) b (length fs) f) ->
  rows_sum h l n -> Z.of_nat (mr H) = (Z.of_nat row + n)%Z -> mc H = hx_cols (length exts) (length fs) + 1 ->
  exists H', stack_loop o exts fs (hx_cols (length exts) (length fs)) h l row H = Ok (Some H') /\ mr H' = mr H /\ mc H' = mc H.
Proof.
  intros o exts fs b h Hn Hb Hc H1 Hl Hs. induction l as [|p r IH]; intros row H n Hp Hr Hm Hcol; cbn [stack_loop]; [eauto|].
  destruct (Hp p (or_introl eq_refl)) as (f & Ef & G). rewrite (hget_ok h p f Ef). cbn [obind].
  destruct (meas_feature_ok o exts fs b f Hn Hb Hc H1 Hl Hs G) as (R & -> & R1 & R2 & R3). cbn [obind].
  unfold rows_sum in Hr. cbn [fold_right] in Hr. rewrite Ef in Hr.
  set (n' := fold_right (fun p a => match hp_cells h !! p with Some f => 2 * total_obs (ft_obs f) - 3 + a | None => a end)%Z 0%Z r) in *.
  assert (Hn0 : (0 <= n')%Z).
  { unfold n'. clear - Hp Hs. induction r as [|q r IH]; cbn [fold_right]; [lia|].
    destruct (Hp q ltac:(right; left; reflexivity)) as (k & Ek & _ & H2). rewrite Ek.
    assert (0 <= fold_right (fun p a => match hp_cells h !! p with Some f => 2 * total_obs (ft_obs f) - 3 + a | None => a end)%Z 0%Z r)%Z.
    { apply IH. intros x [->|Hx]; apply Hp; [left; reflexivity|right; right; exact Hx]. }
    lia. }
  rewrite setbn_ok; [|exact R1|exact R2|lia|lia]. cbn [obind].
  destruct (IH (row + sub_rows f) (set_block H row 0 R) n') as (H' & -> & M1 & M2).
  - intros q Hq. apply Hp. right. exact Hq.
  - reflexivity.
  - cbn [set_block mr]. lia.
  - exact Hcol.
  - exists H'. split; [reflexivity|]. split; [exact M1|exact M2].
Qed.
Lemma measurement_ok : forall (o : voracle T) exts fs b h l, valid_norder (vo_nord o) -> (1 <= b)%Z -> consecutive b fs -> 1 <= length fs ->
  (b + Z.of_nat (length fs) < 4294967296)%Z -> (2 * (Z.of_nat (length fs) * Z.of_nat (length exts)) < 4294967296)%Z ->
  (Z.of_nat (length l) * (2 * (Z.of_nat (length fs) * Z.of_nat (length exts))) < 4294967296)%Z ->
  (forall p, In p l -> exists f, hp_cells h !! p = Some f /\ mgood (length exts) b (length fs) f) ->
  exists H, measurement o exts fs h l = Ok (Some H) /\ mc H = hx_cols (length exts) (length fs) + 1.
Proof.
  intros o exts fs b h l Hn Hb Hc H1 Hl Hs Hs2 Hp. unfold measurement.
  destruct (sum_rows_ok (length exts) b (length fs) h l 0 Hs Hp ltac:(lia) ltac:(lia)) as (n & R & Hn0 & ->). cbn [obind].
  destruct (stack_loop_ok o exts fs b h Hn Hb Hc H1 Hl Hs l 0 (mzero (Z.to_nat (0 + n)) (hx_cols (length exts) (length fs) + 1)) n Hp R)
    as (H & -> & M1 & M2); [cbn [mzero mr]; lia|reflexivity|]. cbn [obind].
  cbn [mzero mr mc] in M1, M2. unfold compress. destruct (Nat.ltb (mc H) (mr H)).
  - rewrite block_ok by lia. cbn [obind]. eexists. split; [reflexivity|]. cbn [cresize mc qr_apply mmul]. exact M2.
  - cbn [obind]. eauto.
Qed.

(** ** Kalman update *)
Lemma kalman_ok : forall saes noise (P Hr : mat T) n, (forall a, mr (ed_vec (saes a)) = mr a /\ mc (ed_vec (saes a)) = mr a) ->
  mr P = n -> mc P = n -> mc Hr = n + 1 ->
  exists K dx P', kalman saes noise P Hr = Ok (K, dx, P') /\ mr dx = n /\ mr P' = n /\ mc P' = n.
Proof.
  intros saes noise P Hr n Hs H1 H2 H3. unfold kalman. destruct (Nat.eqb_spec (mc Hr) 0); [lia|].
  rewrite block_ok by lia. cbn [obind]. rewrite block_ok by lia. cbn [obind].
  set (H := get_block Hr 0 0 (mr Hr) (mc Hr - 1)). set (r := get_block Hr 0 (mc Hr - 1) (mr Hr) 1).
  assert (EH : mr H = mr Hr /\ mc H = n) by (cbn; lia). assert (Er : mr r = mr Hr /\ mc r = 1) by (split; reflexivity).
  destruct EH as [EH1 EH2], Er as [Er1 Er2]. clearbody H r.
  rewrite mmulc_ok by (cbn [mtr mr]; lia). cbn [obind]. unfold innovation. rewrite mmulc_ok by (cbn [mtr mr]; lia). cbn [obind].
  rewrite mmulc_ok by (cbn [mmul mr]; lia). cbn [obind].
  set (sm := add_diag _ _). assert (Esm : mr sm = mr Hr) by (cbn; exact EH1). clearbody sm.
  destruct (Hs sm) as [Hv1 Hv2].
  assert (Ei : mr (sym_inverse saes sm) = mr Hr /\ mc (sym_inverse saes sm) = mr Hr) by (unfold sym_inverse; cbn [mmul mtr mr mc]; lia).
  destruct Ei as [Ei1 Ei2]. set (si := sym_inverse saes sm) in *. clearbody si.
  rewrite mmulc_ok by (cbn [mmul mtr mc]; lia). cbn [obind].
  rewrite mmulc_ok by (cbn [mmul mtr mc]; lia). cbn [obind].
  rewrite mmulc_ok by (cbn [mopp mmul mtr mc]; lia). cbn [obind].
  rewrite mmulc_ok by (cbn [add_diag mopp mmul mtr mc]; lia). cbn [obind].
  rewrite maddc_ok by (cbn [add_diag mopp mmul mtr mc mr]; lia). cbn [obind].
  eexists _, _, _. split; [reflexivity|]. cbn [mscale madd add_diag mopp mmul mtr mc mr]. lia.
Qed.

Lemma seg3c_ok : forall (x : mat T) i, i + 3 <= mr x -> exists v, seg3c x i = Ok v.
Proof. intros x i H. unfold seg3c. apply Nat.leb_le in H. rewrite H. eauto. Qed.
Lemma correct_ext_ok : forall dx (l : list (extrinsic T)) i, imu_size + (i + length l) * 6 <= mr dx ->
  exists l', correct_ext dx i l = Ok l' /\ length l' = length l.
Proof.
  intros dx l. induction l as [|e r IH]; intros i H; cbn [correct_ext]; [eauto|]. cbn [length] in H.
  destruct (seg3c_ok dx (imu_size + i * 6)) as (a & ->); [lia|]. destruct (seg3c_ok dx (imu_size + i * 6 + 3)) as (d & ->); [lia|].
  cbn [obind]. destruct (IH (Datatypes.S i)) as (l' & -> & L); [lia|]. cbn [obind]. eexists. split; [reflexivity|]. cbn [length]. lia.
Qed.
Lemma correct_frames_ok : forall dx off n m (l : list (frame T)) i, (forall k f, nth_error l k = Some f -> k < length l - 1 -> fr_id f <> n) ->
  (forall f, nth_error l (length l - 1) = Some f -> fr_id f = n) ->
  off + (i + (length l - 1)) * 6 <= mr dx -> exists l', correct_frames dx off i n m l = Ok l' /\ Forall2 same_frame l l'.
Proof.
  intros dx off n m l. induction l as [|f r IH]; intros i H1 H2 H; cbn [correct_frames]; [eauto|].
  destruct (Z.eqb_spec (fr_id f) n) as [e|e].
  - eexists. split; [reflexivity|]. constructor; [repeat split|apply same_frames_refl].
  - destruct r as [|g r']; [destruct e; apply H2; reflexivity|]. cbn [length] in H.
    destruct (seg3c_ok dx (off + i * 6)) as (a & ->); [lia|]. destruct (seg3c_ok dx (off + i * 6 + 3)) as (d & ->); [lia|].
    cbn [obind]. destruct (IH (Datatypes.S i)) as (l' & E & L).
    + intros k x Hk Hl. apply (H1 (Datatypes.S k) x Hk). cbn [length] in *. lia.
    + intros x Hx. apply H2. cbn [length] in *. replace (Datatypes.S (Datatypes.S (length r')) - 1) with (Datatypes.S (length r')) by lia.
      cbn [nth_error]. replace (Datatypes.S (length r') - 1) with (length r') in Hx by lia. exact Hx.
    + cbn [length]. lia.
    + rewrite E. cbn [obind]. eexists. split; [reflexivity|]. constructor; [repeat split|exact L].
Qed.

(** Dimensions of the propagation queue. *)
Definition PQ (n : nat) (q : pqueue T) : Prop :=
  mr (pq_ecc q) = n /\ mc (pq_ecc q) = n /\ List.Forall (fun it => mc (pi_ecov it) = n) (pq_items q).

Lemma apply_delta_ok : forall dx (s : vstate T) b it r, (1 <= b)%Z -> consecutive b (wn_frames (vs_win s)) -> 1 <= length (wn_frames (vs_win s)) ->
  pq_items (vs_pq s) = it :: r ->
  mr dx = err_size (length (vs_ext s)) (length (wn_frames (vs_win s)) - 1) ->
  exists s', apply_delta dx s = Ok s' /\ same_win (vs_win s) (vs_win s') /\ length (vs_ext s') = length (vs_ext s) /\
    pq_ecc (vs_pq s') = pq_ecc (vs_pq s) /\ exists m, pq_items (vs_pq s') = PItem m (pi_cov it) (pi_ecov it) (pi_a it) (pi_g it) (pi_ts it) :: r.
Proof.
  intros dx s b it r Hb Hc H1 Hi Hd. unfold apply_delta. rewrite Hi. cbn [front obind].
  unfold err_size in Hd. unfold correct_motion, ix_p, ix_v, ix_r, ix_ba, ix_bg.
  destruct (seg3c_ok dx 0) as (v0 & ->); [lia|]. destruct (seg3c_ok dx 3) as (v1 & ->); [lia|]. destruct (seg3c_ok dx 6) as (v2 & ->); [lia|].
  cbn [obind]. unfold with_head. rewrite Hi. cbn [obind].
  destruct (seg3c_ok dx 9) as (v3 & ->); [lia|]. destruct (seg3c_ok dx 12) as (v4 & ->); [lia|]. cbn [obind].
  destruct (correct_ext_ok dx (vs_ext s) 0) as (ex & -> & Lx); [unfold imu_size; lia|]. cbn [obind].
  destruct (wn_frames (vs_win s)) as [|f0 fr] eqn:Ef; [cbn in H1; lia|]. rewrite <- Ef in *.
  destruct (back_ex (wn_frames (vs_win s))) as (bk & Hbk); [rewrite Ef; discriminate|]. rewrite Hbk. cbn [obind].
  apply back_ok_nth in Hbk as [Hbk _].
  edestruct (correct_frames_ok dx (imu_size + length (vs_ext s) * 6) (fr_id bk)) as (fs & -> & Hfs).
  - intros k f Hk Hl. rewrite (Hc k f Hk), (Hc _ bk Hbk). lia.
  - intros f Hf. congruence.
  - unfold imu_size. lia.
  - cbn [obind]. eexists. split; [reflexivity|]. cbn [vs_win vs_ext vs_pq with_bias with_items pq_ecc pq_items].
    split; [|split; [exact Lx|split; [reflexivity|eauto]]]. split; [apply same_heap_refl|]. split; [reflexivity|exact Hfs].
Qed.

(** ** Re-propagation *)
Lemma reprop_spec : forall grav ba bg Q (l : list (pitem T)) F G it0, let r := fst (fst (reprop_loop grav ba bg Q F G it0 l)) in
  map meas r = map meas l /\ List.Forall (fun it => mc (pi_ecov it) = mc (pi_ecov it0)) r.
Proof.
  intros grav ba bg Q. induction l as [|i r IH]; intros F G it0; [split; constructor|]. cbn [reprop_loop].
  destruct (prop_item grav ba bg F G Q it0 (pi_a i) (pi_g i) (pi_ts i)) as [[i' F'] G'] eqn:E.
  specialize (IH F' G' i'). destruct (reprop_loop grav ba bg Q F' G' i' r) as [[r' F''] G'']. cbn [fst] in *.
  unfold prop_item, nominal_step in E. injection E as <- _ _. destruct IH as [A B]. split.
  - cbn [map]. rewrite A. reflexivity.
  - cbn [pi_ecov ecov_step mmul mc] in B. constructor; [reflexivity|exact B].
Qed.
Lemma repropagate_spec : forall grav (q : pqueue T) it r, pq_items q = it :: r ->
  exists r', pq_items (pq_repropagate grav q) = it :: r' /\ map meas r' = map meas r /\
    List.Forall (fun x => mc (pi_ecov x) = mc (pi_ecov it)) r' /\ pq_ecc (pq_repropagate grav q) = pq_ecc q /\
    pq_ba (pq_repropagate grav q) = pq_ba q /\ pq_bg (pq_repropagate grav q) = pq_bg q.
Proof.
  intros grav q it r H. unfold pq_repropagate. rewrite H.
  pose proof (reprop_spec grav (pq_ba q) (pq_bg q) (pq_Q q) r (pq_F q) (pq_G q) it) as Hr.
  destruct (reprop_loop _ _ _ _ _ _ _ _) as [[r' F'] G']. cbn [fst] in Hr. exists r'. cbn. destruct Hr. repeat split; assumption.
Qed.

Lemma finish_update_ok : forall (o : voracle T) c pol (P : mat T) s it r, 2 <= length (wn_frames (vs_win s)) -> pq_items (vs_pq s) = it :: r ->
  mr P = err_size (length (vs_ext s)) (length (wn_frames (vs_win s)) - 1) ->
  mc P = err_size (length (vs_ext s)) (length (wn_frames (vs_win s)) - 1) ->
  exists s', finish_update o c pol P s = Ok s' /\ vs_win s' = vs_win s /\ vs_ext s' = vs_ext s /\
    PQ (6 * (length (vs_ext s) + left_after pol (length (wn_frames (vs_win s))))) (vs_pq s') /\
    pq_items (vs_pq s') <> [] /\ map pi_ts (pq_items (vs_pq s')) = map pi_ts (it :: r).
Proof.
  intros o c pol P s it r H2 Hi H3 H4. unfold finish_update. set (ne := length (vs_ext s)) in *. set (nf := length (wn_frames (vs_win s))) in *.
  destruct (expand_exact (vo_junk o) ne nf P ltac:(lia) H3 H4) as (P1 & -> & E1 & E2 & _). cbn [obind].
  destruct (reduce_exact T S (vo_junk o) pol ne nf P1 H2 E1 E2) as (P2 & -> & R1 & R2 & _). cbn [obind].
  unfold update_cov. unfold err_size in R1, R2. destruct (Nat.ltb_spec (mc P2) imu_size) as [L|L]; [unfold imu_size in L; lia|].
  rewrite Hi. cbn [front obind]. rewrite !block_ok by (unfold imu_size in *; lia). cbn [obind]. unfold with_head. rewrite Hi. cbn [obind].
  eexists. split; [reflexivity|]. cbn [vs_win vs_ext vs_pq]. split; [reflexivity|]. split; [reflexivity|].
  match goal with |- context [pq_repropagate ?g ?q] => destruct (repropagate_spec g q _ _ eq_refl) as (r' & A1 & A2 & A3 & A4 & _) end.
  cbn [pi_ecov get_block mc] in A3. split; [|split].
  - unfold PQ. rewrite A4, A1. cbn [with_ecc pq_ecc get_block mr mc]. unfold imu_size in *. split; [lia|]. split; [lia|].
    constructor; [cbn [pi_ecov get_block mc]; lia|]. eapply List.Forall_impl; [|exact A3]. cbn beta. intros x ->. lia.
  - rewrite A1. discriminate.
  - rewrite A1. cbn [map pi_ts]. f_equal. apply (f_equal (map (fun x => snd x))) in A2. rewrite !map_map in A2. cbn [meas snd] in A2. exact A2.
Qed.

Lemma construct_cov_ok : forall ne nf (q : pqueue T) n it r, pq_items q = it :: r -> PQ n q -> 1 <= nf ->
  (n = 6 * (ne + nf - 1) -> exists P, construct_cov ne nf q = Ok (Some P) /\ mr P = err_size ne (nf - 1) /\ mc P = err_size ne (nf - 1)) /\
  (n <> 6 * (ne + nf - 1) -> construct_cov ne nf q = Ok None).
Proof.
  intros ne nf q n it r Hi (D1 & D2 & D3) H1. unfold construct_cov. rewrite Hi in *. cbn [front obind].
  pose proof (List.Forall_inv D3) as D4. cbn beta in D4. rewrite D4. unfold cam_ex_size. split; intros e.
  - assert (e' : n = (ne + nf - 1) * 6) by lia. rewrite <- e', Nat.eqb_refl. cbn [negb].
    rewrite setb_ok by (cbn [mzero mr mc]; lia). cbn [obind].
    rewrite setbn_ok; [|reflexivity|cbn; lia|cbn; unfold imu_size; lia|cbn; unfold imu_size; lia]. cbn [obind].
    rewrite setbn_ok; [|cbn; lia|reflexivity|cbn; unfold imu_size; lia|cbn; unfold imu_size; lia]. cbn [obind].
    rewrite setbn_ok; [|lia|lia|cbn; unfold imu_size; lia|cbn; unfold imu_size; lia]. cbn [obind].
    eexists. split; [reflexivity|]. cbn [set_block mzero mr mc]. unfold err_size, imu_size. lia.
  - destruct (Nat.eqb_spec n ((ne + nf - 1) * 6)); [lia|reflexivity].
Qed.

Lemma origin_loop_spec : forall ts thr (l : list (pitem T)),
  match origin_loop ts thr l with
  | None => True
  | Some l' => exists pre it r, l = pre ++ l' /\ l' = it :: r /\ f64_ltb thr (f64_sub ts (pi_ts it)) = false
  end.
Proof.
  intros ts thr. induction l as [|i r IH]; cbn [origin_loop]; [exact I|]. destruct (f64_ltb _ _) eqn:E.
  - destruct (origin_loop ts thr r); [|exact I]. destruct IH as (pre & it & x & -> & -> & H). exists (i :: pre), it, x. auto.
  - exists [], i, r. auto.
Qed.

Lemma decide_policy_ok : forall (c : vcfg T) ord h fs, valid_order ord -> 2 <= length fs -> List.Forall (live_links h) fs ->
  exists pol, decide_policy c ord h fs = Ok pol.
Proof.
  intros c ord h fs Ho H2 Hl. unfold decide_policy. destruct (need_marginalize _ _); [|eauto].
  destruct (Nat.ltb_spec (length fs) 2); [lia|]. unfold is_keyframe.
  destruct (nth_error fs (length fs - 2)) as [fr|] eqn:E; [|apply nth_error_None in E; lia].
  destruct (length fs - 2) as [|j] eqn:Ej; [cbn; eauto|].
  destruct (at_ok _ fs j) as (pre & -> & Ep); [lia|]. cbn [obind].
  rewrite List.Forall_forall in Hl.
  destruct (tracked_loop_spec h fr pre (Hl pre (nth_error_In _ _ Ep)) (ord (fr_feats fr)) 0 s0) as (par & ->).
  - apply List.Forall_forall. intros [id p] Hin. cbn [snd]. apply (Hl fr (nth_error_In _ _ E) id).
    apply elem_of_map_to_list. rewrite <- (Ho (fr_feats fr)). apply elem_of_list_In. exact Hin.
  - cbn [obind]. eauto.
Qed.

Lemma winv_links : forall b A (w : window T) f id p, WInv b A w -> In f (wn_frames w) -> fr_feats f !! id = Some p -> wn_mgr w !! id = Some p.
Proof.
  intros b A w f id p I Hf Hp. apply In_nth_error in Hf as [i Hi].
  assert (L : i < length A) by (rewrite <- (wi_len b A w I); apply nth_error_Some; congruence).
  destruct (nth_error A i) as [m|] eqn:Em; [|apply nth_error_None in Em; lia].
  rewrite (wi_links b A w I i f m id Hi Em) in Hp. destruct (reported m id); [exact Hp|discriminate].
Qed.
Lemma winv_live : forall b A (w : window T), WInv b A w -> List.Forall (live_links (wn_heap w)) (wn_frames w).
Proof.
  intros b A w I. apply List.Forall_forall. intros f Hf id p Hp. pose proof (winv_links b A w f id p I Hf Hp) as Hm.
  destruct (wi_filed b A w I id p Hm) as (_ & g & E & _). rewrite E. eauto.
Qed.

Theorem vision_update_safe : forall (o : voracle T) c b A s ts thr n,
  WInv b A (vs_win s) -> nums_ok (vs_win s) -> List.Forall (fun m => List.Forall (cam_ok (length (vs_ext s))) (fm_obs m)) A ->
  2 <= length A -> (b + Z.of_nat (length A) < 4294967296)%Z ->
  (Z.max 1 (vc_maxfeat c) * (2 * (Z.of_nat (length A) * Z.of_nat (length (vs_ext s)))) < 4294967296)%Z ->
  valid_order (vo_ord o) -> valid_norder (vo_nord o) ->
  (forall a, mr (ed_vec (vo_saes o a)) = mr a /\ mc (ed_vec (vo_saes o a)) = mr a) ->
  PQ n (vs_pq s) ->
  exists s' ok pol, vision_update o c s ts thr = Ok (s', ok, pol) /\
    same_win (vs_win s) (vs_win s') /\ length (vs_ext s') = length (vs_ext s) /\
    (exists pre, map pi_ts (pq_items (vs_pq s)) = pre ++ map pi_ts (pq_items (vs_pq s'))) /\
    if ok then
      n = 6 * (length (vs_ext s) + length A - 1) /\ pq_items (vs_pq s') <> [] /\
      PQ (6 * (length (vs_ext s) + left_after pol (length A))) (vs_pq s') /\
      (exists it r, pq_items (vs_pq s') = it :: r /\ f64_ltb thr (f64_sub ts (pi_ts it)) = false)
    else PQ n (vs_pq s') /\ (pq_items (vs_pq s') = [] \/ n <> 6 * (length (vs_ext s) + length A - 1)).
Proof.
  intros o c b A s ts thr n I N HA H2 Hb Hs Ho Hn Hsa HP. unfold vision_update, pq_reset_origin.
  pose proof (origin_loop_spec ts thr (pq_items (vs_pq s))) as Hor. destruct (origin_loop ts thr (pq_items (vs_pq s))) as [l'|]; cbn [negb].
  2:{ eexists _, _, _. split; [reflexivity|]. cbn [vs_win vs_ext vs_pq with_items pq_items map]. split; [apply same_win_refl|].
      split; [reflexivity|]. split; [exists (map pi_ts (pq_items (vs_pq s))); rewrite app_nil_r; reflexivity|].
      split; [|left; reflexivity]. destruct HP as (P1 & P2 & _). split; [exact P1|]. split; [exact P2|constructor]. }
  destruct Hor as (pre & it & r & Hl & -> & Hold).
  pose proof (wi_len b A _ I) as Ln. pose proof (wi_b b A _ I) as Hb1. pose proof (wi_ids b A _ I) as Hid.
  destruct (decide_policy_ok c (vo_ord o) (wn_heap (vs_win s)) (wn_frames (vs_win s)) Ho ltac:(lia) (winv_live b A _ I)) as (pol & ->). cbn [obind].
  set (q := with_items (vs_pq s) (it :: r)). set (ne := length (vs_ext s)) in *.
  assert (HPq : PQ n q).
  { destruct HP as (P1 & P2 & P3). split; [exact P1|]. split; [exact P2|]. rewrite Hl in P3. apply List.Forall_app in P3 as [_ P3]. exact P3. }
  assert (Pre : exists pre0, map pi_ts (pq_items (vs_pq s)) = pre0 ++ map pi_ts (it :: r)).
  { exists (map pi_ts pre). rewrite Hl, map_app. reflexivity. }
  destruct (construct_cov_ok ne (length (wn_frames (vs_win s))) q n it r eq_refl HPq ltac:(lia)) as [Cok Cno].
  destruct (Nat.eq_dec n (6 * (ne + length (wn_frames (vs_win s)) - 1))) as [En|En].
  2:{ rewrite (Cno En). cbn [obind]. eexists _, _, _. split; [reflexivity|]. cbn [vs_win vs_ext vs_pq]. split; [apply same_win_refl|].
      split; [reflexivity|]. split; [exact Pre|]. split; [exact HPq|]. right. rewrite <- Ln. exact En. }
  destruct (Cok En) as (P & -> & P1 & P2). cbn [obind].
  unfold update_newest. destruct (wn_frames (vs_win s)) as [|f0 fr] eqn:Ef; [cbn in Ln; lia|]. rewrite <- Ef in *.
  destruct (back_ex (wn_frames (vs_win s))) as (bk & Hbk); [rewrite Ef; discriminate|]. rewrite Hbk. cbn [obind q with_items pq_items front].
  set (fs := set_last (wn_frames (vs_win s)) (frame_of_motion bk (pi_mo it))).
  assert (Sf : Forall2 same_frame (wn_frames (vs_win s)) fs).
  { unfold fs. destruct (exists_last (l := wn_frames (vs_win s))) as (a & y & Ea); [rewrite Ef; discriminate|].
    rewrite Ea in Hbk |- *. rewrite back_app in Hbk. injection Hbk as ->. rewrite set_last_app. apply Forall2_app; [apply same_frames_refl|].
    constructor; [repeat split|constructor]. }
  assert (Lfs : length fs = length (wn_frames (vs_win s))) by (symmetry; eapply Forall2_length; exact Sf).
  assert (Cfs : consecutive b fs).
  { intros i f Hi. destruct (same_frames_nth _ _ _ _ Sf Hi) as (f1 & E1 & e & _). rewrite e. exact (Hid i f1 E1). }
  destruct (back_ex fs) as (nb & Hnb); [intros e; rewrite e in Lfs; rewrite Ef in Lfs; discriminate|].
  set (D := fun p => exists id, wn_mgr (vs_win s) !! id = Some p).
  assert (Lv : live D (tgood ne b (length fs)) (wn_heap (vs_win s))).
  { intros p [id Hp]. destruct (filed_managed _ _ id p (wi_filed b A _ I) Hp) as (f & E & M & _). exists f. split; [exact E|].
    rewrite Lfs, Ln. exact (winv_tgood ne b A (vs_win s) id f I N HA M). }
  assert (Hlk : forall id p, fr_feats nb !! id = Some p -> D p).
  { intros id p Hp. apply back_ok_nth in Hnb as [Hnb _]. destruct (same_frames_nth _ _ _ _ Sf Hnb) as (f1 & E1 & _ & _ & e).
    rewrite e in Hp. exists id. eapply winv_links; [exact I|eapply nth_error_In; exact E1|exact Hp]. }
  destruct (select_good_ok o c (vs_ext s) fs b D (wn_heap (vs_win s)) nb Hn Ho Hb1 Cfs ltac:(lia) Hnb Lv Hlk) as (h' & l & -> & Sh & Ll & Hsel).
  cbn [obind fst snd]. set (s1 := VState (Window h' (wn_mgr (vs_win s)) fs) (vs_ext s) q).
  assert (Sw1 : same_win (vs_win s) (vs_win s1)) by (split; [exact Sh|split; [reflexivity|exact Sf]]).
  destruct l as [|p0 l0].
  - destruct (finish_update_ok o c pol P s1 it r) as (s2 & -> & W1 & W2 & W3 & W4 & W5).
    + cbn [s1 vs_win wn_frames]. lia.
    + reflexivity.
    + cbn [s1 vs_win vs_ext wn_frames]. rewrite Lfs. exact P1.
    + cbn [s1 vs_win vs_ext wn_frames]. rewrite Lfs. exact P2.
    + cbn [obind]. eexists _, _, _. split; [reflexivity|]. rewrite W1, W2, W5. split; [exact Sw1|]. split; [reflexivity|]. split; [exact Pre|].
      split; [rewrite <- Ln; exact En|]. split; [exact W4|]. split.
      * cbn [s1 vs_win vs_ext wn_frames] in W3. rewrite Lfs, Ln in W3. exact W3.
      * destruct (pq_items (vs_pq s2)) as [|it2 r2]; [destruct (W4 eq_refl)|]. exists it2, r2. split; [reflexivity|].
        cbn [map] in W5. injection W5 as -> _. exact Hold.
  - assert (Hlen : (Z.of_nat (length (p0 :: l0)) * (2 * (Z.of_nat (length fs) * Z.of_nat ne)) < 4294967296)%Z).
    { rewrite Lfs, Ln. nia. }
    destruct (measurement_ok o (vs_ext s) fs b h' (p0 :: l0) Hn Hb1 Cfs ltac:(lia) ltac:(lia)) as (Hr & -> & Hmc).
    { fold ne. rewrite Lfs, Ln. nia. }
    { fold ne. exact Hlen. }
    { intros p Hp. destruct (Hsel p Hp) as (Dp & f & E & T2). exists f. split; [exact E|]. split; [|exact T2].
      destruct (live_same D _ _ _ (tgood_same ne b (length fs)) Sh Lv p Dp) as (f' & E' & G). assert (f' = f) by congruence. subst f'. exact G. }
    cbn [obind]. unfold update_state.
    destruct (kalman_ok (vo_saes o) (vc_noise c) P Hr (err_size ne (length (wn_frames (vs_win s)) - 1)) Hsa P1 P2) as (K & dx & P' & -> & D1 & D2 & D3).
    { rewrite Hmc. unfold hx_cols, err_size, imu_size. fold ne. lia. }
    cbn [obind]. destruct (apply_delta_ok dx s1 b it r Hb1 Cfs) as (s2 & -> & A1 & A2 & A3 & m & A4).
    { cbn [s1 vs_win wn_frames]. lia. } { reflexivity. } { cbn [s1 vs_win wn_frames vs_ext]. rewrite Lfs. exact D1. }
    cbn [obind fst snd].
    assert (Lw2 : length (wn_frames (vs_win s2)) = length A).
    { destruct A1 as (_ & _ & A1). apply Forall2_length in A1. cbn [s1 vs_win wn_frames] in A1. lia. }
    cbn [s1 vs_ext] in A2.
    edestruct (finish_update_ok o c pol P' s2) as (s3 & -> & W1 & W2 & W3 & W4 & W5); [lia|exact A4| | |].
    { rewrite Lw2, A2, <- Ln. exact D2. } { rewrite Lw2, A2, <- Ln. exact D3. }
    cbn [obind]. eexists _, _, _. split; [reflexivity|]. rewrite W1, W2, W5. split; [eapply same_win_trans; [exact Sw1|exact A1]|].
    split; [exact A2|]. split; [exact Pre|]. split; [rewrite <- Ln; exact En|]. split; [exact W4|]. split.
    + rewrite Lw2, A2 in W3. exact W3.
    + destruct (pq_items (vs_pq s3)) as [|it2 r2]; [destruct (W4 eq_refl)|]. exists it2, r2. split; [reflexivity|].
      cbn [map pi_ts] in W5. injection W5 as -> _. exact Hold.
Qed.
End Safe.
