(** Derived statements and concrete histories for the loader properties. *)
From Coq Require Import ZArith List Bool Sorting.Sorted Lia Reals Lra.
From Flocq Require Import Core BinarySingleNaN.
From Verif Require Import Fp FpFacts Scalar Base LinAlg Msg DataLoader LoaderSpec LoaderFacts InterpFacts.
Import ListNotations.
Local Open Scope nat_scope.
#[local] Arguments dl_push_imu : simpl never.
#[local] Arguments dl_push_feat : simpl never.
#[local] Arguments dl_pop_one : simpl never.
#[local] Arguments dl_pop_packed : simpl never.
#[local] Arguments accepts : simpl never.

Section Generic.
Context {T : Type} {S : SOps T}.

(** Concrete messages: zero measurements, given time in units of 1/1000 s (0.001 is approximated by
    multiples of 2^-10 s so that all times are exact). *)
Definition tick (n : Z) : f64 := f64_lit n (-10).
Definition wi (n : Z) : imu_msg T := ImuMsg v3zero v3zero (tick n).
Definition wf (n : Z) : feat_msg T := FeatMsg [] [] [] (tick n).
Definition p5 : nat -> f64 := fun _ => f64_0_005.

(** Times of delivered messages can be checked by computation even for an abstract scalar type. *)
Definition w_run (ops : list (dl_op T)) : out (dl_world T * list (dl_obs T)) := dl_run (world0 p5) ops.

Lemma imu_queue_no_pop ops w obs k : w_run ops = Ok (w, obs) -> Forall push_or_pop_one ops ->
  delivered_imu k obs = [] -> dl_imu (w_ld w k) = accepted_imu None k ops.
Proof. intros H Ha Hd. destruct (conservation _ _ _ _ k H Ha) as [Hc _]. rewrite Hd in Hc. exact Hc. Qed.

(** C03 refuted: pushing times 10, 5, 7 buffers [10; 7]. *)
Definition late_ops : list (dl_op T) := [PushI 0 (wi 10); PushI 0 (wi 5); PushI 0 (wi 7)].

Lemma late_accepted : accepted_imu None 0 late_ops = [imu_shifted (wi 10); imu_shifted (wi 7)].
Proof.
  unfold late_ops. cbn [accepted_imu].
  assert (accepts None (im_ts (wi 10)) = true) as -> by (vm_compute; reflexivity).
  assert (accepts (Some (im_ts (wi 10))) (im_ts (wi 5)) = false) as -> by (vm_compute; reflexivity).
  assert (accepts (Some (im_ts (wi 5))) (im_ts (wi 7)) = true) as -> by (vm_compute; reflexivity).
  reflexivity.
Qed.

Lemma sorted_refuted : exists (ops : list (dl_op T)) w obs,
  dl_run (world0 p5) ops = Ok (w, obs) /\ ~ StronglySorted imu_lt (dl_imu (w_ld w 0)).
Proof.
  destruct (run_push_pop_total late_ops (world0 p5)) as [[w obs] H]; [repeat constructor|].
  exists late_ops, w, obs. split; [exact H|].
  destruct (conservation _ _ _ _ 0 H) as [Hc _]; [repeat constructor|].
  assert (delivered_imu 0 obs = []) as Hd.
  { apply run_cons in H as (w1 & o1 & obs1 & H1 & H & ->). apply run_cons in H as (w2 & o2 & obs2 & H2 & H & ->).
    apply run_cons in H as (w3 & o3 & obs3 & H3 & H & ->). injection H as <- <-.
    cbn [dl_step] in H1, H2, H3.
    destruct (dl_push_imu _ _ _) as [[[? ?] ?] ?] in H1. injection H1 as <- <-.
    destruct (dl_push_imu _ _ _) as [[[? ?] ?] ?] in H2. injection H2 as <- <-.
    destruct (dl_push_imu _ _ _) as [[[? ?] ?] ?] in H3. injection H3 as <- <-. reflexivity. }
  rewrite Hd, late_accepted in Hc. simpl in Hc. rewrite Hc. intros Hs.
  apply StronglySorted_inv in Hs as [_ Hs]. inversion Hs as [|? ? Hb _]; subst.
  unfold imu_lt in Hb. vm_compute in Hb. discriminate Hb.
Qed.

(** C05, any buffers: what is released, as conditions on the two heads. *)
Lemma pop_one_decision (l : loader T) : let '(l', c, r, _) := dl_pop_one l in
  cm_imu c ++ dl_imu l' = dl_imu l /\
  (match cm_feat c with Some f => [f] | None => [] end) ++ dl_feat l' = dl_feat l /\
  length (cm_imu c) <= 1 /\
  (r = false <-> dl_imu l = [] /\ dl_feat l = []) /\
  (cm_feat c <> None <-> exists f fs, dl_feat l = f :: fs /\
     forall i is, dl_imu l = i :: is -> f64_leb (fm_ts f) (im_ts i) = true) /\
  (cm_imu c <> [] <-> exists i is, dl_imu l = i :: is /\
     forall f fs, dl_feat l = f :: fs ->
       f64_leb (fm_ts f) (im_ts i) = false \/ f64_ltb (f64_abs (f64_sub (fm_ts f) (im_ts i))) (dl_period l) = true).
Proof.
  unfold dl_pop_one. destruct (dl_imu l) as [|i is] eqn:Ei, (dl_feat l) as [|f fs] eqn:Ef.
  - rewrite Ei, Ef. cbn. repeat split; auto; try congruence; try lia.
    + intros (? & ? & ? & _). discriminate.
    + intros (? & ? & ? & _). discriminate.
  - cbn. repeat split; auto; try congruence; try lia; try (intros [_ H]; discriminate H).
    + intros _. exists f, fs. split; auto. intros ? ? H; discriminate H.
    + intros (? & ? & ? & _). discriminate.
  - cbn. repeat split; auto; try congruence; try lia; try (intros [H _]; discriminate H).
    + intros (? & ? & ? & _). discriminate.
    + intros _. exists i, is. split; auto. intros ? ? H; discriminate H.
  - destruct (f64_leb (fm_ts f) (im_ts i)) eqn:E1; [destruct (f64_ltb _ _) eqn:E2|]; cbn [dl_imu dl_feat cm_imu cm_feat app length].
    + repeat split; auto; try congruence; try lia; try (intros [H _]; discriminate H); intros _.
      * exists f, fs. split; auto. intros ? ? [= <- <-]. exact E1.
      * exists i, is. split; auto. intros ? ? [= <- <-]. right. exact E2.
    + repeat split; auto; try congruence; try lia; try (intros [H _]; discriminate H).
      * intros _. exists f, fs. split; auto. intros ? ? [= <- <-]. exact E1.
      * intros (i0 & is0 & [= <- <-] & H). destruct (H f fs eq_refl) as [H1|H1]; [rewrite E1 in H1|rewrite E2 in H1]; discriminate H1.
    + repeat split; auto; try congruence; try lia; try (intros [H _]; discriminate H).
      * intros (f0 & fs0 & [= <- <-] & H). specialize (H i is eq_refl). rewrite E1 in H. discriminate H.
      * intros _. exists i, is. split; auto. intros ? ? [= <- <-]. left. exact E1.
Qed.

(** Everything delivered by later pops was buffered. *)
Lemma pops_in n : forall (l : loader T) c r, In (c, r) (snd (pops n l)) ->
  (forall i, In i (cm_imu c) -> In i (dl_imu l)) /\ (forall f, cm_feat c = Some f -> In f (dl_feat l)).
Proof.
  induction n as [|n IH]; intros l c r H; [destruct H|].
  simpl in H. pose proof (pop_one_conserve l) as Hc. destruct (dl_pop_one l) as [[[l1 c1] r1] st].
  destruct Hc as [H1 H2]. destruct (pops n l1) as [l2 rest] eqn:E. simpl in H. rewrite <- H1, <- H2. destruct H as [[= -> ->]|H].
  - split; [intros i Hi; apply in_or_app; auto|]. intros f Hf. rewrite Hf. simpl. auto.
  - destruct (IH l1 c r) as [Ha Hb]; [rewrite E; exact H|].
    split; [intros i Hi; apply in_or_app; auto|intros f Hf; apply in_or_app; auto].
Qed.

(** C06, bound: what is delivered later is never earlier than what was delivered before, except features
    falling between a features message and the IMU sample bundled with it. *)
Lemma delivery_bound (l : loader T) n : sorted_buffers l -> not_nan_buffers l ->
  let '(l', c, _, _) := dl_pop_one l in
  forall c' r', In (c', r') (snd (pops n l')) ->
  (forall i', In i' (cm_imu c') -> forall t, In t (comb_times c) -> f64_leb t (im_ts i') = true) /\
  (forall f', cm_feat c' = Some f' -> forall t, In t (comb_times c) ->
     f64_leb t (fm_ts f') = true \/
     exists f i, cm_feat c = Some f /\ cm_imu c = [i] /\ t = im_ts i /\
       f64_ltb (fm_ts f) (fm_ts f') = true /\
       f64_ltb (f64_abs (f64_sub (fm_ts f) (im_ts i))) (dl_period l) = true).
Proof.
  intros Hs Hn. pose proof (pop_one_order l Hs Hn) as Ho. pose proof (pop_one_conserve l) as Hc.
  destruct (dl_pop_one l) as [[[l' c] r] st]. destruct Hc as [Hc1 Hc2].
  destruct Ho as (_ & _ & Ho). intros c' r' Hin.
  destruct (pops_in n l' c' r' Hin) as [Hii Hff]. unfold comb_times.
  destruct (cm_feat c) as [f|] eqn:Ef.
  - destruct Ho as (Hf & Hi & Hb). destruct (cm_imu c) as [|i [|i2 is]] eqn:Ei; [| |contradiction].
    + split.
      * intros i' Hi' t [<-|[]]. auto.
      * intros f' Hf' t [<-|[]]. left. apply f64_ltb_leb. auto.
    + destruct Hb as [Hb1 Hb2]. split.
      * intros i' Hi' t [<-|[<-|[]]]; [auto|].
        apply f64_ltb_leb. simpl in Hc1. destruct Hs as [Hs _]. rewrite <- Hc1 in Hs.
        eapply sorted_tail_imu; eauto.
      * intros f' Hf' t [<-|[<-|[]]].
        -- left. apply f64_ltb_leb. auto.
        -- right. exists f, i. split; [reflexivity|]. split; [reflexivity|]. split; [reflexivity|]. split; [apply Hf, Hff, Hf'|exact Hb2].
  - destruct (cm_imu c) as [|i [|i2 is]] eqn:Ei; [| |contradiction].
    + split; intros ? _ ? [].
    + destruct Ho as [Hf Hi]. split.
      * intros i' Hi' t [<-|[]]. apply f64_ltb_leb. auto.
      * intros f' Hf' t [<-|[]]. left. apply f64_ltb_leb. auto.
Qed.

(** C06 refuted: features at 1 and 2, IMU at 4 and 9 (x 2^-10 s, period 0.005): the second features
    message comes out after the IMU sample at 4. *)
Definition bundle_loader : loader T := Loader [wf 1; wf 2] [wi 4; wi 9] (f64_of_Z (-1)) f64_0_005.

Lemma bundle_sorted : sorted_buffers bundle_loader /\ not_nan_buffers bundle_loader.
Proof.
  split; split; cbn [bundle_loader dl_imu dl_feat]; repeat constructor; try (vm_compute; reflexivity).
Qed.

Lemma delivery_refuted : exists l : loader T,
  sorted_buffers l /\ not_nan_buffers l /\ dl_imu l <> [] /\ dl_feat l <> [] /\
  let '(l1, c1, _, _) := dl_pop_one l in
  dl_imu l1 <> [] /\ dl_feat l1 <> [] /\
  let '(_, c2, _, _) := dl_pop_one l1 in
  exists t1 t2, In t1 (comb_times c1) /\ In t2 (comb_times c2) /\ f64_ltb t2 t1 = true.
Proof.
  exists bundle_loader. destruct bundle_sorted as [H1 H2]. split; [exact H1|]. split; [exact H2|].
  split; [discriminate|]. split; [discriminate|].
  unfold dl_pop_one at 1, bundle_loader. cbn [dl_imu dl_feat dl_period].
  assert (f64_leb (fm_ts (wf 1)) (im_ts (wi 4)) = true) as -> by (vm_compute; reflexivity).
  assert (f64_ltb (f64_abs (f64_sub (fm_ts (wf 1)) (im_ts (wi 4)))) f64_0_005 = true) as -> by (vm_compute; reflexivity).
  cbn [dl_imu dl_feat]. split; [discriminate|]. split; [discriminate|].
  unfold dl_pop_one. cbn [dl_imu dl_feat dl_period].
  assert (f64_leb (fm_ts (wf 2)) (im_ts (wi 9)) = true) as -> by (vm_compute; reflexivity).
  assert (f64_ltb (f64_abs (f64_sub (fm_ts (wf 2)) (im_ts (wi 9)))) f64_0_005 = false) as -> by (vm_compute; reflexivity).
  exists (im_ts (wi 4)), (fm_ts (wf 2)). simpl. repeat split; auto; vm_compute; reflexivity.
Qed.

(** C07 refuted: any loader whose head features message is not later than its head IMU sample. *)
Lemma stale_refuted : exists l : loader T, let '(_, _, _, stale) := dl_pop_one l in stale = true.
Proof.
  exists bundle_loader. pose proof (stale_read_iff bundle_loader) as H.
  destruct (dl_pop_one bundle_loader) as [[[? ?] ?] st]. apply H.
  exists (wi 4), [wi 9], (wf 1), [wf 2]. repeat split; vm_compute; reflexivity.
Qed.

(** C08 with the final refusal. *)
Lemma drains (l : loader T) : exists k, k <= length (dl_imu l) + length (dl_feat l) /\
  let '(l', outs) := pops k l in
  Forall (fun cr => snd cr = true) outs /\
  concat (map (fun cr => cm_imu (fst cr)) outs) = dl_imu l /\
  concat (map (fun cr => match cm_feat (fst cr) with Some f => [f] | None => [] end) outs) = dl_feat l /\
  let '(_, _, r, _) := dl_pop_one l' in r = false.
Proof.
  destruct (drains_gen _ l (Nat.le_refl _)) as (k & Hk & E1 & E2 & E3 & E4 & E5).
  exists k. split; [exact Hk|]. destruct (pops k l) as [l' outs]. simpl in *.
  repeat split; auto. unfold dl_pop_one. rewrite E1, E2. reflexivity.
Qed.

(** C10 *)
Lemma pop_packed_flag (l : loader T) : not_nan_buffers l ->
  forall l' c r, dl_pop_packed l = Ok (l', c, r) ->
  (r = true <-> exists f fs i is e, dl_feat l = f :: fs /\ dl_imu l = i :: is /\ last_opt (dl_imu l) = Some e /\
     f64_ltb (im_ts i) (fm_ts f) = true /\ f64_ltb (fm_ts f) (im_ts e) = true) /\
  (r = false /\ dl_feat l' <> dl_feat l <->
     exists f fs i is e, dl_feat l = f :: fs /\ dl_imu l = i :: is /\ last_opt (dl_imu l) = Some e /\
     f64_leb (fm_ts f) (im_ts i) = true /\ f64_ltb (fm_ts f) (im_ts e) = true).
Proof.
  intros Hn l' c r E. pose proof (pop_packed_spec l Hn) as (l2 & c2 & r2 & E2 & _ & _ & Hs).
  rewrite E in E2. injection E2 as <- <- <-. destruct Hn as [Ni Nf].
  revert E Hs. unfold dl_pop_packed.
  destruct (dl_imu l) as [|i is] eqn:Ei.
  { intros [= <- <- <-] _. split; split; try discriminate; try (intros (? & ? & ? & ? & ? & _ & ? & _); discriminate).
    intros [_ H]. congruence. }
  destruct (dl_feat l) as [|f fs] eqn:Ef.
  { intros [= <- <- <-] _. split; split; try discriminate; try (intros (? & ? & ? & ? & ? & ? & _); discriminate).
    intros [_ H]. congruence. }
  destruct (back_app_some (i :: is)) as (lst & Hb & Hin & Happ); [discriminate|]. rewrite Hb. cbn [obind].
  assert (Hlo : forall (q : list (imu_msg T)) x, back q = Ok x -> last_opt q = Some x).
  { induction q as [|a q IHq]; [discriminate|]. destruct q as [|b q]; intros x Hx; [injection Hx as <-; reflexivity|].
    exact (IHq x Hx). }
  rewrite (Hlo _ _ Hb).
  inversion Ni as [|? ? Ni1 Ni2]; inversion Nf as [|? ? Nf1 _]; subst.
  assert (f64_isnan (im_ts lst) = false) as Nl by (rewrite Forall_forall in Ni; apply Ni; exact Hin).
  destruct (f64_leb (im_ts lst) (fm_ts f)) eqn:E1.
  { intros [= <- <- <-] _. split; split; try discriminate.
    - intros (f0 & fs0 & i0 & is0 & e0 & [= <- <-] & _ & [= <-] & _ & H). apply f64_ltb_leb_false in H. congruence.
    - intros [_ H]. congruence.
    - intros (f0 & fs0 & i0 & is0 & e0 & [= <- <-] & _ & [= <-] & _ & H). apply f64_ltb_leb_false in H. congruence. }
  apply f64_leb_false_ltb in E1; auto.
  destruct (f64_leb (fm_ts f) (im_ts i)) eqn:E2.
  { intros [= <- <- <-] _. split; split; try discriminate.
    - intros (f0 & fs0 & i0 & is0 & e0 & [= <- <-] & [= <- <-] & _ & H & _). apply f64_ltb_leb_false in H. congruence.
    - intros _. exists f, fs, i, is, lst. auto.
    - intros _. split; auto. simpl. clear. intros H.
      apply (f_equal (@length _)) in H. simpl in H. lia. }
  intros Eb [(-> & _ & _ & Hd)|(-> & f0 & pre & post & lft & rgt & Hf & _)].
  - exfalso. destruct (take_until_spec (fm_ts f) (i :: is) []) as (pre & post & y & Ht & Hq & Hp & Hy).
    { exists lst. split; auto. apply f64_ltb_leb_false. exact E1. }
    clear Hd. revert Eb. rewrite Ht. cbn [obind fst snd app].
    assert (pre <> []) as En.
    { intros ->. simpl in Hq. injection Hq as <- <-.
      apply f64_leb_false_iff in E2; auto. apply f64_leb_false_iff in Hy; auto. lra. }
    destruct (back_app_some pre En) as (lft & Hlb & _). rewrite Hlb. cbn [obind front].
    destruct (f64_ltb f64_1e_6 _); discriminate.
  - split; split; try discriminate; auto.
    + intros _. exists f, fs, i, is, lst. repeat split; auto. apply f64_leb_false_ltb; auto.
    + intros [H _]; discriminate H.
    + intros (f1 & fs1 & i1 & is1 & e1 & [= <- <-] & [= <- <-] & _ & H & _). congruence.
Qed.

Lemma reach_nn per ops (w : dl_world T) obs k : dl_run (world0 per) ops = Ok (w, obs) -> not_nan_buffers (w_ld w k).
Proof.
  intros H. destruct (run_nn ops _ (world0_off per) (world0_nn per)) as (w' & obs' & Hr & Hn).
  rewrite Hr in H. injection H as <- <-. apply Hn.
Qed.

Lemma packed_contents per ops w obs k : dl_run (world0 per) ops = Ok (w, obs) ->
  let l : loader T := w_ld w k in
  exists l' c r, dl_pop_packed l = Ok (l', c, r) /\
  (r = true <-> exists f fs i is e, dl_feat l = f :: fs /\ dl_imu l = i :: is /\ last_opt (dl_imu l) = Some e /\
     f64_ltb (im_ts i) (fm_ts f) = true /\ f64_ltb (fm_ts f) (im_ts e) = true) /\
  (r = true -> exists f pre e b nxt post,
     cm_feat c = Some f /\ dl_feat l = f :: dl_feat l' /\
     dl_imu l = (pre ++ [e]) ++ nxt :: post /\
     Forall (fun m => f64_leb (im_ts m) (fm_ts f) = true) (pre ++ [e]) /\
     f64_ltb (fm_ts f) (im_ts nxt) = true /\
     dl_imu l' = b :: nxt :: post /\
     ((f64_ltb f64_1e_6 (f64_abs (f64_sub (im_ts e) (fm_ts f))) = false /\ b = e /\ cm_imu c = pre ++ [e]) \/
      (f64_ltb f64_1e_6 (f64_abs (f64_sub (im_ts e) (fm_ts f))) = true /\ im_ts b = fm_ts f /\
       cm_imu c = (pre ++ [e]) ++ [b]))) /\
  (r = false -> cm_feat c = None /\ cm_imu c = [] /\ dl_imu l' = dl_imu l /\
     (dl_feat l' = dl_feat l \/
      exists f i is, dl_feat l = f :: dl_feat l' /\ dl_imu l = i :: is /\ f64_leb (fm_ts f) (im_ts i) = true)).
Proof.
  intros H l. pose proof (reach_nn _ _ _ _ k H) as Hn. fold l in Hn.
  destruct (pop_packed_spec l Hn) as (l' & c & r & E & _ & _ & Hs).
  exists l', c, r. split; [exact E|]. split; [apply (pop_packed_flag l Hn _ _ _ E)|]. split.
  - intros ->. destruct Hs as [(Hc & _)|(_ & f & pre & post & lft & rgt & Ef & Ei & Hp & Hr & Hc)]; [discriminate|].
    assert (f64_ltb (fm_ts f) (im_ts rgt) = true) as Hlt.
    { destruct Hn as [Ni Nf]. rewrite Ei in Ni. rewrite Ef in Nf. inversion Nf; subst.
      apply f64_leb_false_ltb; auto. apply Forall_app in Ni as [_ Ni]. inversion Ni as [|? ? _ Ni2]; subst.
      inversion Ni2; auto. }
    destruct (f64_ltb f64_1e_6 (f64_abs (f64_sub (im_ts lft) (fm_ts f)))) eqn:E6; destruct Hc as [-> Hq].
    + exists f, pre, lft, (interpolate lft rgt (fm_ts f)), rgt, post. rewrite <- !app_assoc. simpl app.
      repeat split; auto.
    + exists f, pre, lft, lft, rgt, post. rewrite <- !app_assoc. simpl app.
      repeat split; auto.
  - intros ->. destruct Hs as [(_ & -> & Hi & Hd)|(Hc & _)]; [|discriminate]. auto.
Qed.

(** C12 refuted: a push on loader 0 changes what loader 1 accepts; Clear does not forget. *)
Definition iso_ops (first : bool) : list (dl_op T) := (if first then [PushI 0 (wi 10)] else []) ++ [PushI 1 (wi 5)].
Definition clear_ops (first : bool) : list (dl_op T) := (if first then [PushI 0 (wi 10); ClearL 0] else []) ++ [PushI 0 (wi 5)].

Definition buf_len (o : out (dl_world T * list (dl_obs T))) (k : nat) : option nat :=
  match o with Ok (w, _) => Some (length (dl_imu (w_ld w k))) | Ub _ => None end.

Lemma buf_len_spec o k n : buf_len o k = Some n -> exists w obs, o = Ok (w, obs) /\ length (dl_imu (w_ld w k)) = n.
Proof. destruct o as [[w obs]|]; simpl; [|discriminate]. intros [= <-]. eauto. Qed.

(** The calls on loader [k] in a history. *)
Definition on_loader (k : nat) (op : dl_op T) : bool :=
  match op with PushF j _ | PushI j _ | PopOne j | PopPacked j | ClearL j => Nat.eqb j k end.

Lemma isolation_refuted : exists (opsa opsb : list (dl_op T)) k wa oa wb ob,
  filter (on_loader k) opsa = filter (on_loader k) opsb /\
  dl_run (world0 p5) opsa = Ok (wa, oa) /\ dl_run (world0 p5) opsb = Ok (wb, ob) /\
  length (dl_imu (w_ld wa k)) <> length (dl_imu (w_ld wb k)).
Proof.
  destruct (buf_len_spec (w_run (iso_ops true)) 1 0) as (wa & oa & Ea & La); [vm_compute; reflexivity|].
  destruct (buf_len_spec (w_run (iso_ops false)) 1 1) as (wb & ob & Eb & Lb); [vm_compute; reflexivity|].
  exists (iso_ops true), (iso_ops false), 1, wa, oa, wb, ob. repeat split; auto. rewrite La, Lb. discriminate.
Qed.

Lemma clear_refuted : exists (before after : list (dl_op T)) k wa oa wb ob,
  dl_run (world0 p5) (before ++ ClearL k :: after) = Ok (wa, oa) /\
  dl_run (world0 p5) after = Ok (wb, ob) /\
  length (dl_imu (w_ld wa k)) <> length (dl_imu (w_ld wb k)).
Proof.
  destruct (buf_len_spec (w_run (clear_ops true)) 0 0) as (wa & oa & Ea & La); [vm_compute; reflexivity|].
  destruct (buf_len_spec (w_run (clear_ops false)) 0 1) as (wb & ob & Eb & Lb); [vm_compute; reflexivity|].
  exists [PushI 0 (wi 10)], [PushI 0 (wi 5)], 0, wa, oa, wb, ob. repeat split; auto. rewrite La, Lb. discriminate.
Qed.

(** A history with accepted, late and badly sized pushes, pops and packed pops, used by the examples. *)
Definition wfs (n : Z) : feat_msg T := FeatMsg [7%Z] [stdpp.gmap.gmap_empty] [0%Z] (tick n).
Definition bad_msg (n : Z) : feat_msg T := FeatMsg [7%Z] [] [] (tick n).
Definition demo_ops : list (dl_op T) :=
  [PushI 0 (wi 1); PushI 0 (wi 4); PushF 0 (wfs 3); PushF 0 (bad_msg 4); PushI 0 (wi 9); PushI 0 (wi 9); PushF 0 (wfs 6);
   PopOne 0; PushI 0 (wi 14)].
Definition demo_pack : list (dl_op T) := demo_ops ++ [PopPacked 0; PushF 0 (wfs 10); PopPacked 0].
Definition lens (o : out (dl_world T * list (dl_obs T))) : option (nat * nat) :=
  match o with Ok (w, _) => Some (length (dl_imu (w_ld w 0)), length (dl_feat (w_ld w 0))) | Ub _ => None end.
Lemma lens_spec o n m : lens o = Some (n, m) ->
  exists w obs, o = Ok (w, obs) /\ length (dl_imu (w_ld w 0)) = n /\ length (dl_feat (w_ld w 0)) = m.
Proof. destruct o as [[w obs]|]; simpl; [|discriminate]. intros [= <- <-]. eauto. Qed.
Lemma demo_run : exists w obs, dl_run (world0 p5) demo_ops = Ok (w, obs) /\
  length (dl_imu (w_ld w 0)) = 3 /\ length (dl_feat (w_ld w 0)) = 2.
Proof. apply lens_spec. vm_compute. reflexivity. Qed.
(** After the pops: 4 was dropped (not later than the first sample), 10 was packed with an interpolated sample. *)
Lemma demo_pack_run : exists w obs, dl_run (world0 p5) demo_pack = Ok (w, obs) /\
  length (dl_imu (w_ld w 0)) = 3 /\ length (dl_feat (w_ld w 0)) = 1.
Proof. apply lens_spec. vm_compute. reflexivity. Qed.
Lemma demo_no_packed : Forall push_or_pop_one demo_ops.
Proof. repeat constructor. Qed.
Lemma demo_nondec : nondec (imu_inputs demo_ops) /\ nondec (feat_inputs demo_ops).
Proof.
  cbn [demo_ops imu_inputs feat_inputs well_sized wfs bad_msg fm_ids fm_obs length Nat.eqb].
  split; repeat constructor; vm_compute; reflexivity.
Qed.
(** A packed pop that succeeds with an interpolated sample: times 1 and 4 around the image at 2. *)
Definition pack_ops : list (dl_op T) := [PushI 0 (wi 1); PushI 0 (wi 4); PushF 0 (wfs 2)].
Definition pack_ok : option (nat * bool) :=
  match dl_run (world0 p5) pack_ops with
  | Ok (w, _) => match dl_pop_packed (w_ld w 0) with Ok (_, c, r) => Some (length (cm_imu c), r) | Ub _ => None end
  | Ub _ => None
  end.
Lemma pack_run : exists w obs l' c, dl_run (world0 p5) pack_ops = Ok (w, obs) /\
  dl_pop_packed (w_ld w 0) = Ok (l', c, true) /\ length (cm_imu c) = 2.
Proof.
  assert (pack_ok = Some (2, true)) as H by (vm_compute; reflexivity). revert H. unfold pack_ok.
  destruct (dl_run _ _) as [[w obs]|]; [|discriminate].
  destruct (dl_pop_packed _) as [[[l' c] r]|] eqn:E; [|discriminate]. intros [= H ->].
  exists w, obs, l', c. split; [reflexivity|]. split; [exact E|exact H].
Qed.

End Generic.

(** C11 *)
Local Open Scope R_scope.
Definition between_upto (e x y z : R) : Prop :=
  Rmin x y - e * Rmax (Rabs x) (Rabs y) <= z <= Rmax x y + e * Rmax (Rabs x) (Rabs y).
Definition v3_between_upto (e : R) (a b c : v3 R) : Prop :=
  between_upto e (v3x a) (v3x b) (v3x c) /\ between_upto e (v3y a) (v3y b) (v3y c) /\ between_upto e (v3z a) (v3z b) (v3z c).

Lemma interpolate_between (lft rgt : imu_msg R) t :
  is_finite (im_ts lft) = true -> is_finite (im_ts rgt) = true -> is_finite t = true ->
  is_finite (f64_sub (im_ts rgt) (im_ts lft)) = true ->
  f64_leb (im_ts lft) t = true -> f64_ltb t (im_ts rgt) = true ->
  v3_between_upto (/ 4194304) (im_gyro lft) (im_gyro rgt) (im_gyro (interpolate lft rgt t)) /\
  v3_between_upto (/ 4194304) (im_accel lft) (im_accel rgt) (im_accel (interpolate lft rgt t)).
Proof.
  intros Fl Fr Ft Fd H1 H2.
  destruct (weights (im_ts lft) t (im_ts rgt) Fl Fr Ft Fd H1 H2) as (Ha & Hb & Hab).
  unfold interpolate. fold (w_rate (im_ts lft) t (im_ts rgt)). cbn [im_gyro im_accel].
  unfold v3_between_upto, between_upto, v3add, v3scale. cbn [v3x v3y v3z].
  cbv [sadd smul sof32 ops_R].
  assert (0 <= / 4194304) by lra.
  repeat split; apply convex_bound; assumption.
Qed.

Lemma packed_between per ops w obs k l' c :
  dl_run (world0 per) ops = Ok (w, obs) -> dl_pop_packed (w_ld w k) = Ok (l', c, true) ->
  Forall (fun m => is_finite (im_ts m) = true) (dl_imu (w_ld w k)) ->
  Forall (fun m => is_finite (fm_ts m) = true) (dl_feat (w_ld w k)) ->
  (forall a b, In a (dl_imu (w_ld w k)) -> In b (dl_imu (w_ld w k)) -> is_finite (f64_sub (im_ts b) (im_ts a)) = true) ->
  exists b, last_opt (cm_imu c) = Some b /\
  (In b (dl_imu (w_ld w k)) \/
   exists pre e nxt post, dl_imu (w_ld w k) = pre ++ e :: nxt :: post /\
     v3_between_upto (/ 4194304) (im_gyro e) (im_gyro nxt) (im_gyro b) /\
     v3_between_upto (/ 4194304) (im_accel e) (im_accel nxt) (im_accel b)).
Proof.
  intros H E Fi Ff Fd. pose proof (reach_nn _ _ _ _ k H) as Hn.
  destruct (pop_packed_spec _ Hn) as (l2 & c2 & r2 & E2 & _ & _ & Hs).
  rewrite E in E2. injection E2 as <- <- <-.
  destruct Hs as [(Hc & _)|(_ & f & pre & post & lft & rgt & Ef & Ei & Hp & Hr & Hc)]; [discriminate|].
  assert (Hla : forall (q : list (imu_msg R)) x, last_opt (q ++ [x]) = Some x).
  { induction q as [|a q IH]; intros x; [reflexivity|]. simpl. rewrite IH. destruct (q ++ [x])%list eqn:Eq; auto.
    destruct q; discriminate. }
  assert (Forall (fun m => f64_isnan (im_ts m) = false) (dl_imu (w_ld w k))) as Ni by apply Hn.
  rewrite Ei in Fi, Ni, Fd. rewrite Ef in Ff. inversion Ff as [|? ? Ff1 _]; subst.
  apply Forall_app in Fi as [_ Fi]. inversion Fi as [|? ? Fl Fi2]; subst. inversion Fi2 as [|? ? Fr _]; subst.
  apply Forall_app in Ni as [_ Ni]. inversion Ni as [|? ? Nl Ni2]; subst. inversion Ni2 as [|? ? Nr _]; subst.
  apply Forall_app in Hp as [_ Hp]. inversion Hp as [|? ? Hp1 _]; subst.
  destruct (f64_ltb _ _); destruct Hc as [-> Hq]; cbn [cm_imu].
  - exists (interpolate lft rgt (fm_ts f)). split.
    + replace (pre ++ [lft; interpolate lft rgt (fm_ts f)])%list with ((pre ++ [lft]) ++ [interpolate lft rgt (fm_ts f)])%list
        by (rewrite <- app_assoc; reflexivity). apply Hla.
    + right. exists pre, lft, rgt, post. split; [exact Ei|]. apply interpolate_between; auto.
      * apply Fd; apply in_or_app; simpl; auto.
      * apply f64_leb_false_ltb; auto. apply fin_notnan. exact Ff1.
  - exists lft. split; [apply Hla|]. left. rewrite Ei. apply in_or_app. simpl. auto.
Qed.

(** The weights do not sum to one: equal neighbours 1 and image time at one third of the interval give 1 + 2^-25. *)
Lemma convex_refuted : exists (lft rgt : imu_msg R) t,
  f64_leb (im_ts lft) t = true /\ f64_ltb t (im_ts rgt) = true /\
  v3x (im_gyro lft) = 1 /\ v3x (im_gyro rgt) = 1 /\ v3x (im_gyro (interpolate lft rgt t)) > 1.
Proof.
  exists (ImuMsg (V3 1 0 0) v3zero (f64_of_Z 0)), (ImuMsg (V3 1 0 0) v3zero (f64_of_Z 3)), (f64_of_Z 1).
  split; [vm_compute; reflexivity|]. split; [vm_compute; reflexivity|]. split; [reflexivity|]. split; [reflexivity|].
  unfold interpolate. cbn [im_gyro im_ts v3x v3add v3scale]. cbv [sadd smul sof32 ops_R].
  assert (Hv : forall (x : f32) m e, B2SF x = SpecFloat.S754_finite false m e -> B2R x = IZR (Zpos m) * bpow radix2 e).
  { intros x m e Hx. destruct x; try discriminate. simpl in Hx. injection Hx as -> -> ->. reflexivity. }
  rewrite (Hv _ 11184811%positive (-24)%Z) by (vm_compute; reflexivity).
  rewrite (Hv _ 11184811%positive (-25)%Z) by (vm_compute; reflexivity).
  change (bpow radix2 (-24)) with (/ 16777216). change (bpow radix2 (-25)) with (/ 33554432). lra.
Qed.
