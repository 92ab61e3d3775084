(** ExpandCameraCovariance, ReduceCameraCovariance, ConstructCovariance and UpdateCovariance. *)
From Coq Require Import Reals Lra Lia List Arith Bool ZArith.
From stdpp Require Import gmap.
From Verif Require Import Fp Scalar Base LinAlg Msg FeatureManager FrameManager Window MathLib Propagator Triangulate Pnp
  VisionUpdate MatFacts UpdSpec FrameFacts.
Import ListNotations.
Local Open Scope nat_scope.

(** ** Checked block operations *)
Section Blocks.
Context {T : Type} {S : SOps T}.

Lemma setb_ok : forall (a b : mat T) i0 j0, i0 + mr b <= mr a -> j0 + mc b <= mc a -> setb a i0 j0 b = Ok (set_block a i0 j0 b).
Proof.
  intros a b i0 j0 H1 H2. unfold setb, in_block.
  rewrite (proj2 (Nat.leb_le _ _) H1), (proj2 (Nat.leb_le _ _) H2). reflexivity.
Qed.
Lemma setb_inv : forall (a b : mat T) i0 j0 c, setb a i0 j0 b = Ok c ->
  i0 + mr b <= mr a /\ j0 + mc b <= mc a /\ c = set_block a i0 j0 b.
Proof.
  intros a b i0 j0 c H. unfold setb, in_block in H.
  destruct (Nat.leb_spec (i0 + mr b) (mr a)), (Nat.leb_spec (j0 + mc b) (mc a)); cbn in H; try discriminate H.
  inversion H; auto.
Qed.
Lemma setbn_ok : forall (a b : mat T) i0 j0 r c, mr b = r -> mc b = c -> i0 + r <= mr a -> j0 + c <= mc a ->
  setbn a i0 j0 r c b = Ok (set_block a i0 j0 b).
Proof.
  intros a b i0 j0 r c <- <- H1 H2. unfold setbn. rewrite !Nat.eqb_refl. cbn. apply setb_ok; assumption.
Qed.
Lemma setbn_inv : forall (a b : mat T) i0 j0 r c d, setbn a i0 j0 r c b = Ok d ->
  mr b = r /\ mc b = c /\ i0 + r <= mr a /\ j0 + c <= mc a /\ d = set_block a i0 j0 b.
Proof.
  intros a b i0 j0 r c d H. unfold setbn in H.
  destruct (Nat.eqb_spec (mr b) r), (Nat.eqb_spec (mc b) c); cbn in H; try discriminate H.
  apply setb_inv in H. subst. tauto.
Qed.
Lemma block_ok : forall (a : mat T) i0 j0 r c, i0 + r <= mr a -> j0 + c <= mc a -> block a i0 j0 r c = Ok (get_block a i0 j0 r c).
Proof.
  intros a i0 j0 r c H1 H2. unfold block, in_block.
  rewrite (proj2 (Nat.leb_le _ _) H1), (proj2 (Nat.leb_le _ _) H2). reflexivity.
Qed.
Lemma set_block_in : forall (a b : mat T) i0 j0 i j, i0 <= i < i0 + mr b -> j0 <= j < j0 + mc b ->
  me (set_block a i0 j0 b) i j = me b (i - i0) (j - j0).
Proof.
  intros a b i0 j0 i j [H1 H2] [H3 H4]. unfold set_block. cbn [me].
  rewrite (proj2 (Nat.leb_le _ _) H1), (proj2 (Nat.leb_le _ _) H3), (proj2 (Nat.ltb_lt _ _) H2), (proj2 (Nat.ltb_lt _ _) H4). reflexivity.
Qed.
Lemma set_block_out : forall (a b : mat T) i0 j0 i j, (i < i0 \/ i0 + mr b <= i) \/ (j < j0 \/ j0 + mc b <= j) ->
  me (set_block a i0 j0 b) i j = me a i j.
Proof.
  intros a b i0 j0 i j H. unfold set_block. cbn [me].
  destruct (Nat.leb_spec i0 i), (Nat.ltb_spec i (i0 + mr b)), (Nat.leb_spec j0 j), (Nat.ltb_spec j (j0 + mc b)); cbn; try reflexivity; lia.
Qed.
Lemma cresize_in : forall junk (a : mat T) r c i j, i < mr a -> j < mc a -> me (cresize junk a r c) i j = me a i j.
Proof. intros junk a r c i j H1 H2. unfold cresize. cbn [me]. rewrite (proj2 (Nat.ltb_lt _ _) H1), (proj2 (Nat.ltb_lt _ _) H2). reflexivity. Qed.
Lemma mmulc_ok : forall a b : mat T, mc a = mr b -> mmulc a b = Ok (mmul a b).
Proof. intros a b H. unfold mmulc. rewrite H, Nat.eqb_refl. reflexivity. Qed.
Lemma maddc_ok : forall a b : mat T, mr a = mr b -> mc a = mc b -> maddc a b = Ok (madd a b).
Proof. intros a b H1 H2. unfold maddc. rewrite H1, H2, !Nat.eqb_refl. reflexivity. Qed.

Lemma ssum_ext : forall n (f g : nat -> T), (forall i, i < n -> f i = g i) -> ssum n f = ssum n g.
Proof.
  induction n as [|n IH]; intros f g H; [reflexivity|]. cbn [ssum]. rewrite (IH f g) by (intros; apply H; lia).
  rewrite (H n) by lia. reflexivity.
Qed.

End Blocks.

(** Rewriting entries of nested block assignments. *)
Ltac sz := cbn [mr mc set_block get_block mtr mmul mzero cresize mat_of_m33 expand_J] in *; lia.
Ltac blk := repeat first [ rewrite set_block_in by sz | rewrite set_block_out by sz | rewrite cresize_in by sz ].

(** ** ExpandCameraCovariance *)
Section Expand.
Context {T : Type} {S : SOps T}.

(** The result, entry by entry, for any scalar type: [jrow k f] is the product of row [k] of the matrix
    expand_J with the column [f]. *)
Definition jrow (k : nat) (f : nat -> T) : T := ssum 15 (fun l => smul (me expand_J k l) (f l)).
Definition expand_entry (n : nat) (P : mat T) (i j : nat) : T :=
  if i <? n then (if j <? n then me P i j else jrow (j - n) (fun l => me P l i))
  else if j <? n then jrow (i - n) (fun l => me P l j)
  else ssum 15 (fun l => smul (jrow (i - n) (fun m => me P m l)) (me expand_J (j - n) l)).

Lemma expand_exact : forall junk ne nf (P : mat T), 1 <= nf -> mr P = err_size ne (nf - 1) -> mc P = err_size ne (nf - 1) ->
  exists P', expand_cov junk ne nf P = Ok P' /\ mr P' = err_size ne nf /\ mc P' = err_size ne nf /\
    forall i j, i < err_size ne nf -> j < err_size ne nf -> me P' i j = expand_entry (err_size ne (nf - 1)) P i j.
Proof.
  intros junk ne nf P Hnf Hr Hc. unfold expand_cov.
  set (n := err_size ne (nf - 1)) in *. assert (Hn : n = 15 + (ne + nf) * 6 - 6) by (unfold n, err_size; lia).
  assert (Hn' : err_size ne nf = n + 6) by (unfold n, err_size; lia). rewrite Hn'. cbv zeta.
  replace (imu_size + (ne + nf) * 6 - 6) with n by (unfold imu_size; lia).
  replace (imu_size + (ne + nf) * 6) with (n + 6) by (unfold imu_size; lia).
  replace ((ne + nf) * 6 - 6) with (n - 15) by lia.
  assert (H15 : 15 <= n) by lia. clearbody n. clear Hn Hn'. unfold imu_size.
  set (c0 := cresize junk P (n + 6) (n + 6)).
  rewrite setb_ok by (unfold c0; sz). cbn [obind]. set (c1 := set_block c0 0 n (mzero (n + 6) 6)).
  rewrite setb_ok by (unfold c1, c0; sz). cbn [obind]. set (c2 := set_block c1 n 0 (mzero 6 (n + 6))).
  assert (S2 : mr c2 = n + 6 /\ mc c2 = n + 6) by (unfold c2, c1, c0; cbn; auto). destruct S2 as [S2r S2c].
  assert (E2 : forall i j, i < n -> j < n -> me c2 i j = me P i j).
  { intros i j Hi Hj. unfold c2, c1, c0. blk. reflexivity. }
  rewrite block_ok by lia. cbn [obind]. rewrite block_ok by lia. cbn [obind].
  set (ic := get_block c2 0 0 15 15). set (ec := get_block c2 0 15 15 (n - 15)).
  assert (Sic : mr ic = 15 /\ mc ic = 15) by (split; reflexivity). assert (Sec : mr ec = 15 /\ mc ec = n - 15) by (split; reflexivity).
  rewrite setbn_ok by (try reflexivity; sz). cbn [obind]. set (c3 := set_block c2 n 0 (mmul expand_J ic)).
  rewrite setbn_ok by (try reflexivity; unfold c3; sz). cbn [obind]. set (c4 := set_block c3 n 15 (mmul expand_J ec)).
  assert (S4 : mr c4 = n + 6 /\ mc c4 = n + 6) by (unfold c4, c3; cbn; auto). destruct S4 as [S4r S4c].
  assert (E4a : forall i j, i < n -> j < n -> me c4 i j = me P i j).
  { intros i j Hi Hj. unfold c4, c3. blk. apply E2; assumption. }
  assert (E4b : forall k j, k < 6 -> j < n -> me c4 (n + k) j = jrow k (fun l => me P l j)).
  { intros k j Hk Hj. assert (Hext : forall f g, (forall l, l < 15 -> f l = g l) -> jrow k f = jrow k g).
    { intros f g H. apply ssum_ext. intros l Hl. rewrite H by exact Hl. reflexivity. }
    destruct (Nat.lt_ge_cases j 15).
    - unfold c4. rewrite set_block_out by sz. unfold c3. rewrite set_block_in by sz.
      replace (n + k - n) with k by lia. replace (j - 0) with j by lia.
      change (jrow k (fun l => me ic l j) = jrow k (fun l => me P l j)). apply Hext. intros l Hl. apply E2; lia.
    - unfold c4. rewrite set_block_in by sz. replace (n + k - n) with k by lia.
      change (jrow k (fun l => me ec l (j - 15)) = jrow k (fun l => me P l j)). apply Hext. intros l Hl.
      unfold ec. cbn [get_block me]. replace (15 + (j - 15)) with j by lia. apply E2; lia. }
  rewrite block_ok by lia. cbn [obind]. set (b := get_block c4 n 0 6 n).
  assert (Sb : mr b = 6 /\ mc b = n) by (split; reflexivity).
  rewrite setbn_ok by (try reflexivity; sz). cbn [obind]. set (c5 := set_block c4 0 n (mtr b)).
  rewrite setbn_ok by (try reflexivity; unfold c5; sz).
  eexists. split; [reflexivity|]. split; [unfold c5; cbn [mr set_block]; exact S4r|].
  split; [unfold c5; cbn [mc set_block]; exact S4c|].
  intros i j Hi Hj. unfold expand_entry.
  destruct (Nat.ltb_spec i n) as [Hi'|Hi'], (Nat.ltb_spec j n) as [Hj'|Hj'].
  - rewrite set_block_out by sz. unfold c5. rewrite set_block_out by sz. apply E4a; assumption.
  - rewrite set_block_out by sz. unfold c5. rewrite set_block_in by sz. cbn [mtr me]. unfold b. cbn [get_block me].
    replace (0 + (i - 0)) with i by lia. replace (i - 0) with i by lia. apply E4b; lia.
  - rewrite set_block_out by sz. unfold c5. rewrite set_block_out by sz. replace i with (n + (i - n)) at 1 by lia. apply E4b; lia.
  - rewrite set_block_in by sz. unfold mmul at 1. cbn [me mc].
    apply (ssum_ext 15). intros l Hl. f_equal. unfold jrow. apply (ssum_ext 15). intros m Hm. f_equal. unfold ic. cbn [get_block me]. apply E2; lia.
Qed.
End Expand.

(** Row [k] of expand_J selects position or attitude. *)
Lemma jrow_R : forall k (f : nat -> R), k < 6 -> jrow k f = f (if k <? 3 then k else k + 3).
Proof.
  intros k f Hk. unfold jrow. do 6 (destruct k as [|k]; [unfold expand_J; cbn; ring|]). lia.
Qed.
Lemma clone_lt : forall n i, 15 <= n -> i < n + 6 -> clone_of n i < n.
Proof. intros n i H Hi. unfold clone_of. destruct (Nat.ltb_spec i n); [lia|]. destruct (Nat.ltb_spec i (n + 3)); lia. Qed.
Lemma clone_jrow : forall n i (f : nat -> R), ~ i < n -> i < n + 6 -> jrow (i - n) f = f (clone_of n i).
Proof.
  intros n i f H1 H2. rewrite jrow_R by lia. unfold clone_of. destruct (Nat.ltb_spec i n); [lia|].
  destruct (Nat.ltb_spec (i - n) 3), (Nat.ltb_spec i (n + 3)); try lia; reflexivity.
Qed.

(** The extended covariance is the covariance of the extended state. *)
Lemma expand_clones : forall junk ne nf (P : mat R), 1 <= nf -> mr P = err_size ne (nf - 1) -> mc P = err_size ne (nf - 1) ->
  fsym (err_size ne (nf - 1)) (me P) ->
  exists P', expand_cov junk ne nf P = Ok P' /\ mr P' = err_size ne nf /\ mc P' = err_size ne nf /\
    (forall i j, i < err_size ne nf -> j < err_size ne nf ->
       me P' i j = me P (clone_of (err_size ne (nf - 1)) i) (clone_of (err_size ne (nf - 1)) j)) /\
    fsym (err_size ne nf) (me P') /\ (fpsd (err_size ne (nf - 1)) (me P) -> fpsd (err_size ne nf) (me P')).
Proof.
  intros junk ne nf P Hnf Hr Hc Hs. destruct (expand_exact junk ne nf P Hnf Hr Hc) as (P' & H1 & H2 & H3 & H4).
  exists P'. split; [exact H1|]. split; [exact H2|]. split; [exact H3|].
  set (n := err_size ne (nf - 1)) in *. assert (Hn : err_size ne nf = n + 6) by (unfold n, err_size; lia). rewrite Hn in *.
  assert (H15 : 15 <= n) by (unfold n, err_size; lia). clearbody n.
  assert (E : forall i j, i < n + 6 -> j < n + 6 -> me P' i j = me P (clone_of n i) (clone_of n j)).
  { intros i j Hi Hj. rewrite H4 by assumption. unfold expand_entry.
    destruct (Nat.ltb_spec i n) as [Hi'|Hi'], (Nat.ltb_spec j n) as [Hj'|Hj'].
    - unfold clone_of. rewrite (proj2 (Nat.ltb_lt _ _) Hi'), (proj2 (Nat.ltb_lt _ _) Hj'). reflexivity.
    - rewrite clone_jrow by lia. pose proof (clone_lt n j H15 Hj). rewrite <- (feq_at Hs) by assumption. unfold ftr.
      unfold clone_of at 2. rewrite (proj2 (Nat.ltb_lt _ _) Hi'). reflexivity.
    - rewrite clone_jrow by lia. unfold clone_of at 3. rewrite (proj2 (Nat.ltb_lt _ _) Hj'). reflexivity.
    - transitivity (jrow (j - n) (fun l => jrow (i - n) (fun m => me P m l))).
      { unfold jrow at 2. apply ssum_ext. intros l _. apply Rmult_comm. }
      rewrite clone_jrow by lia. rewrite clone_jrow by lia. reflexivity. }
  split; [exact E|].
  assert (F : feq (n + 6) (n + 6) (fun i j => me P (clone_of n i) (clone_of n j)) (me P')).
  { split. intros i j Hi Hj. symmetry. apply E; assumption. }
  split.
  - split. intros i j Hi Hj. unfold ftr. rewrite !E by assumption. apply (feq_at Hs); apply clone_lt; assumption.
  - intros Hp. apply (fpsd_ext _ _ _ F). apply fpsd_select with (n := n); [intros; apply clone_lt; assumption|exact Hp].
Qed.

(** No entry of the result depends on uninitialised memory, for any scalar type. *)
Lemma expand_no_junk : forall (T : Type) (S : SOps T) junk junk' ne nf (P : mat T), 1 <= nf ->
  mr P = err_size ne (nf - 1) -> mc P = err_size ne (nf - 1) ->
  exists P1 P2, expand_cov junk ne nf P = Ok P1 /\ expand_cov junk' ne nf P = Ok P2 /\
    mr P1 = err_size ne nf /\ mc P1 = err_size ne nf /\ mr P2 = err_size ne nf /\ mc P2 = err_size ne nf /\
    (forall i j, i < err_size ne nf -> j < err_size ne nf -> me P1 i j = me P2 i j) /\
    (forall i j, i < err_size ne (nf - 1) -> j < err_size ne (nf - 1) -> me P1 i j = me P i j).
Proof.
  intros T S junk junk' ne nf P Hnf Hr Hc.
  destruct (expand_exact junk ne nf P Hnf Hr Hc) as (P1 & A1 & A2 & A3 & A4).
  destruct (expand_exact junk' ne nf P Hnf Hr Hc) as (P2 & B1 & B2 & B3 & B4).
  exists P1, P2. repeat (split; [assumption|]). split.
  - intros i j Hi Hj. rewrite A4, B4 by assumption. reflexivity.
  - intros i j Hi Hj. rewrite A4 by (unfold err_size in *; lia). unfold expand_entry.
    rewrite (proj2 (Nat.ltb_lt _ _) Hi), (proj2 (Nat.ltb_lt _ _) Hj). reflexivity.
Qed.

(** ** ReduceCameraCovariance *)
Definition red_pos (p : marg_policy) (s nf : nat) (i : nat) : nat :=
  match p with
  | NoMarg | MargNewest => i
  | MargSubnew => if i <? s + 6 * (nf - 2) then i else i + 6
  | MargOldest => if i <? s then i else i + 6
  end.
(** What the code computes, for any scalar type: rows above the removed block in the lower left part are
    taken from the upper right part by MARG_OLDEST. *)
Definition red_entry {T} (p : marg_policy) (s nf : nat) (P : mat T) (i j : nat) : T :=
  match p with
  | MargOldest => if (negb (i <? s) && (j <? s))%bool then me P j (i + 6) else me P (red_pos p s nf i) (red_pos p s nf j)
  | _ => me P (red_pos p s nf i) (red_pos p s nf j)
  end.
Definition left_after (p : marg_policy) (nf : nat) : nat := match p with NoMarg => nf | _ => nf - 1 end.

Lemma reduce_exact : forall (T : Type) (S : SOps T) junk p ne nf (P : mat T), 2 <= nf -> mr P = err_size ne nf -> mc P = err_size ne nf ->
  exists P', reduce_cov junk p ne nf P = Ok P' /\ mr P' = err_size ne (left_after p nf) /\ mc P' = err_size ne (left_after p nf) /\
    forall i j, i < err_size ne (left_after p nf) -> j < err_size ne (left_after p nf) ->
      me P' i j = red_entry p (15 + 6 * ne) nf P i j.
Proof.
  intros T S junk p ne nf P Hnf Hr Hc. unfold reduce_cov. cbv zeta. unfold imu_size.
  assert (Hfull : 15 + (ne * 6 + nf * 6) = err_size ne nf) by (unfold err_size; lia). rewrite Hfull.
  assert (Hl : err_size ne (nf - 1) = err_size ne nf - 6) by (unfold err_size; lia).
  set (n := err_size ne nf) in *. assert (Hn : n = 15 + 6 * ne + 6 * nf) by reflexivity. clearbody n.
  destruct p; cbn [left_after red_entry red_pos]; try rewrite Hl.
  - (* oldest *)
    replace (15 + ne * 6) with (15 + 6 * ne) by lia. set (s := 15 + 6 * ne) in *.
    rewrite block_ok by lia. cbn [obind]. set (t1 := get_block P 0 (s + 6) s (nf * 6 - 6)).
    assert (St1 : mr t1 = s /\ mc t1 = nf * 6 - 6) by (split; reflexivity).
    rewrite setbn_ok by (try reflexivity; sz). cbn [obind]. set (c1 := set_block P 0 s t1).
    assert (Sc1 : mr c1 = n /\ mc c1 = n) by (split; assumption).
    rewrite setbn_ok by (try reflexivity; sz). cbn [obind]. set (c2 := set_block c1 s 0 (mtr t1)).
    assert (Sc2 : mr c2 = n /\ mc c2 = n) by (split; apply Sc1).
    rewrite (proj2 (Nat.leb_le (nf * 6 - 6) (mr c2))) by lia. rewrite (proj2 (Nat.leb_le (nf * 6 - 6) (mc c2))) by lia. cbn [andb].
    rewrite block_ok by lia. cbn [obind]. set (t2 := get_block c2 (mr c2 - (nf * 6 - 6)) (mc c2 - (nf * 6 - 6)) (nf * 6 - 6) (nf * 6 - 6)).
    assert (St2 : mr t2 = nf * 6 - 6 /\ mc t2 = nf * 6 - 6) by (split; reflexivity).
    rewrite setbn_ok by (try reflexivity; sz). cbn [obind]. set (c3 := set_block c2 s s t2).
    assert (Sc3 : mr c3 = n /\ mc c3 = n) by (split; apply Sc2).
    eexists. split; [reflexivity|]. split; [reflexivity|]. split; [reflexivity|]. intros i j Hi Hj.
    rewrite cresize_in by lia.
    destruct (Nat.ltb_spec i s) as [Hi'|Hi'], (Nat.ltb_spec j s) as [Hj'|Hj']; cbn [negb andb].
    + unfold c3, c2, c1. blk. reflexivity.
    + unfold c3. rewrite set_block_out by sz. unfold c2. rewrite set_block_out by sz. unfold c1. rewrite set_block_in by sz.
      unfold t1. cbn [get_block me]. f_equal; lia.
    + unfold c3. rewrite set_block_out by sz. unfold c2. rewrite set_block_in by sz. cbn [mtr me]. unfold t1. cbn [get_block me]. f_equal; lia.
    + unfold c3. rewrite set_block_in by sz. unfold t2. cbn [get_block me]. destruct Sc2 as [-> ->].
      unfold c2. rewrite set_block_out by sz. unfold c1. rewrite set_block_out by sz. f_equal; lia.
  - (* newest *)
    eexists. split; [reflexivity|]. split; [reflexivity|]. split; [reflexivity|]. intros i j Hi Hj. rewrite cresize_in by lia. reflexivity.
  - (* sub-newest *)
    rewrite block_ok by lia. cbn [obind]. set (b1 := get_block P 0 (n - 6) (n - 12) 6).
    assert (Sb1 : mr b1 = n - 12 /\ mc b1 = 6) by (split; reflexivity).
    rewrite setbn_ok by (try reflexivity; sz). cbn [obind]. set (c1 := set_block P 0 (n - 12) b1).
    assert (Sc1 : mr c1 = n /\ mc c1 = n) by (split; assumption).
    rewrite block_ok by lia. cbn [obind]. set (b2 := get_block c1 (n - 6) 0 6 (n - 12)).
    assert (Sb2 : mr b2 = 6 /\ mc b2 = n - 12) by (split; reflexivity).
    rewrite setbn_ok by (try reflexivity; sz). cbn [obind]. set (c2 := set_block c1 (n - 12) 0 b2).
    assert (Sc2 : mr c2 = n /\ mc c2 = n) by (split; apply Sc1).
    rewrite block_ok by lia. cbn [obind]. set (b3 := get_block c2 (n - 6) (n - 6) 6 6).
    assert (Sb3 : mr b3 = 6 /\ mc b3 = 6) by (split; reflexivity).
    rewrite setbn_ok by (try reflexivity; sz). cbn [obind]. set (c3 := set_block c2 (n - 12) (n - 12) b3).
    assert (Sc3 : mr c3 = n /\ mc c3 = n) by (split; apply Sc2).
    eexists. split; [reflexivity|]. split; [reflexivity|]. split; [reflexivity|]. intros i j Hi Hj.
    rewrite cresize_in by lia. replace (15 + 6 * ne + 6 * (nf - 2)) with (n - 12) by lia.
    destruct (Nat.ltb_spec i (n - 12)) as [Hi'|Hi'], (Nat.ltb_spec j (n - 12)) as [Hj'|Hj'].
    + unfold c3, c2, c1. blk. reflexivity.
    + unfold c3. rewrite set_block_out by sz. unfold c2. rewrite set_block_out by sz. unfold c1. rewrite set_block_in by sz.
      unfold b1. cbn [get_block me]. f_equal; lia.
    + unfold c3. rewrite set_block_out by sz. unfold c2. rewrite set_block_in by sz. unfold b2. cbn [get_block me].
      unfold c1. rewrite set_block_out by sz. f_equal; lia.
    + unfold c3. rewrite set_block_in by sz. unfold b3. cbn [get_block me]. unfold c2. rewrite set_block_out by sz.
      unfold c1. rewrite set_block_out by sz. f_equal; lia.
  - (* none *)
    exists P. split; [reflexivity|]. split; [rewrite Hr; unfold err_size; lia|]. split; [rewrite Hc; unfold err_size; lia|]. reflexivity.
Qed.

Lemma kept_length : forall p nf, 2 <= nf -> length (kept p nf) = left_after p nf.
Proof. intros p nf H. destruct p; cbn [kept left_after]; rewrite ?app_length, ?seq_length; cbn [length]; lia. Qed.
Lemma kept_lt : forall p nf k, 2 <= nf -> k < left_after p nf -> nth k (kept p nf) 0 < nf.
Proof.
  intros p nf k H Hk. destruct p; cbn [kept left_after] in *; rewrite ?seq_nth by lia; try lia.
  destruct (Nat.lt_ge_cases k (nf - 2)).
  - rewrite app_nth1 by (rewrite seq_length; lia). rewrite seq_nth by lia. lia.
  - rewrite app_nth2 by (rewrite seq_length; lia). rewrite seq_length. replace (k - (nf - 2)) with 0 by lia. cbn. lia.
Qed.
Lemma red_keep : forall p s nf i, 2 <= nf -> i < s + 6 * left_after p nf -> red_pos p s nf i = keep_of s (kept p nf) i.
Proof.
  intros p s nf i Hnf Hi. unfold keep_of.
  destruct (Nat.ltb_spec i s) as [Hs|Hs].
  { destruct p; cbn [red_pos]; try reflexivity.
    - rewrite (proj2 (Nat.ltb_lt _ _) Hs). reflexivity.
    - destruct (Nat.ltb_spec i (s + 6 * (nf - 2))); [reflexivity|lia]. }
  pose proof (Nat.div_mod (i - s) 6 ltac:(lia)) as Hd. pose proof (Nat.mod_upper_bound (i - s) 6 ltac:(lia)) as Hm.
  set (d := (i - s) / 6) in *. set (m := (i - s) mod 6) in *.
  destruct p; cbn [red_pos kept left_after] in *.
  - destruct (Nat.ltb_spec i s); [lia|]. rewrite seq_nth by lia. lia.
  - rewrite seq_nth by lia. lia.
  - destruct (Nat.ltb_spec i (s + 6 * (nf - 2))).
    + rewrite app_nth1 by (rewrite seq_length; lia). rewrite seq_nth by lia. lia.
    + rewrite app_nth2 by (rewrite seq_length; lia). rewrite seq_length. replace (d - (nf - 2)) with 0 by lia. cbn [nth]. lia.
  - rewrite seq_nth by lia. lia.
Qed.
Lemma keep_lt : forall p ne nf i, 2 <= nf -> i < err_size ne (left_after p nf) ->
  keep_of (15 + 6 * ne) (kept p nf) i < err_size ne nf.
Proof.
  intros p ne nf i Hnf Hi. unfold keep_of, err_size in *. destruct (Nat.ltb_spec i (15 + 6 * ne)); [lia|].
  pose proof (Nat.div_mod (i - (15 + 6 * ne)) 6 ltac:(lia)) as Hd. pose proof (Nat.mod_upper_bound (i - (15 + 6 * ne)) 6 ltac:(lia)) as Hm.
  pose proof (kept_lt p nf ((i - (15 + 6 * ne)) / 6) Hnf ltac:(lia)). lia.
Qed.

(** Over the reals: exactly the rows and columns of the frames that are kept. *)
Lemma reduce_keeps : forall junk p ne nf (P : mat R), 2 <= nf -> mr P = err_size ne nf -> mc P = err_size ne nf ->
  fsym (err_size ne nf) (me P) ->
  exists P', reduce_cov junk p ne nf P = Ok P' /\
    mr P' = err_size ne (length (kept p nf)) /\ mc P' = err_size ne (length (kept p nf)) /\
    (forall i j, i < err_size ne (length (kept p nf)) -> j < err_size ne (length (kept p nf)) ->
       me P' i j = me P (keep_of (15 + 6 * ne) (kept p nf) i) (keep_of (15 + 6 * ne) (kept p nf) j)) /\
    fsym (err_size ne (length (kept p nf))) (me P') /\
    (fpsd (err_size ne nf) (me P) -> fpsd (err_size ne (length (kept p nf))) (me P')).
Proof.
  intros junk p ne nf P Hnf Hr Hc Hs. rewrite kept_length by exact Hnf.
  destruct (reduce_exact R _ junk p ne nf P Hnf Hr Hc) as (P' & H1 & H2 & H3 & H4).
  exists P'. split; [exact H1|]. split; [exact H2|]. split; [exact H3|].
  set (s := 15 + 6 * ne) in *. set (n' := err_size ne (left_after p nf)) in *.
  assert (Hn' : n' = s + 6 * left_after p nf) by reflexivity.
  assert (E : forall i j, i < n' -> j < n' -> me P' i j = me P (keep_of s (kept p nf) i) (keep_of s (kept p nf) j)).
  { intros i j Hi Hj. rewrite H4 by assumption. rewrite <- !red_keep by lia.
    destruct p; cbn [red_entry red_pos]; try reflexivity.
    destruct (Nat.ltb_spec i s), (Nat.ltb_spec j s); cbn [negb andb]; try reflexivity.
    symmetry. rewrite <- (feq_at Hs); [reflexivity| |]; cbn [left_after] in *; unfold err_size; fold s; lia. }
  split; [exact E|].
  assert (B : forall i, i < n' -> keep_of s (kept p nf) i < err_size ne nf) by (intros i Hi; apply keep_lt; assumption).
  split.
  - split. intros i j Hi Hj. unfold ftr. rewrite !E by assumption. apply (feq_at Hs); apply B; assumption.
  - intros Hp. apply fpsd_ext with (a := fun i j => me P (keep_of s (kept p nf) i) (keep_of s (kept p nf) j)).
    + split. intros i j Hi Hj. symmetry. apply E; assumption.
    + apply fpsd_select with (n := err_size ne nf); assumption.
Qed.

(** ** The frame manager drops the same frame *)
Lemma marginalize_frames : forall (T : Type) (S : SOps T) ord (w w' : window T) p, 2 <= length (wn_frames w) ->
  (Z.of_nat (length (wn_frames w)) < 4294967296)%Z -> marginalize ord w p = Ok w' ->
  length (wn_frames w') = length (kept p (length (wn_frames w))) /\
  forall k, k < length (kept p (length (wn_frames w))) -> exists f f',
    nth_error (wn_frames w) (nth k (kept p (length (wn_frames w))) 0) = Some f /\ nth_error (wn_frames w') k = Some f' /\
    fr_q f' = fr_q f /\ fr_p f' = fr_p f /\ fr_v f' = fr_v f /\ fr_ts f' = fr_ts f /\ fr_feats f' = fr_feats f.
Proof.
  intros T S ord w w' p Hn Hb Hm. rewrite kept_length by exact Hn. set (fs := wn_frames w) in *.
  assert (G : forall kz, (0 <= kz < Z.of_nat (length fs))%Z ->
    length (fst (remove_frame fs kz)) = length fs - 1 /\
    forall k, k < length fs - 1 -> exists f f',
      nth_error fs (if k <? Z.to_nat kz then k else k + 1) = Some f /\ nth_error (fst (remove_frame fs kz)) k = Some f' /\
      fr_q f' = fr_q f /\ fr_p f' = fr_p f /\ fr_v f' = fr_v f /\ fr_ts f' = fr_ts f /\ fr_feats f' = fr_feats f).
  { intros kz Hk. destruct (proj2 (remove_frame_exact fs kz ltac:(lia)) ltac:(lia)) as (pre & x & post & E & Hpre & HR).
    rewrite HR. cbn [fst]. rewrite E, !app_length, map_length. cbn [length]. split; [lia|]. intros k Hkk.
    rewrite <- Hpre. destruct (Nat.ltb_spec k (length pre)) as [Hl|Hl].
    - rewrite !nth_error_app1 by exact Hl. destruct (nth_error pre k) as [f|] eqn:Ef; [|apply nth_error_None in Ef; lia].
      exists f, f. tauto.
    - rewrite !nth_error_app2 by lia. replace (k + 1 - length pre) with (Datatypes.S (k - length pre)) by lia. cbn [nth_error].
      rewrite nth_error_map. destruct (nth_error post (k - length pre)) as [f|] eqn:Ef; [|apply nth_error_None in Ef; lia].
      cbn [option_map]. exists f. eexists. split; [reflexivity|]. split; [reflexivity|]. destruct (0 <? kz)%Z; cbn; tauto. }
  assert (Hu1 : u32 (Z.of_nat (length fs) - 1) = (Z.of_nat (length fs) - 1)%Z) by (apply Z.mod_small; lia).
  assert (Hu2 : u32 (Z.of_nat (length fs) - 2) = (Z.of_nat (length fs) - 2)%Z) by (apply Z.mod_small; lia).
  destruct p; cbn [marginalize kept left_after] in *; fold fs in Hm.
  - destruct (front fs) as [a|]; [|discriminate Hm]. cbn [obind] in Hm.
    destruct (remove_by_frame ord (fr_id a) false (wn_heap w) (wn_mgr w)) as [r|]; [|discriminate Hm]. cbn [obind] in Hm.
    inversion Hm; subst w'. cbn [wn_frames]. destruct (G 0%Z ltac:(lia)) as [G1 G2]. split; [exact G1|].
    intros k Hk. rewrite seq_nth by exact Hk. destruct (G2 k Hk) as (f & f' & A & B). exists f, f'.
    cbn in A. replace (1 + k) with (k + 1) by lia. split; [exact A|exact B].
  - destruct (back fs) as [a|]; [|discriminate Hm]. cbn [obind] in Hm.
    destruct (remove_by_frame ord (fr_id a) true (wn_heap w) (wn_mgr w)) as [r|]; [|discriminate Hm]. cbn [obind] in Hm.
    inversion Hm; subst w'. cbn [wn_frames]. rewrite Hu1. destruct (G (Z.of_nat (length fs) - 1)%Z ltac:(lia)) as [G1 G2]. split; [exact G1|].
    intros k Hk. rewrite seq_nth by exact Hk. destruct (G2 k Hk) as (f & f' & A & B). exists f, f'.
    rewrite (proj2 (Nat.ltb_lt _ _)) in A by lia. split; [exact A|exact B].
  - destruct (back fs) as [a|]; [|discriminate Hm]. cbn [obind] in Hm.
    destruct (remove_by_frame ord (u32 (fr_id a - 1)) true (wn_heap w) (wn_mgr w)) as [r|]; [|discriminate Hm]. cbn [obind] in Hm.
    inversion Hm; subst w'. cbn [wn_frames]. rewrite Hu2. destruct (G (Z.of_nat (length fs) - 2)%Z ltac:(lia)) as [G1 G2]. split; [exact G1|].
    intros k Hk. destruct (G2 k Hk) as (f & f' & A & B). exists f, f'. split; [|exact B]. rewrite <- A. f_equal.
    destruct (Nat.ltb_spec k (Z.to_nat (Z.of_nat (length fs) - 2))).
    + rewrite app_nth1 by (rewrite seq_length; lia). rewrite seq_nth by lia. lia.
    + rewrite app_nth2 by (rewrite seq_length; lia). rewrite seq_length. replace (k - (length fs - 2)) with 0 by lia. cbn [nth]. lia.
  - inversion Hm; subst w'. fold fs. split; [reflexivity|]. intros k Hk. rewrite seq_nth by exact Hk. cbn [plus].
    destruct (nth_error fs k) as [f|] eqn:Ef; [|apply nth_error_None in Ef; lia]. exists f, f. tauto.
Qed.
