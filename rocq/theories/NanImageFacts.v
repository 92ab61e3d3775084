(** One image coordinate that is not a number spoils everything at once (C99). *)
From Coq Require Import ZArith Reals Lra List Bool Lia Arith.
From stdpp Require Import gmap list.
From Flocq Require Import Core IEEE754.BinarySingleNaN.
From Verif Require Import Fp FpFacts Scalar Base LinAlg Msg DataLoader FeatureManager FrameManager Window MathLib Attitude Propagator
  Triangulate Pnp VisionUpdate Backend LoaderSpec WindowSpec QueueSpec UpdSpec NumSpec BackendSpec NanSpec NanImageSpec FrameFacts AttitudeFacts
  PropagatorFacts UpdCovFacts SafeFacts BackLenFacts BackDimFacts BackSafeFacts AppFacts NanFacts.
Import ListNotations.
Local Open Scope nat_scope.

Section Image.
Variable lm : libm32.
Local Instance OPI : SOps f32 := ops_f32 lm.
Notation van := (van). Notation vsn := (vsn). Notation qsn := (qsn).

Lemma sub_vsn_r : forall a b, vsn b -> vsn (v3sub a b).
Proof. intros [x y z] [x' y' z'] H. unfold vsn, NanFacts.vsn in *. cbn [v3x v3y v3z v3sub] in *. change ssub with f32_sub. destruct H as [-> | [-> | ->]]; rewrite ?sub_nan_r; auto. Qed.

(** ** Matrices with a NaN in a column *)
Lemma ssum_nan : forall n (f : nat -> f32) k, k < n -> f k = nan -> ssum n f = nan.
Proof.
  induction n as [|n IH]; intros f k Hk Hf; [lia|]. cbn [ssum]. change sadd with f32_add. destruct (Nat.eq_dec k n) as [->|Hn].
  - rewrite Hf. apply add_nan_r.
  - rewrite (IH f k) by (try lia; exact Hf). apply add_nan_l.
Qed.
Lemma mul_col_nan : forall (A B : mat f32) k j, k < mc A -> me B k j = nan -> forall i, me (mmul A B) i j = nan.
Proof. intros A B k j Hk HB i. cbn [mmul me]. apply ssum_nan with (k := k); [exact Hk|]. rewrite HB. change smul with f32_mul. apply mul_nan_r. Qed.
Definition col_nan (H : mat f32) : Prop := exists i, i < mr H /\ me H i (mc H - 1) = nan.
Lemma qr_apply_nan : forall qr A M, col_nan M -> forall i, me (qr_apply qr A M) i (mc M - 1) = nan.
Proof. intros qr A M (k & Hk & E) i. unfold qr_apply. apply mul_col_nan with (k := k); [exact Hk|exact E]. Qed.

Lemma setb_inv : forall (a b a' : mat f32) i0 j0, setb a i0 j0 b = Ok a' -> i0 + mr b <= mr a /\ j0 + mc b <= mc a /\ mr a' = mr a /\ mc a' = mc a /\
  (forall i j, i0 <= i < i0 + mr b -> j0 <= j < j0 + mc b -> me a' i j = me b (i - i0) (j - j0)) /\
  (forall i j, ~ (i0 <= i < i0 + mr b /\ j0 <= j < j0 + mc b) -> me a' i j = me a i j).
Proof.
  intros a b a' i0 j0 H. unfold setb in H. destruct (in_block a i0 j0 (mr b) (mc b)) eqn:E; [|discriminate H]. injection H as <-. unfold in_block in E.
  apply andb_true_iff in E as [E1 E2]. apply Nat.leb_le in E1, E2. split; [exact E1|]. split; [exact E2|]. split; [reflexivity|]. split; [reflexivity|]. cbn [set_block me]. split; intros i j Hij.
  - intros Hj. rewrite (proj2 (Nat.leb_le i0 i)), (proj2 (Nat.ltb_lt i (i0 + mr b))), (proj2 (Nat.leb_le j0 j)), (proj2 (Nat.ltb_lt j (j0 + mc b))) by lia. reflexivity.
  - destruct (Nat.leb_spec i0 i), (Nat.ltb_spec i (i0 + mr b)), (Nat.leb_spec j0 j), (Nat.ltb_spec j (j0 + mc b)); cbn [andb]; try reflexivity. exfalso. apply Hij. lia.
Qed.
(** Rows other than the two of an observation stay. *)
Definition kept (row n : nat) (H H' : mat f32) : Prop := mr H' = mr H /\ mc H' = mc H /\ forall i j, i < row \/ row + n <= i -> me H' i j = me H i j.
Lemma kept_refl : forall row n H, kept row n H H.
Proof. intros row n H. split; [reflexivity|]. split; [reflexivity|]. intros; reflexivity. Qed.
Lemma kept_trans : forall row n H1 H2 H3, kept row n H1 H2 -> kept row n H2 H3 -> kept row n H1 H3.
Proof. intros row n H1 H2 H3 (A1 & A2 & A3) (B1 & B2 & B3). split; [congruence|]. split; [congruence|]. intros i j Hi. rewrite B3, A3 by exact Hi. reflexivity. Qed.
Lemma setb_kept : forall row j (b H H' : mat f32), mr b = 2 -> setb H row j b = Ok H' -> kept row 2 H H'.
Proof.
  intros row j b H H' Hb E. apply setb_inv in E as (_ & _ & E1 & E2 & _ & E3). split; [exact E1|]. split; [exact E2|]. intros i k Hi. apply E3. rewrite Hb. lia.
Qed.
Lemma setb_last : forall row j (b H H' : mat f32), setb H row j b = Ok H' -> mc b = 3 -> j + 3 < mc H -> forall i, me H' i (mc H' - 1) = me H i (mc H - 1).
Proof.
  intros row j b H H' E Hb Hj i. apply setb_inv in E as (_ & _ & _ & E2 & _ & E3). rewrite E2. apply E3. rewrite Hb. lia.
Qed.
Lemma write_obs_kept : forall ne newest fidx cam row e f pw z (H H' : mat f32), write_obs ne newest fidx cam row e f pw z H = Ok H' -> kept row 2 H H'.
Proof.
  intros ne newest fidx cam row e f pw z H H' E. unfold write_obs in E. destruct (sltb _ _); [|injection E as <-; apply kept_refl].
  binv E. binv E. binv E. binv E.
  assert (K : kept row 2 x0 x1).
  { destruct newest; binv E2; (eapply kept_trans; [eapply setb_kept; [|exact E4]; reflexivity|eapply setb_kept; [|exact E2]; reflexivity]). }
  eapply kept_trans; [eapply setb_kept; [|exact E0]; reflexivity|]. eapply kept_trans; [eapply setb_kept; [|exact E1]; reflexivity|]. eapply kept_trans; [exact K|].
  eapply kept_trans; [eapply setb_kept; [|exact E3]; reflexivity|eapply setb_kept; [|exact E]; reflexivity].
Qed.
Lemma write_obs_nan : forall ne nf newest fidx cam row e f pw z (H H' : mat f32), write_obs ne newest fidx cam row e f pw z H = Ok H' ->
  1 <= nf -> cam < ne -> mc H = hx_cols ne nf + 4 -> sltb szero (sabs (v3z (meas_pc e f pw))) = true -> nan_pixel z ->
  exists i, row <= i < row + 2 /\ i < mr H' /\ me H' i (mc H' - 1) = nan.
Proof.
  intros ne nf newest fidx cam row e f pw z H H' E Hf Hc Hm Hz Hn. unfold write_obs in E. rewrite Hz in E. unfold hx_cols in Hm. change imu_size with 15 in *. change ix_p with 0 in *. change ix_r with 6 in *.
  binv E. binv E. binv E. binv E. rename x into H1, x0 into H2, x1 into H4, x2 into H5.
  assert (D1 : mc H1 = mc H) by (apply setb_inv in E0; apply E0). assert (D2 : mc H2 = mc H1) by (apply setb_inv in E1; apply E1).
  assert (K : mc H4 = mc H2 /\ mr H4 = mr H2 /\ forall i, me H4 i (mc H4 - 1) = me H2 i (mc H2 - 1)).
  { destruct newest; binv E2; rename x into H3.
    - assert (D3 : mc H3 = mc H2 /\ mr H3 = mr H2) by (apply setb_inv in E4; tauto). assert (D4 : mc H4 = mc H3 /\ mr H4 = mr H3) by (apply setb_inv in E2; tauto).
      split; [lia|]. split; [lia|]. intros i. rewrite (setb_last _ _ _ _ _ E2 eq_refl) by lia. apply (setb_last _ _ _ _ _ E4 eq_refl). lia.
    - assert (D3 : mc H3 = mc H2 /\ mr H3 = mr H2) by (apply setb_inv in E4; tauto). assert (D4 : mc H4 = mc H3 /\ mr H4 = mr H3) by (apply setb_inv in E2; tauto).
      assert (B : 3 + 15 + ne * 6 + fidx * 6 + 3 + 3 <= mc H3) by (apply setb_inv in E2 as (_ & X & _); exact X).
      split; [lia|]. split; [lia|]. intros i. rewrite (setb_last _ _ _ _ _ E2 eq_refl) by lia. apply (setb_last _ _ _ _ _ E4 eq_refl). lia. }
  destruct K as (K1 & K2 & K3).
  assert (D5 : mc H5 = mc H4 /\ mr H5 = mr H4) by (apply setb_inv in E3; tauto). assert (D6 : mc H' = mc H5 /\ mr H' = mr H5) by (apply setb_inv in E; tauto).
  assert (L : forall i, me H' i (mc H' - 1) = me H1 i (mc H1 - 1)).
  { intros i. rewrite (setb_last _ _ _ _ _ E eq_refl), (setb_last _ _ _ _ _ E3 eq_refl), K3 by lia. apply (setb_last _ _ _ _ _ E1 eq_refl). lia. }
  assert (R2 : mr H2 = mr H1) by (apply setb_inv in E1; apply E1). apply setb_inv in E0 as (B1 & B2 & R1 & _ & W & _). cbn [mr mc me] in B1, B2, W.
  assert (Hr : v2x (meas_res e f pw z) = nan \/ v2y (meas_res e f pw z) = nan).
  { unfold nan_pixel in Hn. rewrite !isnan_eq in Hn. unfold meas_res. cbv zeta. unfold v2sub. cbn [v2x v2y]. change ssub with f32_sub. destruct Hn as [-> | ->]; [left|right]; apply sub_nan_l. }
  destruct Hr as [Hr|Hr].
  - exists row. split; [lia|]. split; [lia|]. rewrite L, D1, W by lia. rewrite Nat.sub_diag. exact Hr.
  - exists (row + 1). split; [lia|]. split; [lia|]. rewrite L, D1, W by lia. replace (row + 1 - row) with 1 by lia. exact Hr.
Qed.
Lemma write_cams_kept : forall exts newest fidx f pw l row (H : mat f32) r, write_cams exts newest fidx f pw l row H = Ok r ->
  row <= snd r /\ mr (fst r) = mr H /\ mc (fst r) = mc H /\ forall i j, i < row -> me (fst r) i j = me H i j.
Proof.
  intros exts newest fidx f pw l. induction l as [|[cam z] l IH]; intros row H r E; cbn [write_cams] in E; [injection E as <-; cbn [fst snd]; auto|].
  binv E. binv E. apply write_obs_kept in E1 as (K1 & K2 & K3). apply IH in E as (I1 & I2 & I3 & I4).
  split; [lia|]. split; [lia|]. split; [lia|]. intros i j Hi. rewrite I4 by lia. apply K3. lia.
Qed.
Lemma write_cams_nan : forall exts nf newest fidx f pw l row (H : mat f32) r cam z e, write_cams exts newest fidx f pw l row H = Ok r ->
  1 <= nf -> mc H = hx_cols (length exts) nf + 4 -> In (cam, z) l -> nth_error exts (Z.to_nat cam) = Some e ->
  sltb szero (sabs (v3z (meas_pc e f pw))) = true -> nan_pixel z -> exists i, i < snd r /\ i < mr (fst r) /\ me (fst r) i (mc (fst r) - 1) = nan.
Proof.
  intros exts nf newest fidx f pw l. induction l as [|[cam' z'] l IH]; intros row H r cam z e E Hf Hm Hi He Hz Hn; [destruct Hi|]. cbn [write_cams] in E. binv E. binv E.
  destruct Hi as [Hi|Hi].
  - injection Hi as -> ->. unfold at_ in E0. rewrite He in E0. injection E0 as <-.
    assert (Hc : Z.to_nat cam < length exts) by (apply nth_error_Some; congruence).
    destruct (write_obs_nan _ nf _ _ _ _ _ _ _ _ _ _ E1 Hf Hc Hm Hz Hn) as (i & Hi & Hr & Hv).
    apply write_cams_kept in E as (I1 & I2 & I3 & I4). exists i. split; [lia|]. split; [lia|]. rewrite I3, I4 by lia. exact Hv.
  - apply write_obs_kept in E1 as (K1 & K2 & _). eapply (IH (row + 2) x0); try eassumption. lia.
Qed.
Lemma write_track_kept : forall nord exts fs first pw obs i row (H : mat f32) r, write_track nord exts fs first pw i obs row H = Ok (Some r) ->
  row <= snd r /\ mr (fst r) = mr H /\ mc (fst r) = mc H /\ forall i j, i < row -> me (fst r) i j = me H i j.
Proof.
  intros nord exts fs first pw obs. induction obs as [|ob l IH]; intros i row H r E; cbn [write_track] in E; [injection E as <-; cbn [fst snd]; auto|].
  destruct (get_frame fs _) as [k|]; [|discriminate E]. do 4 binv E. apply write_cams_kept in E3 as (C1 & C2 & C3 & C4). apply IH in E as (I1 & I2 & I3 & I4).
  split; [lia|]. split; [lia|]. split; [lia|]. intros a b Ha. rewrite I4 by lia. apply C4. lia.
Qed.
Lemma write_track_nan : forall nord exts fs first pw obs i0 row (H : mat f32) r i ob cam z k f e, valid_norder nord ->
  write_track nord exts fs first pw i0 obs row H = Ok (Some r) -> mc H = hx_cols (length exts) (length fs) + 4 ->
  nth_error obs i = Some ob -> ob !! cam = Some z -> nan_pixel z -> get_frame fs (u32 (i0 + Z.of_nat i + first)) = Some k -> nth_error fs k = Some f ->
  nth_error exts (Z.to_nat cam) = Some e -> sltb szero (sabs (v3z (meas_pc e f pw))) = true -> col_nan (fst r).
Proof.
  intros nord exts fs first pw obs. induction obs as [|ob' l IH]; intros i0 row H r i ob cam z k f e Hv E Hm Ho Hz Hn Hg Hk He Hd; [destruct i; discriminate Ho|].
  cbn [write_track] in E. destruct (get_frame fs (u32 (i0 + first))) as [k'|] eqn:Eg; [|discriminate E]. do 4 binv E. destruct i as [|i].
  - cbn [nth_error] in Ho. injection Ho as ->. replace (i0 + Z.of_nat 0 + first)%Z with (i0 + first)%Z in Hg by lia. rewrite Hg in Eg. injection Eg as <-.
    unfold deref in E0. rewrite Hk in E0. injection E0 as <-.
    assert (Hf : 1 <= length fs) by (destruct fs; [destruct k; discriminate Hk|cbn [length]; lia]).
    assert (Hin : In (cam, z) (nord ob)) by (eapply Permutation_in; [symmetry; exact (Hv ob)|]; apply elem_of_list_In; unfold observe in *; apply elem_of_map_to_list; exact Hz).
    destruct (write_cams_nan _ (length fs) _ _ _ _ _ _ _ _ _ _ _ E3 Hf Hm Hin He Hd Hn) as (j & J1 & J2 & J3).
    apply write_track_kept in E as (T1 & T2 & T3 & T4). exists j. split; [lia|]. rewrite T3, T4 by lia. exact J3.
  - apply write_cams_kept in E3 as (_ & _ & C3 & _). cbn [nth_error] in Ho. eapply (IH (i0 + 1)%Z); try eassumption; [lia|].
    replace (i0 + 1 + Z.of_nat i + first)%Z with (i0 + Z.of_nat (Datatypes.S i) + first)%Z by lia. exact Hg.
Qed.

(** ** The rows of one feature *)
Lemma rows_even : forall f : feature f32, exists n, rows_of f = n + n.
Proof.
  intros f. unfold rows_of, u32. exists (Z.to_nat (ft_num f - 2147483648 * (ft_num f * 2 / 4294967296))).
  pose proof (Z.mod_pos_bound (ft_num f * 2) 4294967296 eq_refl) as B. pose proof (Z.div_mod (ft_num f * 2) 4294967296 ltac:(lia)) as D. lia.
Qed.
Definition rows_nan (B : mat f32) : Prop := forall i, me B i (mc B - 1) = nan.
Lemma meas_feature_nan : forall (o : voracle f32) exts fs f B, valid_norder (vo_nord o) -> meas_feature o exts fs (hx_cols (length exts) (length fs)) f = Ok (Some B) ->
  nan_measured lm exts fs f -> 1 <= mr B /\ rows_nan B.
Proof.
  intros o exts fs f B Hv E (i & ob & cam & z & k & fr & e & Ho & Hz & Hn & Hg & Hk & He & Hd). unfold meas_feature in E. cbv zeta in E. binv E. destruct x as [[H n]|]; [|discriminate E].
  assert (C : col_nan H) by exact (write_track_nan _ _ _ _ _ _ 0%Z _ _ _ i ob cam z k fr e Hv E0 eq_refl Ho Hz Hn Hg Hk He Hd).
  apply write_track_kept in E0 as (_ & R & M & _). cbn [fst mzero mr mc] in R, M. binv E.
  destruct (Nat.ltb_spec (mr (qr_apply (vo_qr o) x H)) 3) as [|L]; [discriminate E|]. binv E. injection E as <-.
  unfold block in E1. destruct (in_block _ _ _ _ _) eqn:Eb; [|discriminate E1]. injection E1 as <-. change (mr (qr_apply (vo_qr o) x H)) with (mr H) in *. change (mc (qr_apply (vo_qr o) x H)) with (mc H) in *.
  cbn [get_block mr mc]. split; [destruct (rows_even f) as (m & Em); lia|]. intros j. cbn [get_block me mc]. replace (3 + (mc H - 3 - 1)) with (mc H - 1) by lia. apply qr_apply_nan. exact C.
Qed.

(** ** The stacked matrix *)
Lemma stack_kept : forall (o : voracle f32) exts fs cols h l row (H H' : mat f32), stack_loop o exts fs cols h l row H = Ok (Some H') ->
  mr H' = mr H /\ mc H' = mc H /\ forall i j, i < row -> me H' i j = me H i j.
Proof.
  intros o exts fs cols h l. induction l as [|p l IH]; intros row H H' E; cbn [stack_loop] in E; [injection E as <-; auto|].
  binv E. binv E. destruct x0 as [B|]; [|discriminate E]. binv E. unfold setbn in E2. destruct (_ && _)%bool eqn:Ed; [|discriminate E2]. apply setb_inv in E2 as (_ & _ & S1 & S2 & _ & S3).
  apply IH in E as (I1 & I2 & I3). split; [lia|]. split; [lia|]. intros i j Hi. rewrite I3 by lia. apply S3. lia.
Qed.
Lemma stack_nan : forall (o : voracle f32) exts fs h l row (H H' : mat f32) p f, valid_norder (vo_nord o) ->
  stack_loop o exts fs (hx_cols (length exts) (length fs)) h l row H = Ok (Some H') -> mc H = hx_cols (length exts) (length fs) + 1 ->
  In p l -> hget h p = Ok f -> nan_measured lm exts fs f -> col_nan H'.
Proof.
  intros o exts fs h l. induction l as [|p' l IH]; intros row H H' p f Hv E Hm Hp Hf Hn; [destruct Hp|]. cbn [stack_loop] in E.
  binv E. binv E. destruct x0 as [B|]; [|discriminate E]. binv E. rename x0 into H1. unfold setbn in E2. destruct (_ && _)%bool eqn:Ed; [|discriminate E2].
  apply andb_true_iff in Ed as [Ed1 Ed2]. apply Nat.eqb_eq in Ed1, Ed2. destruct Hp as [->|Hp].
  - rewrite Hf in E0. injection E0 as <-. destruct (meas_feature_nan _ _ _ _ _ Hv E1 Hn) as [B1 B2]. apply setb_inv in E2 as (L1 & L2 & S1 & S2 & S3 & _).
    apply stack_kept in E as (K1 & K2 & K3). exists row. split; [lia|]. rewrite K2, K3 by lia. rewrite S2, S3 by lia. rewrite Nat.sub_0_r. replace (mc H - 1) with (mc B - 1) by lia. apply B2.
  - apply setb_inv in E2 as (_ & _ & _ & S2 & _). eapply IH; try eassumption. lia.
Qed.
Lemma measurement_nan : forall (o : voracle f32) exts fs h l Hr p f, valid_norder (vo_nord o) -> measurement o exts fs h l = Ok (Some Hr) ->
  In p l -> hget h p = Ok f -> nan_measured lm exts fs f -> col_nan Hr.
Proof.
  intros o exts fs h l Hr p f Hv E Hp Hf Hn. unfold measurement in E. cbv zeta in E. binv E. binv E. destruct x0 as [H|]; [|discriminate E].
  assert (C : col_nan H) by exact (stack_nan _ _ _ _ _ _ _ _ _ _ Hv E1 eq_refl Hp Hf Hn). apply stack_kept in E1 as (_ & M & _). cbn [mzero mc] in M.
  binv E. injection E as <-. unfold compress in E1. destruct (Nat.ltb_spec (mc H) (mr H)) as [L|L]; [|injection E1 as <-; exact C]. binv E1. injection E1 as <-.
  assert (M1 : 1 <= mc H - 1) by (unfold hx_cols in M; change imu_size with 15 in M; destruct Hn as (i & ob & cam & z & k & fr & e & _ & _ & _ & _ & Hk & _); destruct fs; [destruct k; discriminate Hk|cbn [length] in M; lia]).
  exists 0. cbn [cresize mr mc me]. repeat match goal with |- context [mc (qr_apply ?q ?a H)] => change (mc (qr_apply q a H)) with (mc H) | |- context [mr (qr_apply ?q ?a H)] => change (mr (qr_apply q a H)) with (mr H) end. split; [lia|].
  rewrite (proj2 (Nat.ltb_lt 0 (mr H))), (proj2 (Nat.ltb_lt (mc H - 1) (mc H))) by lia. cbn [andb]. apply qr_apply_nan. exact C.
Qed.

(** ** The correction *)
Definition dx_nan (dx : mat f32) : Prop := forall i, me dx i 0 = nan.
Lemma kalman_nan : forall saes noise P Hr K dx P', kalman saes noise P Hr = Ok (K, dx, P') -> col_nan Hr -> dx_nan dx.
Proof.
  intros saes noise P Hr K dx P' E (k & Hk & Hn). unfold kalman in E. destruct (Nat.eqb_spec (mc Hr) 0) as [|Hc]; [discriminate E|].
  do 9 binv E. injection E as <- <- _. intros i. unfold mmulc in E5. destruct (Nat.eqb_spec (mc x3) (mr x0)) as [Ed|]; [|discriminate E5]. injection E5 as <-.
  unfold block in E1. destruct (in_block _ _ _ _ _); [|discriminate E1]. injection E1 as <-. cbn [get_block mr] in Ed. apply mul_col_nan with (k := k); [rewrite Ed; exact Hk|].
  cbn [get_block me]. rewrite Nat.add_0_r. exact Hn.
Qed.
Lemma seg_nan : forall dx i v, dx_nan dx -> seg3c dx i = Ok v -> van v.
Proof. intros dx i v H E. unfold seg3c in E. destruct (Nat.leb _ _); [|discriminate E]. injection E as <-. split; [apply H|]. split; apply H. Qed.
Lemma correct_q_nan : forall q v, van v -> qsn (q_correct q v).
Proof. intros q v H. unfold q_correct. apply (qnorm_qsn lm), (qmul_qsn lm). right. apply (delta_vsn lm), van_vsn, H. Qed.
Lemma add_van_r : forall a b, van b -> van (v3add a b).
Proof. intros a b H. apply (add_van lm). right. exact H. Qed.
Definition mnan (e : extrinsic f32) : Prop := van (ex_p e) /\ qsn (ex_q e).
Definition fnan (f : frame f32) : Prop := van (fr_p f) /\ qsn (fr_q f).
Lemma correct_ext_nan : forall dx l i r, dx_nan dx -> correct_ext dx i l = Ok r -> List.Forall mnan r.
Proof.
  intros dx l. induction l as [|e l IH]; intros i r H E; cbn [correct_ext] in E; [injection E as <-; constructor|]. binv E. binv E. binv E. injection E as <-.
  constructor; [|eapply IH; eassumption]. split; cbn [ex_p ex_q]; [apply add_van_r; eapply seg_nan; eassumption|apply correct_q_nan; eapply seg_nan; eassumption].
Qed.
(** Kept however the mountings are corrected afterwards. *)
Lemma correct_ext_keeps : forall dx l i r, correct_ext dx i l = Ok r -> List.Forall mnan l -> List.Forall mnan r.
Proof.
  intros dx l. induction l as [|e l IH]; intros i r E H; cbn [correct_ext] in E; [injection E as <-; constructor|]. binv E. binv E. binv E. injection E as <-. inversion H as [|? ? [Hp Hq] Hl]; subst.
  constructor; [|eapply IH; eassumption]. split; cbn [ex_p ex_q]; [apply (add_van lm); left; exact Hp|apply (correct_qsn lm); exact Hq].
Qed.
Lemma correct_frames_nan : forall dx off newest m l idx r, dx_nan dx -> van (mo_p m) -> qsn (mo_q m) -> correct_frames dx off idx newest m l = Ok r ->
  List.NoDup (map fr_id l) -> (exists b, back l = Ok b /\ fr_id b = newest) -> List.Forall fnan r.
Proof.
  intros dx off newest m l. induction l as [|f l IH]; intros idx r H Hp Hq E Hd Hb; cbn [correct_frames] in E; [injection E as <-; constructor|].
  cbn [map] in Hd. inversion Hd as [|? ? Hi Hd']; subst. destruct (Z.eqb_spec (fr_id f) newest) as [En|En].
  - injection E as <-. destruct l as [|g l]; [constructor; [split; [exact Hp|exact Hq]|constructor]|]. exfalso. destruct Hb as (b & Hb & Eb). apply Hi. rewrite En, <- Eb. apply in_map.
    destruct (back_cases _ (g :: l)) as [[e _]|(k & y & e & Ey)]; [discriminate e|]. rewrite e in Hb. rewrite e. change (f :: k ++ [y]) with ((f :: k) ++ [y]) in Hb. rewrite FrameFacts.back_app in Hb. injection Hb as <-. apply in_or_app. right. left. reflexivity.
  - binv E. binv E. binv E. injection E as <-. constructor.
    + split; cbn [with_pose fr_p fr_q]; [apply add_van_r; eapply seg_nan; eassumption|apply correct_q_nan; eapply seg_nan; eassumption].
    + eapply IH; try eassumption. destruct Hb as (b & Hb & Eb). exists b. split; [|exact Eb]. destruct (back_cases _ l) as [[e _]|(k & y & e & Ey)].
      * subst l. cbn in Hb. injection Hb as <-. contradiction.
      * rewrite e in Hb |- *. change (f :: k ++ [y]) with ((f :: k) ++ [y]) in Hb. rewrite FrameFacts.back_app in Hb |- *. exact Hb.
Qed.
Definition it_lost (it : pitem f32) : Prop := van (mo_p (pi_mo it)) /\ van (mo_v (pi_mo it)) /\ qsn (mo_q (pi_mo it)).
Lemma apply_delta_nan : forall dx s s', dx_nan dx -> apply_delta dx s = Ok s' ->
  (exists it r, pq_items (vs_pq s') = it :: r /\ it_lost it) /\ van (pq_ba (vs_pq s')) /\ van (pq_bg (vs_pq s')) /\ List.Forall mnan (vs_ext s') /\
  (List.NoDup (map fr_id (wn_frames (vs_win s))) -> List.Forall fnan (wn_frames (vs_win s'))).
Proof.
  intros dx s s' H E. unfold apply_delta in E. destruct (pq_items (vs_pq s)) as [|h r] eqn:Ei; [discriminate E|]. cbn [front obind] in E. binv E. rename x into m.
  assert (M : van (mo_p m) /\ van (mo_v m) /\ qsn (mo_q m)).
  { unfold correct_motion in E0. binv E0. binv E0. binv E0. injection E0 as <-. cbn [mo_p mo_v mo_q]. split; [apply add_van_r; eapply seg_nan; eassumption|].
    split; [apply add_van_r; eapply seg_nan; eassumption|apply correct_q_nan; eapply seg_nan; eassumption]. }
  unfold with_head in E. rewrite Ei in E. cbn [obind] in E. do 4 binv E. injection E as <-. cbn [vs_pq vs_ext vs_win with_bias with_items pq_items pq_ba pq_bg wn_frames].
  split; [exists (PItem m (pi_cov h) (pi_ecov h) (pi_a h) (pi_g h) (pi_ts h)), r; split; [reflexivity|exact M]|].
  split; [apply add_van_r; eapply seg_nan; eassumption|]. split; [apply add_van_r; eapply seg_nan; eassumption|]. split; [eapply correct_ext_nan; eassumption|]. intros Hd.
  destruct (wn_frames (vs_win s)) as [|f fs] eqn:Ef; [injection E4 as <-; constructor|]. binv E4. eapply correct_frames_nan; [exact H|exact (proj1 M)|exact (proj2 (proj2 M))|exact E4|exact Hd|]. eauto.
Qed.
(** ** A queue with NaN biases *)
Lemma step_biased : forall grav ba bg F G Q it0 a1 g1 t1, van ba -> p_bad (fst (fst (prop_item grav ba bg F G Q it0 a1 g1 t1))).
Proof.
  intros grav ba bg F G Q it0 a1 g1 t1 H. unfold prop_item. set (dt := step_dt _ _). clearbody dt. destruct it0 as [[p v q] cv ec a0 g0 t0]. unfold nominal_step. cbv zeta. cbn [fst pi_mo pi_a pi_g mo_p mo_v mo_q].
  unfold p_bad. cbn [pi_mo mo_p mo_v]. set (q1 := qnormalize (qmul q _)).
  assert (Hv : van (v3add v (v3scale (v3sub (v3scale (v3add (qrot q (v3sub a0 ba)) (qrot q1 (v3sub a1 ba))) shalf) grav) dt))).
  { apply add_van_r. apply (scale_van lm), (sub_van lm), (scale_van lm), (add_van lm). left. apply (qrot_van lm). right. apply sub_vsn_r, van_vsn, H. }
  split; [|exact Hv]. apply add_van_r, (scale_van lm), (scale_van lm), add_van_r, Hv.
Qed.
Lemma reprop_biased : forall grav ba bg Q l F G it0, van ba -> List.Forall p_bad (fst (fst (reprop_loop grav ba bg Q F G it0 l))).
Proof.
  intros grav ba bg Q. induction l as [|it1 l IH]; intros F G it0 H; cbn [reprop_loop]; [constructor|].
  pose proof (step_biased grav ba bg F G Q it0 (pi_a it1) (pi_g it1) (pi_ts it1) H) as Hs. destruct (prop_item _ _ _ _ _ _ _ _ _ _) as [[it1' F'] G']. cbn [fst] in Hs.
  specialize (IH F' G' it1' H). destruct (reprop_loop _ _ _ _ _ _ _ _) as [[r' F''] G'']. cbn [fst] in *. constructor; assumption.
Qed.
Definition pq_lost (q : pqueue f32) : Prop := van (pq_ba q) /\ van (pq_bg q) /\ List.Forall p_bad (tl (pq_items q)).
Lemma propagate_lost : forall grav n q a g t, pq_lost q -> pq_lost (pq_propagate grav n q a g t).
Proof.
  intros grav n q a g t (H1 & H2 & H3). unfold pq_propagate. destruct (back_cases _ (pq_items q)) as [[e Eb]|(l & it0 & e & Eb)]; rewrite Eb.
  - split; [exact H1|]. split; [exact H2|]. cbn [pq_items]. rewrite e. constructor.
  - pose proof (step_biased grav (pq_ba q) (pq_bg q) (pq_F q) (pq_G q) (pq_Q q) it0 a g t H1) as Hs. destruct (prop_item _ _ _ _ _ _ _ _ _ _) as [[it1 F'] G']. cbn [fst] in Hs.
    split; [exact H1|]. split; [exact H2|]. cbn [pq_items]. destruct (pq_items q) as [|i r]; [constructor|]. cbn [app tl] in *. apply List.Forall_app. split; [exact H3|]. constructor; [exact Hs|constructor].
Qed.
Lemma replay_lost : forall grav n l q, pq_lost q -> pq_lost (replay grav n q l).
Proof. intros grav n. induction l as [|i l IH]; intros q H; [exact H|]. cbn [replay fold_left]. apply IH, propagate_lost, H. Qed.
Lemma repropagate_lost : forall grav q, van (pq_ba q) -> van (pq_bg q) -> pq_lost (pq_repropagate grav q) /\ (forall it r, pq_items q = it :: r -> exists r', pq_items (pq_repropagate grav q) = it :: r').
Proof.
  intros grav q H1 H2. unfold pq_repropagate. destruct (pq_items q) as [|it0 r] eqn:E; [split; [split; [exact H1|split; [exact H2|rewrite E; constructor]]|intros it r X; discriminate X]|].
  pose proof (reprop_biased grav (pq_ba q) (pq_bg q) (pq_Q q) r (pq_F q) (pq_G q) it0 H1) as Hr. destruct (reprop_loop _ _ _ _ _ _ _ _) as [[r' F'] G']. cbn [fst] in Hr.
  split; [split; [exact H1|split; [exact H2|exact Hr]]|]. intros it r0 X. injection X as <- _. exists r'. reflexivity.
Qed.
Lemma update_cov_lost : forall P (q q' : pqueue f32), update_cov P q = Ok q' -> pq_ba q' = pq_ba q /\ pq_bg q' = pq_bg q /\
  exists it r it', pq_items q = it :: r /\ pq_items q' = it' :: r /\ pi_mo it' = pi_mo it.
Proof.
  intros P q q' H. unfold update_cov in H. destruct (Nat.ltb _ _); [discriminate H|]. destruct (pq_items q) as [|h r] eqn:E; [discriminate H|]. cbn [front obind] in H.
  binv H. binv H. binv H. unfold with_head in H. rewrite E in H. cbn [obind] in H. injection H as <-. cbn [with_ecc with_items pq_items pq_ba pq_bg]. split; [reflexivity|]. split; [reflexivity|].
  do 3 eexists. split; [reflexivity|]. split; reflexivity.
Qed.
Lemma finish_lost : forall (o : voracle f32) c pol P s s', finish_update o c pol P s = Ok s' -> van (pq_ba (vs_pq s)) -> van (pq_bg (vs_pq s)) ->
  pq_lost (vs_pq s') /\ vs_ext s' = vs_ext s /\ vs_win s' = vs_win s /\ exists it r it' r', pq_items (vs_pq s) = it :: r /\ pq_items (vs_pq s') = it' :: r' /\ pi_mo it' = pi_mo it.
Proof.
  intros o c pol P s s' H H1 H2. unfold finish_update in H. cbv zeta in H. binv H. binv H. binv H. injection H as <-. cbn [vs_pq vs_ext vs_win].
  match goal with X : update_cov _ _ = Ok _ |- _ => apply update_cov_lost in X as (B1 & B2 & it & r & it' & I1 & I2 & I3) end.
  destruct (repropagate_lost (vc_grav c) x1) as [R1 R2]; [rewrite B1; exact H1|rewrite B2; exact H2|]. split; [exact R1|]. split; [reflexivity|]. split; [reflexivity|].
  destruct (R2 _ _ I2) as (r' & R3). exists it, r, it', r'. auto.
Qed.
(** C99: the update. *)
Lemma update_nan : forall (o : voracle f32) c s ts thr s' pol, valid_norder (vo_nord o) ->
  vision_update o c s ts thr = Ok (s', true, pol) -> nan_update lm o c s ts thr ->
  pq_lost (vs_pq s') /\ (exists it r, pq_items (vs_pq s') = it :: r /\ it_lost it) /\ List.Forall mnan (vs_ext s') /\
  (List.NoDup (map fr_id (wn_frames (vs_win s))) -> List.Forall fnan (wn_frames (vs_win s'))).
Proof.
  intros o c s ts thr s' pol Hv H (q & fs & h & l & p & f & U1 & U2 & U3 & Hp & Hf & Hn). unfold vision_update in H. cbv zeta in H. rewrite U1 in H. cbn [negb] in H.
  binv H. binv H. destruct x0 as [P|]; [|discriminate H]. change (ops_img lm) with OPI in *. rewrite U2 in H. cbn [obind] in H. rewrite U3 in H. cbn [obind fst snd] in H.
  destruct l as [|p0 l]; [destruct Hp|]. binv H. destruct x0 as [Hr|]; [|discriminate H]. binv H. binv H. injection H as <- _.
  match goal with X : measurement _ _ _ _ _ = Ok _ |- _ => pose proof (measurement_nan _ _ _ _ _ _ _ _ Hv X Hp Hf Hn) as C end.
  match goal with X : update_state _ _ _ _ _ = Ok _ |- _ => unfold update_state in X; binv X; rename X into Eu end.
  match goal with X : kalman _ _ _ _ = Ok ?k |- _ => destruct k as [[Kg dx] P'] eqn:Ek; pose proof (kalman_nan _ _ _ _ _ _ _ X C) as D end.
  binv Eu. injection Eu as <-.
  assert (Hd' : List.NoDup (map fr_id (wn_frames (vs_win s))) -> List.NoDup (map fr_id fs)).
  { intros Hd. clear - U2 Hd. unfold update_newest in U2. destruct (wn_frames (vs_win s)) as [|f0 fr] eqn:Ef; [discriminate U2|]. rewrite <- Ef in *. binv U2. binv U2. injection U2 as <-.
    destruct (back_cases _ (wn_frames (vs_win s))) as [[e _]|(k & y & e & Ey)]; [rewrite e in Ef; discriminate Ef|]. rewrite Ey in E. injection E as <-. rewrite e in *. unfold set_last. rewrite removelast_last. rewrite map_app in *. exact Hd. }
  match goal with X : apply_delta _ _ = Ok _ |- _ => destruct (apply_delta_nan _ _ _ D X) as ((it & r & A1 & A2) & A3 & A4 & A5 & A6) end.
  match goal with X : finish_update _ _ _ _ _ = Ok _ |- _ => cbn [fst snd] in X; apply finish_lost in X as (F1 & F2 & F3 & i1 & r1 & i2 & r2 & F4 & F5 & F6); [|exact A3|exact A4] end.
  split; [exact F1|]. rewrite F2, F3. split; [|split; [exact A5|intros Hd; apply A6, Hd', Hd]]. exists i2, r2. split; [exact F5|]. rewrite A1 in F4. injection F4 as <- <-. unfold it_lost in *. rewrite F6. exact A2.
Qed.
Lemma mount_iff : forall e, mount_nan e <-> mnan e.
Proof. intros e. unfold mount_nan, mnan. rewrite van_iff, qsn_iff. reflexivity. Qed.
Lemma frame_iff : forall f, frame_nan f <-> fnan f.
Proof. intros f. unfold frame_nan, fnan. rewrite van_iff, qsn_iff. reflexivity. Qed.
Theorem nan_update_all_lost : forall (o : voracle f32) c s ts thr s' pol, valid_norder (vo_nord o) -> List.NoDup (map fr_id (wn_frames (vs_win s))) ->
  vision_update o c s ts thr = Ok (s', true, pol) -> nan_update lm o c s ts thr -> all_lost s'.
Proof.
  intros o c s ts thr s' pol Hv Hd H Hn. destruct (update_nan _ _ _ _ _ _ _ Hv H Hn) as ((Q1 & Q2 & _) & (it & r & I1 & I2 & I3 & I4) & M & F).
  split; [exists it; rewrite I1; rewrite !van_iff, qsn_iff; auto|]. rewrite !van_iff. split; [exact Q1|]. split; [exact Q2|].
  split; [eapply List.Forall_impl; [|exact M]; intros e; apply mount_iff|eapply List.Forall_impl; [|exact (F Hd)]; intros e; apply frame_iff].
Qed.

(** ** Afterwards *)
Lemma tl_suffix : forall (A : Type) (Q : A -> Prop) pre l, List.Forall Q (tl (pre ++ l)) -> List.Forall Q (tl l).
Proof.
  intros A Q pre l H. destruct pre as [|a pre]; [exact H|]. cbn [app tl] in H. apply List.Forall_app in H as [_ H]. destruct l; [constructor|]. inversion H; assumption.
Qed.
Lemma vision_update_lost : forall (o : voracle f32) c s ts thr s' ok pol, vision_update o c s ts thr = Ok (s', ok, pol) -> pq_lost (vs_pq s) -> List.Forall mnan (vs_ext s) ->
  pq_lost (vs_pq s') /\ List.Forall mnan (vs_ext s').
Proof.
  intros o c s ts thr s' ok pol H (B1 & B2 & B3) Hm. unfold vision_update, pq_reset_origin in H.
  pose proof (origin_loop_spec ts thr (pq_items (vs_pq s))) as Hor. destruct (origin_loop ts thr (pq_items (vs_pq s))) as [l'|]; cbn [negb] in H.
  2:{ injection H as <- <- _. split; [|exact Hm]. split; [exact B1|]. split; [exact B2|constructor]. }
  destruct Hor as (pre & it & r & Hl & -> & _). rewrite Hl in B3. apply tl_suffix in B3.
  assert (Q : pq_lost (with_items (vs_pq s) (it :: r))) by (split; [exact B1|split; [exact B2|exact B3]]).
  binv H. binv H. destruct x0 as [P|]; [|injection H as <- _ _; split; [exact Q|exact Hm]].
  binv H. destruct x0 as [fs|]; [|injection H as <- _ _; split; [exact Q|exact Hm]].
  binv H. destruct (snd x0).
  - binv H. injection H as <- _ _. match goal with X : finish_update _ _ _ _ _ = Ok _ |- _ => apply finish_lost in X as (F1 & F2 & _); [|exact B1|exact B2] end. rewrite F2. split; [exact F1|exact Hm].
  - binv H. destruct x1 as [Hr|]; [|injection H as <- _ _; split; [exact Q|exact Hm]]. binv H. binv H. injection H as <- _ _.
    match goal with X : update_state _ _ _ _ _ = Ok _ |- _ => unfold update_state in X; binv X; destruct x3 as [[Kg dx] P']; binv X; injection X as <- end.
    match goal with X : apply_delta _ _ = Ok _ |- _ => rename X into Ea end. unfold apply_delta in Ea. cbn [vs_pq vs_ext with_items pq_items front obind] in Ea. binv Ea. unfold with_head in Ea. cbn [with_items pq_items obind] in Ea. do 4 binv Ea. injection Ea as <-.
    match goal with X : correct_ext _ _ _ = Ok _ |- _ => pose proof (correct_ext_keeps _ _ _ _ X Hm) as Hm' end.
    match goal with X : finish_update _ _ _ _ _ = Ok _ |- _ => cbn [fst snd] in X; apply finish_lost in X as (F1 & F2 & _); [| |] end.
    + rewrite F2. split; [exact F1|exact Hm'].
    + cbn [vs_pq with_bias pq_ba]. apply (add_van lm). left. exact B1.
    + cbn [vs_pq with_bias pq_bg]. apply (add_van lm). left. exact B2.
Qed.
Definition b_lost (s : bstate f32) : Prop := pq_lost (b_pq s) /\ List.Forall mnan (b_ext s).
Lemma init_step_lost : forall c o (s s' : bstate f32), init_step c o s = Ok s' -> b_lost s -> b_lost s'.
Proof.
  intros c o s s' H [Q M]. unfold init_step in H. destruct (b_status s); [|injection H as <-; split; assumption]. binv H. destruct x as [s3 r]. cbn [fst snd] in H.
  assert (L : b_lost s3).
  { unfold initialize in E. cbv zeta in E. destruct (wn_frames (b_win s)) as [|fi [|fj rest]]; [injection E as <- _; split; assumption|injection E as <- _; split; assumption|].
    destruct (f64_ltb _ _); [injection E as <- _; split; assumption|]. binv E. destruct x as [q0|]; [|injection E as <- _; split; assumption]. binv E. binv E. destruct x0 as [[q1 p1]|]; [|injection E as <- _; split; assumption].
    binv E. binv E. injection E as <- _. unfold init_propagator in E3. binv E3. injection E3 as <-. split; [|exact M]. cbn [with_pq with_att with_win b_pq b_ext]. apply replay_lost. exact Q. }
  destruct r; [injection H as <-; exact L|]. binv H. injection H as <-. exact L.
Qed.
Lemma feat_step_lost : forall c o (s s' : bstate f32) m, feat_step c o s m = Ok s' -> b_lost s -> b_lost s'.
Proof.
  intros c o s s' m H L. unfold feat_step in H. binv H. binv H. binv H. apply init_step_lost in E0; [|exact L].
  assert (L2 : b_lost x1).
  { unfold update_step in E1. destruct (b_status x0); [injection E1 as <-; exact E0|]. binv E1. destruct x2 as [[v ok] pol]. destruct E0 as [Q M].
    destruct (vision_update_lost _ _ _ _ _ _ _ _ E2 Q M) as [Q' M']. destruct ok; binv E1; injection E1 as <-; (split; [exact Q'|exact M']). }
  unfold clean_step in H. destruct (Nat.ltb _ _); [|injection H as <-; exact L2]. binv H. binv H. injection H as <-. exact L2.
Qed.
Lemma imu_step_lost : forall c (s s' : bstate f32) m r, imu_step c s m = (s', r) -> b_lost s -> b_lost s'.
Proof.
  intros c s s' m r H [Q M]. unfold imu_step in H. destruct (att_propagate _ _ _ _ _) as [a x]. destruct (b_status s); injection H as <- _; (split; [|exact M]); [exact Q|]. cbn [with_pq with_att b_pq b_ext]. apply propagate_lost. exact Q.
Qed.
Lemma b_step_lost : forall c op (s s' : bstate f32), b_step c s op = Ok s' -> b_lost s -> b_lost s'.
Proof.
  intros c op s s' H Hn. destruct op as [m|m|o| |]; cbn [b_step] in H.
  - assert (e : s' = fst (b_imu s m)) by congruence. subst s'. unfold b_imu. destruct (dl_push_imu _ _ _) as [[[st l] ?] ?]. exact Hn.
  - assert (e : s' = fst (b_feat s m)) by congruence. subst s'. unfold b_feat. destruct (dl_push_feat _ _ _) as [[[st l] ?] ?]. exact Hn.
  - binv H. destruct x as [s2 r]. injection H as <-. cbn [fst]. unfold run_once in E. destruct (dl_pop_one (b_dl s)) as [[[l m] ok] d]. assert (N0 : b_lost (with_dl s (b_st s) l)) by exact Hn.
    destruct ok; cbn [negb] in E; [|injection E as <- _; exact N0].
    destruct (match cm_imu m with [] => (_, true) | i :: _ => imu_step c _ i end) as [s1 r1] eqn:E1.
    assert (N1 : b_lost s1) by (destruct (cm_imu m); [injection E1 as <- _; exact N0|eapply imu_step_lost; eassumption]).
    destruct (cm_feat m); [|injection E as <- _; exact N1]. binv E. injection E as <- _. eapply feat_step_lost; eassumption.
  - assert (e : s' = fst (run_once_test s)) by congruence. subst s'. unfold run_once_test. destruct (dl_pop_one (b_dl s)) as [[[l m] ok] d]. exact Hn.
  - injection H as <-. exact Hn.
Qed.
Lemma b_hist_lost : forall c ops (s s' : bstate f32), b_hist c s ops = Ok s' -> b_lost s -> b_lost s'.
Proof. intros c. induction ops as [|op r IH]; intros s s' H Hn; cbn [b_hist] in H; [injection H as <-; exact Hn|]. binv H. eapply IH; [exact H|]. eapply b_step_lost; eassumption. Qed.

(** C99: whatever follows. *)
Theorem image_nan_forever : forall c (o : boracle f32) (s s1 s2 : bstate f32) ops m v thr r, valid_norder (vo_nord (bo_vis o)) ->
  run_once c o s = Ok (s1, r) -> image_update lm c o s m v thr -> nan_update lm (bo_vis o) c v (fm_ts m) thr -> b_hist c s1 ops = Ok s2 ->
  r = true /\ b_status s1 = Initialized /\ published_nan (b_publish_oldest s1) /\ List.Forall mount_nan (b_ext s2) /\
  (forall mo ba bg t, b_publish_newest s2 = Some (mo, ba, bg, t) -> v3_all_nan ba /\ v3_all_nan bg /\ (2 <= length (pq_items (b_pq s2)) -> v3_all_nan (mo_p mo) /\ v3_all_nan (mo_v mo))).
Proof.
  intros c o s s1 s2 ops m v thr r Hv H (s3 & r3 & w & s4 & v' & pol & U1 & U2 & U3 & U4 & U5 & -> & -> & U8) Hn H2. change (ops_img lm) with OPI in *.
  assert (N : r = true /\ b_status s1 = Initialized /\ published_nan (b_publish_oldest s1) /\ b_lost s1).
  { unfold run_once in H. destruct (dl_pop_one (b_dl s)) as [[[l m0] ok] d] eqn:Ed. cbn [fst snd] in U1, U2. destruct ok; cbn [negb] in H.
    2:{ exfalso. clear - Ed U1. unfold dl_pop_one in Ed. destruct (dl_imu (b_dl s)) as [|i k], (dl_feat (b_dl s)) as [|f k']; try (injection Ed; intros; subst; discriminate).
        destruct (f64_leb _ _); [destruct (f64_ltb _ _)|]; injection Ed; intros; discriminate. }
    rewrite U2, U1 in H. binv H. injection H as <- <-. split; [reflexivity|]. unfold feat_step in E. rewrite U3 in E. cbn [obind] in E. rewrite U4 in E. cbn [obind] in E. binv E.
    unfold update_step in E0. rewrite U5, U8 in E0. cbn [obind] in E0. binv E0. injection E0 as <-.
    destruct (update_nan _ _ _ _ _ _ _ Hv U8 Hn) as (Q & (it & r0 & I1 & I2 & I3 & I4) & M & _).
    match type of E with clean_step ?y = Ok _ => assert (K : b_status y = Initialized /\ published_nan (b_publish_oldest y) /\ b_lost y) end.
    { cbn [with_att with_win b_status]. split; [reflexivity|]. split; [|split; [exact Q|exact M]]. unfold b_publish_oldest, pq_publish_oldest, pq_publish. cbn [with_att with_win b_pq]. rewrite I1. cbn [front].
      do 4 eexists. split; [reflexivity|]. rewrite !van_iff. split; assumption. }
    unfold clean_step in E. destruct (Nat.ltb _ _); [|injection E as <-; exact K]. binv E. binv E. injection E as <-. exact K. }
  destruct N as (N1 & N2 & N3 & N4). split; [exact N1|]. split; [exact N2|]. split; [exact N3|]. destruct (b_hist_lost _ _ _ _ H2 N4) as [(B1 & B2 & B3) M].
  split; [eapply List.Forall_impl; [|exact M]; intros e; apply mount_iff|]. intros mo ba bg t Hp. unfold b_publish_newest, pq_publish_newest, pq_publish in Hp.
  destruct (back (pq_items (b_pq s2))) as [i|] eqn:Eb; [|discriminate Hp]. injection Hp as <- <- <- <-. rewrite !van_iff. split; [exact B1|]. split; [exact B2|]. intros Hl.
  destruct (back_cases _ (pq_items (b_pq s2))) as [[e Ex]|(k & y & e & Ey)]; [congruence|]. rewrite Ey in Eb. injection Eb as <-. rewrite e in B3, Hl. destruct k as [|j k]; [cbn in Hl; lia|].
  cbn [app tl] in B3. apply List.Forall_app in B3 as [_ B3]. inversion B3; subst. assumption.
Qed.

(** ** A point that is not a number *)
Lemma dot_nan : forall a b, vsn b -> v3dot a b = nan.
Proof.
  intros [x y z] [x' y' z'] H. unfold NanFacts.vsn in H. unfold v3dot. cbn [v3x v3y v3z] in *. change sadd with f32_add. change smul with f32_mul.
  destruct H as [-> | [-> | ->]]; rewrite ?mul_nan_r, ?add_nan_l, ?add_nan_r, ?add_nan_l; reflexivity.
Qed.
Lemma mulv_van : forall A b, vsn b -> van (m33mulv A b).
Proof. intros A b H. unfold NanFacts.van, m33mulv. cbn [v3x v3y v3z]. rewrite !dot_nan by exact H. auto. Qed.
Lemma pc_nan : forall e f pw, vsn pw -> v3z (meas_pc e f pw) = nan.
Proof. intros e f pw H. unfold meas_pc. apply mulv_van. apply (sub_vsn lm). apply van_vsn. unfold meas_pb. apply mulv_van, (sub_vsn lm), H. Qed.
Lemma write_obs_point : forall ne newest fidx cam row e f pw z (H H' : mat f32), vsn pw -> write_obs ne newest fidx cam row e f pw z H = Ok H' -> H' = H.
Proof.
  intros ne newest fidx cam row e f pw z H H' Hp E. unfold write_obs in E. rewrite (pc_nan e f pw Hp) in E. change (sltb szero (sabs nan)) with (f32_ltb szero (f32_abs nan)) in E. rewrite abs_nan, ltb_nan_r in E. injection E as <-. reflexivity.
Qed.
Lemma write_cams_point : forall exts newest fidx f pw l row (H : mat f32) r, vsn pw -> write_cams exts newest fidx f pw l row H = Ok r -> fst r = H.
Proof.
  intros exts newest fidx f pw l. induction l as [|[cam z] l IH]; intros row H r Hp E; cbn [write_cams] in E; [injection E as <-; reflexivity|].
  binv E. binv E. apply write_obs_point in E1; [|exact Hp]. subst. eapply IH; eassumption.
Qed.
Lemma write_track_point : forall nord exts fs first pw obs i row (H : mat f32) r, vsn pw -> write_track nord exts fs first pw i obs row H = Ok (Some r) -> fst r = H.
Proof.
  intros nord exts fs first pw obs. induction obs as [|ob l IH]; intros i row H r Hp E; cbn [write_track] in E; [injection E as <-; reflexivity|].
  destruct (get_frame fs _) as [k|]; [|discriminate E]. do 4 binv E. apply write_cams_point in E3; [|exact Hp]. apply IH in E; [|exact Hp]. congruence.
Qed.
Lemma ssum_zero : forall n (f : nat -> f32), (forall k, exists b, f k = B754_zero b) -> exists b, ssum n f = B754_zero b.
Proof.
  induction n as [|n IH]; intros f H; cbn [ssum]; [exists false; reflexivity|]. destruct (IH f H) as (b & ->). destruct (H n) as (b' & ->). change sadd with f32_add. destruct b, b'; eexists; reflexivity.
Qed.
(** C99: such a feature contributes nothing. *)
Theorem nan_point_silent : forall (o : voracle f32) exts fs cols f B, v3_some_nan (ft_pw f) -> (forall i j, is_finite (vo_qr o (mzero (rows_of f) 3) i j) = true) ->
  meas_feature o exts fs cols f = Ok (Some B) -> forall i j, exists b, me B i j = B754_zero b.
Proof.
  intros o exts fs cols f B Hp Hq E i j. rewrite vsn_iff in Hp. unfold meas_feature in E. cbv zeta in E. binv E. destruct x as [[H n]|]; [|discriminate E]. apply write_track_point in E0; [|exact Hp]. cbn [fst] in E0. subst H.
  binv E. destruct (Nat.ltb _ 3); [discriminate E|]. binv E. injection E as <-. unfold block in E0, E1. destruct (in_block _ _ _ _ _); [|discriminate E0]. injection E0 as <-. destruct (in_block _ _ _ _ _); [|discriminate E1]. injection E1 as <-.
  cbn [get_block me qr_apply mmul mtr mc mr mzero]. apply ssum_zero. intros k. change smul with f32_mul. change s0 with (B754_zero false : f32).
  specialize (Hq k (3 + i)). change (get_block (mzero (rows_of f) (cols + 4)) 0 0 (rows_of f) 3) with (mzero (rows_of f) 3 : mat f32). destruct (vo_qr o (mzero (rows_of f) 3) k (3 + i)) as [b|b| |b m e p]; try discriminate Hq; eexists; reflexivity.
Qed.
End Image.
