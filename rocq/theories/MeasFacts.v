(** Construction of the measurement matrices: layout (C49), null-space projection (C47), selection (C50). *)
From Coq Require Import Reals Lra Lia List Arith Bool ZArith.
From stdpp Require Import gmap.
From Verif Require Import Fp Scalar Base LinAlg Msg FeatureManager FrameManager Window MathLib Propagator Triangulate Pnp
  VisionUpdate MatFacts WindowSpec UpdSpec FrameFacts UpdCovFacts.
Import ListNotations.
Local Open Scope nat_scope.

Section Layout.
Context {T : Type} {S : SOps T}.

Lemma in3_spec : forall c j, reflect (c <= j < c + 3) (in3 c j).
Proof.
  intros c j. apply Bool.iff_reflect. unfold in3. rewrite andb_true_iff, Nat.leb_le, Nat.ltb_lt. lia.
Qed.

Lemma write_obs_spec : forall ne nf newest k cam row (e : extrinsic T) (f : frame T) p_w z (H : mat T),
  newest = (k =? nf - 1) -> k < nf -> cam < ne -> row + 2 <= mr H -> mc H = col_res ne nf + 1 ->
  exists H', write_obs ne newest k cam row e f p_w z H = Ok H' /\ mr H' = mr H /\ mc H' = mc H /\
    (forall i j, i < row \/ row + 2 <= i -> me H' i j = me H i j) /\
    ((forall r j, r < 2 -> me H (row + r) j = s0) ->
     forall exts fs r j, nth_error exts cam = Some e -> nth_error fs k = Some f -> r < 2 -> j < mc H ->
       me H' (row + r) j = meas_entry ne nf exts fs p_w (k, cam, z) r j).
Proof.
  intros ne nf newest k cam row e f p_w z H Hn Hk Hc Hr Hm. unfold write_obs.
  destruct (sltb szero (sabs (v3z (meas_pc e f p_w)))) eqn:Ev.
  2:{ exists H. split; [reflexivity|]. split; [reflexivity|]. split; [reflexivity|]. split; [reflexivity|].
      intros H0 exts fs r j Ee Ef Hr2 Hj. unfold meas_entry. rewrite Ee, Ef, Ev. apply H0. exact Hr2. }
  set (cp := col_pos ne nf k). set (ca := col_att ne nf k). set (ce := col_ext cam). set (cr := col_res ne nf) in *.
  assert (Dcp : (k = nf - 1 /\ cp = 3 /\ ca = 9) \/ (k < nf - 1 /\ cp = 18 + 6 * ne + 6 * k /\ ca = cp + 3)).
  { unfold cp, ca, col_pos, col_att. destruct (Nat.eqb_spec k (nf - 1)); [left|right]; lia. }
  assert (Dce : ce = 18 + 6 * cam) by (unfold ce, col_ext; lia).
  assert (Dcr : cr = 18 + 6 * ne + 6 * (nf - 1)) by (unfold cr, col_res; lia).
  set (R := Mat 2 1 _). assert (SRr : mr R = 2) by reflexivity. assert (SRc : mc R = 1) by reflexivity.
  rewrite setb_ok by (unfold R; cbn [mr mc]; lia). cbn [obind]. rewrite Hm. replace (cr + 1 - 1) with cr by lia.
  set (H1 := set_block H row cr R).
  assert (S1 : mr H1 = mr H /\ mc H1 = mc H) by (split; reflexivity). destruct S1 as [S1r S1c].
  rewrite setb_ok by (cbn [mr mc jac_pw meas_jmm m23]; lia). cbn [obind]. set (H2 := set_block H1 row 0 (jac_pw e f p_w)).
  assert (S2 : mr H2 = mr H /\ mc H2 = mc H) by (split; reflexivity). destruct S2 as [S2r S2c].
  assert (E4 : (if newest
      then obind (setb H2 row (3 + ix_p) (jac_pwb e f p_w)) (fun H3 => setb H3 row (3 + ix_r) (jac_Rwb e f p_w))
      else obind (setb H2 row (3 + imu_size + ne * 6 + k * 6) (jac_pwb e f p_w))
             (fun H3 => setb H3 row (3 + imu_size + ne * 6 + k * 6 + 3) (jac_Rwb e f p_w))) =
    Ok (set_block (set_block H2 row cp (jac_pwb e f p_w)) row ca (jac_Rwb e f p_w))).
  { subst newest. unfold imu_size, ix_p, ix_r. destruct (Nat.eqb_spec k (nf - 1)).
    - destruct Dcp as [(_ & -> & ->)|Dcp]; [|lia].
      rewrite setb_ok by (cbn [mr mc jac_pwb meas_jm m23]; lia). cbn [obind].
      rewrite setb_ok by (cbn [mr mc jac_Rwb meas_jmm m23 set_block]; lia). reflexivity.
    - destruct Dcp as [Dcp|(_ & Ec & Ea)]; [lia|]. 
      replace (3 + 15 + ne * 6 + k * 6) with cp by lia. replace (cp + 3) with ca by lia.
      rewrite setb_ok by (cbn [mr mc jac_pwb meas_jm m23]; lia). cbn [obind].
      rewrite setb_ok by (cbn [mr mc jac_Rwb meas_jmm m23 set_block]; lia). reflexivity. }
  cbv zeta in *. rewrite E4. cbn [obind]. clear E4.
  set (H3 := set_block H2 row cp (jac_pwb e f p_w)). set (H4 := set_block H3 row ca (jac_Rwb e f p_w)).
  assert (S4 : mr H4 = mr H /\ mc H4 = mc H) by (split; reflexivity). destruct S4 as [S4r S4c].
  unfold imu_size. replace (3 + 15 + cam * 6) with ce by lia.
  rewrite setb_ok by (cbn [mr mc jac_pbc meas_jm m23]; lia). cbn [obind]. set (H5 := set_block H4 row ce (jac_pbc e f p_w)).
  assert (S5 : mr H5 = mr H /\ mc H5 = mc H) by (split; reflexivity). destruct S5 as [S5r S5c].
  rewrite setb_ok by (cbn [mr mc jac_Rbc meas_jm m23]; lia). eexists. split; [reflexivity|].
  split; [reflexivity|]. split; [exact Hm|]. split.
  - intros i j Hi. unfold H5, H4, H3, H2, H1.
    do 6 (rewrite set_block_out by (left; cbn [mr jac_pw jac_pwb jac_Rwb jac_pbc jac_Rbc meas_jmm meas_jm m23 R]; lia)). reflexivity.
  - intros H0 exts fs r j Ee Ef Hr2 Hj. unfold meas_entry. rewrite Ee, Ef, Ev. fold cp ca ce cr.
    unfold H5, H4, H3, H2, H1.
    Ltac bb := repeat first [ rewrite set_block_in by (cbn [mr mc jac_pw jac_pwb jac_Rwb jac_pbc jac_Rbc meas_jmm meas_jm m23]; lia)
                            | rewrite set_block_out by (cbn [mr mc jac_pw jac_pwb jac_Rwb jac_pbc jac_Rbc meas_jmm meas_jm m23]; lia) ].
    replace (row + r - row) with r by lia.
    destruct (in3_spec 0 j); [bb; f_equal; lia|].
    destruct (in3_spec cp j); [bb; replace (row + r - row) with r by lia; reflexivity|].
    destruct (in3_spec ca j); [bb; replace (row + r - row) with r by lia; reflexivity|].
    destruct (in3_spec ce j); [bb; replace (row + r - row) with r by lia; reflexivity|].
    destruct (in3_spec (ce + 3) j); [bb; replace (row + r - row) with r by lia; reflexivity|].
    destruct (Nat.eqb_spec j cr).
    + bb. unfold R. cbn [me]. replace (row + r - row) with r by lia. destruct r; reflexivity.
    + bb. apply H0. exact Hr2.
Qed.
End Layout.

Section Track.
Context {T : Type} {S : SOps T}.

(** The rows of a list of measurements written from row [row] on. *)
Definition rows_are (ne nf : nat) (exts : list (extrinsic T)) (fs : list (frame T)) (p_w : v3 T) (row : nat)
    (l : list (nat * nat * v2 T)) (H H' : mat T) : Prop :=
  (forall i j, i < row \/ row + 2 * length l <= i -> me H' i j = me H i j) /\
  (forall a m r j, nth_error l a = Some m -> r < 2 -> j < mc H -> me H' (row + 2 * a + r) j = meas_entry ne nf exts fs p_w m r j).

Lemma rows_are_app : forall ne nf exts fs p_w row l1 l2 (H H1 H2 : mat T), mc H1 = mc H ->
  rows_are ne nf exts fs p_w row l1 H H1 -> rows_are ne nf exts fs p_w (row + 2 * length l1) l2 H1 H2 ->
  rows_are ne nf exts fs p_w row (l1 ++ l2) H H2.
Proof.
  intros ne nf exts fs p_w row l1 l2 H H1 H2 Hc [A1 A2] [B1 B2]. split.
  - intros i j Hi. rewrite app_length in Hi. rewrite B1 by lia. apply A1. lia.
  - intros a m r j Ha Hr Hj. destruct (Nat.lt_ge_cases a (length l1)) as [Hl|Hl].
    + rewrite nth_error_app1 in Ha by exact Hl. rewrite B1 by lia. apply A2; assumption.
    + rewrite nth_error_app2 in Ha by exact Hl. rewrite <- (B2 _ _ _ _ Ha Hr) by lia. f_equal. lia.
Qed.

Lemma write_cams_spec : forall nf exts (fs : list (frame T)) k f p_w, k < nf -> nth_error fs k = Some f ->
  forall l row (H : mat T), Forall (fun cz : Z * v2 T => (0 <= fst cz < Z.of_nat (length exts))%Z) l ->
  row + 2 * length l <= mr H -> mc H = col_res (length exts) nf + 1 ->
  (forall i j, row <= i -> me H i j = s0) ->
  exists H', write_cams exts (k =? nf - 1) k f p_w l row H = Ok (H', row + 2 * length l) /\ mr H' = mr H /\ mc H' = mc H /\
    rows_are (length exts) nf exts fs p_w row (map (fun cz => (k, Z.to_nat (fst cz), snd cz)) l) H H'.
Proof.
  intros nf exts fs k f p_w Hk Hf. induction l as [|[cam z] l IH]; intros row H Hl Hr Hc H0; cbn [write_cams map].
  - exists H. cbn [length]. rewrite Nat.mul_0_r, Nat.add_0_r. split; [reflexivity|]. split; [reflexivity|]. split; [reflexivity|]. split.
    + reflexivity.
    + intros [|a] m r j Ha; discriminate.
  - inversion Hl as [|? ? Hcam Hl']; subst. cbn [fst snd length] in *.
    assert (Hlt : Z.to_nat cam < length exts) by lia.
    unfold at_. destruct (nth_error exts (Z.to_nat cam)) as [e|] eqn:Ee; [|apply nth_error_None in Ee; lia]. cbn [obind].
    destruct (write_obs_spec (length exts) nf (k =? nf - 1) k (Z.to_nat cam) row e f p_w z H) as (H' & E' & Sr & Sc & A & B); auto; [lia|].
    rewrite E'. cbn [obind]. assert (Z' : forall i j, row + 2 <= i -> me H' i j = s0) by (intros i j Hi; rewrite A by lia; apply H0; lia).
    destruct (IH (row + 2) H' Hl' ltac:(lia) ltac:(lia) Z') as (H2 & E2 & Sr2 & Sc2 & R2).
    rewrite E2. exists H2. split; [f_equal; f_equal; lia|]. split; [lia|]. split; [lia|].
    change (rows_are (length exts) nf exts fs p_w row ([(k, Z.to_nat cam, z)] ++ map (fun cz => (k, Z.to_nat (fst cz), snd cz)) l) H H2).
    apply (rows_are_app _ _ _ _ _ _ _ _ _ H'); [exact Sc| |exact R2]. split.
    + intros i j Hi. apply A. cbn [length] in Hi. lia.
    + intros a m r j Ha Hr2 Hj. destruct a as [|a]; [|destruct a; discriminate]. injection Ha as <-.
      replace (row + 2 * 0 + r) with (row + r) by lia. apply B; auto. intros r0 j0 Hr0. apply H0. lia.
Qed.

Lemma write_track_spec : forall nord b exts (fs : list (frame T)) first p_w, (1 <= b)%Z -> consecutive b fs ->
  (b + Z.of_nat (length fs) < 4294967296)%Z -> forall obs i k row (H : mat T),
  (0 <= i)%Z -> (i + first = b + Z.of_nat k)%Z -> k + length obs <= length fs -> known_cams nord (length exts) obs ->
  row + 2 * length (track_meas nord k obs) <= mr H -> mc H = col_res (length exts) (length fs) + 1 ->
  (forall i j, row <= i -> me H i j = s0) ->
  exists H', write_track nord exts fs first p_w i obs row H = Ok (Some (H', row + 2 * length (track_meas nord k obs))) /\
    mr H' = mr H /\ mc H' = mc H /\
    rows_are (length exts) (length fs) exts fs p_w row (track_meas nord k obs) H H'.
Proof.
  intros nord b exts fs first p_w Hb Hcons Hlen. induction obs as [|o obs IH]; intros i k row H Hi Hik Hkl Hcams Hr Hc H0;
    cbn [write_track track_meas].
  - exists H. cbn [length]. rewrite Nat.mul_0_r, Nat.add_0_r. split; [reflexivity|]. split; [reflexivity|]. split; [reflexivity|].
    split; [reflexivity|]. intros [|a] m r j Ha; discriminate.
  - inversion Hcams as [|? ? Hco Hcams']; subst. cbn [length track_meas] in *. rewrite app_length, map_length in *.
    rewrite u32_small by lia. rewrite Hik. rewrite (get_frame_at b) by (assumption || lia).
    destruct (nth_error fs k) as [f|] eqn:Ef; [|apply nth_error_None in Ef; lia]. cbn [deref obind].
    destruct fs as [|f0 fs0] eqn:Efs; [cbn in Hkl; lia|]. rewrite <- Efs in *.
    assert (E0 : front fs = Ok f0) by (rewrite Efs; reflexivity). rewrite E0. cbn [obind].
    destruct (back_ex fs) as [fb Eb]; [rewrite Efs; discriminate|]. rewrite Eb. cbn [obind].
    assert (I0 : fr_id f0 = b) by (rewrite (Hcons 0 f0) by (rewrite Efs; reflexivity); lia).
    apply back_ok_nth in Eb as [Eb _]. pose proof (Hcons _ _ Eb) as Ib. rewrite I0, Ib.
    rewrite u32_small by lia. replace (Z.to_nat (b + Z.of_nat k - b)) with k by lia.
    replace ((b + Z.of_nat k =? b + Z.of_nat (length fs - 1))%Z) with (k =? length fs - 1).
    2:{ destruct (Nat.eqb_spec k (length fs - 1)), (Z.eqb_spec (b + Z.of_nat k) (b + Z.of_nat (length fs - 1))); try reflexivity; lia. }
    destruct (write_cams_spec (length fs) exts fs k f p_w ltac:(lia) Ef (nord o) row H Hco ltac:(lia) Hc H0) as (H1 & E1 & Sr1 & Sc1 & R1).
    rewrite E1. cbn [obind fst snd].
    assert (Z1 : forall i j, row + 2 * length (nord o) <= i -> me H1 i j = s0).
    { intros a j Ha. destruct R1 as [R1 _]. rewrite R1 by (rewrite map_length; lia). apply H0. lia. }
    destruct (IH (i + 1)%Z (Datatypes.S k) (row + 2 * length (nord o)) H1) as (H2 & E2 & Sr2 & Sc2 & R2); auto; try lia.
    rewrite E2. exists H2. split; [f_equal; f_equal; f_equal; lia|]. split; [lia|]. split; [lia|].
    apply (rows_are_app _ _ _ _ _ _ _ _ _ H1); [exact Sc1|exact R1|]. rewrite map_length. exact R2.
Qed.
End Track.

Section Layout2.
Context {T : Type} {S : SOps T}.

(** The column blocks of one measurement do not overlap, lie left of the residual column, and different frames and
    cameras have different blocks. *)
Lemma columns_disjoint : forall ne nf k cam, k < nf -> cam < ne ->
  let blocks := [0; col_pos ne nf k; col_att ne nf k; col_ext cam; col_ext cam + 3] in
  (forall a b x y, nth_error blocks a = Some x -> nth_error blocks b = Some y -> a < b -> x + 3 <= y \/ y + 3 <= x) /\
  Forall (fun x => x + 3 <= col_res ne nf) blocks.
Proof.
  intros ne nf k cam Hk Hc blocks.
  assert (D : (k = nf - 1 /\ col_pos ne nf k = 3 /\ col_att ne nf k = 9) \/
              (k < nf - 1 /\ col_pos ne nf k = 18 + 6 * ne + 6 * k /\ col_att ne nf k = 18 + 6 * ne + 6 * k + 3)).
  { unfold col_pos, col_att. destruct (Nat.eqb_spec k (nf - 1)); [left|right]; lia. }
  unfold blocks, col_ext, col_res. clear blocks. split.
  - intros a b x y Ha Hb Hab.
    do 5 (destruct a as [|a]; [cbn in Ha; injection Ha as <-; do 5 (destruct b as [|b]; [cbn in Hb; try injection Hb as <-; lia|]); destruct b; discriminate Hb|]).
    destruct a; discriminate Ha.
  - repeat (constructor; [lia|]). constructor.
Qed.
Lemma columns_injective : forall ne nf, (forall k1 k2, k1 < nf -> k2 < nf -> k1 <> k2 ->
    (forall j, in3 (col_pos ne nf k1) j = true -> in3 (col_pos ne nf k2) j = false /\ in3 (col_att ne nf k2) j = false) /\
    (forall j, in3 (col_att ne nf k1) j = true -> in3 (col_pos ne nf k2) j = false /\ in3 (col_att ne nf k2) j = false)) /\
  (forall c1 c2, c1 <> c2 -> forall j,
     (in3 (col_ext c1) j || in3 (col_ext c1 + 3) j) = true -> (in3 (col_ext c2) j || in3 (col_ext c2 + 3) j) = false).
Proof.
  intros ne nf. split.
  - intros k1 k2 H1 H2 Hne.
    assert (D : forall k, k < nf -> (k = nf - 1 /\ col_pos ne nf k = 3 /\ col_att ne nf k = 9) \/
              (k < nf - 1 /\ col_pos ne nf k = 18 + 6 * ne + 6 * k /\ col_att ne nf k = 18 + 6 * ne + 6 * k + 3)).
    { intros k Hk. unfold col_pos, col_att. destruct (Nat.eqb_spec k (nf - 1)); [left|right]; lia. }
    pose proof (D _ H1). pose proof (D _ H2).
    split; intros j Hj; split; repeat match goal with |- context [in3 ?c ?j] => destruct (in3_spec c j) end;
      try reflexivity; revert Hj; match goal with |- context [in3 ?c ?j] => destruct (in3_spec c j) end; intros Hj; try discriminate Hj; lia.
  - intros c1 c2 Hne j. unfold col_ext.
    destruct (in3_spec (3 + 15 + 6 * c1) j), (in3_spec (3 + 15 + 6 * c1 + 3) j),
      (in3_spec (3 + 15 + 6 * c2) j), (in3_spec (3 + 15 + 6 * c2 + 3) j); cbn; try reflexivity; try discriminate; lia.
Qed.

Lemma track_meas_length : forall (nord : observe T -> list (Z * v2 T)), valid_norder nord -> forall obs k,
  Z.of_nat (length (track_meas nord k obs)) = total_obs obs.
Proof.
  intros nord Hn. induction obs as [|o obs IH]; intros k; [reflexivity|]. cbn [track_meas total_obs]. rewrite app_length, map_length.
  rewrite Nat2Z.inj_add, IH. f_equal. unfold osize. rewrite (Permutation_length (Hn o)). reflexivity.
Qed.
Lemma known_cams_of : forall (nord : observe T -> list (Z * v2 T)) ne obs, valid_norder nord ->
  Forall (fun o : observe T => forall c z, o !! c = Some z -> (0 <= c < Z.of_nat ne)%Z) obs -> known_cams nord ne obs.
Proof.
  intros nord ne obs Hn H. unfold known_cams. eapply List.Forall_impl; [|exact H]. intros o Ho. apply List.Forall_forall.
  intros [c z] Hin. cbn [fst]. apply (Ho c z). apply (proj1 (elem_of_map_to_list (M := gmap Z) (o : gmap Z (v2 T)) c z)). rewrite <- (Hn o). apply elem_of_list_In. exact Hin.
Qed.

(** C49 *)
Theorem measurement_layout : forall (o : voracle T) b exts (fs : list (frame T)) (f : feature T) k,
  valid_norder (vo_nord o) -> (1 <= b)%Z -> consecutive b fs -> (b + Z.of_nat (length fs) < 4294967296)%Z ->
  ft_first f = (b + Z.of_nat k)%Z -> k + length (ft_obs f) <= length fs -> 1 <= length fs ->
  ft_num f = total_obs (ft_obs f) -> (2 * ft_num f < 4294967296)%Z ->
  Forall (fun o : observe T => forall c z, o !! c = Some z -> (0 <= c < Z.of_nat (length exts))%Z) (ft_obs f) ->
  let ne := length exts in let nf := length fs in
  let ms := track_meas (vo_nord o) k (ft_obs f) in
  Z.of_nat (rows_of f) = (2 * ft_num f)%Z /\ rows_of f = 2 * length ms /\
  exists H, write_track (vo_nord o) exts fs (ft_first f) (ft_pw f) 0 (ft_obs f) 0 (mzero (rows_of f) (hx_cols ne nf + 4)) =
      Ok (Some (H, rows_of f)) /\
    mr H = rows_of f /\ mc H = col_res ne nf + 1 /\
    forall i j, i < rows_of f -> j < col_res ne nf + 1 ->
      exists m, nth_error ms (i / 2) = Some m /\ me H i j = meas_entry ne nf exts fs (ft_pw f) m (i mod 2) j.
Proof.
  intros o b exts fs f k Hn Hb Hc Hl Hf Hk H1 Hnum Hlt Hcam ne nf ms.
  pose proof (track_meas_length (vo_nord o) Hn (ft_obs f) k) as Hms. fold ms in Hms. rewrite <- Hnum in Hms.
  assert (Hr : Z.of_nat (rows_of f) = (2 * ft_num f)%Z).
  { unfold rows_of. rewrite u32_small by lia. rewrite Z2Nat.id by lia. lia. }
  assert (Hr2 : rows_of f = 2 * length ms) by lia.
  split; [exact Hr|]. split; [exact Hr2|].
  assert (Hcols : hx_cols ne nf + 4 = col_res ne nf + 1) by (unfold hx_cols, col_res, imu_size, ne, nf; lia).
  destruct (write_track_spec (vo_nord o) b exts fs (ft_first f) (ft_pw f) Hb Hc Hl (ft_obs f) 0%Z k 0 (mzero (rows_of f) (hx_cols ne nf + 4)))
    as (H & E & Sr & Sc & [_ R]); try (lia || reflexivity).
  - apply known_cams_of; assumption.
  - cbn [mr mzero]. fold ms. lia.
  - exact Hcols.
  - fold ms in E, R. rewrite Nat.add_0_l, <- Hr2 in E. exists H. split; [exact E|]. split; [exact Sr|]. split; [rewrite Sc; exact Hcols|].
    intros i j Hi Hj. pose proof (Nat.div_mod i 2 ltac:(lia)) as Dm. pose proof (Nat.mod_upper_bound i 2 ltac:(lia)) as Mb.
    destruct (nth_error ms (i / 2)) as [m|] eqn:Em.
    + exists m. split; [reflexivity|]. transitivity (me H (0 + 2 * (i / 2) + i mod 2) j); [f_equal; lia|].
      apply (R (i / 2) m (i mod 2) j Em Mb). cbn [mc mzero]. lia.
    + apply nth_error_None in Em. lia.
Qed.
End Layout2.

(** ** Null-space projection *)
Section NullSpace.
Local Open Scope R_scope.

(** C47 *)
Theorem nullspace_projection : forall (o : voracle R) exts fs cols (f : feature R) H row,
  write_track (vo_nord o) exts fs (ft_first f) (ft_pw f) 0 (ft_obs f) 0 (mzero (rows_of f) (cols + 4)) = Ok (Some (H, row)) ->
  mr H = rows_of f -> mc H = (cols + 4)%nat -> (3 <= rows_of f)%nat ->
  qr_of (mr H) 3 (me H) (vo_qr o (get_block H 0 0 (mr H) 3)) ->
  let m := rows_of f in
  exists R', meas_feature o exts fs cols f = Ok (Some R') /\ mr R' = (m - 3)%nat /\ mc R' = (cols + 1)%nat /\
    (* R' consists of orthonormal combinations of the rows of H that cancel the feature columns *)
    (exists w : fmat, feq (m - 3) (m - 3) (fmul m w (ftr w)) fid /\ feq (m - 3) 3 (fmul m w (me H)) fzero /\
       feq (m - 3) (cols + 1) (me R') (fun i j => fmul m w (me H) i (j + 3)%nat)) /\
    (* so it does not depend on the error [dp] of the feature position *)
    (forall (dp dx : nat -> R),
       (forall i, (i < m)%nat -> me H i (cols + 3)%nat = mvec 3 (me H) dp i + rsum cols (fun j => me H i (j + 3)%nat * dx j)) ->
       forall i, (i < m - 3)%nat -> me R' i cols = mvec cols (me R') dx i).
Proof.
  intros o exts fs cols f H row Ew Hr Hc H3 [[Q1 Q2] Qt] m. unfold meas_feature. rewrite Ew. cbn [obind].
  rewrite Hr in Q1, Q2, Qt. rewrite Hr. fold m in Q1, Q2, Qt, H3 |- *.
  rewrite block_ok by lia. cbn [obind]. set (q := vo_qr o (get_block H 0 0 m 3)) in *.
  assert (Sr : mr (qr_apply (vo_qr o) (get_block H 0 0 m 3) H) = m) by (cbn; exact Hr).
  assert (Sc : mc (qr_apply (vo_qr o) (get_block H 0 0 m 3) H) = (cols + 4)%nat) by (cbn; exact Hc).
  rewrite Sr, Sc. replace (Nat.ltb m 3) with false by (symmetry; apply Nat.ltb_ge; exact H3).
  rewrite block_ok by (rewrite ?Sr, ?Sc; lia). cbn [obind].
  eexists. split; [reflexivity|]. split; [cbn; reflexivity|]. split; [cbn [mc get_block]; lia|].
  set (w := fun i l => q l (i + 3)%nat : R).
  assert (Wr : feq (m - 3) (cols + 1) (me (get_block (qr_apply (vo_qr o) (get_block H 0 0 m 3) H) 3 3 (m - 3) (cols + 4 - 3)))
                 (fun i j => fmul m w (me H) i (j + 3)%nat)).
  { split. intros i j Hi Hj. unfold get_block at 1, qr_apply, mmul, mtr. cbn [me mc mr]. fold q. rewrite Hr. fold m.
    unfold fmul, w. apply rsum_ext. intros l _. cbn [smul ops_R]. rewrite (Nat.add_comm i 3), (Nat.add_comm j 3). reflexivity. }
  assert (W0 : feq (m - 3) 3 (fmul m w (me H)) fzero).
  { split. intros i j Hi Hj. unfold fzero. rewrite <- (Qt (i + 3)%nat j) by lia. reflexivity. }
  split.
  - exists w. split; [|split; [exact W0|exact Wr]].
    split. intros i j Hi Hj. pose proof (feq_at Q1 (i + 3)%nat (j + 3)%nat ltac:(lia) ltac:(lia)) as E. unfold fid in *.
    replace (Nat.eqb (i + 3) (j + 3)) with (Nat.eqb i j) in E by (destruct (Nat.eqb_spec i j), (Nat.eqb_spec (i + 3) (j + 3)); try reflexivity; lia).
    rewrite <- E. unfold fmul, ftr, w. apply rsum_ext. intros; ring.
  - intros dp dx Hres i Hi. rewrite (feq_at Wr i cols) by lia. unfold mvec.
    transitivity (rsum cols (fun j => fmul m w (me H) i (j + 3)%nat * dx j)).
    2:{ apply rsum_ext. intros j Hj. rewrite (feq_at Wr i j) by lia. reflexivity. }
    assert (A : rsum 3 (fun k => fmul m w (me H) i k * dp k) = 0).
    { apply rsum_0. intros k Hk. rewrite (feq_at W0 i k) by lia. unfold fzero. ring. }
    assert (C : forall n c (g : nat -> R), rsum n (fun k => fmul m w (me H) i (c k) * g k) = rsum m (fun l => w i l * rsum n (fun k => me H l (c k) * g k))).
    { intros n c g. unfold fmul. transitivity (rsum n (fun k => rsum m (fun l => w i l * me H l (c k) * g k))).
      - apply rsum_ext. intros k _. rewrite <- rsum_scal_r. reflexivity.
      - rewrite rsum_swap. apply rsum_ext. intros l _. rewrite <- rsum_scal_l. apply rsum_ext. intros; ring. }
    rewrite (C cols (fun j => (j + 3)%nat)). rewrite (C 3%nat (fun k => k)) in A. unfold fmul.
    transitivity (rsum m (fun l => w i l * rsum 3 (fun k => me H l k * dp k)) + rsum m (fun l => w i l * rsum cols (fun k => me H l (k + 3)%nat * dx k))); [|lra].
    rewrite <- rsum_plus. apply rsum_ext. intros l Hl. rewrite Hres by exact Hl. unfold mvec. ring.
Qed.
End NullSpace.
