(** A vision update does not observe the global position and orientation (C79). *)
From Coq Require Import Reals List Arith ZArith Lra Lia.
From stdpp Require Import gmap.
From Verif Require Import Fp Scalar Base LinAlg MathLib MatFacts Msg FeatureManager FrameManager Window WindowSpec Propagator Triangulate Pnp VisionUpdate
  UpdSpec UpdCovFacts FeatureFacts FrameFacts BackLenFacts MeasFacts QuatFacts KalmanFacts DerivSpec ProcSpec RunSpec CovRunFacts BlindSpec.
Import ListNotations.
Local Open Scope R_scope.

(** ** One measurement *)
Lemma qrot_cross : forall (q : quat R) a b, qunit q -> qrot q (v3cross a b) = v3cross (qrot q a) (qrot q b).
Proof.
  intros [w x y z] [a1 a2 a3] [b1 b2 b3] H. unfold qunit in H. vunf.
  assert (E : w * w = 1 - x * x - y * y - z * z) by lra. clear H. apply v3_ext; rops; ring [E].
Qed.
Lemma meas_Rbw_rot : forall f v, qunit (fr_q f) -> m33mulv (meas_Rbw f) v = qrot (qconj (fr_q f)) v.
Proof. intros f v H. unfold meas_Rbw. rewrite qinv_unit by exact H. symmetry. apply qrot_mat. Qed.
Lemma jmm_row : forall c a b i v, (i < 2)%nat -> row3 (meas_jmm c a b) i 0 v = v3dot (match i with O => meas_j0 c | _ => meas_j1 c end) (m33mulv a (m33mulv b v)).
Proof.
  intros c a b i v Hi. unfold row3, meas_jmm, m23. cbn [me]. destruct i as [|[|]]; [| |lia].
  - generalize (meas_j0 c). intros []. destruct a, b, v. unfold row_mul. vunf. ring.
  - generalize (meas_j1 c). intros []. destruct a, b, v. unfold row_mul. vunf. ring.
Qed.
Lemma jm_row : forall c a b i v, (i < 2)%nat -> row3 (meas_jm c (m33mul (m33opp a) b)) i 0 v =
  - v3dot (match i with O => meas_j0 c | _ => meas_j1 c end) (m33mulv a (m33mulv b v)).
Proof.
  intros c a b i v Hi. unfold row3, meas_jm, m23. cbn [me]. destruct i as [|[|]]; [| |lia].
  - generalize (meas_j0 c). intros []. destruct a, b, v. unfold row_mul. vunf. ring.
  - generalize (meas_j1 c). intros []. destruct a, b, v. unfold row_mul. vunf. ring.
Qed.
Lemma dot3_lin : forall (j a b : v3 R) (m : m33 R), v3dot j (m33mulv m a) - v3dot j (m33mulv m b) = v3dot j (m33mulv m (v3sub a b)).
Proof. intros [] [] [] []. vring. Qed.
Lemma dot3_add : forall (j a b : v3 R) (m : m33 R), v3dot j (m33mulv m a) + v3dot j (m33mulv m b) = v3dot j (m33mulv m (v3add a b)).
Proof. intros [] [] [] []. vring. Qed.
Lemma dot3_0 : forall (j : v3 R) (m : m33 R), v3dot j (m33mulv m v3zero) = 0.
Proof. intros [] []. vring. Qed.
(** Moving the point, the body and its attitude together does not change the prediction. *)
Lemma row_blind : forall (e : extrinsic R) (f : frame R) pw t phi i, qunit (fr_q f) -> (i < 2)%nat ->
  row3 (jac_pw e f pw) i 0 (v3add t (v3cross phi pw)) + (row3 (jac_pwb e f pw) i 0 (v3add t (v3cross phi (fr_p f))) +
  row3 (jac_Rwb e f pw) i 0 (qrot (qconj (fr_q f)) phi)) = 0.
Proof.
  intros e f pw t phi i U Hi. unfold jac_pw, jac_pwb, jac_Rwb. rewrite jmm_row, jm_row, jmm_row by exact Hi.
  set (j := match i with O => _ | _ => _ end). set (A := meas_Rcb e).
  rewrite !(meas_Rbw_rot f) by exact U.
  transitivity (v3dot j (m33mulv A (v3add (v3sub (qrot (qconj (fr_q f)) (v3add t (v3cross phi pw))) (qrot (qconj (fr_q f)) (v3add t (v3cross phi (fr_p f)))))
    (m33mulv (skew (meas_pb f pw)) (qrot (qconj (fr_q f)) phi))))).
  { rewrite <- dot3_add, <- dot3_lin. ring. }
  replace (v3add _ _) with (v3zero (T := R)); [apply dot3_0|].
  unfold meas_pb. rewrite meas_Rbw_rot by exact U.
  assert (E : m33mulv (skew (qrot (qconj (fr_q f)) (v3sub pw (fr_p f)))) (qrot (qconj (fr_q f)) phi) =
              qrot (qconj (fr_q f)) (v3cross (v3sub pw (fr_p f)) phi)).
  { rewrite qrot_cross by (apply qconj_unit; exact U). generalize (qrot (qconj (fr_q f)) (v3sub pw (fr_p f))) (qrot (qconj (fr_q f)) phi). intros [] []. vring. }
  rewrite E. clear. generalize (qconj (fr_q f)) (fr_p f). intros [] []. destruct t, phi, pw. vring.
Qed.

(** ** Sums over blocks of three columns *)
Lemma rsum_in3 : forall n c (g : nat -> R), (c + 3 <= n)%nat ->
  rsum n (fun j => if in3 c j then g j else 0) = g c + g (c + 1)%nat + g (c + 2)%nat.
Proof.
  intros n c g H. replace n with (c + (3 + (n - c - 3)))%nat by lia. rewrite rsum_app. rewrite (rsum_app 3).
  rewrite rsum_0. 2:{ intros i Hi. destruct (in3_spec c i); [lia|reflexivity]. }
  rewrite (rsum_0 (n - c - 3)). 2:{ intros i Hi. destruct (in3_spec c (c + (3 + i))); [lia|reflexivity]. }
  rewrite !rsum_S. cbn [ssum].
  destruct (in3_spec c (c + 0)); [|lia]. destruct (in3_spec c (c + 1)); [|lia]. destruct (in3_spec c (c + 2)); [|lia].
  replace (c + 0)%nat with c by lia. cbn. ring.
Qed.
Lemma entry_blind : forall ne nf exts (fs : list (frame R)) pw m r t phi d, ne = length exts -> nf = length fs ->
  List.Forall (fun f => qunit (fr_q f)) fs -> moves_world ne fs t phi d -> (r < 2)%nat -> (1 <= nf)%nat ->
  let s := v3add t (v3cross phi pw) in
  rsum 3 (fun k => meas_entry ne nf exts fs pw m r k * v3get s k) + rsum (hx_cols ne nf) (fun j => meas_entry ne nf exts fs pw m r (j + 3) * d j) = 0.
Proof.
  intros ne nf exts fs pw [[k cam] z] r t phi d Ene Enf U (M1 & M2) Hr Hnf s. unfold meas_entry.
  destruct (nth_error exts cam) as [e|] eqn:Ee; [|rewrite !rsum_0; [ring| |]; intros; cbn; ring].
  destruct (nth_error fs k) as [f|] eqn:Ef; [|rewrite !rsum_0; [ring| |]; intros; cbn; ring].
  destruct (sltb szero (sabs (v3z (meas_pc e f pw)))); [|rewrite !rsum_0; [ring| |]; intros; cbn; ring].
  assert (Hk : (k < nf)%nat) by (rewrite Enf; apply nth_error_Some; congruence).
  assert (Hcam : (cam < ne)%nat) by (rewrite Ene; apply nth_error_Some; congruence).
  assert (Uf : qunit (fr_q f)) by (apply (proj1 (List.Forall_forall _ _) U); eapply nth_error_In; exact Ef).
  destruct (M1 k f Ef) as [P1 P2]. rewrite <- Enf in P1, P2. set (c1 := (col_pos ne nf k - 3)%nat) in *. set (c2 := (col_att ne nf k - 3)%nat) in *.
  assert (C : (col_pos ne nf k = c1 + 3 /\ col_att ne nf k = c2 + 3 /\ (c1 + 3 <= c2 \/ c2 + 3 <= c1) /\ c1 + 3 <= hx_cols ne nf /\ c2 + 3 <= hx_cols ne nf /\
    (c1 + 3 <= 15 \/ 15 + 6 * ne <= c1) /\ (c2 + 3 <= 15 \/ 15 + 6 * ne <= c2))%nat).
  { unfold c1, c2, col_pos, col_att, hx_cols, imu_size. destruct (Nat.eqb_spec k (nf - 1)); lia. }
  destruct C as (C1 & C2 & C3 & C4 & C5 & C6 & C7). rewrite C1, C2.
  pose proof (row_blind e f pw t phi r Uf Hr) as RB. fold s in RB. rewrite <- P1, <- P2 in RB. rewrite <- RB. f_equal.
  - rewrite !rsum_S. cbn [ssum]. unfold row3. cbn [in3 Nat.leb Nat.ltb Nat.add andb v3get]. cbn [sadd s0 ops_R]. destruct s as [a1 a2 a3]. cbn [v3get v3x v3y v3z].
    unfold in3. cbn. ring.
  - transitivity (rsum (hx_cols ne nf) (fun j => (if in3 c1 j then me (jac_pwb e f pw) r (j - c1) * d j else 0) +
                     (if in3 c2 j then me (jac_Rwb e f pw) r (j - c2) * d j else 0))).
    + apply rsum_ext. intros j Hj.
      destruct (in3_spec 0 (j + 3)); [lia|].
      destruct (in3_spec (c1 + 3) (j + 3)), (in3_spec c1 j); try lia.
      { destruct (in3_spec c2 j); [lia|]. replace (j + 3 - (c1 + 3))%nat with (j - c1)%nat by lia. ring. }
      destruct (in3_spec (c2 + 3) (j + 3)), (in3_spec c2 j); try lia.
      { replace (j + 3 - (c2 + 3))%nat with (j - c2)%nat by lia. ring. }
      unfold col_ext. destruct (in3_spec (3 + 15 + 6 * cam) (j + 3)); [rewrite M2 by lia; ring|].
      destruct (in3_spec (3 + 15 + 6 * cam + 3) (j + 3)); [rewrite M2 by lia; ring|].
      destruct (Nat.eqb_spec (j + 3) (col_res ne nf)) as [E|_]; [|cbn; ring].
      unfold col_res, hx_cols, imu_size in *. lia.
    + rewrite rsum_plus. rewrite (rsum_in3 _ c1 (fun j => me (jac_pwb e f pw) r (j - c1) * d j)) by exact C4.
      rewrite (rsum_in3 _ c2 (fun j => me (jac_Rwb e f pw) r (j - c2) * d j)) by exact C5.
      unfold row3, part. cbn [v3x v3y v3z]. rewrite !Nat.sub_diag.
      replace (c1 + 1 - c1)%nat with 1%nat by lia. replace (c1 + 2 - c1)%nat with 2%nat by lia.
      replace (c2 + 1 - c2)%nat with 1%nat by lia. replace (c2 + 2 - c2)%nat with 2%nat by lia. ring.
Qed.

(** ** A feature, the stack and its compression *)
(** All rows of [H] vanish along [d]. *)
Definition blind (n : nat) (d : nat -> R) (H : mat R) : Prop := forall i, (i < mr H)%nat -> mvec n (me H) d i = 0.
Lemma feature_blind : forall (o : voracle R) b exts (fs : list (frame R)) (f : feature R) t phi d,
  valid_norder (vo_nord o) -> (1 <= b)%Z -> consecutive b fs -> (b + Z.of_nat (length fs) < 4294967296)%Z -> (1 <= length fs)%nat ->
  usable (length exts) b (length fs) f -> List.Forall (fun f => qunit (fr_q f)) fs -> exact_qr3 o ->
  moves_world (length exts) fs t phi d ->
  exists R', meas_feature o exts fs (hx_cols (length exts) (length fs)) f = Ok (Some R') /\ mr R' = sub_rows f /\
    mc R' = (hx_cols (length exts) (length fs) + 1)%nat /\ blind (hx_cols (length exts) (length fs)) d R'.
Proof.
  intros o b exts fs f t phi d Hn Hb Hc Hl H1 ((k & K1 & K2) & Hnum & H2 & Hlt & Hcam) U Q M.
  destruct (measurement_layout o b exts fs f k Hn Hb Hc Hl K1 K2 H1 Hnum Hlt Hcam) as (R1 & R2 & H & E & Mr & Mc & Ent).
  set (ne := length exts) in *. set (nf := length fs) in *. set (cols := hx_cols ne nf) in *.
  assert (Ecol : (col_res ne nf + 1 = cols + 4)%nat) by (unfold col_res, cols, hx_cols, imu_size; lia). rewrite Ecol in Mc, Ent.
  assert (H3 : (3 <= rows_of f)%nat) by lia.
  pose proof (Q (get_block H 0 0 (mr H) 3) eq_refl) as Qh. cbn [get_block mr] in Qh.
  destruct (nullspace_projection o exts fs cols f H (rows_of f) E Mr Mc H3 Qh) as (R' & ER & MR & MC & (w & _ & W0 & WR) & _).
  exists R'. split; [exact ER|]. split.
  { rewrite MR. unfold sub_rows. rewrite u32_small by lia. lia. }
  split; [exact MC|]. intros i Hi. rewrite MR in Hi. set (m := rows_of f) in *.
  unfold mvec. transitivity (rsum cols (fun j => fmul m w (me H) i (j + 3)%nat * d j)).
  { apply rsum_ext. intros j Hj. rewrite (feq_at WR i j) by lia. reflexivity. }
  set (s := v3add t (v3cross phi (ft_pw f))).
  assert (C : forall n c (g : nat -> R), rsum n (fun k => fmul m w (me H) i (c k) * g k) = rsum m (fun l => w i l * rsum n (fun k => me H l (c k) * g k))).
  { intros n c g. unfold fmul. transitivity (rsum n (fun k => rsum m (fun l => w i l * me H l (c k) * g k))).
    - apply rsum_ext. intros x _. rewrite <- rsum_scal_r. reflexivity.
    - rewrite rsum_swap. apply rsum_ext. intros l _. rewrite <- rsum_scal_l. apply rsum_ext. intros; ring. }
  rewrite (C cols (fun j => (j + 3)%nat)).
  assert (A : rsum 3 (fun k => fmul m w (me H) i k * v3get s k) = 0).
  { apply rsum_0. intros x Hx. rewrite (feq_at W0 i x) by lia. unfold fzero. ring. }
  rewrite (C 3%nat (fun k => k)) in A.
  assert (B : forall l, (l < m)%nat -> rsum 3 (fun k => me H l k * v3get s k) + rsum cols (fun j => me H l (j + 3)%nat * d j) = 0).
  { intros l Hl'. destruct (Ent l 0%nat Hl' ltac:(lia)) as (mm & Em & _).
    rewrite <- (entry_blind ne nf exts fs (ft_pw f) mm (l mod 2) t phi d eq_refl eq_refl U M (Nat.mod_upper_bound l 2 ltac:(lia)) H1).
    f_equal; apply rsum_ext; intros x Hx.
    - destruct (Ent l x Hl' ltac:(lia)) as (m' & Em' & ->). replace m' with mm by congruence. reflexivity.
    - destruct (Ent l (x + 3)%nat Hl' ltac:(fold cols in Hx; lia)) as (m' & Em' & ->). replace m' with mm by congruence. reflexivity. }
  enough (Z : rsum m (fun l => w i l * rsum 3 (fun k => me H l k * v3get s k)) + rsum m (fun l => w i l * rsum cols (fun j => me H l (j + 3)%nat * d j)) = 0) by lra.
  rewrite <- rsum_plus. apply rsum_0. intros l Hl'. rewrite <- Rmult_plus_distr_l, (B l Hl'). ring.
Qed.
Lemma blind_set : forall n d (H sub : mat R) row, blind n d H -> blind n d sub -> mc sub = (n + 1)%nat -> blind n d (set_block H row 0 sub).
Proof.
  intros n d H sub row B1 B2 Hc i Hi. cbn [set_block mr] in Hi. unfold mvec.
  destruct (le_lt_dec row i) as [L|L]; [destruct (lt_dec i (row + mr sub)) as [L2|L2]|].
  - rewrite <- (B2 (i - row)%nat) by lia. apply rsum_ext. intros j Hj. unfold set_block. cbn [me].
    replace (Nat.leb row i) with true by (symmetry; apply Nat.leb_le; lia). replace (Nat.ltb i (row + mr sub)) with true by (symmetry; apply Nat.ltb_lt; lia).
    replace (Nat.ltb j (0 + mc sub)) with true by (symmetry; apply Nat.ltb_lt; lia). cbn. rewrite Nat.sub_0_r. reflexivity.
  - rewrite <- (B1 i Hi). apply rsum_ext. intros j Hj. unfold set_block. cbn [me].
    replace (Nat.ltb i (row + mr sub)) with false by (symmetry; apply Nat.ltb_ge; lia). rewrite andb_false_r. reflexivity.
  - rewrite <- (B1 i Hi). apply rsum_ext. intros j Hj. unfold set_block. cbn [me].
    replace (Nat.leb row i) with false by (symmetry; apply Nat.leb_gt; lia). reflexivity.
Qed.
Lemma stack_blind : forall (o : voracle R) b exts (fs : list (frame R)) h t phi d,
  valid_norder (vo_nord o) -> (1 <= b)%Z -> consecutive b fs -> (b + Z.of_nat (length fs) < 4294967296)%Z -> (1 <= length fs)%nat ->
  List.Forall (fun f => qunit (fr_q f)) fs -> exact_qr3 o -> moves_world (length exts) fs t phi d ->
  let n := hx_cols (length exts) (length fs) in
  forall l row H H', (forall p, In p l -> exists f, hp_cells h !! p = Some f /\ usable (length exts) b (length fs) f) ->
  stack_loop o exts fs n h l row H = Ok (Some H') -> blind n d H -> mc H = (n + 1)%nat -> blind n d H' /\ mc H' = (n + 1)%nat.
Proof.
  intros o b exts fs h t phi d Hn Hb Hc Hl H1 U Q M n. induction l as [|p l IH]; intros row H H' Hp E B Hm; cbn [stack_loop] in E.
  - injection E as <-. split; assumption.
  - destruct (Hp p (or_introl eq_refl)) as (f & Ef & Uf).
    destruct (feature_blind o b exts fs f t phi d Hn Hb Hc Hl H1 Uf U Q M) as (R' & ER & MR & MC & BR).
    rewrite (hget_ok h p f Ef) in E. cbn [obind] in E. fold n in ER. rewrite ER in E. cbn [obind] in E.
    binv E. apply setbn_inv in E0. destruct E0 as (_ & _ & _ & _ & ->). apply (IH _ _ _ ltac:(intros q Hq; apply Hp; right; exact Hq) E); [apply blind_set; assumption|exact Hm].
Qed.
Lemma blind_mul : forall n d (A M : mat R), (n <= mc M)%nat -> mc A = mr M -> blind n d M -> blind n d (mmul A M).
Proof.
  intros n d A M Hn Hc B i Hi. unfold mvec, mmul. cbn [me].
  transitivity (rsum n (fun j => rsum (mc A) (fun k => me A i k * me M k j * d j))).
  { apply rsum_ext. intros j _. rewrite <- rsum_scal_r. reflexivity. }
  rewrite rsum_swap. apply rsum_0. intros k Hk.
  transitivity (me A i k * mvec n (me M) d k).
  - unfold mvec. rewrite <- rsum_scal_l. apply rsum_ext. intros; ring.
  - rewrite B by lia. ring.
Qed.
Lemma compress_blind : forall (o : voracle R) n d H H', mc H = (n + 1)%nat -> compress o H = Ok H' -> blind n d H -> blind n d H' /\ mc H' = (n + 1)%nat.
Proof.
  intros o n d H H' Hm E B. unfold compress in E. destruct (Nat.ltb_spec (mc H) (mr H)) as [L|L]; [|injection E as <-; split; assumption].
  rewrite block_ok in E by lia. cbn [obind] in E. injection E as <-.
  set (Q := qr_apply (vo_qr o) _ H). assert (BQ : blind n d Q) by (apply blind_mul; [lia|reflexivity|exact B]).
  assert (MQ : mr Q = mr H /\ mc Q = mc H) by (split; reflexivity). destruct MQ as [MQ1 MQ2]. clearbody Q.
  split; [|cbn [cresize mc]; lia]. intros i Hi. cbn [cresize mr] in Hi. rewrite <- (BQ i) by lia. apply rsum_ext. intros j Hj.
  unfold cresize. cbn [me]. replace (Nat.ltb i (mr Q)) with true by (symmetry; apply Nat.ltb_lt; lia).
  replace (Nat.ltb j (mc Q)) with true by (symmetry; apply Nat.ltb_lt; lia). reflexivity.
Qed.
(** C79 *)
Theorem measurement_blind : forall (o : voracle R) b exts (fs : list (frame R)) h l H t phi d,
  valid_norder (vo_nord o) -> exact_qr3 o -> (1 <= b)%Z -> consecutive b fs -> (b + Z.of_nat (length fs) < 4294967296)%Z -> (1 <= length fs)%nat ->
  List.Forall (fun f => qnorm2 (fr_q f) = 1) fs ->
  (forall p, In p l -> exists f, hp_cells h !! p = Some f /\ usable (length exts) b (length fs) f) ->
  measurement o exts fs h l = Ok (Some H) -> moves_world (length exts) fs t phi d ->
  let n := err_size (length exts) (length fs - 1) in
  mc H = (n + 1)%nat /\ forall i, (i < mr H)%nat -> mvec n (me H) d i = 0.
Proof.
  intros o b exts fs h l H t phi d Hn Q Hb Hc Hl H1 U Hp E M n. unfold measurement in E. binv E. binv E. destruct x0 as [H0|]; [|discriminate].
  binv E. injection E as <-.
  assert (En : hx_cols (length exts) (length fs) = n) by (unfold hx_cols, n, err_size, imu_size; lia).
  destruct (stack_blind o b exts fs h t phi d Hn Hb Hc Hl H1 U Q M l _ _ _ Hp E1) as [B Bc].
  { intros i Hi. unfold mvec. apply rsum_0. intros j _. cbn. ring. }
  { reflexivity. }
  rewrite En in B, Bc. destruct (compress_blind o n d H0 x0 Bc E2 B) as [B' C']. split; [exact C'|exact B'].
Qed.

(** ** The Kalman update *)
Theorem kalman_blind : forall saes noise n (P Hr : mat R) (D : fmat), mr P = n -> mc P = n -> mc Hr = (n + 1)%nat -> fsym n D ->
  feq (mr Hr) n (fmul n (me Hr) D) fzero ->
  let P2 := Mat n n (fadd (me P) D) in
  solver_exact saes noise P (get_block Hr 0 0 (mr Hr) n) -> solver_exact saes noise P2 (get_block Hr 0 0 (mr Hr) n) ->
  exists K dx P' K2 dx2 P2',
    kalman saes noise P Hr = Ok (K, dx, P') /\ kalman saes noise P2 Hr = Ok (K2, dx2, P2') /\
    feq n (mr Hr) (me K2) (me K) /\ feq n 1 (me dx2) (me dx) /\ feq n n (me P2') (fadd (me P') D).
Proof.
  intros saes noise n P Hr D Pr Pc Hc Ds Dz P2 S1 S2.
  destruct (kalman_eq saes noise n P Hr Pr Pc Hc S1) as (K & dx & P' & v & d & E & Kr & Kc & Xr & Xc & Pr' & Pc' & He & EK & Ex & EP).
  destruct (kalman_eq saes noise n P2 Hr eq_refl eq_refl Hc S2) as (K2 & dx2 & P2' & v2 & d2 & E2 & Kr2 & Kc2 & Xr2 & Xc2 & Pr2 & Pc2 & He2 & EK2 & Ex2 & EP2).
  set (m := mr Hr) in *. set (h := me Hr) in *. cbn [P2 me] in He2, EK2, EP2.
  assert (Dt : feq n m (fmul n D (ftr h)) fzero).
  { assert (A : feq n m (ftr (fmul n h D)) fzero) by (rewrite Dz; split; reflexivity).
    rewrite <- A. rewrite ftr_mul. split. intros i j Hi Hj. apply rsum_ext. intros k Hk. f_equal. unfold ftr. symmetry. exact (feq_at Ds i k Hi Hk). }
  assert (PH : feq n m (fmul n (fadd (me P) D) (ftr h)) (fmul n (me P) (ftr h))).
  { rewrite fmul_add_l, Dt. split. intros i j _ _. unfold fadd, fzero. ring. }
  assert (Se : feq m m (innov_cov n (fadd (me P) D) h (noise * noise)) (innov_cov n (me P) h (noise * noise))).
  { unfold innov_cov. assert (A : feq m m (fmul n (fmul n h (fadd (me P) D)) (ftr h)) (fmul n (fmul n h (me P)) (ftr h))) by
      (rewrite !fmul_assoc, PH; reflexivity). rewrite A. reflexivity. }
  assert (EKK : feq n m (me K2) (me K)).
  { rewrite EK, EK2, PH. assert (A : feq m m (fmul m (fmul m v2 (fdiag (fun i => pinv1 (d2 i)))) (ftr v2)) (fmul m (fmul m v (fdiag (fun i => pinv1 (d i)))) (ftr v))).
    { apply spectral_unique; [exact (proj1 He2)|exact (proj1 He)|]. rewrite <- (proj2 He2), <- (proj2 He). exact Se. }
    rewrite A. reflexivity. }
  exists K, dx, P', K2, dx2, P2'. split; [exact E|]. split; [exact E2|]. split; [exact EKK|]. split.
  - split. intros i j Hi Hj. assert (j = 0%nat) by lia. subst j. rewrite Ex, Ex2 by exact Hi. unfold mvec. apply rsum_ext. intros k Hk.
    rewrite (feq_at EKK i k Hi Hk). reflexivity.
  - cbv zeta in EP, EP2. rewrite EP, EP2.
    assert (N : feq n n (fmul n (fadd (fmul m (fopp (me K2)) h) fid) (fadd (me P) D)) (fadd (fmul n (fadd (fmul m (fopp (me K)) h) fid) (me P)) D)).
    { rewrite EKK. rewrite fmul_add_r. assert (A : feq n n (fmul n (fadd (fmul m (fopp (me K)) h) fid) D) D).
      { rewrite fmul_add_l, fmul_id_l, fmul_assoc, Dz, fmul_zero_r. split. intros i j _ _. unfold fadd, fzero. ring. }
      rewrite A. reflexivity. }
    rewrite N. split. intros i j Hi Hj. unfold fscale, fadd, ftr. pose proof (feq_at Ds i j Hi Hj) as Q. unfold ftr in Q. rewrite Q. field.
Qed.
(** The two together, for an error along a direction that moves the world. *)
Theorem update_blind : forall (o : voracle R) b exts (fs : list (frame R)) h l H t phi d c noise (P : mat R),
  valid_norder (vo_nord o) -> exact_qr3 o -> (1 <= b)%Z -> consecutive b fs -> (b + Z.of_nat (length fs) < 4294967296)%Z -> (1 <= length fs)%nat ->
  List.Forall (fun f => qnorm2 (fr_q f) = 1) fs ->
  (forall p, In p l -> exists f, hp_cells h !! p = Some f /\ usable (length exts) b (length fs) f) ->
  measurement o exts fs h l = Ok (Some H) -> moves_world (length exts) fs t phi d ->
  let n := err_size (length exts) (length fs - 1) in
  let P2 := Mat n n (fadd (me P) (along c d)) in
  mr P = n -> mc P = n -> fsym n (me P) -> exact_solver (vo_saes o) ->
  exists K dx P' K2 dx2 P2',
    kalman (vo_saes o) noise P H = Ok (K, dx, P') /\ kalman (vo_saes o) noise P2 H = Ok (K2, dx2, P2') /\
    feq n 1 (me dx2) (me dx) /\ feq n n (me P2') (fadd (me P') (along c d)).
Proof.
  intros o b exts fs h l H t phi d c noise P Hn Q Hb Hc Hl H1 U Hp E M n P2 Pr Pc Ps Sv.
  destruct (measurement_blind o b exts fs h l H t phi d Hn Q Hb Hc Hl H1 U Hp E M) as [Mc B]. fold n in Mc, B.
  destruct (kalman_blind (vo_saes o) noise n P H (along c d) Pr Pc Mc) as (K & dx & P' & K2 & dx2 & P2' & E1 & E2 & _ & X & Y).
  - split. intros i j _ _. unfold ftr, along. ring.
  - split. intros i j Hi Hj. unfold fzero. transitivity (mvec n (me H) d i * (c * d j)); [|rewrite B by exact Hi; ring].
    unfold fmul, mvec, along. rewrite <- rsum_scal_r. apply rsum_ext. intros; ring.
  - apply (exact_innovation _ _ n); [exact Sv|exact Pr|exact Pc|reflexivity|exact Ps].
  - apply (exact_innovation _ _ n); [exact Sv|reflexivity|reflexivity|reflexivity|].
    split. intros i j Hi Hj. pose proof (feq_at Ps i j Hi Hj) as E'. unfold ftr in *. cbn [me]. unfold fadd, along. rewrite E'. ring.
  - exists K, dx, P', K2, dx2, P2'. repeat (split; [assumption|]). assumption.
Qed.
