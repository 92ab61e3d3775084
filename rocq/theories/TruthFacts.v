(** A filter that starts at the truth and is given exact data stays there (C84). *)
From Coq Require Import ZArith Reals List Bool Lia Lra Arith.
From stdpp Require Import gmap list.
From Verif Require Import Fp Scalar Base LinAlg Msg DataLoader FeatureManager FrameManager Window MathLib Attitude Propagator
  Triangulate Pnp VisionUpdate Backend WindowSpec QueueSpec UpdSpec GeoSpec BackendSpec MatFacts QuatFacts TriFacts PnpFacts FrameFacts FeatureFacts
  UpdCovFacts SafeFacts SelectFacts AttitudeFacts MotionFacts UnitFacts BackLenFacts BackDimFacts BlindFacts KalmanFacts DerivFacts UnitRunFacts InitSpec InitFacts TruthSpec.
Import ListNotations.
Local Open Scope R_scope.

(** ** Triangulation of exact tracks *)

(** The point reprojects to every view, or lies in the plane of the camera centre. *)
Definition fits (pw : v3 R) (v : quat R * v3 R * v2 R) : Prop :=
  let '(q, t, n) := v in exists c, at_camera q t pw c /\ v3x c = v2x n * v3z c /\ v3y c = v2y n * v3z c.
Definition views_of (o : voracle R) exts fs (ft : feature R) := track_views (vo_nord o) exts fs (ft_first ft) 0 (ft_obs ft).
Definition exact_views (o : voracle R) exts fs (ft : feature R) : Prop :=
  forall vs, views_of o exts fs ft = Ok vs -> List.Forall unit_view vs /\ exists X, List.Forall (sees X) vs.
Definition fitted (o : voracle R) exts fs (ft : feature R) : Prop :=
  exists vs, views_of o exts fs ft = Ok vs /\ List.Forall (fits (ft_pw ft)) vs /\ vs <> [].
Lemma exact_same : forall o exts fs f g, same_track f g -> exact_views o exts fs f -> exact_views o exts fs g.
Proof. intros o exts fs f g (_ & E1 & E2 & _) H. unfold exact_views, views_of in *. rewrite E1, E2. exact H. Qed.

Lemma kernel_fits : forall svd vs X, exact_svd svd -> List.Forall unit_view vs -> List.Forall (sees X) vs ->
  svd (tri_A vs) 3%nat <> 0 -> List.Forall (fits (v3div (head (svd (tri_A vs))) (svd (tri_A vs) 3%nat))) vs.
Proof.
  intros svd vs X Hs Hu Hx Hw. set (x := svd (tri_A vs)) in *.
  assert (Hk : kernel (tri_A vs) x).
  { apply (singular_kernel _ _ (hom X) (Hs (tri_A vs) eq_refl)); [apply true_point_kernel; assumption|]. cbn. pose proof (v3dot_nonneg X) as N. clear - N. destruct X. vunf. nra. }
  apply List.Forall_forall. intros [[q t] n] Hin. exact (kernel_reprojects vs x Hk Hw Hu q t n Hin).
Qed.
Lemma tri_fits : forall svd vs X p0 b pw, exact_svd svd -> List.Forall unit_view vs -> List.Forall (sees X) vs ->
  tri_analytic svd (map (fun v => fst (fst v)) vs) (map (fun v => snd (fst v)) vs) (map snd vs) p0 = Ok (b, pw) ->
  (b = true -> (2 <= length vs)%nat) /\ (b = true \/ List.Forall (fits p0) vs -> List.Forall (fits pw) vs).
Proof.
  intros svd vs X p0 b pw Hs Hu Hx H. unfold tri_analytic in H. rewrite map_length in H. destruct (Nat.ltb_spec (length vs) 2) as [L|L].
  { injection H as <- <-. split; [discriminate|]. intros [E|E]; [discriminate|exact E]. }
  rewrite views_zip in H. cbn [obind] in H. cbv zeta in H. destruct (slt64 _ d1em6) eqn:E.
  { injection H as <- <-. split; [discriminate|]. intros [E'|E']; [discriminate|exact E']. }
  assert (Hw : svd (tri_A vs) 3%nat <> 0).
  { intros C. apply not_true_iff_false in E. apply E. apply slt64_R. rewrite C. cbn [sabs ops_R]. rewrite Rabs_R0, d1em6_val. lra. }
  assert (F : pw = v3div (head (svd (tri_A vs))) (svd (tri_A vs) 3%nat)) by (match type of H with (if ?x then _ else _) = _ => destruct x end; injection H as _ <-; reflexivity).
  split; [intros _; exact L|]. intros _. rewrite F. exact (kernel_fits svd vs X Hs Hu Hx Hw).
Qed.

Lemma trianglize_fits : forall (o : voracle R) exts fs h p h' b f, exact_svd (vo_svd o) -> hp_cells h !! p = Some f -> exact_views o exts fs f ->
  trianglize o exts fs h p = Ok (h', b) ->
  exists g, h' = hset h p g /\ same_track f g /\ (b = true \/ fitted o exts fs f -> fitted o exts fs g) /\ (ft_status g = FSolved -> b = true).
Proof.
  intros o exts fs h p h' b f Hs Ef Hx H. unfold trianglize, hget in H. rewrite Ef in H. cbn [deref obind] in H.
  destruct (track_views (vo_nord o) exts fs (ft_first f) 0 (ft_obs f)) as [vs|] eqn:Ev; [|discriminate]. cbn [obind] in H.
  unfold solve_feature in H. destruct (tri_analytic _ _ _ _ _) as [[b' pw]|] eqn:Et; [|discriminate]. cbn [obind fst snd] in H. injection H as <- <-.
  destruct (Hx vs Ev) as (Hu & X & HX). destruct (tri_fits _ _ _ _ _ _ Hs Hu HX Et) as [L T].
  eexists. split; [reflexivity|]. split; [repeat split|]. split; [|cbn; destruct b'; [reflexivity|discriminate]].
  intros H. exists vs. split; [exact Ev|]. cbn [ft_pw]. destruct H as [H|(vs' & E' & H & N)].
  - split; [apply T; left; exact H|]. intros ->. specialize (L H). cbn in L. lia.
  - unfold views_of in E'. rewrite Ev in E'. injection E' as <-. split; [apply T; right; exact H|exact N].
Qed.

Lemma select_fits : forall (o : voracle R) exts fs, exact_svd (vo_svd o) -> forall l pos h good h' good',
  (forall p f, In p (map snd l) -> hp_cells h !! p = Some f -> exact_views o exts fs f) ->
  (forall p, In p (map snd good) -> exists f, hp_cells h !! p = Some f /\ fitted o exts fs f) ->
  select_loop o exts fs l pos h good = Ok (h', good') ->
  forall p, In p (map snd good') -> exists f, hp_cells h' !! p = Some f /\ fitted o exts fs f.
Proof.
  intros o exts fs Hs. induction l as [|[id p] l IH]; intros pos h good h' good' Hx Hg H; cbn [select_loop] in H.
  - injection H as <- <-. exact Hg.
  - destruct (trianglize o exts fs h p) as [[h1 b]|] eqn:Et; [|discriminate]. cbn [obind fst snd] in H.
    destruct (trianglize_spec o exts fs h p h1 b Et) as (f & _ & Ef & _).
    destruct (trianglize_fits o exts fs h p h1 b f Hs Ef (Hx p f (or_introl eq_refl) Ef) Et) as (g & -> & St & Fg & _).
    set (good1 := if b then score_insert (f32_of_Z (vo_rand o pos)) p good else good).
    assert (Hsel : exists pos', select_loop o exts fs l pos' (hset h p g) good1 = Ok (h', good')) by (destruct b; eauto). destruct Hsel as [pos' Hsel].
    refine (IH pos' (hset h p g) good1 h' good' _ _ Hsel).
    + intros p' f' Hin E'. cbn [hset hp_cells] in E'. destruct (decide (p = p')) as [<-|Np].
      * rewrite lookup_insert in E'. injection E' as <-. eapply exact_same; [exact St|]. apply (Hx p f); [left; reflexivity|exact Ef].
      * rewrite lookup_insert_ne in E' by exact Np. apply (Hx p' f'); [right; exact Hin|exact E'].
    + intros p' Hin. cbn [hset hp_cells]. destruct (decide (p = p')) as [<-|Np].
      * exists g. rewrite lookup_insert. split; [reflexivity|]. apply Fg. destruct b; [left; reflexivity|right]. destruct (Hg p Hin) as (f' & E' & F'). rewrite Ef in E'. injection E' as <-. exact F'.
      * rewrite lookup_insert_ne by exact Np. apply Hg. unfold good1 in Hin. destruct b; [|exact Hin]. apply in_map_iff in Hin as (y & <- & Hy).
        apply score_insert_in in Hy as [->|Hy]; [destruct Np; reflexivity|apply in_map; exact Hy].
Qed.

(** ** Zero residuals *)
Definition clean (n : nat) (H : mat R) : Prop := mc H = n /\ forall i, me H i (n - 1)%nat = 0.
Lemma set_clean : forall n (H B : mat R) i j H', clean n H -> (j + mc B < n)%nat -> setb H i j B = Ok H' -> clean n H'.
Proof.
  intros n H B i j H' [E C] Hj S. apply setb_inv in S as (_ & _ & ->). split; [exact E|]. intros k. rewrite set_block_out by (right; lia). apply C.
Qed.
Lemma pc_camera : forall (e : extrinsic R) f pw c, qunit (ex_q e) -> qunit (fr_q f) ->
  at_camera (cam_q (fr_q f) e) (cam_p (fr_q f) (fr_p f) e) pw c -> meas_pc e f pw = c.
Proof.
  intros e f pw c He Hf E. unfold at_camera, cam_q, cam_p in E. rewrite (qrot_mul _ _ _ Hf He) in E.
  unfold meas_pc, meas_pb, meas_Rcb, meas_Rbw. rewrite <- !qrot_mat.
  assert (E1 : v3sub pw (fr_p f) = qrot (fr_q f) (v3add (ex_p e) (qrot (ex_q e) c))).
  { rewrite E, qrot_add. generalize (qrot (fr_q f) (ex_p e)) (qrot (fr_q f) (qrot (ex_q e) c)) (fr_p f). intros [] [] []. vring. }
  rewrite E1, (qrot_inv_l _ _ Hf).
  replace (v3sub (v3add (ex_p e) (qrot (ex_q e) c)) (ex_p e)) with (qrot (ex_q e) c); [apply qrot_inv_l; exact He|].
  generalize (qrot (ex_q e) c) (ex_p e). intros [] []. vring.
Qed.
Lemma write_clean : forall ne newest fidx cam row (e : extrinsic R) f pw z n H H', qunit (ex_q e) -> qunit (fr_q f) -> (cam < ne)%nat -> (18 + 6 * ne < n)%nat ->
  fits pw (cam_q (fr_q f) e, cam_p (fr_q f) (fr_p f) e, z) -> ((n - 19 - 6 * ne) mod 6 = 0)%nat ->
  write_obs ne newest fidx cam row e f pw z H = Ok H' -> clean n H -> clean n H'.
Proof.
  intros ne newest fidx cam row e f pw z n H H' He Hf Hcam Hn (c & Hc & Hx & Hy) Hmod W C. unfold write_obs in W.
  rewrite (pc_camera e f pw c He Hf Hc) in W. destruct (sltb szero (sabs (v3z c))) eqn:Hz; [|injection W as <-; exact C].
  apply sltb_R in Hz. cbn [sabs ops_R] in Hz. assert (Nz : v3z c <> 0) by (intros E; rewrite E, Rabs_R0 in Hz; pose proof zero_thr_pos as Z; unfold zero_thr in Z; lra).
  assert (Er : meas_res e f pw z = V2 0 0).
  { unfold meas_res. rewrite (pc_camera e f pw c He Hf Hc). cbn zeta. destruct z as [zx zy]. cbn [v2x v2y] in Hx, Hy. rewrite Hx, Hy. vunf. f_equal; field; exact Nz. }
  binv W. rewrite Er in E. 
  assert (C1 : clean n x).
  { apply setb_inv in E as (_ & _ & ->). destruct C as [Em C]. split; [exact Em|]. intros k. unfold set_block. cbn [me mr mc]. destruct (_ && _ && _ && _)%bool; [|apply C]. destruct (k - row)%nat; reflexivity. }
  clear E. binv W. assert (C2 : clean n x0) by (refine (set_clean n _ _ _ _ _ C1 _ E); cbn [mc jac_pw jac_pwb jac_Rwb jac_pbc jac_Rbc meas_jm meas_jmm m23]; unfold imu_size, ix_p, ix_r; lia). clear E.
  binv W. assert (C4 : clean n x1).
  { destruct newest; binv E.
    - assert (C3 : clean n x2) by (refine (set_clean n _ _ _ _ _ C2 _ E0); cbn [mc jac_pw jac_pwb jac_Rwb jac_pbc jac_Rbc meas_jm meas_jmm m23]; unfold imu_size, ix_p, ix_r; lia). refine (set_clean n _ _ _ _ _ C3 _ E); cbn [mc jac_pw jac_pwb jac_Rwb jac_pbc jac_Rbc meas_jm meas_jmm m23]; unfold imu_size, ix_p, ix_r; lia.
    - pose proof (setb_inv _ _ _ _ _ E) as (_ & B & _).
      assert (M2 : mc x2 = n) by (apply setb_inv in E0 as (_ & _ & ->); exact (proj1 C2)). rewrite M2 in B. cbn [mc jac_pw jac_pwb jac_Rwb jac_pbc jac_Rbc meas_jm meas_jmm m23] in B. unfold imu_size in *.
      assert (B' : (3 + 15 + ne * 6 + fidx * 6 + 6 < n)%nat).
      { assert (Hne : (3 + 15 + ne * 6 + fidx * 6 + 6 <> n)%nat).
        { intros En. rewrite <- En in Hmod. replace (3 + 15 + ne * 6 + fidx * 6 + 6 - 19 - 6 * ne)%nat with (5 + fidx * 6)%nat in Hmod by lia.
          rewrite Nat.mod_add in Hmod by lia. discriminate Hmod. }
        lia. }
      assert (C3 : clean n x2) by (refine (set_clean n _ _ _ _ _ C2 _ E0); cbn [mc jac_pw jac_pwb jac_Rwb jac_pbc jac_Rbc meas_jm meas_jmm m23]; unfold imu_size, ix_p, ix_r; lia).
      refine (set_clean n _ _ _ _ _ C3 _ E); cbn [mc jac_pw jac_pwb jac_Rwb jac_pbc jac_Rbc meas_jm meas_jmm m23]; unfold imu_size, ix_p, ix_r; lia. }
  binv W. assert (C5 : clean n x2) by (refine (set_clean n _ _ _ _ _ C4 _ E0); cbn [mc jac_pw jac_pwb jac_Rwb jac_pbc jac_Rbc meas_jm meas_jmm m23]; unfold imu_size, ix_p, ix_r; lia).
  refine (set_clean n _ _ _ _ _ C5 _ W); cbn [mc jac_pw jac_pwb jac_Rwb jac_pbc jac_Rbc meas_jm meas_jmm m23]; unfold imu_size, ix_p, ix_r; lia.
Qed.
Lemma cams_clean : forall exts newest fidx (f : frame R) pw n, List.Forall (fun e => qunit (ex_q e)) exts -> qunit (fr_q f) ->
  (18 + 6 * length exts < n)%nat -> ((n - 19 - 6 * length exts) mod 6 = 0)%nat -> forall l row H H' row' vs,
  cam_views exts (fr_q f) (fr_p f) l = Ok vs -> List.Forall (fits pw) vs ->
  write_cams exts newest fidx f pw l row H = Ok (H', row') -> clean n H -> clean n H'.
Proof.
  intros exts newest fidx f pw n He Hf Hn Hm. induction l as [|[cam z] l IH]; intros row H H' row' vs Ev Hv W C; cbn [write_cams cam_views] in *.
  - injection W as <- _. exact C.
  - destruct (at_ exts (Z.to_nat cam)) as [e|] eqn:Ee; [|discriminate]. cbn [obind] in *. binv Ev. injection Ev as <-. binv W.
    inversion Hv as [|? ? V1 V2]; subst. unfold at_ in Ee. destruct (nth_error exts (Z.to_nat cam)) as [e'|] eqn:En; [|discriminate]. injection Ee as ->.
    refine (IH _ _ _ _ _ E V2 W _). refine (write_clean _ _ _ _ _ e f pw z n H x0 _ Hf _ Hn V1 Hm E0 C).
    + rewrite List.Forall_forall in He. exact (He e (nth_error_In _ _ En)).
    + apply nth_error_Some. congruence.
Qed.
Lemma track_clean : forall nord exts (fs : list (frame R)) first pw n, List.Forall (fun e => qunit (ex_q e)) exts -> List.Forall (fun f => qunit (fr_q f)) fs ->
  (18 + 6 * length exts < n)%nat -> ((n - 19 - 6 * length exts) mod 6 = 0)%nat -> forall obs i row H H' row' vs,
  track_views nord exts fs first i obs = Ok vs -> List.Forall (fits pw) vs ->
  write_track nord exts fs first pw i obs row H = Ok (Some (H', row')) -> clean n H -> clean n H'.
Proof.
  intros nord exts fs first pw n He Hf Hn Hm. induction obs as [|ob obs IH]; intros i row H H' row' vs Ev Hv W C; cbn [write_track track_views] in *.
  - injection W as <- _. exact C.
  - destruct (get_frame fs (u32 (i + first))) as [k|]; [|discriminate]. cbn [deref obind] in Ev.
    destruct (nth_error fs k) as [f|] eqn:Ek; [|discriminate]. cbn [deref obind] in *. binv Ev. binv Ev. injection Ev as <-. binv W. binv W. binv W.
    destruct x3 as [H1 row1]. cbn [fst snd] in W. apply List.Forall_app in Hv as [V1 V2].
    refine (IH _ _ _ _ _ _ E0 V2 W _). refine (cams_clean _ _ _ f pw n He _ Hn Hm _ _ _ _ _ _ E V1 E3 C).
    rewrite List.Forall_forall in Hf. exact (Hf f (nth_error_In _ _ Ek)).
Qed.
Lemma feature_clean : forall (o : voracle R) exts (fs : list (frame R)) f sub, List.Forall (fun e => qunit (ex_q e)) exts -> List.Forall (fun f => qunit (fr_q f)) fs ->
  (1 <= length fs)%nat -> fitted o exts fs f -> let n := hx_cols (length exts) (length fs) in
  meas_feature o exts fs n f = Ok (Some sub) -> clean (n + 1) sub.
Proof.
  intros o exts fs f sub He Hf Hl (vs & Ev & Hv & _) n M. unfold meas_feature in M. binv M. destruct x as [[H row]|]; [|discriminate].
  assert (C : clean (n + 4) H).
  { refine (track_clean _ _ _ _ _ (n + 4) He Hf _ _ _ _ _ _ _ _ vs Ev Hv E _); [unfold n, hx_cols, imu_size; lia| |split; reflexivity].
    replace (n + 4 - 19 - 6 * length exts)%nat with (0 + (length fs - 1) * 6)%nat by (unfold n, hx_cols, imu_size; lia). rewrite Nat.mod_add by lia. reflexivity. }
  binv M. cbv zeta in M. set (Q := qr_apply (vo_qr o) x H) in *. destruct C as [Mc C].
  assert (CQ : forall i, me Q i (n + 4 - 1)%nat = 0) by (intros i; unfold Q, qr_apply, mmul; cbn [me]; apply rsum_0; intros k _; rewrite C; cbn; ring).
  assert (MQ : mr Q = mr H /\ mc Q = mc H) by (split; reflexivity). destruct MQ as [MQ1 MQ2]. clearbody Q. clear E0 x.
  destruct (Nat.ltb_spec (mr Q) 3) as [L|L]; [discriminate|]. rewrite block_ok in M by lia. cbn [obind] in M. injection M as <-.
  split; [cbn [get_block mc]; lia|]. intros i. cbn [get_block me]. replace (3 + (n + 1 - 1))%nat with (n + 4 - 1)%nat by lia. apply CQ.
Qed.
Lemma stack_clean : forall (o : voracle R) exts (fs : list (frame R)) h, List.Forall (fun e => qunit (ex_q e)) exts -> List.Forall (fun f => qunit (fr_q f)) fs ->
  (1 <= length fs)%nat -> let n := hx_cols (length exts) (length fs) in forall l row H H',
  (forall p, In p l -> exists f, hp_cells h !! p = Some f /\ fitted o exts fs f) ->
  stack_loop o exts fs n h l row H = Ok (Some H') -> clean (n + 1) H -> clean (n + 1) H'.
Proof.
  intros o exts fs h He Hf Hl n. induction l as [|p l IH]; intros row H H' Hp E C; cbn [stack_loop] in E; [injection E as <-; exact C|].
  destruct (Hp p (or_introl eq_refl)) as (f & Ef & Ft). rewrite (hget_ok h p f Ef) in E. cbn [obind] in E. binv E. destruct x as [sub|]; [|discriminate].
  pose proof (feature_clean o exts fs f sub He Hf Hl Ft E0) as [Ms Cs]. fold n in Ms, Cs. binv E. apply setbn_inv in E1 as (_ & _ & _ & _ & ->).
  refine (IH _ _ _ (fun q Hq => Hp q (or_intror Hq)) E _). destruct C as [Mc C]. split; [exact Mc|]. intros i.
  unfold set_block. cbn [me]. destruct (_ && _ && _ && _)%bool; [|apply C]. rewrite Nat.sub_0_r. apply Cs.
Qed.
Lemma compress_clean : forall (o : voracle R) n H H', clean (n + 1) H -> compress o H = Ok H' -> mc H' = (n + 1)%nat /\ forall i, (i < mr H')%nat -> me H' i n = 0.
Proof.
  intros o n H H' [Mc C] E. replace (n + 1 - 1)%nat with n in C by lia. unfold compress in E. destruct (Nat.ltb_spec (mc H) (mr H)) as [L|L]; [|injection E as <-; split; [exact Mc|intros; apply C]].
  rewrite block_ok in E by lia. cbn [obind] in E. injection E as <-. set (Q := qr_apply (vo_qr o) _ H).
  assert (CQ : forall i, me Q i n = 0) by (intros i; unfold Q, qr_apply, mmul; cbn [me]; apply rsum_0; intros k _; rewrite C; cbn; ring).
  assert (MQ : mr Q = mr H /\ mc Q = mc H) by (split; reflexivity). destruct MQ as [MQ1 MQ2]. clearbody Q.
  split; [cbn [cresize mc]; lia|]. intros i Hi. cbn [cresize mr] in Hi. rewrite cresize_in by lia. apply CQ.
Qed.
Lemma measurement_clean : forall (o : voracle R) exts (fs : list (frame R)) h l H, List.Forall (fun e => qunit (ex_q e)) exts -> List.Forall (fun f => qunit (fr_q f)) fs ->
  (1 <= length fs)%nat -> (forall p, In p l -> exists f, hp_cells h !! p = Some f /\ fitted o exts fs f) -> measurement o exts fs h l = Ok (Some H) ->
  forall i, (i < mr H)%nat -> me H i (mc H - 1)%nat = 0.
Proof.
  intros o exts fs h l H He Hf Hl Hp E. unfold measurement in E. binv E. binv E. destruct x0 as [H0|]; [|discriminate]. binv E. injection E as <-.
  destruct (compress_clean o (hx_cols (length exts) (length fs)) H0 x0) as [M C]; [|exact E2|].
  - refine (stack_clean o exts fs h He Hf Hl l _ _ _ Hp E1 _). split; reflexivity.
  - rewrite M. replace (hx_cols (length exts) (length fs) + 1 - 1)%nat with (hx_cols (length exts) (length fs)) by lia. exact C.
Qed.
Lemma kalman_still : forall saes noise (P Hr : mat R) K dx P', (forall i, (i < mr Hr)%nat -> me Hr i (mc Hr - 1)%nat = 0) ->
  kalman saes noise P Hr = Ok (K, dx, P') -> forall i, me dx i 0%nat = 0.
Proof.
  intros saes noise P Hr K dx P' Hz H i. unfold kalman in H. destruct (Nat.eqb (mc Hr) 0); [discriminate|]. binv H. binv H. binv H. binv H. binv H. binv H. binv H. binv H. binv H.
  injection H as _ <- _. assert (Er : mr x0 = mr Hr /\ forall k, (k < mr Hr)%nat -> me x0 k 0%nat = 0).
  { unfold block in E0. destruct (in_block _ _ _ _ _); [|discriminate]. injection E0 as <-. split; [reflexivity|]. intros k Hk. cbn [get_block me]. rewrite Nat.add_0_r. apply Hz. exact Hk. }
  unfold mmulc in E4. destruct (Nat.eqb_spec (mc x3) (mr x0)) as [Em|]; [|discriminate]. injection E4 as <-. unfold mmul. cbn [me]. apply rsum_0. intros k Hk.
  destruct Er as [E' Er]. rewrite Er by lia. cbn. ring.
Qed.

(** ** A vanishing correction *)
Lemma seg_zero : forall (dx : mat R) i v, (forall k, me dx k 0%nat = 0) -> seg3c dx i = Ok v -> v = V3 0 0 0.
Proof. intros dx i v Hz H. unfold seg3c in H. destruct (Nat.leb _ _); [|discriminate]. injection H as <-. unfold seg3. rewrite !Hz. reflexivity. Qed.
Lemma add_zero : forall a : v3 R, v3add a (V3 0 0 0) = a.
Proof. intros []. vring. Qed.
Lemma correct_zero : forall q : quat R, qunit q -> q_correct q (V3 0 0 0) = q.
Proof.
  intros q Hq. unfold q_correct. replace (qmul q (delta_q (V3 0 0 0))) with q; [apply qnormalize_of_unit, Hq|]. destruct q. vunf. apply q_ext; rops; field.
Qed.
Lemma correct_ext_still : forall (dx : mat R), (forall k, me dx k 0%nat = 0) -> forall l i l', List.Forall (fun e => qunit (ex_q e)) l -> correct_ext dx i l = Ok l' -> l' = l.
Proof.
  intros dx Hz. induction l as [|e l IH]; intros i l' Hu H; cbn [correct_ext] in H; [injection H as <-; reflexivity|].
  inversion Hu as [|? ? H1 H2]; subst. binv H. binv H. binv H. injection H as <-. rewrite (IH _ _ H2 E1), (seg_zero dx _ _ Hz E), (seg_zero dx _ _ Hz E0), add_zero, (correct_zero _ H1).
  destruct e. reflexivity.
Qed.
Lemma correct_frames_still : forall (dx : mat R) off nid m, (forall k, me dx k 0%nat = 0) -> forall l i l', List.Forall (fun f => qunit (fr_q f)) l ->
  (forall f, In f l -> fr_id f = nid -> frame_of_motion f m = f) -> correct_frames dx off i nid m l = Ok l' -> l' = l.
Proof.
  intros dx off nid m Hz. induction l as [|f l IH]; intros i l' Hu Hm H; cbn [correct_frames] in H; [injection H as <-; reflexivity|].
  inversion Hu as [|? ? H1 H2]; subst. destruct (Z.eqb_spec (fr_id f) nid) as [En|_].
  - injection H as <-. rewrite (Hm f (or_introl eq_refl) En). reflexivity.
  - binv H. binv H. binv H. injection H as <-. rewrite (IH _ _ H2 (fun f Hin => Hm f (or_intror Hin)) E1), (seg_zero dx _ _ Hz E), (seg_zero dx _ _ Hz E0), add_zero, (correct_zero _ H1).
    destruct f. reflexivity.
Qed.
Lemma correct_motion_still : forall (dx : mat R) m m', (forall k, me dx k 0%nat = 0) -> qunit (mo_q m) -> correct_motion dx m = Ok m' -> m' = m.
Proof.
  intros dx m m' Hz Hm H. unfold correct_motion in H. binv H. binv H. binv H. injection H as <-.
  rewrite (seg_zero dx _ _ Hz E), (seg_zero dx _ _ Hz E0), (seg_zero dx _ _ Hz E1), !add_zero, (correct_zero _ Hm). destruct m. reflexivity.
Qed.
Definition units3 (s : vstate R) : Prop :=
  List.Forall (fun e => qunit (ex_q e)) (vs_ext s) /\ List.Forall (fun f => qunit (fr_q f)) (wn_frames (vs_win s)) /\ List.Forall (fun it => qunit (mo_q (pi_mo it))) (pq_items (vs_pq s)).
Lemma apply_delta_still : forall dx (s s' : vstate R) it r, (forall k, me dx k 0%nat = 0) -> units3 s -> pq_items (vs_pq s) = it :: r ->
  (forall l f g, wn_frames (vs_win s) = l ++ [f] -> In g (wn_frames (vs_win s)) -> fr_id g = fr_id f -> frame_of_motion g (pi_mo it) = g) ->
  apply_delta dx s = Ok s' -> s' = s.
Proof.
  intros dx s s' it r Hz (He & Hf & Hq) Eq Hm H. unfold apply_delta in H. rewrite Eq in H, Hq. cbn [front obind] in H. inversion Hq as [|? ? Q1 Q2]; subst.
  binv H. apply (correct_motion_still dx _ _ Hz Q1) in E. subst x. unfold with_head in H. rewrite Eq in H. cbn [obind] in H.
  binv H. binv H. binv H. apply (correct_ext_still dx Hz _ _ _ He) in E1. subst x1. rewrite (seg_zero dx _ _ Hz E), (seg_zero dx _ _ Hz E0), !add_zero in H.
  assert (Ei : PItem (pi_mo it) (pi_cov it) (pi_ecov it) (pi_a it) (pi_g it) (pi_ts it) = it) by (destruct it; reflexivity). rewrite Ei in H. clear Ei.
  assert (Ef : forall fs, match wn_frames (vs_win s) with [] => Ok [] | _ => let! b := back (wn_frames (vs_win s)) in
     correct_frames dx (imu_size + length (vs_ext s) * 6) 0 (fr_id b) (pi_mo it) (wn_frames (vs_win s)) end = Ok fs -> fs = wn_frames (vs_win s)).
  { intros fs G. destruct (wn_frames (vs_win s)) as [|f0 fl] eqn:Ew; [injection G as <-; reflexivity|].
    destruct (back_cases _ (f0 :: fl)) as [[E' _]|(l & f & E' & Eb)]; [discriminate|]. rewrite Eb in G. cbn [obind] in G.
    refine (correct_frames_still dx _ _ _ Hz _ _ _ Hf _ G). intros g Hg En. exact (Hm l f g E' Hg En). }
  binv H. apply Ef in E1. subst x1. injection H as <-. destruct s as [[h mg fs] ex [items ecc ba bg ini F G Qm]]. cbn in *. unfold with_items, with_bias. cbn. rewrite Eq. reflexivity.
Qed.

(** ** Repropagation of a coherent queue *)
Definition key (it : pitem R) : motion R * (v3 R * v3 R * f64) := (pi_mo it, meas it).
Lemma midpoint_nominal : forall grav ba bg (a b : pitem R), midpoint grav ba bg a b ->
  fst (fst (nominal_step grav ba bg (pi_mo a) (pi_a a) (pi_g a) (pi_a b) (pi_g b) (step_dt (pi_ts a) (pi_ts b)))) = pi_mo b.
Proof.
  intros grav ba bg a b (Hq & Hv & Hp). unfold nominal_step, step_dt. cbn [fst]. destruct (pi_mo b) as [p1 v1 q1]. cbn [mo_p mo_v mo_q] in *.
  set (dt := sof32 (f64_to_f32 (f64_sub (pi_ts b) (pi_ts a)))) in *. change shalf with (1 / 2) in *. rewrite <- Hq, <- Hv, <- Hp. reflexivity.
Qed.
Lemma coherent_head : forall grav ba bg (a a' : pitem R) l, key a' = key a -> coherent grav ba bg (a :: l) -> coherent grav ba bg (a' :: l).
Proof.
  intros grav ba bg a a' [|b l] E H; [exact I|]. cbn [coherent] in *. destruct H as [H1 H2]. split; [|exact H2].
  injection E as E1 E2 E3 E4. unfold midpoint in *. rewrite E1, E2, E3, E4. exact H1.
Qed.
Lemma reprop_still : forall grav ba bg Q l F G (it0 : pitem R), coherent grav ba bg (it0 :: l) -> map key (fst (fst (reprop_loop grav ba bg Q F G it0 l))) = map key l.
Proof.
  intros grav ba bg Q. induction l as [|it1 l IH]; intros F G it0 H; [reflexivity|]. cbn [reprop_loop].
  destruct (prop_item grav ba bg F G Q it0 (pi_a it1) (pi_g it1) (pi_ts it1)) as [[it1' F'] G'] eqn:E.
  assert (K : key it1' = key it1).
  { unfold prop_item in E. pose proof (midpoint_nominal grav ba bg it0 it1 (proj1 H)) as N. destruct (nominal_step _ _ _ _ _ _ _ _ _) as [[m1 ma] mg]. cbn [fst] in N. injection E as <- _ _.
    unfold key, meas. cbn [pi_mo pi_a pi_g pi_ts]. rewrite N. reflexivity. }
  specialize (IH F' G' it1' (coherent_head _ _ _ _ _ _ K (proj2 H))). destruct (reprop_loop _ _ _ _ _ _ _ _) as [[r' F''] G'']. cbn [fst map] in *. rewrite K, IH. reflexivity.
Qed.
Lemma finish_still : forall (o : voracle R) c pol P s s', finish_update o c pol P s = Ok s' ->
  coherent (vc_grav c) (pq_ba (vs_pq s)) (pq_bg (vs_pq s)) (pq_items (vs_pq s)) ->
  vs_win s' = vs_win s /\ vs_ext s' = vs_ext s /\ pq_ba (vs_pq s') = pq_ba (vs_pq s) /\ pq_bg (vs_pq s') = pq_bg (vs_pq s) /\ pq_init (vs_pq s') = pq_init (vs_pq s) /\
  map key (pq_items (vs_pq s')) = map key (pq_items (vs_pq s)).
Proof.
  intros o c pol P s s' H Hc. unfold finish_update in H. binv H. binv H. binv H. injection H as <-. cbn [vs_win vs_ext vs_pq].
  unfold update_cov in E1. destruct (Nat.ltb _ _); [discriminate|]. binv E1. binv E1. binv E1. binv E1. binv E1. injection E1 as <-.
  unfold with_head in E6. destruct (pq_items (vs_pq s)) as [|it r] eqn:Ei; [discriminate|]. injection E6 as <-. cbn [front] in E2. injection E2 as <-.
  unfold pq_repropagate. cbn [with_ecc with_items pq_items pq_ba pq_bg pq_Q pq_F pq_G].
  match goal with |- context [reprop_loop ?g ?a ?b ?Q ?F ?G ?i ?l] => pose proof (reprop_still g a b Q l F G i (coherent_head _ _ _ it i l eq_refl Hc)) as K; destruct (reprop_loop g a b Q F G i l) as [[r' F'] G'] end.
  cbn [fst] in K. cbn [pq_items pq_ba pq_bg pq_init map]. rewrite K. repeat split.
Qed.

(** ** The whole update *)
Lemma select_keeps : forall (o : voracle R) exts fs (Q : feature R -> Prop), exact_svd (vo_svd o) ->
  (forall f g, Q f -> same_track f g -> (ft_status g = FSolved -> fitted o exts fs g) -> Q g) -> forall l pos h good h' good',
  (forall p f, In p (map snd l) -> hp_cells h !! p = Some f -> exact_views o exts fs f) ->
  (forall p f, hp_cells h !! p = Some f -> Q f) -> select_loop o exts fs l pos h good = Ok (h', good') ->
  forall p f, hp_cells h' !! p = Some f -> Q f.
Proof.
  intros o exts fs Q Hs HQ. induction l as [|[id p] l IH]; intros pos h good h' good' Hx Hg H; cbn [select_loop] in H.
  - injection H as <- <-. exact Hg.
  - destruct (trianglize o exts fs h p) as [[h1 b]|] eqn:Et; [|discriminate]. cbn [obind fst snd] in H.
    destruct (trianglize_spec o exts fs h p h1 b Et) as (f & _ & Ef & _).
    destruct (trianglize_fits o exts fs h p h1 b f Hs Ef (Hx p f (or_introl eq_refl) Ef) Et) as (g & -> & St & Fg & Fs).
    set (good1 := if b then score_insert (f32_of_Z (vo_rand o pos)) p good else good).
    assert (Hsel : exists pos', select_loop o exts fs l pos' (hset h p g) good1 = Ok (h', good')) by (destruct b; eauto). destruct Hsel as [pos' Hsel].
    refine (IH pos' (hset h p g) good1 h' good' _ _ Hsel).
    + intros p' f' Hin E'. cbn [hset hp_cells] in E'. destruct (decide (p = p')) as [<-|Np].
      * rewrite lookup_insert in E'. injection E' as <-. eapply exact_same; [exact St|]. apply (Hx p f); [left; reflexivity|exact Ef].
      * rewrite lookup_insert_ne in E' by exact Np. apply (Hx p' f'); [right; exact Hin|exact E'].
    + intros p' f' E'. cbn [hset hp_cells] in E'. destruct (decide (p = p')) as [<-|Np].
      * rewrite lookup_insert in E'. injection E' as <-. apply (HQ f g (Hg p f Ef) St). intros S. apply Fg. left. exact (Fs S).
      * rewrite lookup_insert_ne in E' by exact Np. exact (Hg p' f' E').
Qed.
Lemma newest_spec : forall (fs fs' : list (frame R)) q it r, pq_items q = it :: r -> update_newest fs q = Ok (Some fs') -> newest_at fs (pi_mo it) fs'.
Proof.
  intros fs fs' q it r Eq H. unfold update_newest in H. destruct (back_cases _ fs) as [[-> _]|(l & f & E & Eb)]; [discriminate|].
  assert (Hf : fs <> []) by (rewrite E; intros C; apply app_eq_nil in C as [_ C]; discriminate). destruct fs as [|f0 fl]; [destruct (Hf eq_refl)|]. rewrite Eb, Eq in H. cbn [front obind] in H.
  injection H as <-. exists l, f. split; [exact E|]. rewrite E. unfold set_last. rewrite removelast_last. reflexivity.
Qed.
Definition left_of (ts thr : f64) (s : vstate R) (it : pitem R) (r : list (pitem R)) : Prop := origin_loop ts thr (pq_items (vs_pq s)) = Some (it :: r).
Lemma update_still : forall (o : voracle R) c s ts thr s' ok pol (Q : feature R -> Prop), exact_svd (vo_svd o) -> units3 s ->
  (forall it r, left_of ts thr s it r -> coherent (vc_grav c) (pq_ba (vs_pq s)) (pq_bg (vs_pq s)) (it :: r)) ->
  (forall it r fs', left_of ts thr s it r -> newest_at (wn_frames (vs_win s)) (pi_mo it) fs' ->
    (forall l f g, fs' = l ++ [f] -> In g fs' -> fr_id g = fr_id f -> frame_of_motion g (pi_mo it) = g) /\
    (forall l f p ft, wn_frames (vs_win s) = l ++ [f] -> In p (map snd (vo_ord o (fr_feats f))) -> hp_cells (wn_heap (vs_win s)) !! p = Some ft -> exact_views o (vs_ext s) fs' ft) /\
    (forall f g, Q f -> same_track f g -> (ft_status g = FSolved -> fitted o (vs_ext s) fs' g) -> Q g)) ->
  (forall p f, hp_cells (wn_heap (vs_win s)) !! p = Some f -> Q f) -> vision_update o c s ts thr = Ok (s', ok, pol) ->
  vs_ext s' = vs_ext s /\ pq_ba (vs_pq s') = pq_ba (vs_pq s) /\ pq_bg (vs_pq s') = pq_bg (vs_pq s) /\ pq_init (vs_pq s') = pq_init (vs_pq s) /\
  wn_mgr (vs_win s') = wn_mgr (vs_win s) /\ same_heap (wn_heap (vs_win s)) (wn_heap (vs_win s')) /\ (forall p f, hp_cells (wn_heap (vs_win s')) !! p = Some f -> Q f) /\
  (ok = false /\ (exists pre, pq_items (vs_pq s) = pre ++ pq_items (vs_pq s')) \/
   ok = true /\ exists it r, left_of ts thr s it r /\ newest_at (wn_frames (vs_win s)) (pi_mo it) (wn_frames (vs_win s')) /\ map key (pq_items (vs_pq s')) = map key (it :: r)).
Proof.
  intros o c s ts thr s' ok pol Q Hs (He & Hf & Hq) Hcoh Hex HQ H. unfold vision_update in H. unfold pq_reset_origin in H.
  destruct (origin_loop ts thr (pq_items (vs_pq s))) as [lo|] eqn:Eo.
  2:{ cbn [negb] in H. injection H as <- <- <-. cbn. repeat (split; [reflexivity|]). split; [apply same_heap_refl|]. split; [exact HQ|]. left. split; [reflexivity|]. exists (pq_items (vs_pq s)). rewrite app_nil_r. reflexivity. }
  destruct (origin_sub _ _ _ _ Eo) as [pre Epre]. cbn [negb] in H. set (q := with_items (vs_pq s) lo) in *.
  assert (Fin : forall w, wn_mgr w = wn_mgr (vs_win s) -> same_heap (wn_heap (vs_win s)) (wn_heap w) -> (forall p f, hp_cells (wn_heap w) !! p = Some f -> Q f) ->
     VState w (vs_ext s) q = s' -> false = ok ->
     vs_ext s' = vs_ext s /\ pq_ba (vs_pq s') = pq_ba (vs_pq s) /\ pq_bg (vs_pq s') = pq_bg (vs_pq s) /\ pq_init (vs_pq s') = pq_init (vs_pq s) /\
     wn_mgr (vs_win s') = wn_mgr (vs_win s) /\ same_heap (wn_heap (vs_win s)) (wn_heap (vs_win s')) /\ (forall p f, hp_cells (wn_heap (vs_win s')) !! p = Some f -> Q f) /\
     (ok = false /\ (exists pre, pq_items (vs_pq s) = pre ++ pq_items (vs_pq s')) \/
     ok = true /\ exists it r, left_of ts thr s it r /\ newest_at (wn_frames (vs_win s)) (pi_mo it) (wn_frames (vs_win s')) /\ map key (pq_items (vs_pq s')) = map key (it :: r))).
  { intros w W1 W2 W3 <- <-. cbn. repeat (split; [reflexivity|]). split; [exact W1|]. split; [exact W2|]. split; [exact W3|]. left. split; [reflexivity|]. exists pre. exact Epre. }
  binv H. binv H. destruct x0 as [P|]; [|injection H as G1 G2 _; apply (Fin (vs_win s)); auto; apply same_heap_refl].
  binv H. destruct x0 as [fs|]; [|injection H as G1 G2 _; apply (Fin (vs_win s)); auto; apply same_heap_refl].
  assert (Hlo : exists it r, lo = it :: r).
  { destruct lo as [|it r]; [|eauto]. exfalso. unfold update_newest in E1. destruct (back_cases _ (wn_frames (vs_win s))) as [[E' Eb]|(l & f & E' & Eb)]; destruct (wn_frames (vs_win s)) eqn:Ew; discriminate. }
  destruct Hlo as (it & r & ->). pose proof (newest_spec _ _ q it r eq_refl E1) as Hn. destruct (Hex it r fs Eo Hn) as (X1 & X2 & X3). pose proof Hn as (l & f & Ew & Efs).
  rewrite Epre in Hq. apply List.Forall_app in Hq as [_ Hq].
  assert (Ufs : List.Forall (fun f => qunit (fr_q f)) fs).
  { rewrite Efs. rewrite Ew in Hf. apply List.Forall_app in Hf as [Hf _]. apply List.Forall_app. split; [exact Hf|]. constructor; [|constructor]. inversion Hq. assumption. }
  assert (Lfs : (1 <= length fs)%nat) by (rewrite Efs, app_length; cbn; lia).
  binv H. destruct x0 as [h' sel]. unfold select_good in E2. rewrite Efs, FrameFacts.back_app in E2. cbn [obind fr_feats] in E2. binv E2. destruct x0 as [h1 good]. cbn [fst snd] in E2. injection E2 as -> <-.
  rewrite <- Efs in E3.
  assert (Xv : forall p f0, In p (map snd (vo_ord o (fr_feats f))) -> hp_cells (wn_heap (vs_win s)) !! p = Some f0 -> exact_views o (vs_ext s) fs f0) by (intros p f0; exact (X2 l f p f0 Ew)).
  pose proof (select_loop_seen o (vs_ext s) fs _ _ _ _ _ _ E3 (fun p (C : In p (map snd [])) => match C with end)) as [Sh _].
  pose proof (select_keeps o (vs_ext s) fs Q Hs X3 _ _ _ _ _ _ Xv HQ E3) as Kq.
  pose proof (select_fits o (vs_ext s) fs Hs _ _ _ _ _ _ Xv (fun p (C : In p (map snd [])) => match C with end) E3) as Kf.
  cbn [fst snd] in H. set (s1 := VState (Window h' (wn_mgr (vs_win s)) fs) (vs_ext s) q) in *.
  assert (U1 : units3 s1) by (split; [exact He|]; split; [exact Ufs|exact Hq]).
  assert (C1 : coherent (vc_grav c) (pq_ba (vs_pq s1)) (pq_bg (vs_pq s1)) (pq_items (vs_pq s1))) by exact (Hcoh it r Eo).
  assert (Fin2 : forall P' s2, finish_update o c x P' s1 = Ok s2 ->
     vs_ext s2 = vs_ext s /\ pq_ba (vs_pq s2) = pq_ba (vs_pq s) /\ pq_bg (vs_pq s2) = pq_bg (vs_pq s) /\ pq_init (vs_pq s2) = pq_init (vs_pq s) /\
     wn_mgr (vs_win s2) = wn_mgr (vs_win s) /\ same_heap (wn_heap (vs_win s)) (wn_heap (vs_win s2)) /\ (forall p f, hp_cells (wn_heap (vs_win s2)) !! p = Some f -> Q f) /\
     (true = false /\ (exists pre, pq_items (vs_pq s) = pre ++ pq_items (vs_pq s2)) \/
     true = true /\ exists it r, left_of ts thr s it r /\ newest_at (wn_frames (vs_win s)) (pi_mo it) (wn_frames (vs_win s2)) /\ map key (pq_items (vs_pq s2)) = map key (it :: r))).
  { intros P' s2 F. destruct (finish_still o c x P' s1 s2 F C1) as (F1 & F2 & F3 & F4 & F5 & F6). rewrite F1, F2, F3, F4, F5, F6. cbn. repeat (split; [reflexivity|]).
    split; [exact Sh|]. split; [exact Kq|]. right. split; [reflexivity|]. exists it, r. split; [exact Eo|]. split; [exact Hn|]. reflexivity. }
  destruct (firstn (Z.to_nat (vc_maxfeat c)) (map snd good)) as [|p0 ps] eqn:Es.
  - binv H. injection H as <- <- <-. exact (Fin2 P x0 E2).
  - binv H. destruct x0 as [Hr|]; [|injection H as G1 G2 _; apply (Fin (Window h' (wn_mgr (vs_win s)) fs)); auto].
    assert (Hz : forall i, (i < mr Hr)%nat -> me Hr i (mc Hr - 1)%nat = 0).
    { refine (measurement_clean o (vs_ext s) fs h' (p0 :: ps) Hr He Ufs Lfs _ E2). intros p Hp. rewrite <- Es in Hp. apply Kf. eapply firstn_in. exact Hp. }
    binv H. destruct x0 as [P' s3]. cbn [fst snd] in H. binv H. injection H as <- <- <-. unfold update_state in E4. binv E4. destruct x1 as [[K dx] P'']. binv E4. injection E4 as <- <-.
    pose proof (kalman_still _ _ _ _ _ _ _ Hz E6) as Hd.
    assert (Es3 : x1 = s1) by (refine (apply_delta_still dx s1 x1 it r Hd U1 eq_refl _ E7); exact X1). subst x1. exact (Fin2 P'' x0 E5).
Qed.
