(** The measurements fix a point exactly when two of them see it in different directions (C96). *)
From Coq Require Import Reals List Arith ZArith Lra Lia.
From stdpp Require Import gmap.
From Verif Require Import Fp Scalar Base LinAlg MathLib MatFacts Msg FeatureManager FrameManager Window WindowSpec Propagator Triangulate Pnp VisionUpdate
  UpdSpec UpdCovFacts FeatureFacts FrameFacts MeasFacts QuatFacts KalmanFacts DerivSpec DerivFacts ProcSpec BlindSpec BlindFacts AppFacts
  BundleSpec MisfitFacts WholeSpec.
Import ListNotations.
Local Open Scope R_scope.

(** The rotation from the world to the camera. *)
Definition to_cam (e : extrinsic R) (f : frame R) (v : v3 R) : v3 R := qrot (qconj (ex_q e)) (qrot (qconj (fr_q f)) v).
Lemma conj_unit : forall q : quat R, qunit q -> qunit (qconj q).
Proof. intros q H. unfold qunit in *. rewrite <- H. destruct q. vunf. rops. ring. Qed.
Lemma cam_point_centre : forall e f pw, qunit (fr_q f) -> qunit (ex_q e) ->
  cam_point (fr_q f) (fr_p f) (ex_q e) (ex_p e) pw = to_cam e f (v3sub pw (cam_centre e f)).
Proof.
  intros e f pw Hf He. unfold cam_point, to_cam, cam_centre. f_equal.
  replace (v3sub pw (v3add (qrot (fr_q f) (ex_p e)) (fr_p f))) with (v3sub (v3sub pw (fr_p f)) (qrot (fr_q f) (ex_p e))).
  2:{ generalize (qrot (fr_q f) (ex_p e)). intros a. vunf. apply v3_ext; rops; ring. }
  rewrite (qrot_sub (qconj (fr_q f)) (v3sub pw (fr_p f))). f_equal. rewrite <- (qinv_unit (fr_q f)) by exact Hf. rewrite qrot_inv_l by exact Hf. reflexivity.
Qed.
Lemma row_pw : forall exts fs pw k cam z e f dp r, nth_error exts cam = Some e -> nth_error fs k = Some f -> qunit (fr_q f) -> qunit (ex_q e) ->
  zero_thr < Rabs (v3z (cam_point (fr_q f) (fr_p f) (ex_q e) (ex_p e) pw)) -> (r < 2)%nat ->
  let c := cam_point (fr_q f) (fr_p f) (ex_q e) (ex_p e) pw in
  let u := to_cam e f dp in
  rsum 3 (fun j => meas_entry (length exts) (length fs) exts fs pw (k, cam, z) r j * v3get dp j) =
    match r with O => v3x u / v3z c - v3x c / (v3z c * v3z c) * v3z u | _ => v3y u / v3z c - v3y c / (v3z c * v3z c) * v3z u end.
Proof.
  intros exts fs pw k cam z e f dp r Ee Ef Uf Ue Hz Hr c u. pose proof (far_nz _ Hz) as H0. fold c in Hz, H0.
  unfold meas_entry. rewrite Ee, Ef. rewrite meas_pc_point by assumption. fold c.
  assert (Hs : sltb szero (sabs (v3z c)) = true) by (apply sltb_R; exact Hz). rewrite Hs. clear Hs.
  unfold jac_pw. rewrite meas_pc_point by assumption. fold c. unfold meas_Rcb, meas_Rbw. rewrite !qinv_unit by assumption.
  unfold u, to_cam. rewrite !qrot_mat. clearbody c. generalize (qmat (qconj (ex_q e))) (qmat (qconj (fr_q f))). intros A B. clear - H0 Hr.
  destruct c as [x y z0], dp as [a1 a2 a3]. cbn [v3x v3y v3z] in *.
  rewrite !rsum_S. cbn [ssum]. destruct r as [|[|r]]; [| |lia]; unfold in3; destruct A, B; cbn; field; exact H0.
Qed.
(** One measurement leaves exactly the direction of the point open. *)
Lemma one_view : forall exts fs pw m c dp, List.Forall (fun e => qunit (ex_q e)) exts -> List.Forall (fun f => qunit (fr_q f)) fs -> taken_from exts fs pw m c ->
  ((forall r, (r < 2)%nat -> rsum 3 (fun j => meas_entry (length exts) (length fs) exts fs pw m r j * v3get dp j) = 0) <-> v3cross (v3sub pw c) dp = V3 0 0 0).
Proof.
  intros exts fs pw [[k cam] z] c dp He Hf (e & f & E1 & E2 & Hz & ->). cbn [fst snd] in *.
  assert (Ue : qunit (ex_q e)) by (rewrite List.Forall_forall in He; apply He; eapply nth_error_In; exact E1).
  assert (Uf : qunit (fr_q f)) by (rewrite List.Forall_forall in Hf; apply Hf; eapply nth_error_In; exact E2).
  set (a := v3sub pw (cam_centre e f)). set (pc := cam_point (fr_q f) (fr_p f) (ex_q e) (ex_p e) pw) in *.
  assert (Ep : pc = to_cam e f a) by (apply cam_point_centre; assumption).
  assert (X : v3cross pc (to_cam e f dp) = to_cam e f (v3cross a dp)).
  { rewrite Ep. unfold to_cam. rewrite !qrot_cross by (apply conj_unit; assumption). reflexivity. }
  assert (Z0 : v3z pc <> 0) by (apply far_nz; exact Hz).
  assert (Back : to_cam e f (v3cross a dp) = V3 0 0 0 -> v3cross a dp = V3 0 0 0).
  { intros E. apply (f_equal (qrot (ex_q e))) in E. unfold to_cam in E. rewrite <- (qinv_unit (ex_q e)) in E by exact Ue. rewrite qrot_inv_r in E by exact Ue.
    apply (f_equal (qrot (fr_q f))) in E. rewrite <- (qinv_unit (fr_q f)) in E by exact Uf. rewrite qrot_inv_r in E by exact Uf. rewrite E.
    generalize (ex_q e) (fr_q f). intros q1 q2. vunf. apply v3_ext; rops; ring. }
  assert (Fwd : v3cross a dp = V3 0 0 0 -> to_cam e f (v3cross a dp) = V3 0 0 0).
  { intros ->. unfold to_cam. generalize (qconj (ex_q e)) (qconj (fr_q f)). intros q1 q2. vunf. apply v3_ext; rops; ring. }
  pose proof (row_pw exts fs pw k cam z e f dp 0 E1 E2 Uf Ue Hz ltac:(lia)) as R0. pose proof (row_pw exts fs pw k cam z e f dp 1 E1 E2 Uf Ue Hz ltac:(lia)) as R1.
  cbv zeta in R0, R1. fold pc in R0, R1. set (u := to_cam e f dp) in *. clearbody u pc. destruct pc as [x y z0], u as [u1 u2 u3]. cbn [v3x v3y v3z] in *.
  split.
  - intros H. apply Back. rewrite <- X. pose proof (H 0%nat ltac:(lia)) as A0. pose proof (H 1%nat ltac:(lia)) as A1. rewrite R0 in A0. rewrite R1 in A1.
    assert (B0 : u1 * z0 = x * u3) by (apply (Rmult_eq_reg_r (/ (z0 * z0))); [|apply Rinv_neq_0_compat; nra]; apply Rminus_diag_uniq; rewrite <- A0; field; exact Z0).
    assert (B1 : u2 * z0 = y * u3) by (apply (Rmult_eq_reg_r (/ (z0 * z0))); [|apply Rinv_neq_0_compat; nra]; apply Rminus_diag_uniq; rewrite <- A1; field; exact Z0).
    vunf. apply v3_ext; rops; cbn [v3x v3y v3z]; [nra|nra|]. apply (Rmult_eq_reg_r z0); [|exact Z0].
    replace ((x * u2 - y * u1) * z0) with (x * (u2 * z0) - y * (u1 * z0)) by ring. rewrite B0, B1. ring.
  - intros H. apply Fwd in H. rewrite <- X in H. vunf. rops. cbn [v3x v3y v3z] in H. injection H as H1 H2 H3. intros r Hr.
    destruct r as [|[|r]]; [| |lia]; [rewrite R0|rewrite R1]; apply (Rmult_eq_reg_r (z0 * z0)); try nra; field_simplify; try exact Z0; nra.
Qed.
Lemma cross_dot3 : forall a b d : v3 R, v3cross a d = V3 0 0 0 -> v3cross b d = V3 0 0 0 -> v3cross a b <> V3 0 0 0 -> d = V3 0 0 0.
Proof.
  intros [a1 a2 a3] [b1 b2 b3] [d1 d2 d3] Ha Hb Hn. unfold v3cross in *. cbn [v3x v3y v3z] in *. rops. injection Ha as A1 A2 A3. injection Hb as B1 B2 B3.
  cbn in *.
  destruct (Req_dec (d1 * d1 + d2 * d2 + d3 * d3) 0) as [E|E].
  { assert (d1 = 0 /\ d2 = 0 /\ d3 = 0) as (-> & -> & ->) by (repeat split; nra). reflexivity. }
  exfalso. apply Hn. set (N := d1 * d1 + d2 * d2 + d3 * d3) in *. set (p := a1 * d1 + a2 * d2 + a3 * d3). set (q := b1 * d1 + b2 * d2 + b3 * d3).
  assert (G : forall x1 x2 x3 y1 y2 y3, x2 * y3 - x3 * y2 = 0 -> x3 * y1 - x1 * y3 = 0 -> x1 * y2 - x2 * y1 = 0 ->
    x1 * (y1 * y1 + y2 * y2 + y3 * y3) = (x1 * y1 + x2 * y2 + x3 * y3) * y1 /\ x2 * (y1 * y1 + y2 * y2 + y3 * y3) = (x1 * y1 + x2 * y2 + x3 * y3) * y2 /\
    x3 * (y1 * y1 + y2 * y2 + y3 * y3) = (x1 * y1 + x2 * y2 + x3 * y3) * y3).
  { clear. intros x1 x2 x3 y1 y2 y3 X1 X2 X3. repeat split; apply Rminus_diag_uniq.
    - transitivity (y2 * (x1 * y2 - x2 * y1) - y3 * (x3 * y1 - x1 * y3)); [ring|]. rewrite X2, X3. ring.
    - transitivity (y3 * (x2 * y3 - x3 * y2) - y1 * (x1 * y2 - x2 * y1)); [ring|]. rewrite X1, X3. ring.
    - transitivity (y1 * (x3 * y1 - x1 * y3) - y2 * (x2 * y3 - x3 * y2)); [ring|]. rewrite X1, X2. ring. }
  destruct (G _ _ _ _ _ _ A1 A2 A3) as (F1 & F2 & F3). destruct (G _ _ _ _ _ _ B1 B2 B3) as (G1 & G2 & G3). fold N p in F1, F2, F3. fold N q in G1, G2, G3.
  clearbody N p q. apply v3_ext; cbn [v3x v3y v3z]; apply (Rmult_eq_reg_r (N * N)); try nra.
  - replace ((a2 * b3 - a3 * b2) * (N * N)) with ((a2 * N) * (b3 * N) - (a3 * N) * (b2 * N)) by ring. rewrite F2, F3, G2, G3. ring.
  - replace ((a3 * b1 - a1 * b3) * (N * N)) with ((a3 * N) * (b1 * N) - (a1 * N) * (b3 * N)) by ring. rewrite F1, F3, G1, G3. ring.
  - replace ((a1 * b2 - a2 * b1) * (N * N)) with ((a1 * N) * (b2 * N) - (a2 * N) * (b1 * N)) by ring. rewrite F1, F2, G1, G2. ring.
Qed.
(** Whether a measurement is used can be decided. *)
Lemma taken_dec : forall exts fs pw m, {c | taken_from exts fs pw m c} + {forall c, ~ taken_from exts fs pw m c}.
Proof.
  intros exts fs pw m. unfold taken_from. destruct (nth_error exts (snd (fst m))) as [e|] eqn:E1; [|right; intros c (e & f & A & _); discriminate].
  destruct (nth_error fs (fst (fst m))) as [f|] eqn:E2; [|right; intros c (e' & f & _ & A & _); discriminate].
  destruct (Rlt_dec zero_thr (Rabs (v3z (cam_point (fr_q f) (fr_p f) (ex_q e) (ex_p e) pw)))) as [H|H].
  - left. exists (cam_centre e f), e, f. repeat split; assumption.
  - right. intros c (e' & f' & A & B & C & _). injection A as <-. injection B as <-. exact (H C).
Qed.
Lemma untaken_row : forall exts fs pw m r j, List.Forall (fun e => qunit (ex_q e)) exts -> List.Forall (fun f => qunit (fr_q f)) fs ->
  (forall c, ~ taken_from exts fs pw m c) -> meas_entry (length exts) (length fs) exts fs pw m r j = 0.
Proof.
  intros exts fs pw [[k cam] z] r j He Hf H. unfold meas_entry. destruct (nth_error exts cam) as [e|] eqn:E1; [|reflexivity]. destruct (nth_error fs k) as [f|] eqn:E2; [|reflexivity].
  assert (Ue : qunit (ex_q e)) by (rewrite List.Forall_forall in He; apply He; eapply nth_error_In; exact E1).
  assert (Uf : qunit (fr_q f)) by (rewrite List.Forall_forall in Hf; apply Hf; eapply nth_error_In; exact E2).
  rewrite meas_pc_point by assumption. destruct (sltb szero _) eqn:E; [|reflexivity]. exfalso. apply (H (cam_centre e f)). exists e, f. apply sltb_R in E. repeat split; assumption.
Qed.
Lemma v3_dec : forall a b : v3 R, {a = b} + {a <> b}.
Proof.
  intros [a1 a2 a3] [b1 b2 b3]. destruct (Req_EM_T a1 b1), (Req_EM_T a2 b2), (Req_EM_T a3 b3); subst; try (right; congruence). left. reflexivity.
Qed.
Theorem locatable_parallax : forall nord b exts fs (ft : feature R), List.Forall (fun e => qunit (ex_q e)) exts -> List.Forall (fun f => qunit (fr_q f)) fs ->
  (locatable nord b exts fs ft <-> parallax nord b exts fs ft).
Proof.
  intros nord b exts fs ft He Hf. set (pw := ft_pw ft). set (L := meas_of nord b ft). split.
  - intros H. destruct (List.Exists_dec (fun m => exists c, taken_from exts fs pw m c) L) as [Ex|Nx].
    { intros m. destruct (taken_dec exts fs pw m) as [[c Hc]|N]; [left; eauto|right; intros [c Hc]; exact (N c Hc)]. }
    + apply List.Exists_exists in Ex as (m1 & I1 & c1 & T1).
      destruct (List.Exists_dec (fun m => exists c, taken_from exts fs pw m c /\ v3cross (v3sub pw c1) (v3sub pw c) <> V3 0 0 0) L) as [Ex|Nx].
      { intros m. destruct (taken_dec exts fs pw m) as [[c Hc]|N]; [|right; intros (c & Hc & _); exact (N c Hc)].
        destruct (v3_dec (v3cross (v3sub pw c1) (v3sub pw c)) (V3 0 0 0)) as [E|E]; [|left; eauto].
        right. intros (c' & Hc' & Nc). apply Nc. replace c' with c; [exact E|].
        destruct Hc as (e & f & A & B & _ & ->), Hc' as (e' & f' & A' & B' & _ & ->). congruence. }
      * apply List.Exists_exists in Ex as (m2 & I2 & c2 & T2 & Nc). exists m1, m2, c1, c2. auto.
      * exfalso. assert (Z : v3sub pw c1 = V3 0 0 0).
        { apply H. intros m r Hm Hr. fold pw. destruct (taken_dec exts fs pw m) as [[c Hc]|N].
          - apply (one_view exts fs pw m c _ He Hf Hc); [|exact Hr]. destruct (v3_dec (v3cross (v3sub pw c1) (v3sub pw c)) (V3 0 0 0)) as [E|E].
            + revert E. generalize (v3sub pw c1) (v3sub pw c). intros [a1 a2 a3] [d1 d2 d3] E. unfold v3cross in *. cbn [v3x v3y v3z] in *. rops. injection E as E1 E2 E3.
              apply v3_ext; cbn in *; lra.
            + exfalso. apply Nx. apply List.Exists_exists. exists m. split; [exact Hm|]. exists c. auto.
          - apply rsum_0. intros j _. rewrite (untaken_row exts fs pw m r j He Hf N). apply Rmult_0_l. }
        destruct T1 as (e & f & A & B & D & ->). rewrite cam_point_centre in D.
        2:{ rewrite List.Forall_forall in Hf; apply Hf; eapply nth_error_In; exact B. } 2:{ rewrite List.Forall_forall in He; apply He; eapply nth_error_In; exact A. }
        rewrite Z in D. apply far_nz in D. apply D. unfold to_cam. generalize (qconj (ex_q e)) (qconj (fr_q f)). intros q1 q2. vunf. rops. ring.
    + exfalso. assert (Z : V3 1 0 0 = V3 0 0 0).
      { apply H. intros m r Hm Hr. fold pw. apply rsum_0. intros j _. rewrite (untaken_row exts fs pw m r j He Hf); [apply Rmult_0_l|].
        intros c Hc. apply Nx. apply List.Exists_exists. exists m. split; [exact Hm|]. eauto. }
      injection Z as Z. lra.
  - intros (m1 & m2 & c1 & c2 & I1 & I2 & T1 & T2 & N) dp H. apply (cross_dot3 (v3sub pw c1) (v3sub pw c2)); [| |exact N].
    + apply (one_view exts fs pw m1 c1 dp He Hf T1). intros r Hr. exact (H m1 r I1 Hr).
    + apply (one_view exts fs pw m2 c2 dp He Hf T2). intros r Hr. exact (H m2 r I2 Hr).
Qed.
