(** Facts about the test programs of the geometry module (C89). *)
From Coq Require Import ZArith Reals List Bool Lia Lra Arith.
From Flocq Require Import Core IEEE754.BinarySingleNaN.
From Verif Require Import Fp Scalar Base LinAlg MathLib Triangulate Pnp Config ConfigSpec MatFacts QuatFacts RotFacts GeoSpec TriFacts PnpFacts
  LmFacts StepSpec StepFacts InitSpec AppGeometry.
Import ListNotations.
Local Open Scope R_scope.

(** ** test_trianglate *)
Lemma sZ_2 : @s_of_Z R _ 2 = 2. Proof. unfold s_of_Z. bval (f32_of_Z 2). Qed.
Lemma sZ_8 : @s_of_Z R _ 8 = 8. Proof. unfold s_of_Z. bval (f32_of_Z 8). Qed.
Lemma theta_0 : @tt_theta R _ 0 = 0.
Proof. unfold tt_theta. bval (f64_to_f32 (f64_div (f64_mul (f64_of_Z (u32 (Z.of_nat 0 * 2))) m_pi) (f64_of_Z (u32 (6 * 16))))). Qed.
Lemma theta_1 : 0 < @tt_theta R _ 1 < 1.
Proof. unfold tt_theta. bval (f64_to_f32 (f64_div (f64_mul (f64_of_Z (u32 (Z.of_nat 1 * 2))) m_pi) (f64_of_Z (u32 (6 * 16))))). Qed.

Definition P2 : v3 R := V3 2 2 2.
Lemma pw_val : @tt_pw R _ = P2.
Proof. unfold tt_pw. rewrite sZ_2. reflexivity. Qed.
Lemma Rcw_val : forall t, tt_Rcw cos sin t = M33 (cos t) (- sin t) 0 (sin t) (cos t) 0 0 0 1.
Proof. intros t. unfold tt_Rcw. apply m33_ext; rops; ring. Qed.
Lemma pcw_val : forall t, tt_pcw cos sin t = V3 (8 * cos t - 8) (8 * sin t) (sin (2 * t)).
Proof. intros t. unfold tt_pcw. rewrite sZ_8. unfold s2. rops. f_equal. replace (1 + 1) with 2 by ring. ring. Qed.
Lemma sc1 : forall t, sin t * sin t + cos t * cos t = 1.
Proof. intros t. pose proof (sin2_cos2 t). unfold Rsqr in *. lra. Qed.
Lemma Rwc_rotation : forall t, rotation (me (mat_of_m33 (m33t (tt_Rcw cos sin t)))).
Proof.
  intros t. rewrite Rcw_val. pose proof (sc1 t) as E. split.
  - intros i j Hi Hj. destruct i as [|[|[|i]]]; [| | |lia]; (destruct j as [|[|[|j]]]; [| | |lia]); cbn; nra.
  - cbn. nra.
Qed.
Lemma qwc_val : forall n, qunit (tt_qwc cos sin n) /\ qmat (tt_qwc cos sin n) = m33t (tt_Rcw cos sin (tt_theta n)).
Proof.
  intros n. unfold tt_qwc. destruct (rotation_quat 3 3 _ (Rwc_rotation (tt_theta n))) as [U E].
  change (Mat 3 3 (me (mat_of_m33 (m33t (tt_Rcw cos sin (tt_theta n)))))) with (mat_of_m33 (m33t (tt_Rcw cos sin (tt_theta n)))) in U, E.
  split; [exact U|]. set (m := m33t _) in *. set (q := quat_of_mat _) in *. clearbody m.
  apply m33_ext; [apply (E 0 0)%nat|apply (E 0 1)%nat|apply (E 0 2)%nat|apply (E 1 0)%nat|apply (E 1 1)%nat|apply (E 1 2)%nat|
    apply (E 2 0)%nat|apply (E 2 1)%nat|apply (E 2 2)%nat]; lia.
Qed.
Lemma pwc_val : forall n, let t := tt_theta n in tt_pwc cos sin n = V3 (8 * cos t - 8) (- (8 * sin t)) (- sin (2 * t)).
Proof.
  intros n t. unfold tt_pwc. fold t. rewrite Rcw_val, pcw_val. pose proof (sc1 t) as E. vunf. apply v3_ext; rops; nra.
Qed.
Definition tt_view (n : nat) : view R := (tt_qwc cos sin n, tt_pwc cos sin n, tt_observe cos sin n).
Definition tt_views : list (view R) := map tt_view (seq 0 6).
Lemma views_val : views (map (tt_qwc cos sin) tt_ns) (map (tt_pwc cos sin) tt_ns) (map (tt_observe cos sin) tt_ns) = Ok tt_views.
Proof. reflexivity. Qed.
Lemma view_unit : forall n, unit_view (tt_view n).
Proof. intros n. exact (proj1 (qwc_val n)). Qed.
Lemma view_sees : forall n, sees P2 (tt_view n).
Proof.
  intros n. destruct (qwc_val n) as [U M]. unfold tt_view, sees, at_camera.
  set (t := @tt_theta R _ n).
  exists (v3add (m33mulv (tt_Rcw cos sin t) P2) (tt_pcw cos sin t)). split; [|split].
  - rewrite qrot_mat, M, pwc_val. fold t. rewrite Rcw_val, pcw_val. pose proof (sc1 t) as E. unfold P2. vunf. apply v3_ext; rops; nra.
  - rewrite Rcw_val, pcw_val. pose proof (SIN_bound (2 * t)). unfold P2. vunf. lra.
  - unfold tt_observe. fold t. rewrite pw_val. reflexivity.
Qed.
Lemma views_unit : Forall unit_view tt_views.
Proof. apply Forall_forall. intros v H. unfold tt_views in H. apply in_map_iff in H as (n & <- & _). apply view_unit. Qed.
Lemma views_see : Forall (sees P2) tt_views.
Proof. apply Forall_forall. intros v H. unfold tt_views in H. apply in_map_iff in H as (n & <- & _). apply view_sees. Qed.

(** The rays of the first two poses are not parallel. *)
Lemma rays_differ : v3cross (ray (tt_view 0)) (ray (tt_view 1)) <> v3zero.
Proof.
  intros C. destruct theta_1 as [T0 T1].
  assert (S0 : 0 < sin (@tt_theta R _ 1)) by (apply sin_gt_0; [exact T0|pose proof PI2_1; pose proof PI_RGT_0; lra]).
  destruct (sees_on_ray _ _ _ _ (view_unit 0) (view_sees 0)) as [a Ha].
  destruct (sees_on_ray _ _ _ _ (view_unit 1) (view_sees 1)) as [b Hb].
  assert (K : v3cross (v3sub P2 (tt_pwc cos sin 0)) (v3sub P2 (tt_pwc cos sin 1)) = v3zero).
  { rewrite Ha, Hb. fold (tt_view 0) (tt_view 1). destruct (ray (tt_view 0)) as [x y z], (ray (tt_view 1)) as [x' y' z'].
    vunf. injection C as C1 C2 C3. apply v3_ext; rops;
      [transitivity (a * b * (y * z' - z * y')); [ring|rewrite C1; ring]|transitivity (a * b * (z * x' - x * z')); [ring|rewrite C2; ring]|
       transitivity (a * b * (x * y' - y * x')); [ring|rewrite C3; ring]]. }
  rewrite !pwc_val in K. cbv zeta in K. rewrite theta_0 in K. set (t := @tt_theta R _ 1) in *. rewrite Rmult_0_r, sin_0, cos_0 in K. unfold P2 in K.
  rewrite sin_2a in K. pose proof (sc1 t) as E. pose proof (COS_bound t) as B. vunf. injection K as K1 K2 K3. nra.
Qed.
Theorem analytic_prints : forall svd junk, exact_svd svd -> app_tri_analytic cos sin svd junk = Ok (P2, P2).
Proof.
  intros svd junk H. unfold app_tri_analytic. rewrite (tri_analytic_exact svd _ _ _ tt_views P2 junk (tt_view 0) (tt_view 1)).
  - cbn [obind snd]. rewrite pw_val. reflexivity.
  - exact views_val.
  - exact views_unit.
  - exact views_see.
  - left. reflexivity.
  - right. left. reflexivity.
  - exact rays_differ.
  - unfold P2. vunf. lra.
  - apply H. reflexivity.
Qed.

(** The iterative test. *)
Definition tt_start : v3 R := v3add P2 tt_noise.
Lemma noise_val : exists e, 2 / 5 < e < 2 / 5 + 1 / 1000000 /\ @tt_noise R _ = V3 e e e.
Proof.
  unfold tt_noise. cbv zeta. eexists. split; [|reflexivity]. bval (f32_lit 0xcccccd (-25)).
Qed.
Theorem iterative_prints : forall ldlt, exists res, (forall fuel, (11 <= fuel)%nat -> app_tri_iterative cos sin fuel ldlt = Ok (Some (res, res))) /\
  (res = tt_start \/ reproj_cost tt_views res < reproj_cost tt_views tt_start).
Proof.
  intros ldlt. destruct (tri_iterative_terminates ldlt _ _ _ _ tt_start views_val) as (p & calls & _ & H). exists p.
  assert (E : v3add tt_pw tt_noise = tt_start) by (rewrite pw_val; reflexivity).
  split.
  - intros fuel Hf. unfold app_tri_iterative. rewrite E, (H fuel Hf). reflexivity.
  - destruct (tri_iterative_cost_R ldlt _ _ _ _ tt_start 11 true p calls views_val views_unit) as [_ C].
    + unfold tt_start. destruct noise_val as (e & He & ->). unfold P2. vunf. lra.
    + apply H. lia.
    + exact C.
Qed.
Theorem iterative_set_refuted : exists ldlt fuel s r, app_tri_iterative cos sin fuel ldlt = Ok (Some (s, r)) /\ s <> P2.
Proof.
  set (z := fun (_ : m33 R) (_ : v3 R) => v3zero (T := R)). destruct (iterative_prints z) as (res & H & _).
  exists z, 11%nat, res, res. split; [apply H; lia|].
  destruct (tri_iterative_terminates z _ _ _ _ tt_start views_val) as (p & calls & _ & Hp).
  assert (E : v3add tt_pw tt_noise = tt_start) by (rewrite pw_val; reflexivity).
  assert (Ep : p = res).
  { specialize (H 11%nat ltac:(lia)). unfold app_tri_iterative in H. rewrite E, (Hp 11%nat) in H by lia. injection H as ->. reflexivity. }
  subst res. clear H.
  assert (Inv : forall fuel cntr s s', (lm_sol s = inv_depth tt_start) -> lm_outer fuel 11 z (map tri_cw tt_views) cntr s = Some s' -> lm_sol s' = inv_depth tt_start).
  { assert (Body : forall A b s, lm_sol s = inv_depth tt_start -> lm_sol (lm_body z (map tri_cw tt_views) A b s) = inv_depth tt_start).
    { intros A b s Hs. unfold lm_body, z. destruct (sltb _ _); cbn [lm_sol]; [|exact Hs]. rewrite Hs. destruct (inv_depth tt_start). vunf. f_equal; ring. }
    assert (Inner : forall A b fuel cntr s s', lm_sol s = inv_depth tt_start -> lm_inner fuel z (map tri_cw tt_views) A b cntr s = Some s' -> lm_sol s' = inv_depth tt_start).
    { intros A b. induction fuel as [|f IH]; intros cntr s s' Hs H; cbn [lm_inner] in H; [discriminate H|].
      destruct (_ && _)%bool; [eapply IH; [|exact H]; apply Body, Hs|]. injection H as <-. apply Body, Hs. }
    induction fuel as [|f IH]; intros cntr s s' Hs H; cbn [lm_outer] in H; [discriminate H|].
    destruct (tri_normal _ _) as [A b]. destruct (lm_inner 11 _ _ _ _ _ _) as [s1|] eqn:Ei; [|discriminate H].
    pose proof (Inner _ _ _ _ _ _ Hs Ei) as H1. destruct (_ && _)%bool; [eapply IH; [exact H1|exact H]|]. injection H as <-. exact H1. }
  specialize (Hp 11%nat ltac:(lia)). unfold tri_iterative in Hp. rewrite views_val in Hp. cbn [obind] in Hp.
  destruct (lm_outer 11 11 z _ _ _) as [s|] eqn:Eo; [|discriminate Hp].
  apply Inv in Eo; [|reflexivity]. injection Hp as Hp _. rewrite Eo in Hp. destruct noise_val as (e & He & En).
  rewrite inv_depth_twice in Hp by (unfold tt_start; rewrite En; unfold P2; vunf; lra).
  rewrite <- Hp. unfold tt_start. rewrite En. unfold P2. vunf. intros C. injection C as C _ _. lra.
Qed.
