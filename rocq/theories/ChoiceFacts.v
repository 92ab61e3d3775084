(** The result of a vision update does not depend on unspecified choices (C91). *)
From Coq Require Import Reals List Arith ZArith Lra Lia.
From stdpp Require Import gmap.
From Verif Require Import Fp Scalar Base LinAlg MathLib MatFacts Msg FeatureManager FrameManager Window WindowSpec Propagator Triangulate Pnp VisionUpdate
  UpdSpec UpdCovFacts FeatureFacts FrameFacts BackLenFacts MeasFacts QuatFacts KalmanFacts DerivSpec ProcSpec RunSpec CovRunFacts BlindSpec BlindFacts BundleSpec BundleFacts.
Import ListNotations.
Local Open Scope R_scope.

(** ** Order of the measurements of a track *)
Definition sq_sum {A} (g : A -> R) (l : list A) : R := fold_right (fun m acc => g m + acc) 0 l.
Lemma sq_sum_perm : forall A (g : A -> R) l l', Permutation l l' -> sq_sum g l = sq_sum g l'.
Proof. intros A g l l' H. unfold sq_sum. induction H; cbn [fold_right]; lra. Qed.
Lemma track_meas_perm : forall (n1 n2 : observe R -> list (Z * v2 R)), valid_norder n1 -> valid_norder n2 ->
  forall obs k, Permutation (track_meas n1 k obs) (track_meas n2 k obs).
Proof.
  intros n1 n2 H1 H2. induction obs as [|ob obs IH]; intros k; cbn [track_meas]; [constructor|]. apply Permutation_app; [|apply IH].
  apply Permutation_map. transitivity (map_to_list ob); [apply H1|symmetry; apply H2].
Qed.
Lemma track_cost_order : forall n1 n2 b exts fs f dp x, valid_norder n1 -> valid_norder n2 ->
  track_cost n1 b exts fs f dp x = track_cost n2 b exts fs f dp x.
Proof.
  intros n1 n2 b exts fs f dp x H1 H2. unfold track_cost, meas_of.
  apply (sq_sum_perm _ (fun m => misfit exts fs (ft_pw f) m 0 dp x ^ 2 + misfit exts fs (ft_pw f) m 1 dp x ^ 2)).
  apply track_meas_perm; assumption.
Qed.
Lemma locatable_order : forall n1 n2 b exts fs f, valid_norder n1 -> valid_norder n2 -> locatable n1 b exts fs f -> locatable n2 b exts fs f.
Proof.
  intros n1 n2 b exts fs f H1 H2 L dp Hd. apply L. intros m r Hm Hr. apply Hd; [|exact Hr].
  unfold meas_of in *. eapply Permutation_in; [apply track_meas_perm; [exact H1|exact H2]|exact Hm].
Qed.
(** ** Order of the tracks *)
Lemma tracks_cost_nord : forall n1 n2 b exts fs, valid_norder n1 -> valid_norder n2 -> forall l dps x,
  tracks_cost n2 b exts fs l dps x = tracks_cost n1 b exts fs l dps x.
Proof.
  intros n1 n2 b exts fs H1 H2. induction l as [|a l IH]; intros dps x; cbn [tracks_cost]; [reflexivity|]. rewrite IH. f_equal. apply track_cost_order; assumption.
Qed.
Lemma tracks_cost_perm : forall nord b exts fs l l', Permutation l l' -> forall dps,
  exists dps', forall x, tracks_cost nord b exts fs l' dps' x = tracks_cost nord b exts fs l dps x.
Proof.
  intros nord b exts fs l l' H. induction H as [|f l l' H IH|f g l|l l2 l3 H IH H' IH']; intros dps.
  - exists dps. reflexivity.
  - destruct (IH (fun i => dps (S i))) as [d' D]. exists (fun i => match i with O => dps O | S i => d' i end). intros x. cbn [tracks_cost].
    f_equal. apply D.
  - exists (fun i => match i with O => dps 1%nat | S O => dps O | _ => dps i end). intros x. cbn [tracks_cost]. 
    cbn beta iota. ring.
  - destruct (IH dps) as [d' D]. destruct (IH' d') as [d'' D'']. exists d''. intros x. rewrite D''. apply D.
Qed.

(** ** Equal costs, equal updates *)
Lemma mcost_even : forall n H x, mcost n H x + mcost n H (fun i => (-1) * x i) - 2 * mcost n H (fun _ => 0) = 2 * dot (mr H) (mvec n (me H) x) (mvec n (me H) x).
Proof.
  intros n H x. unfold mcost, dot. rewrite <- !rsum_scal_l, <- rsum_plus, <- rsum_minus. apply rsum_ext. intros i _.
  assert (A : mvec n (me H) (fun i => (-1) * x i) i = - mvec n (me H) x i) by (unfold mvec; rewrite <- rsum_opp; apply rsum_ext; intros; ring).
  assert (B : mvec n (me H) (fun _ => 0) i = 0) by (apply rsum_0; intros; ring). rewrite A, B. ring.
Qed.
Theorem kalman_same : forall sa1 sa2 noise n (P H1 H2 : mat R) c, mr P = n -> mc P = n -> mc H1 = (n + 1)%nat -> mc H2 = (n + 1)%nat -> fpsd n (me P) ->
  solver_exact sa1 noise P (get_block H1 0 0 (mr H1) n) -> solver_exact sa2 noise P (get_block H2 0 0 (mr H2) n) -> zero_thr < noise * noise ->
  (forall x, mcost n H1 x = mcost n H2 x + c) ->
  exists K1 dx1 P1 K2 dx2 P2, kalman sa1 noise P H1 = Ok (K1, dx1, P1) /\ kalman sa2 noise P H2 = Ok (K2, dx2, P2) /\
    feq n 1 (me dx1) (me dx2) /\ feq n n (me P1) (me P2).
Proof.
  intros sa1 sa2 noise n P H1 H2 c Pr Pc C1 C2 Psd S1 S2 Hz Hcost.
  destruct (kalman_min sa1 noise n P H1 Pr Pc C1 Psd S1 Hz) as (K1 & dx1 & P1 & y1 & E1 & Xr1 & Pr1 & Pc1 & D1 & M1 & Q1 & _).
  destruct (kalman_min sa2 noise n P H2 Pr Pc C2 Psd S2 Hz) as (K2 & dx2 & P2 & y2 & E2 & Xr2 & Pr2 & Pc2 & D2 & M2 & Q2 & _).
  cbv zeta in M1, M2, Q1, Q2. assert (s0 : 0 < noise * noise) by (pose proof zero_thr_pos; lra). set (s := noise * noise) in *.
  exists K1, dx1, P1, K2, dx2, P2. split; [exact E1|]. split; [exact E2|].
  assert (Nn : forall k x, 0 <= dot k x x / s) by (intros k x; apply Rmult_le_pos; [apply dot_nonneg|left; apply Rinv_0_lt_compat; exact s0]).
  split.
  - assert (Py : forall i, (i < n)%nat -> mvec n (me P) (vsub y2 y1) i = 0).
    { apply psd_kernel; [exact Psd|]. pose proof (M1 y2) as A1. pose proof (M2 y1) as A2. rewrite !Hcost in A1.
      pose proof (proj2 Psd (vsub y2 y1)) as B1. pose proof (proj2 Psd (vsub y1 y2)) as B2.
      pose proof (Nn (mr H1) (mvec n (me H1) (mvec n (me P) (vsub y2 y1)))) as B3. pose proof (Nn (mr H2) (mvec n (me H2) (mvec n (me P) (vsub y1 y2)))) as B4.
      assert (A1' : qform n (me P) y2 + mcost n H2 (mvec n (me P) y2) / s = qform n (me P) y1 + mcost n H2 (mvec n (me P) y1) / s +
        (qform n (me P) (vsub y2 y1) + dot (mr H1) (mvec n (me H1) (mvec n (me P) (vsub y2 y1))) (mvec n (me H1) (mvec n (me P) (vsub y2 y1))) / s)).
      { unfold Rdiv in *. rewrite !Rmult_plus_distr_r in A1. lra. }
      lra. }
    split. intros i j Hi Hj. assert (j = 0%nat) by lia. subst j. rewrite D1, D2 by exact Hi. pose proof (Py i Hi) as A. unfold vsub in A. rewrite mvec_lin in A. lra.
  - assert (Sq : forall x, dot (mr H1) (mvec n (me H1) x) (mvec n (me H1) x) = dot (mr H2) (mvec n (me H2) x) (mvec n (me H2) x)).
    { intros x. pose proof (mcost_even n H1 x) as A1. pose proof (mcost_even n H2 x) as A2. rewrite !Hcost in A1. lra. }
    assert (Pol : forall x y, dot (mr H1) (mvec n (me H1) x) (mvec n (me H1) y) = dot (mr H2) (mvec n (me H2) x) (mvec n (me H2) y)).
    { assert (G : forall (H : mat R) x y, dot (mr H) (mvec n (me H) (fun k => 1 * x k + 1 * y k)) (mvec n (me H) (fun k => 1 * x k + 1 * y k)) =
        dot (mr H) (mvec n (me H) x) (mvec n (me H) x) + 2 * dot (mr H) (mvec n (me H) x) (mvec n (me H) y) + dot (mr H) (mvec n (me H) y) (mvec n (me H) y)).
      { intros H x y. rewrite (dot_ext (mr H) _ _ (fun i => 1 * mvec n (me H) x i + 1 * mvec n (me H) y i) (fun i => 1 * mvec n (me H) x i + 1 * mvec n (me H) y i)) by (intros; apply mvec_lin).
        rewrite dot_lin, !dot_lin_r. rewrite (dot_sym _ (mvec n (me H) y) (mvec n (me H) x)). ring. }
      intros x y. pose proof (G H1 x y) as A1. pose proof (G H2 x y) as A2. rewrite !Sq in A1. lra. }
    assert (Z : forall z i, (i < n)%nat -> mvec n (me P1) z i = mvec n (me P2) z i).
    { intros z i Hi. destruct (Q1 z) as (e1 & A1 & _ & B1). destruct (Q2 z) as (e2 & A2 & _ & B2). rewrite A1, A2 by exact Hi.
      set (f := vsub e1 e2). set (Pf := mvec n (me P) f).
      assert (T : dot n f Pf + dot (mr H1) (mvec n (me H1) Pf) (mvec n (me H1) Pf) / s = 0).
      { set (a1 := mvec n (me P) e1) in *. set (a2 := mvec n (me P) e2) in *.
        assert (Ea : forall k, Pf k = 1 * a1 k + (-1) * a2 k) by (intros k; unfold Pf, f, vsub, a1, a2; apply mvec_lin).
        assert (U1 : dot n z Pf = dot n e1 Pf + dot (mr H1) (mvec n (me H1) a1) (mvec n (me H1) Pf) / s).
        { rewrite (dot_ext n z Pf (fun i => 1 * e1 i + / s * mvec (mr H1) (ftr (me H1)) (mvec n (me H1) a1) i) Pf); [|intros k Hk; rewrite B1 by exact Hk; unfold Rdiv; ring|reflexivity].
          rewrite dot_lin. rewrite (dot_tr (mr H1) n (me H1)). unfold Rdiv. ring. }
        assert (U2 : dot n z Pf = dot n e2 Pf + dot (mr H2) (mvec n (me H2) a2) (mvec n (me H2) Pf) / s).
        { rewrite (dot_ext n z Pf (fun i => 1 * e2 i + / s * mvec (mr H2) (ftr (me H2)) (mvec n (me H2) a2) i) Pf); [|intros k Hk; rewrite B2 by exact Hk; unfold Rdiv; ring|reflexivity].
          rewrite dot_lin. rewrite (dot_tr (mr H2) n (me H2)). unfold Rdiv. ring. }
        rewrite <- Pol in U2.
        assert (U3 : dot n f Pf = dot n e1 Pf - dot n e2 Pf) by (unfold f, vsub; rewrite dot_lin; ring).
        assert (U4 : dot (mr H1) (mvec n (me H1) Pf) (mvec n (me H1) Pf) = dot (mr H1) (mvec n (me H1) a1) (mvec n (me H1) Pf) - dot (mr H1) (mvec n (me H1) a2) (mvec n (me H1) Pf)).
        { rewrite (dot_ext (mr H1) _ (mvec n (me H1) Pf) (fun i => 1 * mvec n (me H1) a1 i + (-1) * mvec n (me H1) a2 i) (mvec n (me H1) Pf)); [|intros k _; rewrite <- mvec_lin; apply mvec_ext; intros t _; apply Ea|reflexivity].
          rewrite dot_lin. ring. }
        rewrite U3, U4. unfold Rdiv in *. lra. }
      pose proof (Nn (mr H1) (mvec n (me H1) Pf)) as T1. pose proof (proj2 Psd f) as T2. rewrite qform_dot in T2. fold Pf in T2.
      assert (T3 : qform n (me P) f = 0) by (rewrite qform_dot; fold Pf; lra).
      pose proof (psd_kernel n (me P) f Psd T3 i Hi) as T4. unfold f, vsub in T4. rewrite mvec_lin in T4. lra. }
    split. intros i j Hi Hj. pose proof (Z (fun k => if Nat.eqb k j then 1 else 0) i Hi) as A.
    assert (G : forall a : fmat, mvec n a (fun k => if Nat.eqb k j then 1 else 0) i = a i j).
    { intros a. unfold mvec. rewrite <- (rsum_delta n j (fun k => a i k) Hj). apply rsum_ext. intros k _. destruct (Nat.eqb k j); ring. }
    rewrite !G in A. exact A.
Qed.

(** C91 *)
Theorem update_choice : forall (o1 o2 : voracle R) b exts (fs : list (frame R)) h l1 l2 fl H1 H2 noise (P : mat R),
  valid_norder (vo_nord o1) -> exact_qr o1 -> exact_solver (vo_saes o1) ->
  valid_norder (vo_nord o2) -> exact_qr o2 -> exact_solver (vo_saes o2) ->
  (1 <= b)%Z -> consecutive b fs -> (b + Z.of_nat (length fs) < 4294967296)%Z -> (1 <= length fs)%nat ->
  Permutation l1 l2 -> Forall2 (fun p f => hp_cells h !! p = Some f) l1 fl ->
  List.Forall (usable (length exts) b (length fs)) fl -> List.Forall (locatable (vo_nord o1) b exts fs) fl ->
  measurement o1 exts fs h l1 = Ok (Some H1) -> measurement o2 exts fs h l2 = Ok (Some H2) ->
  let n := err_size (length exts) (length fs - 1) in
  mr P = n -> mc P = n -> fpsd n (me P) -> zero_thr < noise * noise ->
  exists K1 dx1 P1 K2 dx2 P2, kalman (vo_saes o1) noise P H1 = Ok (K1, dx1, P1) /\ kalman (vo_saes o2) noise P H2 = Ok (K2, dx2, P2) /\
    feq n 1 (me dx1) (me dx2) /\ feq n n (me P1) (me P2).
Proof.
  intros o1 o2 b exts fs h l1 l2 fl H1 H2 noise P N1 Q1 S1 N2 Q2 S2 Hb Hc Hl H1' Hp Hh Hu Hlo E1 E2 n Pr Pc Psd Hz.
  assert (Hfl : exists fl2, Permutation fl fl2 /\ Forall2 (fun p f => hp_cells h !! p = Some f) l2 fl2).
  { clear - Hp Hh. revert fl Hh. induction Hp as [|p l l' Hp IH|p q l|l l2 l3 A IHA B IHB]; intros fl Hh.
    - inversion Hh; subst. exists []. split; constructor.
    - inversion Hh as [|? f ? fl' Hf Ht]; subst. destruct (IH fl' Ht) as (g & G1 & G2). exists (f :: g). split; [apply perm_skip; exact G1|constructor; assumption].
    - inversion Hh as [|? f ? fl' Hf Ht]; subst. inversion Ht as [|? g ? fl'' Hg Ht']; subst. exists (g :: f :: fl''). split; [apply perm_swap|repeat constructor; assumption].
    - destruct (IHA fl Hh) as (g & G1 & G2). destruct (IHB g G2) as (g' & G3 & G4). exists g'. split; [transitivity g; assumption|exact G4]. }
  destruct Hfl as (fl2 & Pf & Hh2).
  assert (Hu2 : List.Forall (usable (length exts) b (length fs)) fl2).
  { apply List.Forall_forall. intros f Hf. apply (proj1 (List.Forall_forall _ _) Hu). eapply Permutation_in; [symmetry; exact Pf|exact Hf]. }
  assert (Hlo2 : List.Forall (locatable (vo_nord o2) b exts fs) fl2).
  { apply List.Forall_forall. intros f Hf. apply (locatable_order (vo_nord o1)); [exact N1|exact N2|]. apply (proj1 (List.Forall_forall _ _) Hlo).
    eapply Permutation_in; [symmetry; exact Pf|exact Hf]. }
  destruct (measurement_cost o1 b exts fs h l1 fl H1 N1 Hb Hc Hl H1' Q1 Hh Hu E1) as (M1 & c1 & L1 & A1). specialize (A1 Hlo).
  destruct (measurement_cost o2 b exts fs h l2 fl2 H2 N2 Hb Hc Hl H1' Q2 Hh2 Hu2 E2) as (M2 & c2 & L2 & A2). specialize (A2 Hlo2).
  fold n in M1, L1, A1, M2, L2, A2.
  apply (kalman_same _ _ noise n P H1 H2 (c2 - c1)); try assumption.
  - apply (exact_innovation _ _ n); [exact S1|exact Pr|exact Pc|reflexivity|exact (proj1 Psd)].
  - apply (exact_innovation _ _ n); [exact S2|exact Pr|exact Pc|reflexivity|exact (proj1 Psd)].
  - intros x. destruct (A1 x) as [d1 D1]. destruct (A2 x) as [d2 D2].
    destruct (tracks_cost_perm (vo_nord o1) b exts fs fl fl2 Pf d1) as [d1' D1'].
    destruct (tracks_cost_perm (vo_nord o1) b exts fs fl2 fl (Permutation_sym Pf) d2) as [d2' D2'].
    pose proof (L2 x d1') as B2. rewrite (tracks_cost_nord (vo_nord o1) (vo_nord o2)) in B2 by assumption. rewrite D1' in B2.
    pose proof (L1 x d2') as B1. rewrite D2' in B1. rewrite (tracks_cost_nord (vo_nord o1) (vo_nord o2)) in D2 by assumption. lra.
Qed.
