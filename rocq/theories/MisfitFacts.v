(** The misfit of the estimation problem is the reprojection error of the corrected state, to first order (C95). *)
From Coq Require Import Reals List Arith ZArith Lra Lia.
From Coquelicot Require Import Coquelicot.
From stdpp Require Import gmap.
From Verif Require Import Fp Scalar Base LinAlg MathLib MatFacts Msg FeatureManager FrameManager Window WindowSpec Propagator Triangulate Pnp VisionUpdate
  UpdSpec UpdCovFacts FeatureFacts FrameFacts BackLenFacts MeasFacts QuatFacts KalmanFacts DerivSpec DerivFacts ProcSpec RunSpec CovRunFacts BlindSpec BlindFacts
  BundleSpec InjectSpec InjectFacts MisfitSpec.
Import ListNotations.
Local Open Scope R_scope.

Lemma meas_pc_point : forall e f pw, qunit (fr_q f) -> qunit (ex_q e) -> meas_pc e f pw = cam_point (fr_q f) (fr_p f) (ex_q e) (ex_p e) pw.
Proof.
  intros e f pw Hb He. unfold meas_pc, meas_pb, meas_Rcb, meas_Rbw, cam_point. rewrite !qinv_unit by assumption. rewrite <- !qrot_mat. reflexivity.
Qed.
Lemma far_nz : forall x, zero_thr < Rabs x -> x <> 0.
Proof. intros x H E. rewrite E, Rabs_R0 in H. pose proof zero_thr_pos. lra. Qed.
(** A misfit is the residual less the five blocks. *)
Lemma misfit_blocks : forall exts fs pw k cam z r dp x e f, nth_error exts cam = Some e -> nth_error fs k = Some f ->
  qunit (fr_q f) -> qunit (ex_q e) -> zero_thr < Rabs (v3z (cam_point (fr_q f) (fr_p f) (ex_q e) (ex_p e) pw)) -> (r < 2)%nat ->
  let ne := length exts in let nf := length fs in
  misfit exts fs pw (k, cam, z) r dp x = reproj e f pw z r - (row3 (jac_pw e f pw) r 0 dp + row3 (jac_pwb e f pw) r 0 (part x (col_pos ne nf k - 3)) +
    row3 (jac_Rwb e f pw) r 0 (part x (col_att ne nf k - 3)) + row3 (jac_pbc e f pw) r 0 (part x (col_ext cam - 3)) + row3 (jac_Rbc e f pw) r 0 (part x (col_ext cam))).
Proof.
  intros exts fs pw k cam z r dp x e f Ee Ef Uf Ue Hz Hr ne nf. unfold misfit. fold ne nf. unfold meas_entry. rewrite Ee, Ef.
  rewrite meas_pc_point by assumption.
  assert (Hs : sltb szero (sabs (v3z (cam_point (fr_q f) (fr_p f) (ex_q e) (ex_p e) pw))) = true).
  { apply sltb_R. exact Hz. }
  rewrite Hs. clear Hs.
  assert (Hk : (k < nf)%nat) by (apply nth_error_Some; congruence).
  assert (Hcam : (cam < ne)%nat) by (apply nth_error_Some; congruence).
  set (c1 := (col_pos ne nf k - 3)%nat). set (c2 := (col_att ne nf k - 3)%nat). set (c3 := (15 + 6 * cam)%nat).
  replace (col_ext cam - 3)%nat with c3 by (unfold col_ext, c3; lia). replace (col_ext cam) with (c3 + 3)%nat by (unfold col_ext, c3; lia).
  set (n := err_size ne (nf - 1)).
  assert (C : (col_pos ne nf k = c1 + 3 /\ col_att ne nf k = c2 + 3 /\ (c1 + 3 <= c2 \/ c2 + 3 <= c1) /\ c1 + 3 <= n /\ c2 + 3 <= n /\
    (c1 + 3 <= c3 \/ c3 + 6 <= c1) /\ (c2 + 3 <= c3 \/ c3 + 6 <= c2) /\ c3 + 6 <= n /\ col_res ne nf = n + 3)%nat).
  { unfold c1, c2, c3, n, col_pos, col_att, err_size, col_res. destruct (Nat.eqb_spec k (nf - 1)); lia. }
  destruct C as (C1 & C2 & C3 & C4 & C5 & C6 & C7 & C8 & C9). rewrite C1, C2, C9.
  assert (E0 : rsum 3 (fun k0 => (if in3 0 k0 then me (jac_pw e f pw) r k0
     else if in3 (c1 + 3) k0 then me (jac_pwb e f pw) r (k0 - (c1 + 3))
     else if in3 (c2 + 3) k0 then me (jac_Rwb e f pw) r (k0 - (c2 + 3))
     else if in3 (c3 + 3) k0 then me (jac_pbc e f pw) r (k0 - (c3 + 3))
     else if in3 (c3 + 3 + 3) k0 then me (jac_Rbc e f pw) r (k0 - (c3 + 3 + 3))
     else if (k0 =? n + 3)%nat then (if (r =? 0)%nat then v2x (meas_res e f pw z) else v2y (meas_res e f pw z)) else s0) * v3get dp k0) = row3 (jac_pw e f pw) r 0 dp).
  { rewrite !rsum_S. cbn [ssum]. unfold row3. destruct dp as [a1 a2 a3]. unfold in3. cbn. ring. }
  rewrite E0. clear E0.
  assert (E1 : forall d : nat -> R, rsum n (fun j => (if in3 0 (j + 3) then me (jac_pw e f pw) r (j + 3)
     else if in3 (c1 + 3) (j + 3) then me (jac_pwb e f pw) r (j + 3 - (c1 + 3))
     else if in3 (c2 + 3) (j + 3) then me (jac_Rwb e f pw) r (j + 3 - (c2 + 3))
     else if in3 (c3 + 3) (j + 3) then me (jac_pbc e f pw) r (j + 3 - (c3 + 3))
     else if in3 (c3 + 3 + 3) (j + 3) then me (jac_Rbc e f pw) r (j + 3 - (c3 + 3 + 3))
     else if (j + 3 =? n + 3)%nat then (if (r =? 0)%nat then v2x (meas_res e f pw z) else v2y (meas_res e f pw z)) else s0) * d j) =
     row3 (jac_pwb e f pw) r 0 (part d c1) + row3 (jac_Rwb e f pw) r 0 (part d c2) + row3 (jac_pbc e f pw) r 0 (part d c3) + row3 (jac_Rbc e f pw) r 0 (part d (c3 + 3))).
  { intros d. transitivity (rsum n (fun j => ((if in3 c1 j then me (jac_pwb e f pw) r (j - c1) * d j else 0) +
                     (if in3 c2 j then me (jac_Rwb e f pw) r (j - c2) * d j else 0)) + ((if in3 c3 j then me (jac_pbc e f pw) r (j - c3) * d j else 0) +
                     (if in3 (c3 + 3) j then me (jac_Rbc e f pw) r (j - (c3 + 3)) * d j else 0)))).
    - apply rsum_ext. intros j Hj. destruct (in3_spec 0 (j + 3)); [lia|].
      destruct (in3_spec (c1 + 3) (j + 3)), (in3_spec c1 j); try lia.
      { destruct (in3_spec c2 j), (in3_spec c3 j), (in3_spec (c3 + 3) j); try lia. replace (j + 3 - (c1 + 3))%nat with (j - c1)%nat by lia. ring. }
      destruct (in3_spec (c2 + 3) (j + 3)), (in3_spec c2 j); try lia.
      { destruct (in3_spec c3 j), (in3_spec (c3 + 3) j); try lia. replace (j + 3 - (c2 + 3))%nat with (j - c2)%nat by lia. ring. }
      destruct (in3_spec (c3 + 3) (j + 3)), (in3_spec c3 j); try lia.
      { destruct (in3_spec (c3 + 3) j); try lia. replace (j + 3 - (c3 + 3))%nat with (j - c3)%nat by lia. ring. }
      destruct (in3_spec (c3 + 3 + 3) (j + 3)), (in3_spec (c3 + 3) j); try lia.
      { replace (j + 3 - (c3 + 3 + 3))%nat with (j - (c3 + 3))%nat by lia. ring. }
      destruct (Nat.eqb_spec (j + 3) (n + 3)); [lia|]. cbn. ring.
    - rewrite rsum_plus. rewrite (rsum_plus _ (fun j => if in3 c1 j then _ else _)), (rsum_plus _ (fun j => if in3 c3 j then _ else _)).
      rewrite (rsum_in3 _ c1 (fun j => me (jac_pwb e f pw) r (j - c1) * d j)) by exact C4.
      rewrite (rsum_in3 _ c2 (fun j => me (jac_Rwb e f pw) r (j - c2) * d j)) by exact C5.
      rewrite (rsum_in3 _ c3 (fun j => me (jac_pbc e f pw) r (j - c3) * d j)) by lia.
      rewrite (rsum_in3 _ (c3 + 3) (fun j => me (jac_Rbc e f pw) r (j - (c3 + 3)) * d j)) by lia.
      unfold row3, part. cbn [v3x v3y v3z]. rewrite !Nat.sub_diag.
      assert (Q : forall a : nat, (a + 1 - a = 1)%nat /\ (a + 2 - a = 2)%nat) by (intros a; lia).
      rewrite !(proj1 (Q _)), !(proj2 (Q _)). ring. }
  assert (ER : (if in3 0 (n + 3) then me (jac_pw e f pw) r (n + 3)
     else if in3 (c1 + 3) (n + 3) then me (jac_pwb e f pw) r (n + 3 - (c1 + 3))
     else if in3 (c2 + 3) (n + 3) then me (jac_Rwb e f pw) r (n + 3 - (c2 + 3))
     else if in3 (c3 + 3) (n + 3) then me (jac_pbc e f pw) r (n + 3 - (c3 + 3))
     else if in3 (c3 + 3 + 3) (n + 3) then me (jac_Rbc e f pw) r (n + 3 - (c3 + 3 + 3))
     else if (n + 3 =? n + 3)%nat then (if (r =? 0)%nat then v2x (meas_res e f pw z) else v2y (meas_res e f pw z)) else s0) = reproj e f pw z r).
  { destruct (in3_spec 0 (n + 3)); [lia|]. destruct (in3_spec (c1 + 3) (n + 3)); [lia|]. destruct (in3_spec (c2 + 3) (n + 3)); [lia|].
    destruct (in3_spec (c3 + 3) (n + 3)); [lia|]. destruct (in3_spec (c3 + 3 + 3) (n + 3)); [lia|]. rewrite Nat.eqb_refl.
    unfold meas_res, reproj. rewrite meas_pc_point by assumption. cbv zeta. destruct r as [|[|]]; [| |lia]; cbn [Nat.eqb]; destruct z; cbn; reflexivity. }
  rewrite ER. etransitivity; [apply f_equal; apply (E1 x)|]. ring.
Qed.

(** Along the line of corrections. *)
Lemma reproj_line : forall exts fs pw k cam z r dp (dx : mat R) e f, nth_error exts cam = Some e -> nth_error fs k = Some f ->
  qunit (fr_q f) -> qunit (ex_q e) -> zero_thr < Rabs (v3z (cam_point (fr_q f) (fr_p f) (ex_q e) (ex_p e) pw)) -> (r < 2)%nat ->
  let ne := length exts in let nf := length fs in
  let x j := me dx j 0%nat in
  let et t := Extrinsic (turned (ex_q e) (v3scale (part x (col_ext cam)) t)) (v3add (ex_p e) (v3scale (part x (col_ext cam - 3)) t)) in
  let ft t := with_pose f (turned (fr_q f) (v3scale (part x (col_att ne nf k - 3)) t)) (v3add (fr_p f) (v3scale (part x (col_pos ne nf k - 3)) t)) (fr_v f) in
  is_derive (fun t => reproj (et t) (ft t) (v3add pw (v3scale dp t)) z r) 0 (misfit exts fs pw (k, cam, z) r dp x - reproj e f pw z r).
Proof.
  intros exts fs pw k cam z r dp dx e f Ee Ef Uf Ue Hz Hr ne nf x et ft.
  destruct (measurement_jacobian e f pw (part x (col_att ne nf k - 3)) (part x (col_pos ne nf k - 3)) (part x (col_ext cam)) (part x (col_ext cam - 3)) dp Uf Ue (far_nz _ Hz)) as [A B].
  rewrite (misfit_blocks exts fs pw k cam z r dp x e f Ee Ef Uf Ue Hz Hr). fold ne nf.
  unfold reproj at 1. unfold et, ft. cbn [fr_q fr_p ex_q ex_p with_pose].
  match goal with |- is_derive _ _ (?a - ?b - ?a) => replace (a - b - a) with (0 - b) by ring end.
  destruct r as [|[|]]; [| |lia].
  - apply (is_derive_minus (V := R_NormedModule) (fun _ => v2x z) _ 0 0 _); [apply (is_derive_const (V := R_NormedModule))|exact A].
  - apply (is_derive_minus (V := R_NormedModule) (fun _ => v2y z) _ 0 0 _); [apply (is_derive_const (V := R_NormedModule))|exact B].
Qed.

(** C95 *)
Theorem misfit_is_linearization : forall (s : vstate R) (st : R -> vstate R) dx, newest_is_head s -> all_unit s ->
  (forall t, corrected (scaled t dx) s (st t)) ->
  forall k cam e f pw z r dp, nth_error (vs_ext s) cam = Some e -> nth_error (wn_frames (vs_win s)) k = Some f ->
  zero_thr < Rabs (v3z (cam_point (fr_q f) (fr_p f) (ex_q e) (ex_p e) pw)) -> (r < 2)%nat ->
  let left t := reproj_in (st t) k cam (v3add pw (v3scale dp t)) z r in
  let lin t := misfit (vs_ext s) (wn_frames (vs_win s)) pw (k, cam, z) r (v3scale dp t) (fun j => t * me dx j 0%nat) in
  left 0 = reproj e f pw z r /\ lin 0 = left 0 /\ (forall t, lin t = left 0 + t * (lin 1 - left 0)) /\ is_derive left 0 (lin 1 - left 0).
Proof.
  intros s st dx (it & rr & fn & Hi & Hfn & N1 & N2 & N3) (U1 & U2 & _) Hst k cam e f pw z r dp Ee Ef Hz Hr left lin.
  assert (Ue : qunit (ex_q e)) by (apply (proj1 (List.Forall_forall _ _) U1); eapply nth_error_In; exact Ee).
  assert (Uf : qunit (fr_q f)) by (apply (proj1 (List.Forall_forall _ _) U2); eapply nth_error_In; exact Ef).
  set (exts := vs_ext s) in *. set (fs := wn_frames (vs_win s)) in *.
  assert (Three : forall t i, three (scaled t dx) i = v3scale (part (fun j => me dx j 0%nat) i) t).
  { intros t i. unfold three, scaled, part, v3scale. cbn [me v3x v3y v3z]. cbn. f_equal; ring. }
  assert (L : forall t, left t = reproj (Extrinsic (turned (ex_q e) (v3scale (part (fun j => me dx j 0%nat) (col_ext cam)) t)) (v3add (ex_p e) (v3scale (part (fun j => me dx j 0%nat) (col_ext cam - 3)) t)))
     (with_pose f (turned (fr_q f) (v3scale (part (fun j => me dx j 0%nat) (col_att (length exts) (length fs) k - 3)) t)) (v3add (fr_p f) (v3scale (part (fun j => me dx j 0%nat) (col_pos (length exts) (length fs) k - 3)) t)) (fr_v f))
     (v3add pw (v3scale dp t)) z r).
  { intros t. destruct (Hst t) as (it' & r' & Hi' & _ & _ & X1 & _ & _ & _ & X2). rewrite Hi in Hi'. injection Hi' as <- <-.
    unfold left, reproj_in. rewrite (X1 cam e Ee), (X2 k f Ef). rewrite !Three. fold exts fs. unfold reproj. cbn [fr_q fr_p ex_q ex_p with_pose].
    destruct (Nat.eqb_spec k (length fs - 1)) as [->|]; [|reflexivity].
    assert (fn = f) by congruence. subst fn. rewrite N1, N2. reflexivity. }
  assert (L0 : left 0 = reproj e f pw z r).
  { rewrite L. unfold reproj. cbn [fr_q fr_p ex_q ex_p with_pose]. rewrite !v3_at0, <- !turned_correct, !q_correct_0 by assumption. reflexivity. }
  assert (B : forall t, lin t = reproj e f pw z r + t * (lin 1 - reproj e f pw z r)).
  { intros t. unfold lin. rewrite !(misfit_blocks exts fs pw k cam z r _ _ e f Ee Ef Uf Ue Hz Hr).
    unfold row3, part, v3scale. cbn [v3x v3y v3z]. cbn. ring. }
  split; [exact L0|]. split; [rewrite L0, B; ring|]. split; [intros t; rewrite L0; apply B|]. rewrite L0.
  apply (is_derive_ext (K := R_AbsRing) (V := R_NormedModule) _ _ _ _ (fun t => eq_sym (L t))).
  replace (lin 1) with (misfit exts fs pw (k, cam, z) r dp (fun j => me dx j 0%nat)).
  - exact (reproj_line exts fs pw k cam z r dp dx e f Ee Ef Uf Ue Hz Hr).
  - unfold lin. rewrite !(misfit_blocks exts fs pw k cam z r _ _ e f Ee Ef Uf Ue Hz Hr).
    unfold row3, part, v3scale. cbn [v3x v3y v3z]. cbn. ring.
Qed.
