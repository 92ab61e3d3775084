(** Concrete inputs for C40, C43-C50, C65 and C71. *)
From Coq Require Import ZArith Reals Lra Lia Arith Bool List.
From stdpp Require Import gmap.
From Verif Require Import Fp Scalar Base LinAlg Msg FeatureManager FrameManager Window WindowSpec MathLib Propagator Triangulate Pnp
  VisionUpdate MatFacts QuatFacts UpdSpec UpdCovFacts KalmanFacts MeasFacts SelectFacts MotionFacts UnitFacts DerivSpec InjectSpec InjectFacts.
Import ListNotations.
Local Open Scope nat_scope.

(** ** Covariances *)
(** Identity covariance: two cameras, one cloned pose. *)
Definition eye (n : nat) : mat R := Mat n n (fun i j => if Nat.eqb i j then 1%R else 0%R).
Lemma eye_cov : forall ne nc, mr (eye (err_size ne nc)) = err_size ne nc /\ mc (eye (err_size ne nc)) = err_size ne nc /\
  fsym (err_size ne nc) (me (eye (err_size ne nc))) /\ fpsd (err_size ne nc) (me (eye (err_size ne nc))).
Proof.
  intros ne nc. assert (H : fpsd (err_size ne nc) (me (eye (err_size ne nc)))) by apply fpsd_id.
  split; [reflexivity|]. split; [reflexivity|]. split; [apply H|exact H].
Qed.
(** What the clone of the identity looks like: the new pose is fully correlated with the IMU pose. *)
Lemma eye_clone : forall junk, exists P', expand_cov junk 2 2 (eye (err_size 2 1)) = Ok P' /\
  me P' 33 0 = 1%R /\ me P' 33 33 = 1%R /\ me P' 36 6 = 1%R /\ me P' 33 6 = 0%R /\ me P' 0 33 = 1%R.
Proof.
  intros junk. destruct (eye_cov 2 1) as (A & B & C & _).
  destruct (expand_clones junk 2 2 (eye (err_size 2 1)) ltac:(lia) A B C) as (P' & E & _ & _ & H & _).
  exists P'. split; [exact E|]. repeat split; (rewrite H by (unfold err_size; lia); reflexivity).
Qed.
(** Diagonal 0, 1, 2, ...: with the oldest of three frames dropped, the middle one takes its place. *)
Definition count_cov (n : nat) : mat R := Mat n n (fun i j => if Nat.eqb i j then INR i else 0%R).
Lemma count_cov_psd : forall n, fsym n (me (count_cov n)) /\ fpsd n (me (count_cov n)).
Proof. intros n. assert (H : fpsd n (me (count_cov n))) by (apply (fpsd_diag n INR); intros; apply pos_INR). split; [apply H|exact H]. Qed.
Lemma count_reduce : forall junk, exists P', reduce_cov junk MargOldest 1 3 (count_cov (err_size 1 3)) = Ok P' /\
  mr P' = err_size 1 2 /\ me P' 20 20 = INR 20 /\ me P' 21 21 = INR 27 /\ me P' 32 32 = INR 38.
Proof.
  intros junk. destruct (reduce_keeps junk MargOldest 1 3 (count_cov (err_size 1 3)) ltac:(lia) eq_refl eq_refl (proj1 (count_cov_psd _)))
    as (P' & E & A & _ & H & _).
  exists P'. split; [exact E|]. split; [exact A|]. repeat split; (rewrite H by (vm_compute; lia); reflexivity).
Qed.

(** ** Kalman update: two states, one measurement of their sum *)
Definition k_P : mat R := eye 2.
Definition k_Hr : mat R := Mat 1 3 (fun _ j => match j with 2 => 5%R | _ => 1%R end).
Definition k_saes (a : mat R) : eigen_dec R := EigenDec (fun _ => me a 0 0) (eye 1).
Lemma k_exact : solver_exact k_saes 1%R k_P (get_block k_Hr 0 0 1 2).
Proof.
  intros sm H. cbv [innovation mmulc mmul mr mc mtr obind get_block k_P k_Hr eye Nat.eqb] in H. injection H as <-.
  split; [reflexivity|]. split; [reflexivity|]. split; [split|].
  - constructor. intros i j Hi Hj. cbn [mr add_diag] in Hi, Hj. assert (i = 0) by lia. assert (j = 0) by lia. subst. unfold fmul, ftr, fid, rsum. cbn. ring.
  - constructor. intros i j Hi Hj. cbn [mr add_diag] in Hi, Hj. assert (i = 0) by lia. assert (j = 0) by lia. subst. unfold fmul, ftr, fid, rsum. cbn. ring.
  - constructor. intros i j Hi Hj. cbn [mr add_diag] in Hi, Hj. assert (i = 0) by lia. assert (j = 0) by lia. subst. unfold fmul, ftr, fdiag, rsum. cbn. ring.
Qed.
Lemma zero_thr_val : (zero_thr * 144115188075855872 = 14411519)%R.
Proof.
  unfold zero_thr, szero. cbn [sof32 ops_R]. rewrite <- Flocq.IEEE754.BinarySingleNaN.SF2R_B2SF.
    let y := eval vm_compute in (Flocq.IEEE754.BinarySingleNaN.B2SF (f32_lit 0xdbe6ff (-57))) in
    replace (Flocq.IEEE754.BinarySingleNaN.B2SF (f32_lit 0xdbe6ff (-57))) with y by (vm_compute; reflexivity).
    unfold Flocq.IEEE754.BinarySingleNaN.SF2R, Flocq.Core.Defs.F2R. cbn [Flocq.Core.Zaux.cond_Zopp Flocq.Core.Defs.Fnum Flocq.Core.Defs.Fexp Flocq.Core.Raux.bpow]. change (Z.pow_pos _ 57) with 144115188075855872%Z. lra.
Qed.
Lemma zero_thr_small : (zero_thr < 1)%R.
Proof. pose proof zero_thr_val. lra. Qed.
Lemma k_hyp : mr k_P = 2 /\ mc k_P = 2 /\ mc k_Hr = 2 + 1 /\ fpsd 2 (me k_P) /\ solver_exact k_saes 1%R k_P (get_block k_Hr 0 0 1 2) /\
  (zero_thr < 1 * 1)%R.
Proof.
  split; [reflexivity|]. split; [reflexivity|]. split; [reflexivity|]. split; [apply fpsd_id|]. split; [exact k_exact|].
  pose proof zero_thr_small. lra.
Qed.

(** ** Compression: three measurements (3, 4, 0) of one state, with residuals 1, 2, 3 *)
Definition c_Q : nat -> nat -> R := fun i j => match i, j with
  | 0, 0 => 3 / 5 | 0, 1 => - 4 / 5 | 1, 0 => 4 / 5 | 1, 1 => 3 / 5 | 2, 2 => 1 | _, _ => 0 end%R.
Definition c_Hr : mat R := Mat 3 2 (fun i j => match i, j with
  | 0, 0 => 3 | 1, 0 => 4 | 0, 1 => 1 | 1, 1 => 2 | 2, 1 => 3 | _, _ => 0 end%R).
Definition c_saes (a : mat R) : eigen_dec R :=
  if Nat.eqb (mr a) 3 then EigenDec (fun i => match i with 0 => 26 | _ => 1 end%R) (Mat 3 3 c_Q)
  else EigenDec (fun _ => 26%R) (eye 1).
Definition c_o : voracle R := VOracle map_to_list (fun o => map_to_list o) (fun _ _ => 0%R) (fun _ => c_Q) c_saes (fun _ _ => 7%R) (fun _ => 0%Z).
Lemma below3 : forall i, i < 3 -> i = 0 \/ i = 1 \/ i = 2.
Proof. lia. Qed.
Lemma c_orth : orth 3 c_Q.
Proof.
  split; constructor; intros i j Hi Hj; apply below3 in Hi, Hj; destruct Hi as [-> | [-> | ->]], Hj as [-> | [-> | ->]];
    unfold fmul, ftr, fid, rsum; cbn; field.
Qed.
Lemma c_hyp : mr (eye 1) = 1 /\ mc (eye 1) = 1 /\ mc c_Hr = 1 + 1 /\
  qr_of (mr c_Hr) 1 (me c_Hr) (vo_qr c_o (get_block c_Hr 0 0 (mr c_Hr) 1)) /\
  solver_exact (vo_saes c_o) 1%R (eye 1) (get_block c_Hr 0 0 (mr c_Hr) 1) /\
  exists Hc, compress c_o c_Hr = Ok Hc /\ mr Hc = 1 /\ me Hc 0 0 = 5%R /\ solver_exact (vo_saes c_o) 1%R (eye 1) (get_block Hc 0 0 (mr Hc) 1).
Proof.
  split; [reflexivity|]. split; [reflexivity|]. split; [reflexivity|]. split; [|split].
  - split; [exact c_orth|]. intros i j Hi Hj Hij. cbn [mr c_Hr] in Hi. assert (j = 0) by lia. subst j.
    apply below3 in Hi. destruct Hi as [-> | [-> | ->]]; [lia| |]; unfold fmul, ftr; cbn; field.
  - intros sm H. cbv [innovation mmulc mmul mr mc mtr obind get_block c_Hr eye Nat.eqb] in H. injection H as <-.
    split; [reflexivity|]. split; [reflexivity|]. split; [exact c_orth|].
    constructor. intros i j Hi Hj. change (i < 3) in Hi. change (j < 3) in Hj. apply below3 in Hi, Hj.
    destruct Hi as [-> | [-> | ->]], Hj as [-> | [-> | ->]]; unfold fmul, ftr, fdiag; cbn; field.
  - eexists. split; [reflexivity|]. split; [reflexivity|]. split; [cbn; field|].
    intros sm H. cbv [innovation mmulc mr mc mtr obind get_block eye Nat.eqb mmul cresize qr_apply c_Hr Nat.sub Nat.ltb Nat.leb andb me] in H. injection H as <-.
    split; [reflexivity|]. split; [reflexivity|]. split; [split|]; constructor; intros i j Hi Hj; change (i < 1) in Hi; change (j < 1) in Hj;
      (assert (i = 0) by lia); (assert (j = 0) by lia); subst; unfold fmul, ftr, fdiag, fid; cbn; field.
Qed.

(** ** Symmetric inverse: eigenvalues 26, 1, 1 and 26, 0, 0 *)
Definition i_mat (x : R) : mat R := Mat 3 3 (fun i j => match i, j with
  | 0, 0 => (9 * 26 + 16 * x) / 25 | 0, 1 | 1, 0 => 12 * (26 - x) / 25 | 1, 1 => (16 * 26 + 9 * x) / 25 | 2, 2 => x | _, _ => 0 end%R).
Definition i_saes (x : R) (a : mat R) : eigen_dec R := EigenDec (fun i => match i with 0 => 26%R | _ => x end) (Mat 3 3 c_Q).
Lemma i_hyp : forall x, mr (ed_vec (i_saes x (i_mat x))) = mr (i_mat x) /\ mc (ed_vec (i_saes x (i_mat x))) = mr (i_mat x) /\
  eigen_of (mr (i_mat x)) (me (i_mat x)) (me (ed_vec (i_saes x (i_mat x)))) (ed_val (i_saes x (i_mat x))).
Proof.
  intros x. split; [reflexivity|]. split; [reflexivity|]. split; [exact c_orth|].
  constructor. intros i j Hi Hj. change (i < 3) in Hi. change (j < 3) in Hj. apply below3 in Hi, Hj.
  destruct Hi as [-> | [-> | ->]], Hj as [-> | [-> | ->]]; unfold fmul, ftr, fdiag; cbn; field.
Qed.

(** ** Layout: two cameras, three frames, a track over the two newest *)
Definition l_exts : list (extrinsic unit) := [Extrinsic (Quat tt tt tt tt) (V3 tt tt tt); Extrinsic (Quat tt tt tt tt) (V3 tt tt tt)].
Definition l_frame (i : Z) : frame unit := Frame ∅ (Quat tt tt tt tt) (V3 tt tt tt) (V3 tt tt tt) i (f64_lit 0 0).
Definition l_fs : list (frame unit) := [l_frame 4; l_frame 5; l_frame 6].
Definition l_ob (l : list (Z * v2 unit)) : observe unit := list_to_map l.
Definition l_f : feature unit :=
  Feature 9 5 [l_ob [(0%Z, V2 tt tt); (1%Z, V2 tt tt)]; l_ob [(1%Z, V2 tt tt)]] 3 (V3 tt tt tt) FSolved.
Definition l_o : voracle unit :=
  VOracle map_to_list (fun o => map_to_list o) (fun _ _ => tt) (fun _ _ _ => tt) (fun _ => EigenDec (fun _ => tt) (Mat 0 0 (fun _ _ => tt)))
    (fun _ _ => tt) (fun i => Z.of_nat i).
Lemma l_hyp : valid_norder (vo_nord l_o) /\ consecutive 4 l_fs /\ ft_first l_f = (4 + Z.of_nat 1)%Z /\
  1 + length (ft_obs l_f) <= length l_fs /\ ft_num l_f = total_obs (ft_obs l_f) /\
  Forall (fun o : observe unit => forall c z, o !! c = Some z -> (0 <= c < Z.of_nat (length l_exts))%Z) (ft_obs l_f).
Proof.
  split; [intros o; reflexivity|]. split; [|split; [reflexivity|split; [cbn; lia|split; [reflexivity|]]]].
  - intros i f H. destruct i as [|[|[|i]]]; [injection H as <-; reflexivity..|]. destruct i; discriminate.
  - assert (G : forall l : list (Z * v2 unit), Forall (fun cz => 0 <= fst cz < 2)%Z l -> forall c z, l_ob l !! c = Some z -> (0 <= c < 2)%Z).
    { intros l Hl c z H. unfold l_ob in H. apply (elem_of_list_to_map_2 (M := gmap Z) l c z) in H. rewrite List.Forall_forall in Hl. apply (Hl (c, z)). apply elem_of_list_In. exact H. }
    constructor; [apply G; repeat constructor; cbn; lia|]. constructor; [apply G; repeat constructor; cbn; lia|]. constructor.
Qed.

(** ** Null space: one camera, two frames at the origin and at (-1, 0, 1/12), point (0, 0, 1/3) *)
Definition n_e : extrinsic R := Extrinsic qid v3zero.
Definition n_f0 : frame R := Frame ∅ qid (V3 0 0 0)%R v3zero 1 (f64_lit 0 0).
Definition n_f1 : frame R := Frame ∅ qid (V3 (-1) 0 (1 / 12))%R v3zero 2 (f64_lit 0 0).
Definition n_ob : observe R := {[0%Z := V2 0%R 0%R]}.
Definition n_f : feature R := Feature 9 1 [n_ob; n_ob] 2 (V3 0 0 (1 / 3))%R FSolved.
Definition n_Q : nat -> nat -> R := fun i j => match i, j with
  | 0, 0 => 3 / 5 | 2, 0 => 4 / 5 | 1, 1 => 3 / 5 | 3, 1 => 4 / 5 | 0, 2 => - 4 / 5 | 2, 2 => 3 / 5 | 1, 3 => - 4 / 5 | 3, 3 => 3 / 5
  | _, _ => 0 end%R.
Definition n_o : voracle R := VOracle map_to_list (fun o => map_to_list o) (fun _ _ => 0%R) (fun _ => n_Q) c_saes (fun _ _ => 7%R) (fun _ => 0%Z).
Lemma below4 : forall i, i < 4 -> i = 0 \/ i = 1 \/ i = 2 \/ i = 3.
Proof. lia. Qed.
Lemma n_orth : orth 4 n_Q.
Proof.
  split; constructor; intros i j Hi Hj; apply below4 in Hi, Hj; destruct Hi as [-> | [-> | [-> | ->]]], Hj as [-> | [-> | [-> | ->]]];
    unfold fmul, ftr, fid, rsum; cbn; field.
Qed.
Lemma n_c0 : meas_pc n_e n_f0 (ft_pw n_f) = (V3 0 0 (1 / 3))%R.
Proof. unfold meas_pc, meas_pb, meas_Rcb, meas_Rbw. cbn [ex_q n_e fr_q n_f0]. rewrite !qinv_unit by apply qid_unit. unfold n_e, n_f0, n_f. cbn [ex_p fr_p ft_pw]. vunf. apply v3_ext; rops; field. Qed.
Lemma n_c1 : meas_pc n_e n_f1 (ft_pw n_f) = (V3 1 0 (1 / 4))%R.
Proof. unfold meas_pc, meas_pb, meas_Rcb, meas_Rbw. cbn [ex_q n_e fr_q n_f1]. rewrite !qinv_unit by apply qid_unit. unfold n_e, n_f1, n_f. cbn [ex_p fr_p ft_pw]. vunf. apply v3_ext; rops; field. Qed.

Lemma n_hyp : exists H, write_track (vo_nord n_o) [n_e] [n_f0; n_f1] (ft_first n_f) (ft_pw n_f) 0 (ft_obs n_f) 0
    (mzero (rows_of n_f) (hx_cols 1 2 + 4)) = Ok (Some (H, rows_of n_f)) /\
  mr H = rows_of n_f /\ mc H = hx_cols 1 2 + 4 /\ 3 <= rows_of n_f /\
  qr_of (mr H) 3 (me H) (vo_qr n_o (get_block H 0 0 (mr H) 3)) /\ me H 2 2 = (- 16)%R.
Proof.
  destruct (measurement_layout n_o 1 [n_e] [n_f0; n_f1] n_f 0) as (_ & _ & H & E & Sr & Sc & Ent); try (reflexivity || (cbn; lia)).
  { intros o. reflexivity. }
  { intros i f Hi. destruct i as [|[|i]]; [injection Hi as <-; reflexivity..|]. destruct i; discriminate. }
  { assert (G : forall c z, n_ob !! c = Some z -> (0 <= c < Z.of_nat (length [n_e]))%Z).
    { intros c z Hc. unfold n_ob in Hc. apply (lookup_singleton_Some (M := gmap Z) 0%Z c (V2 0%R 0%R) z) in Hc as [<- _]. cbn. lia. }
    constructor; [exact G|]. constructor; [exact G|]. constructor. }
  exists H. split; [exact E|]. split; [exact Sr|]. split; [rewrite Sc; reflexivity|]. split; [vm_compute; lia|].
  pose proof zero_thr_small as Hz. unfold zero_thr in Hz.
  assert (Hz2 : (szero (T := R) < 1 / 10)%R).
  { assert (E2 : (zero_thr * 144115188075855872 = 14411519)%R) by exact zero_thr_val. unfold zero_thr in E2. lra. }
  assert (J : forall i j, i < 4 -> j < 3 -> me H i j = match i, j with
    | 0, 0 => 3 | 1, 1 => 3 | 2, 0 => 4 | 2, 2 => -16 | 3, 1 => 4 | _, _ => 0 end%R).
  { intros i j Hi Hj. destruct (Ent i j) as (m & Em & Ee); [exact Hi|unfold col_res; cbn; lia|]. rewrite Ee. clear Ee Ent E.
    apply below4 in Hi. apply below3 in Hj.
    assert (G : forall f c, meas_pc n_e f (ft_pw n_f) = c -> fr_q f = qid -> (1 / 10 < v3z c)%R -> forall r z k, nth_error [n_f0; n_f1] k = Some f -> r < 2 ->
      meas_entry 1 2 [n_e] [n_f0; n_f1] (ft_pw n_f) (k, 0, z) r j =
      match r, j with 0, 0 | 1, 1 => / v3z c | 0, 2 => - v3x c / (v3z c * v3z c) | 1, 2 => - v3y c / (v3z c * v3z c) | _, _ => 0 end%R).
    { intros f c Ec Eq Hc r z k Ek Hr. unfold meas_entry. rewrite Ek. cbn [nth_error]. rewrite Ec.
      replace (sltb szero (sabs (v3z c))) with true.
      2:{ symmetry. apply sltb_R. cbn [sabs ops_R]. rewrite Rabs_pos_eq by lra. lra. }
      unfold jac_pw. rewrite Ec. unfold meas_Rcb, meas_Rbw. rewrite Eq. cbn [ex_q n_e]. rewrite !qinv_unit by apply qid_unit.
      assert (H0 : (v3z c <> 0)%R) by lra. clear - H0 Hj Hr. destruct c as [x y z0]. cbn [v3x v3y v3z] in *.
      destruct Hj as [-> | [-> | ->]]; (destruct r as [|[|r]]; [| |lia]); unfold in3; cbn; field; exact H0. }
    change (nth_error [(0, 0, V2 0%R 0%R); (1, 0, V2 0%R 0%R)] (i / 2) = Some m) in Em.
    destruct Hi as [-> | [-> | [-> | ->]]]; cbn in Em; injection Em as <-;
      [rewrite (G _ _ n_c0 eq_refl ltac:(cbn; lra) (0 mod 2) _ 0 eq_refl ltac:(cbn; lia))|
       rewrite (G _ _ n_c0 eq_refl ltac:(cbn; lra) (1 mod 2) _ 0 eq_refl ltac:(cbn; lia))|
       rewrite (G _ _ n_c1 eq_refl ltac:(cbn; lra) (2 mod 2) _ 1 eq_refl ltac:(cbn; lia))|
       rewrite (G _ _ n_c1 eq_refl ltac:(cbn; lra) (3 mod 2) _ 1 eq_refl ltac:(cbn; lia))];
      destruct Hj as [-> | [-> | ->]]; cbn; field. }
  split.
  - split; [rewrite Sr; exact n_orth|]. rewrite Sr. intros i j Hi Hj Hij. change (i < 4) in Hi. unfold fmul, ftr. cbn [ssum].
    change (rows_of n_f) with 4. unfold ssum. cbn [vo_qr n_o].
    cbn. rewrite !J by lia. apply below4 in Hi. apply below3 in Hj.
    destruct Hi as [-> | [-> | [-> | ->]]], Hj as [-> | [-> | ->]]; try lia; cbn; field.
  - rewrite J by lia. reflexivity.
Qed.

(** ** Selection: feature 1 seen twice and solved, feature 2 seen once *)
Definition g_ops : SOps unit := ops_unit false.
Definition g_ob : observe unit := l_ob [(0%Z, V2 tt tt)].
Definition g_frame (i : Z) (m : gmap Z nat) : frame unit := Frame m (Quat tt tt tt tt) (V3 tt tt tt) (V3 tt tt tt) i (f64_lit 0 0).
Definition g_links : gmap Z nat := list_to_map [(1%Z, 0); (2%Z, 1); (3%Z, 2)].
Definition g_fs : list (frame unit) := [g_frame 4 ∅; g_frame 5 g_links].
Definition g_heap : heap unit := Heap 3 (list_to_map
  [(0, Feature 1 4 [g_ob; g_ob] 2 (V3 tt tt tt) FUnsolved); (1, Feature 2 5 [g_ob] 1 (V3 tt tt tt) FUnsolved);
   (2, Feature 3 4 [g_ob; g_ob] 2 (V3 tt tt tt) FSolved)]).
Definition g_c : vcfg unit := VCfg tt 5 10 10 tt (V3 tt tt tt).
Lemma g_hyp : valid_order (vo_ord l_o) /\ back g_fs = Ok (g_frame 5 g_links) /\
  (forall i j p, fr_feats (g_frame 5 g_links) !! i = Some p -> fr_feats (g_frame 5 g_links) !! j = Some p -> i = j) /\
  exists h', select_good (S := g_ops) l_o g_c l_exts g_fs g_heap = Ok (h', [2; 0]).
Proof.
  split; [intros m; reflexivity|]. split; [reflexivity|]. split.
  - cbn [fr_feats g_frame]. intros i j p Hi Hj.
    apply (elem_of_list_to_map_2 (M := gmap Z) [(1%Z, 0); (2%Z, 1); (3%Z, 2)] i p) in Hi.
    apply (elem_of_list_to_map_2 (M := gmap Z) [(1%Z, 0); (2%Z, 1); (3%Z, 2)] j p) in Hj.
    apply elem_of_list_In in Hi, Hj. cbn [In] in Hi, Hj.
    destruct Hi as [Hi|[Hi|[Hi|[]]]], Hj as [Hj|[Hj|[Hj|[]]]]; congruence.
  - eexists. vm_compute. reflexivity.
Qed.

(** ** A correction of everything: half a turn about z for the IMU, the frame and the camera *)
Definition u_dx : mat R := Mat 27 1 (fun i _ => match i with 8 => 2 | 20 => 2 | 26 => 2 | _ => 1 end%R).
Definition u_item : pitem R := PItem (Motion v3zero v3zero qid) (eye 15) (Mat 15 12 (fun _ _ => 0%R)) v3zero v3zero (f64_lit 1 0).
Definition u_pq : pqueue R := PQueue [u_item] (eye 12) v3zero v3zero (Motion v3zero v3zero qid) F_reset G_reset (noise_Q 1%R 1%R 1%R 1%R).
Definition u_frame (i : Z) : frame R := Frame ∅ qid v3zero v3zero i (f64_lit 1 0).
Definition u_s : vstate R := VState (Window (Heap 0 ∅) ∅ [u_frame 1; u_frame 2]) [n_e] u_pq.
Definition u_c : vcfg R := VCfg 1%R 5 10 10 1%R v3zero.
Lemma u_unit : all_unit u_s.
Proof.
  assert (E : qnorm2 (T := R) qid = 1%R) by apply qid_unit. split; [repeat constructor; exact E|].
  split; [constructor; [exact E|constructor; [exact E|constructor]]|]. split; [exact E|constructor; [exact E|constructor]].
Qed.
Lemma u_alone : newest_alone (wn_frames (vs_win u_s)).
Proof. intros i f g. cbn. intros Hi Hg Hid. injection Hg as <-. destruct i as [|[|i]]; [injection Hi as <-; discriminate|reflexivity|destruct i; discriminate]. Qed.
Lemma u_apply : exists s', apply_delta u_dx u_s = Ok s' /\ length (wn_frames (vs_win s')) = 2 /\ vs_ext s' <> vs_ext u_s.
Proof.
  eexists. split; [reflexivity|]. split; [reflexivity|]. intros E. injection E as _ Hx _ _. revert Hx. cbn. lra.
Qed.
Lemma u_update : exists s', vision_update n_o u_c u_s (f64_lit 1 0) (f64_lit 1 (-6)) = Ok (s', true, NoMarg).
Proof. eexists. reflexivity. Qed.

(** ** Jacobians: half a turn about x for the body, identity for the camera, a point two units ahead *)
Definition j_q : quat R := (Quat 0 1 0 0)%R.
Definition j_e : extrinsic R := Extrinsic qid v3zero.
Definition j_f : frame R := Frame ∅ j_q (V3 1 0 0)%R v3zero 1 (f64_lit 0 0).
Definition j_pw : v3 R := (V3 2 1 (-2))%R.
Lemma j_hyp : qunit (fr_q j_f) /\ qunit (ex_q j_e) /\ cam_point (fr_q j_f) (fr_p j_f) (ex_q j_e) (ex_p j_e) j_pw = (V3 1 (-1) 2)%R /\
  me (jac_Rwb j_e j_f j_pw) 0 1 <> 0%R.
Proof.
  assert (A : qunit j_q) by (unfold qunit, qnorm2, j_q; rops; ring). assert (B : qunit (@qid R _)) by apply qid_unit.
  split; [exact A|]. split; [exact B|]. split.
  - unfold cam_point, j_e, j_f, j_pw, j_q. cbn [fr_q fr_p ex_q ex_p]. vunf. apply v3_ext; rops; field.
  - unfold jac_Rwb, meas_pc, meas_pb, meas_Rcb, meas_Rbw. cbn [fr_q fr_p ex_q ex_p j_e j_f]. rewrite !qinv_unit by assumption. vunf. cbn. unfold j_q, j_pw. cbn. rops. intros E. field_simplify in E. lra.
Qed.
Lemma j_pnp : qunit j_q /\ v3z (qrot (qconj j_q) (v3sub j_pw (V3 1 0 0)%R)) = 2%R.
Proof. split; [unfold qunit, qnorm2, j_q; rops; ring|]. unfold j_q, j_pw. vunf. rops. field. Qed.
Lemma j_tri : v3z (v3add (qrot j_q (V3 1 1 1)%R) (v3scale (V3 0 0 5)%R 1%R)) = 4%R.
Proof. unfold j_q. vunf. rops. field. Qed.

(** ** Marginalization of a window of three linked-free frames *)
Lemma u_queue : unit_queue u_pq /\ qunit (mo_q (pi_mo u_item)).
Proof. assert (E : qnorm2 (T := R) qid = 1%R) by apply qid_unit. split; [split; [exact E|constructor; [exact E|constructor]]|exact E]. Qed.
Definition m_win : window unit := Window (Heap 0 ∅) ∅ [g_frame 4 ∅; g_frame 5 ∅; g_frame 6 ∅].
Lemma m_hyp : exists w', marginalize map_to_list m_win MargSubnew = Ok w' /\ length (wn_frames w') = 2.
Proof. eexists. split; vm_compute; reflexivity. Qed.
