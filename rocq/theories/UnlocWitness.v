(** A point that its views do not determine: the update depends on the orthogonal factor (C91). *)
From Coq Require Import Reals List Arith ZArith Lra Lia.
From stdpp Require Import gmap.
From Verif Require Import Fp Scalar Base LinAlg MathLib MatFacts Msg FeatureManager FrameManager Window WindowSpec Propagator Triangulate Pnp VisionUpdate
  UpdSpec UpdCovFacts FeatureFacts FrameFacts BackLenFacts KalmanFacts MeasFacts UnitFacts SafeFacts QuatFacts ProcSpec RunSpec CovRunFacts QrFacts JacobiFacts UpdWitness RunWitness
  BlindSpec BlindFacts BlindWitness BundleSpec BundleFacts BundleWitness.
Import ListNotations.
Local Open Scope nat_scope.

#[local] Opaque qr_fac r_saes.
(** Two frames with the same pose. *)
Definition ul_f1 : frame R := Frame ∅ qid (V3 0 0 0)%R v3zero 2 (f64_lit 0 0).
Definition ul_fs : list (frame R) := [n_f0; ul_f1].
Definition ul_pw : v3 R := (V3 0 0 (1 / 3))%R.
Definition ul_h : heap R := Heap 1 {[0 := bu_g]}.
(** The last two columns of an orthogonal factor are swapped where this leaves it exact. *)
Definition swap23 (j : nat) : nat := match j with 2 => 3 | 3 => 2 | _ => j end.
Definition ul_qr (A : mat R) : nat -> nat -> R :=
  let q := qr_fac (mr A) (mc A) (me A) in
  if Nat.eqb (mr A) 4 && Nat.eqb (mc A) 3 then
    if Req_EM_T (fmul 4 (ftr q) (me A) 2 2) 0%R then fun i j => q i (swap23 j) else q
  else q.
Definition ul_o : voracle R := VOracle map_to_list (fun o => map_to_list o) (fun _ _ => 0%R) ul_qr r_saes (fun _ _ => 7%R) (fun _ => 0%Z).
Lemma swap23_lt : forall j, j < 4 -> swap23 j < 4.
Proof. intros j H. destruct j as [|[|[|[|]]]]; cbn; lia. Qed.
Lemma ul_qr_ok : exact_qr ul_o.
Proof.
  intros A. cbn [vo_qr ul_o]. unfold ul_qr. pose proof (qr_fac_of (mr A) (mc A) (me A)) as E. set (q := qr_fac (mr A) (mc A) (me A)) in *.
  destruct (Nat.eqb_spec (mr A) 4) as [E4|]; [|exact E]. destruct (Nat.eqb_spec (mc A) 3) as [E3|]; [|exact E]. cbn [andb].
  destruct (Req_EM_T _ _) as [Z|]; [|exact E]. rewrite E4, E3 in *. destruct E as [[O1 O2] T]. split; [split|].
  - split. intros i j Hi Hj. change (fmul 4 (ftr q) q (swap23 i) (swap23 j) = fid i j). rewrite (feq_at O1 (swap23 i) (swap23 j)) by (apply swap23_lt; assumption).
    unfold fid. destruct i as [|[|[|[|]]]], j as [|[|[|[|]]]]; try lia; reflexivity.
  - split. intros i j Hi Hj. rewrite <- (feq_at O2 i j Hi Hj). unfold fmul, ftr. rewrite !rsum_S. cbn [ssum swap23]. ring.
  - intros i j Hi Hj Hij. change (fmul 4 (ftr q) (me A) (swap23 i) j = 0%R).
    destruct i as [|[|[|[|]]]]; cbn [swap23]; try lia; [apply T; lia|apply T; lia|].
    destruct (Nat.eq_dec j 2) as [->|N]; [exact Z|apply T; lia].
Qed.

Lemma ul_c : forall f, In f ul_fs -> meas_pc n_e f ul_pw = ul_pw.
Proof.
  intros f [<-|[<-|[]]]; unfold meas_pc, meas_pb, meas_Rcb, meas_Rbw; cbn [ex_q n_e fr_q n_f0 ul_f1]; rewrite !qinv_unit by apply qid_unit;
    unfold n_e, n_f0, ul_f1, ul_pw; cbn [ex_p fr_p]; vunf; apply v3_ext; rops; field.
Qed.
(** The entries that matter: the point, the position of the newest frame, the residual. *)
Definition ul_val (k : nat) (z : v2 R) (r j : nat) : R :=
  match j with
  | 0 => if r =? 0 then 3 else 0
  | 1 => if r =? 0 then 0 else 3
  | 2 => 0
  | 3 => if k =? 0 then 0 else if r =? 0 then -3 else 0
  | 4 => if k =? 0 then 0 else if r =? 0 then 0 else -3
  | _ => if r =? 0 then v2x z else v2y z
  end%R.
Lemma ul_entry : forall k z r j, k < 2 -> r < 2 -> In j [0; 1; 2; 3; 4; 30] -> meas_entry 1 2 [n_e] ul_fs ul_pw (k, 0, z) r j = ul_val k z r j.
Proof.
  intros k z r j Hk Hr Hj. unfold meas_entry. cbn [nth_error].
  assert (Ef : exists f, nth_error ul_fs k = Some f /\ In f ul_fs /\ fr_q f = qid).
  { destruct k as [|[|]]; [| |lia]; eexists; (split; [reflexivity|]; split; [cbn; auto|reflexivity]). }
  destruct Ef as (f & Ef & Hf & Hq). rewrite Ef. pose proof (ul_c f Hf) as C. rewrite C.
  pose proof zero_thr_val as Hz. unfold zero_thr in Hz.
  replace (sltb szero (sabs (v3z ul_pw))) with true.
  2:{ symmetry. apply sltb_R. cbn [sabs ops_R ul_pw v3z]. rewrite Rabs_pos_eq by lra. lra. }
  unfold jac_pw, jac_pwb, meas_res. rewrite C. unfold meas_Rcb, meas_Rbw. rewrite Hq. cbn [ex_q n_e]. rewrite !qinv_unit by apply qid_unit.
  clear - Hk Hr Hj. destruct z as [z1 z2]. 
  destruct k as [|[|]]; [| |lia]; (destruct r as [|[|]]; [| |lia]); cbn [In] in Hj;
    (destruct Hj as [<-|[<-|[<-|[<-|[<-|[<-|[]]]]]]]); unfold in3, col_pos, col_att, col_ext, col_res, ul_val, ul_pw; cbn; try field.
Qed.

(** The measurement for an exact factor: one row, the last column of the factor against the full matrix. *)
Lemma ul_measure : exists H : mat R,
  (forall i j, i < 4 -> In j [0; 1; 2; 3; 4; 30] -> me H i j = ul_val (i / 2) (if i <? 2 then V2 0%R 0%R else V2 (1 / 5)%R 0%R) (i mod 2) j) /\
  forall o, vo_nord o = (fun ob => map_to_list ob) -> exists M, measurement o [n_e] ul_fs ul_h [0] = Ok (Some M) /\ mr M = 1 /\ mc M = 28 /\
    forall j, j < 28 -> me M 0 j = rsum 4 (fun l => Rmult (vo_qr o (get_block H 0 0 4 3) l 3) (me H l (3 + j))).
Proof.
  destruct bu_usable as ((k & K1 & K2) & Hnum & H2 & Hlt & Hcam).
  assert (k = 0) by (cbn in K1; lia). subst k.
  assert (Hn : valid_norder (vo_nord bl_o)) by (intros x; reflexivity).
  assert (Hc : consecutive 1 ul_fs).
  { intros i f E. destruct i as [|[|i]]; cbn [ul_fs nth_error] in E; try discriminate E; [| |destruct i; discriminate E]; injection E as <-; reflexivity. }
  destruct (measurement_layout bl_o 1 [n_e] ul_fs bu_g 0 Hn ltac:(lia) Hc ltac:(cbn; lia) K1 K2 ltac:(cbn; lia) Hnum Hlt Hcam) as (R1 & R2 & H & E & Mr & Mc & Ent).
  exists H. change (rows_of bu_g) with 4 in *. change (col_res (length [n_e]) (length ul_fs) + 1) with 31 in *. 
  split.
  { intros i j Hi Hj. destruct (Ent i j Hi) as (m & Em & ->); [cbn [In] in Hj; lia|].
    change (nth_error [(0, 0, V2 0%R 0%R); (1, 0, V2 (1 / 5)%R 0%R)] (i / 2) = Some m) in Em.
    change (length [n_e]) with 1. change (length ul_fs) with 2. change (ft_pw bu_g) with ul_pw.
    destruct i as [|[|[|[|]]]]; try lia; cbn in Em; injection Em as <-; apply ul_entry; try exact Hj; cbn; lia. }
  intros o Eo. unfold measurement. cbn [sum_rows]. rewrite (hget_ok ul_h 0 bu_g eq_refl). cbn [obind]. change (Z.to_nat (u32 (0 + u32 (ft_num bu_g * 2 - 3)))) with 1.
  cbn [stack_loop]. rewrite (hget_ok ul_h 0 bu_g eq_refl). cbn [obind]. unfold meas_feature. change (rows_of bu_g) with 4. cbv zeta. replace (vo_nord o) with (vo_nord bl_o) by (symmetry; exact Eo). rewrite E. cbn [obind].
  rewrite block_ok by lia. cbn [obind]. rewrite Mr. set (q := vo_qr o (get_block H 0 0 4 3)).
  assert (Sr : mr (qr_apply (vo_qr o) (get_block H 0 0 4 3) H) = 4) by (cbn; exact Mr).
  assert (Sc : mc (qr_apply (vo_qr o) (get_block H 0 0 4 3) H) = 31) by exact Mc.
  rewrite Sr, Sc. change (Nat.ltb 4 3) with false. cbn iota. rewrite block_ok by (rewrite ?Sr, ?Sc; lia). cbn [obind].
  change (sub_rows bu_g) with 1. change (hx_cols (length [n_e]) (length ul_fs) + 1) with 28. change (4 - 3) with 1. change (31 - 3) with 28.
  set (B := get_block (qr_apply (vo_qr o) (get_block H 0 0 4 3) H) 3 3 1 28).
  rewrite setbn_ok; [|reflexivity..|cbn; lia|cbn; lia]. cbn [obind]. unfold compress. change (mc (set_block (mzero 1 28) 0 0 B)) with 28. change (mr (set_block (mzero 1 28) 0 0 B)) with 1.
  change (Nat.ltb 28 1) with false. cbn iota. cbn [obind]. eexists. split; [reflexivity|]. split; [reflexivity|]. split; [reflexivity|].
  intros j Hj. unfold set_block. cbn [me]. change (mr B) with 1. change (mc B) with 28. change (0 + 28) with 28. change (0 + 1) with 1.
  replace (Nat.ltb j 28) with true by (symmetry; apply Nat.ltb_lt; exact Hj). cbn [Nat.leb Nat.ltb andb]. cbn [Nat.sub]. rewrite Nat.sub_0_r.
  unfold B, get_block at 1, qr_apply, mmul, mtr. cbn [me mc mr]. fold q. rewrite Mr. apply rsum_ext. intros l _. reflexivity.
Qed.
(** What the two columns of the factor have in common. *)
Lemma ul_col : forall (H : mat R) q c, orth 4 q -> c < 4 ->
  (forall i j, i < 4 -> In j [0; 1; 2; 3; 4; 30] -> me H i j = ul_val (i / 2) (if i <? 2 then V2 0%R 0%R else V2 (1 / 5)%R 0%R) (i mod 2) j) ->
  fmul 4 (ftr q) (me H) c 0 = 0%R -> fmul 4 (ftr q) (me H) c 1 = 0%R ->
  (q 2%nat c = - q 0%nat c /\ q 3%nat c = - q 1%nat c /\ q 2%nat c * q 2%nat c + q 3%nat c * q 3%nat c = 1 / 2)%R.
Proof.
  intros H q c [O _] Hc J Z0 Z1. pose proof (feq_at O c c Hc Hc) as N. unfold fid in N. rewrite Nat.eqb_refl in N.
  unfold fmul, ftr in *. rewrite !rsum_S in Z0, Z1, N. cbn [ssum] in Z0, Z1, N. rewrite !J in Z0, Z1 by (cbn [In]; lia).
  cbn in Z0, Z1, N. assert (A1 : (q 2%nat c = - q 0%nat c)%R) by lra. assert (A2 : (q 3%nat c = - q 1%nat c)%R) by lra. split; [exact A1|]. split; [exact A2|].
  replace (q 0%nat c) with (- q 2%nat c)%R in N by lra. replace (q 1%nat c) with (- q 3%nat c)%R in N by lra. lra.
Qed.
(** The update from a single row. *)
Lemma ul_kalman : forall (M : mat R) (w : nat -> R) (H : mat R), mr M = 1 -> mc M = 28 ->
  (forall i j, i < 4 -> In j [0; 1; 2; 3; 4; 30] -> me H i j = ul_val (i / 2) (if i <? 2 then V2 0%R 0%R else V2 (1 / 5)%R 0%R) (i mod 2) j) ->
  (forall j, j < 28 -> me M 0 j = rsum 4 (fun l => Rmult (w l) (me H l (3 + j)))) ->
  exists K dx P' u, kalman r_saes 1%R (eye 27) M = Ok (K, dx, P') /\ me dx 0 0 = (- 3 * w 2%nat * u)%R /\ me dx 1 0 = (- 3 * w 3%nat * u)%R /\
    (u = 0 -> w 2%nat = 0)%R.
Proof.
  intros M w H Mr Mc J E. destruct (kalman_min r_saes 1%R 27 (eye 27) M eq_refl eq_refl Mc) as (K & dx & P' & y0 & Ek & Xr & Pr & Pc & Dx & _ & _ & u & Hu & Hr).
  { apply (eye_cov 1 1). }
  { apply (exact_innovation _ _ 27); [exact r_exact|reflexivity|reflexivity|reflexivity|apply (eye_cov 1 1)]. }
  { pose proof zero_thr_small. lra. }
  assert (I : forall i, i < 27 -> mvec 27 (me (eye 27)) y0 i = y0 i) by (intros i Hi; apply (mvec_id 27 y0 i Hi)).
  exists K, dx, P', (u 0). split; [exact Ek|]. rewrite Mr in Hu, Hr.
  assert (Y : forall i, i < 27 -> me dx i 0 = Rmult (me M 0 i) (u 0)).
  { intros i Hi. rewrite Dx, I, Hu by exact Hi. unfold mvec, ftr. rewrite rsum_S. cbn [ssum s0 ops_R]. ring. }
  split; [|split].
  - rewrite Y by lia. rewrite E by lia. rewrite !rsum_S. cbn [ssum Nat.add]. rewrite !J by (cbn [In]; lia). cbn. ring.
  - rewrite Y by lia. rewrite E by lia. rewrite !rsum_S. cbn [ssum Nat.add]. rewrite !J by (cbn [In]; lia). cbn. ring.
  - intros U0. pose proof (Hr 0 ltac:(lia)) as A. rewrite U0 in A.
    assert (Z : mvec 27 (me M) (mvec 27 (me (eye 27)) y0) 0 = 0%R).
    { apply rsum_0. intros i Hi. rewrite I by exact Hi. rewrite Hu by exact Hi. unfold mvec. rewrite rsum_S. cbn [ssum s0 ops_R]. rewrite U0. cbn. ring. }
    rewrite Z in A. rewrite E in A by lia. rewrite !rsum_S in A. cbn [ssum Nat.add] in A. rewrite !J in A by (cbn [In]; lia). cbn in A. lra.
Qed.
Theorem unlocated_choice_refuted : exists (o1 o2 : voracle R) exts fs h f H1 H2 (P : mat R),
  valid_norder (vo_nord o1) /\ exact_qr o1 /\ exact_solver (vo_saes o1) /\ valid_norder (vo_nord o2) /\ exact_qr o2 /\ exact_solver (vo_saes o2) /\
  consecutive 1 fs /\ hp_cells h !! 0 = Some f /\ usable (length exts) 1 (length fs) f /\
  measurement o1 exts fs h [0] = Ok (Some H1) /\ measurement o2 exts fs h [0] = Ok (Some H2) /\
  mr P = err_size (length exts) (length fs - 1) /\ mc P = mr P /\ fpsd (mr P) (me P) /\
  exists K1 dx1 P1 K2 dx2 P2, kalman (vo_saes o1) 1%R P H1 = Ok (K1, dx1, P1) /\ kalman (vo_saes o2) 1%R P H2 = Ok (K2, dx2, P2) /\
    ~ feq (mr P) 1 (me dx1) (me dx2).
Proof.
  destruct ul_measure as (H & J & G). destruct (G bl_o eq_refl) as (M1 & E1 & R1 & C1 & V1). destruct (G ul_o eq_refl) as (M2 & E2 & R2 & C2 & V2). clear G.
  set (A := get_block H 0 0 4 3) in *. set (q := qr_fac 4 3 (me A)).
  pose proof (qr_fac_of 4 3 (me A)) as [Qo Qt]. fold q in Qo, Qt.
  assert (Z : fmul 4 (ftr q) (me A) 2 2 = 0%R).
  { unfold fmul. apply rsum_0. intros l Hl. change (me A l 2) with (me H l 2). rewrite J by (cbn [In]; lia). cbn. ring. }
  assert (W1 : forall l, vo_qr bl_o A l 3 = q l 3) by reflexivity.
  assert (W2 : forall l, vo_qr ul_o A l 3 = q l 2).
  { intros l. cbn [vo_qr ul_o]. unfold ul_qr. change (mr A) with 4. change (mc A) with 3. cbn [Nat.eqb andb]. fold q. destruct (Req_EM_T _ _) as [|N]; [reflexivity|].
    exfalso. apply N. exact Z. }
  destruct (ul_kalman M1 (fun l => q l 3) H R1 C1 J) as (K1 & dx1 & P1 & u1 & Ek1 & X1 & Y1 & U1); [exact V1|].
  destruct (ul_kalman M2 (fun l => q l 2) H R2 C2 J) as (K2 & dx2 & P2 & u2 & Ek2 & X2 & Y2 & U2).
  { intros j Hj. rewrite V2 by exact Hj. apply rsum_ext. intros l _. rewrite W2. reflexivity. }
  exists bl_o, ul_o, [n_e], ul_fs, ul_h, bu_g, M1, M2, (eye 27).
  split; [intros x; reflexivity|]. split; [exact bu_qr|]. split; [exact r_exact|]. split; [intros x; reflexivity|]. split; [exact ul_qr_ok|]. split; [exact r_exact|].
  split.
  { intros i f E. destruct i as [|[|i]]; cbn [ul_fs nth_error] in E; try discriminate E; [| |destruct i; discriminate E]; injection E as <-; reflexivity. }
  split; [reflexivity|]. split; [exact bu_usable|]. split; [exact E1|]. split; [exact E2|]. split; [reflexivity|]. split; [reflexivity|]. split; [apply (eye_cov 1 1)|].
  exists K1, dx1, P1, K2, dx2, P2. split; [exact Ek1|]. split; [exact Ek2|]. intros D.
  clear E1 E2 V1 V2 W1 W2 Ek1 Ek2. clearbody q.
  pose proof (feq_at D 0 0 ltac:(cbn; lia) ltac:(lia)) as D0. pose proof (feq_at D 1 0 ltac:(cbn; lia) ltac:(lia)) as D1.
  rewrite X1, X2 in D0. rewrite Y1, Y2 in D1.
  destruct (ul_col H q 3 Qo ltac:(lia) J) as (B1 & B2 & B3); [apply (Qt 3 0); lia|apply (Qt 3 1); lia|].
  destruct (ul_col H q 2 Qo ltac:(lia) J) as (B4 & B5 & B6); [apply (Qt 2 0); lia|apply (Qt 2 1); lia|].
  pose proof (feq_at (proj1 Qo) 2 3 ltac:(lia) ltac:(lia)) as N. unfold fmul, ftr, fid in N. rewrite !rsum_S in N. cbn [ssum Nat.eqb s0 ops_R] in N.
  cbn in U1, U2. clear - D0 D1 B1 B2 B3 B4 B5 B6 N U1 U2.
  set (a1 := q 2 3) in *. set (a2 := q 3 3) in *. set (b1 := q 2 2) in *. set (b2 := q 3 2) in *.
  cbn in N. replace (q 0 2) with (- b1)%R in N by lra. replace (q 1 2) with (- b2)%R in N by lra.
  replace (q 0 3) with (- a1)%R in N by lra. replace (q 1 3) with (- a2)%R in N by lra.
  assert (N' : (a1 * b1 + a2 * b2 = 0)%R) by (clear - N; lra). clear N.
  assert (G1 : (a1 * u1 = b1 * u2)%R) by (clear - D0; lra). assert (G2 : (a2 * u1 = b2 * u2)%R) by (clear - D1; lra).
  assert (Z1 : u1 = 0%R).
  { assert (T : (u1 * (a1 * a1 + a2 * a2) = u2 * (a1 * b1 + a2 * b2))%R) by (transitivity (a1 * (a1 * u1) + a2 * (a2 * u1))%R; [ring|rewrite G1, G2; ring]). rewrite B3, N' in T. lra. }
  assert (Z2 : u2 = 0%R).
  { assert (T : (u2 * (b1 * b1 + b2 * b2) = u1 * (a1 * b1 + a2 * b2))%R) by (transitivity (b1 * (b1 * u2) + b2 * (b2 * u2))%R; [ring|rewrite <- G1, <- G2; ring]). rewrite B6, N' in T. lra. }
  specialize (U1 Z1). specialize (U2 Z2). rewrite U1 in B3, N'. rewrite U2 in B6, N'.
  assert (T : (a2 * b2 = 0)%R) by lra. apply Rmult_integral in T as [T|T]; rewrite T in *; lra.
Qed.
