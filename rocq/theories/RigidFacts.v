(** A vision update does not depend on the world axes (C106). *)
From Coq Require Import Reals List Arith ZArith Lra Lia Morphisms.
From stdpp Require Import gmap.
From Verif Require Import Fp Scalar Base LinAlg MathLib MatFacts Msg FeatureManager FrameManager Window WindowSpec Propagator Triangulate Pnp VisionUpdate
  UpdSpec UpdCovFacts FeatureFacts FrameFacts BackLenFacts MeasFacts QuatFacts KalmanFacts DerivSpec ProcSpec RunSpec CovRunFacts BlindSpec BlindFacts BundleSpec BundleFacts ChoiceFacts
  InjectSpec InjectFacts BackDimFacts SafeFacts AttNumFacts YawSpec RigidSpec.
Import ListNotations.
Local Open Scope R_scope.

(** ** The turn of an error vector *)
Section Turn.
Context (u : quat R) (Hu : qunit u).
Lemma div3 : forall c r, (r < 3)%nat -> ((3 * c + r) / 3 = c /\ (3 * c + r) mod 3 = r)%nat.
Proof.
  intros c r H. split.
  - symmetry. apply (Nat.div_unique _ 3 c r); lia.
  - symmetry. apply (Nat.mod_unique _ 3 c r); lia.
Qed.
Lemma part_turn : forall ne x c, part (turn_all u ne x) (3 * c) = if world_block ne c then qrot u (part x (3 * c)) else part x (3 * c).
Proof.
  intros ne x c. unfold part at 1, turn_all. destruct (div3 c 0 ltac:(lia)) as [D0 M0]. destruct (div3 c 1 ltac:(lia)) as [D1 M1]. destruct (div3 c 2 ltac:(lia)) as [D2 M2].
  rewrite Nat.add_0_r in D0, M0. rewrite D0, M0, D1, M1, D2, M2. destruct (if world_block ne c then _ else _). reflexivity.
Qed.
Lemma rsum_blocks : forall m (g : nat -> R), rsum (3 * m) g = rsum m (fun c => g (3 * c)%nat + g (3 * c + 1)%nat + g (3 * c + 2)%nat).
Proof.
  induction m as [|m IH]; intros g; [reflexivity|]. replace (3 * S m)%nat with (S (S (S (3 * m)))) by lia. rewrite !rsum_S, IH.
  replace (S (S (3 * m))) with (3 * m + 2)%nat by lia. replace (S (3 * m)) with (3 * m + 1)%nat by lia. cbn [sadd ops_R]. ring.
Qed.
Lemma dot_blocks : forall m x y, dot (3 * m) x y = rsum m (fun c => v3dot (part x (3 * c)) (part y (3 * c))).
Proof. intros m x y. unfold dot. rewrite rsum_blocks. apply rsum_ext. intros c _. unfold part, v3dot. cbn. ring. Qed.
Lemma turn_dot : forall ne m x y, dot (3 * m) (turn_all u ne x) (turn_all u ne y) = dot (3 * m) x y.
Proof.
  intros ne m x y. rewrite !dot_blocks. apply rsum_ext. intros c _. rewrite !part_turn. destruct (world_block ne c); [apply qrot_dot; exact Hu|reflexivity].
Qed.
End Turn.
Lemma turn_ext : forall u ne m x y, (forall i, (i < 3 * m)%nat -> x i = y i) -> forall i, (i < 3 * m)%nat -> turn_all u ne x i = turn_all u ne y i.
Proof.
  intros u ne m x y H i Hi. unfold turn_all. assert (E : part x (3 * (i / 3)) = part y (3 * (i / 3))).
  { pose proof (Nat.div_mod i 3 ltac:(lia)). pose proof (Nat.mod_upper_bound i 3 ltac:(lia)). unfold part. rewrite !H by lia. reflexivity. }
  rewrite E. reflexivity.
Qed.
Lemma turn_back : forall u ne x i, qunit u -> turn_all (qconj u) ne (turn_all u ne x) i = x i.
Proof.
  intros u ne x i Hu. unfold turn_all at 1. rewrite part_turn.
  assert (E : (if world_block ne (i / 3) then qrot (qconj u) (if world_block ne (i / 3) then qrot u (part x (3 * (i / 3))) else part x (3 * (i / 3)))
    else if world_block ne (i / 3) then qrot u (part x (3 * (i / 3))) else part x (3 * (i / 3))) = part x (3 * (i / 3))).
  { destruct (world_block ne (i / 3)); [|reflexivity]. rewrite <- qinv_unit by exact Hu. apply qrot_inv_l. exact Hu. }
  rewrite E. pose proof (Nat.div_mod i 3 ltac:(lia)) as D. pose proof (Nat.mod_upper_bound i 3 ltac:(lia)) as M. replace (x i) with (x (3 * (i / 3) + i mod 3)%nat) by (f_equal; symmetry; exact D).
  unfold part. destruct (Nat.modulo i 3) as [|[|[|]]] eqn:Em; try lia; cbn [v3get v3x v3y v3z]; f_equal; lia.
Qed.
Lemma turn_forth : forall u ne x i, qunit u -> turn_all u ne (turn_all (qconj u) ne x) i = x i.
Proof.
  intros u ne x i Hu. pose proof (turn_back (qconj u) ne x i (qconj_unit u Hu)) as B. replace (qconj (qconj u)) with u in B by (destruct u; vunf; f_equal; rops; ring). exact B.
Qed.
(** The matrix of the turn. *)
Notation tmat u ne := (matrix_of (turn_all u ne)).
Definition bas (j : nat) : nat -> R := fun k => if Nat.eqb k j then 1 else 0.
Lemma dot_bas : forall n j x, (j < n)%nat -> dot n (bas j) x = x j.
Proof. intros n j x Hj. unfold dot, bas. rewrite <- (rsum_delta n j x Hj). apply rsum_ext. intros k _. destruct (Nat.eqb k j); ring. Qed.
Lemma turn_adj : forall u ne m x y, qunit u -> dot (3 * m) (turn_all u ne x) y = dot (3 * m) x (turn_all (qconj u) ne y).
Proof.
  intros u ne m x y Hu. rewrite <- (turn_dot u Hu ne m x). apply dot_ext; [reflexivity|]. intros i _. symmetry. apply turn_forth. exact Hu.
Qed.
Lemma tmat_tr : forall u ne m i j, qunit u -> (i < 3 * m)%nat -> (j < 3 * m)%nat -> tmat u ne i j = tmat (qconj u) ne j i.
Proof.
  intros u ne m i j Hu Hi Hj. unfold matrix_of. fold (bas j) (bas i). rewrite <- (dot_bas (3 * m) i (turn_all u ne (bas j)) Hi).
  rewrite <- (dot_bas (3 * m) j (turn_all (qconj u) ne (bas i)) Hj). rewrite dot_sym. apply turn_adj. exact Hu.
Qed.
Lemma tmat_vec : forall u ne m x i, qunit u -> (i < 3 * m)%nat -> mvec (3 * m) (tmat u ne) x i = turn_all u ne x i.
Proof.
  intros u ne m x i Hu Hi. transitivity (dot (3 * m) (turn_all (qconj u) ne (bas i)) x).
  - unfold mvec, dot. apply rsum_ext. intros k Hk. rewrite (tmat_tr u ne m i k Hu Hi Hk). reflexivity.
  - rewrite dot_sym. rewrite <- turn_adj by exact Hu. rewrite dot_sym. apply dot_bas. exact Hi.
Qed.
Lemma tmat_orth : forall u ne m, qunit u -> orth (3 * m) (tmat u ne).
Proof.
  intros u ne m Hu. split; split; intros i j Hi Hj.
  - transitivity (dot (3 * m) (bas i) (bas j)).
    + rewrite <- (turn_dot u Hu ne). reflexivity.
    + rewrite dot_bas by exact Hi. unfold bas, fid. reflexivity.
  - transitivity (dot (3 * m) (bas i) (bas j)).
    + rewrite <- (turn_dot (qconj u) (qconj_unit u Hu) ne). unfold fmul, dot, ftr. apply rsum_ext. intros k Hk.
      rewrite (tmat_tr u ne m i k Hu Hi Hk), (tmat_tr u ne m j k Hu Hj Hk). reflexivity.
    + rewrite dot_bas by exact Hi. unfold bas, fid. reflexivity.
Qed.

(** ** The update with turned prior *)
Lemma innov_inv : forall n m p h s v d, fpsd n p -> eigen_of m (innov_cov n p h s) v d -> 0 < s -> exists sp, feq m m (fmul m (innov_cov n p h s) sp) fid.
Proof.
  intros n m p h s v d Hp He Hs. pose proof He as [Ho E]. exists (fmul m (fmul m v (fdiag (fun i => / d i))) (ftr v)). rewrite E, spectral_mul by exact Ho.
  rewrite <- (spectral_one m v Ho). apply spectral_ext. intros i Hi. pose proof (innov_eigen_ge n m p h s v d Hp He i Hi). field. lra.
Qed.
Theorem kalman_turned : forall sa1 sa2 noise n (U : fmat) (P P2 H2 : mat R), mr P = n -> mc P = n -> mr P2 = n -> mc P2 = n -> mc H2 = (n + 1)%nat ->
  fpsd n (me P) -> orth n U -> feq n n (me P2) (fmul n (fmul n U (me P)) (ftr U)) ->
  let G := Mat (mr H2) (n + 1) (fun i j => if Nat.ltb j n then fmul n (me H2) U i j else me H2 i j) in
  solver_exact sa1 noise P (get_block G 0 0 (mr G) n) -> solver_exact sa2 noise P2 (get_block H2 0 0 (mr H2) n) -> zero_thr < noise * noise ->
  exists K1 dx1 P1 K2 dx2 P2', kalman sa1 noise P G = Ok (K1, dx1, P1) /\ kalman sa2 noise P2 H2 = Ok (K2, dx2, P2') /\
    (forall i, (i < n)%nat -> me dx2 i 0%nat = mvec n U (fun k => me dx1 k 0%nat) i) /\
    feq n n (me P2') (fmul n (fmul n U (me P1)) (ftr U)).
Proof.
  intros sa1 sa2 noise n U P P2 H2 Pr Pc Pr2 Pc2 C2 Psd [O1 O2] EP G S1 S2 Hz.
  assert (Psd2 : fpsd n (me P2)) by (apply (fpsd_ext n (fmul n (fmul n U (me P)) (ftr U))); [symmetry; exact EP|apply fpsd_congr; exact Psd]).
  destruct (kalman_contracts sa1 noise n P G Pr Pc eq_refl Psd S1) as (K1 & dx1 & P1 & E1 & _ & _ & _ & _ & _ & _ & J1 & _ & _ & X1 & _ & Q1).
  destruct (kalman_contracts sa2 noise n P2 H2 Pr2 Pc2 C2 Psd2 S2) as (K2 & dx2 & P2' & E2 & _ & _ & _ & _ & _ & _ & J2 & _ & _ & X2 & _ & Q2).
  destruct (kalman_eq sa2 noise n P2 H2 Pr2 Pc2 C2 S2) as (K2' & dx2' & P2'' & v & d & E2' & _ & _ & _ & _ & _ & _ & He & _).
  cbv zeta in *. destruct (Q1 Hz) as [KS1 _]. destruct (Q2 Hz) as [KS2 _]. clear Q1 Q2.
  exists K1, dx1, P1, K2, dx2, P2'. split; [exact E1|]. split; [exact E2|].
  set (m := mr H2) in *. change (mr G) with m in *. set (h := me H2) in *. set (g := me G) in *. set (s := noise * noise) in *.
  assert (s0 : 0 < s) by (pose proof zero_thr_pos; lra).
  destruct (innov_inv n m (me P2) h s v d Psd2 He s0) as [sp Hsp].
  assert (Eg : feq m n g (fmul n h U)).
  { split. intros i j Hi Hj. unfold g, G. cbn [me]. destruct (Nat.ltb_spec j n); [reflexivity|lia]. }
  assert (PU : feq n m (fmul n (me P2) (ftr h)) (fmul n U (fmul n (me P) (ftr g)))).
  { rewrite EP, Eg, ftr_mul, !fmul_assoc. reflexivity. }
  assert (ES : feq m m (innov_cov n (me P2) h s) (innov_cov n (me P) g s)).
  { unfold innov_cov. rewrite (fmul_assoc m m n n h (me P2) (ftr h)), PU. rewrite (fmul_assoc m m n n g), Eg at 1. rewrite Eg. rewrite !fmul_assoc. reflexivity. }
  assert (EK : feq n m (me K2) (fmul n U (me K1))).
  { transitivity (fmul m (fmul m (me K2) (innov_cov n (me P2) h s)) sp).
    - rewrite fmul_assoc, Hsp. symmetry. apply fmul_id_r.
    - rewrite KS2, PU, <- KS1, <- ES. rewrite fmul_assoc, fmul_assoc, Hsp, fmul_id_r. reflexivity. }
  split.
  - intros i Hi. rewrite X2 by exact Hi. transitivity (mvec m (fmul n U (me K1)) (fun k => me H2 k n) i).
    + unfold mvec. apply rsum_ext. intros k Hk. rewrite (feq_at EK i k Hi Hk). reflexivity.
    + rewrite mvec_mul. apply mvec_ext. intros k Hk. rewrite X1 by exact Hk. apply mvec_ext. intros l Hl. unfold g, G. cbn [me]. rewrite Nat.ltb_irrefl. reflexivity.
  - rewrite J2, J1. unfold joseph.
    assert (EA : feq n n (fsub fid (fmul m (me K2) h)) (fmul n (fmul n U (fsub fid (fmul m (me K1) g))) (ftr U))).
    { rewrite EK. assert (Eh : feq m n h (fmul n g (ftr U))) by (rewrite Eg, fmul_assoc, O2, fmul_id_r; reflexivity). 
      rewrite Eh at 1. rewrite (fmul_assoc n n n m U). rewrite <- (fmul_assoc n n m n (me K1) g).
      rewrite (fmul_sub_r n n n U fid), (fmul_sub_l n n n _ _ (ftr U)), fmul_id_r, O2, (fmul_assoc n n n n U). reflexivity. }
    rewrite EA, EP, EK. set (a := fsub fid (fmul m (me K1) g)). 
    rewrite (ftr_mul n n n (fmul n U a)), (ftr_tr n n U), (ftr_mul n n n U a), (ftr_mul m n n U (me K1)).
    rewrite (fmul_add_r n n n U), (fmul_add_l n n n _ _ (ftr U)). apply fadd_proper.
    + rewrite !fmul_assoc. rewrite <- (fmul_assoc n n n n (ftr U) U (fmul n (me P) _)), O1, fmul_id_l.
      rewrite <- (fmul_assoc n n n n (ftr U) U (fmul n (ftr a) _)), O1, fmul_id_l. reflexivity.
    + rewrite fmul_scale_r, fmul_scale_l. rewrite !fmul_assoc. reflexivity.
Qed.

(** ** One measurement *)
Section Moved.
Context (u : quat R) (o : v3 R) (Hu : qunit u).
Lemma Rbw_moved : forall f f' v, qunit (fr_q f) -> moved_frame u o f f' -> m33mulv (meas_Rbw f') (qrot u v) = m33mulv (meas_Rbw f) v.
Proof.
  intros f f' v Hf (_ & Eq & _). rewrite (meas_Rbw_rot f) by exact Hf. rewrite meas_Rbw_rot by (rewrite Eq; apply qmul_unit; assumption). rewrite Eq.
  replace (qconj (qmul u (fr_q f))) with (qmul (qconj (fr_q f)) (qconj u)) by (destruct u, (fr_q f); vunf; f_equal; rops; ring).
  rewrite qrot_mul by (apply qconj_unit; assumption). f_equal. rewrite <- qinv_unit by exact Hu. apply qrot_inv_l. exact Hu.
Qed.
Lemma pb_moved : forall f f' pw, qunit (fr_q f) -> moved_frame u o f f' -> meas_pb f' (v3add (qrot u pw) o) = meas_pb f pw.
Proof.
  intros f f' pw Hf M. unfold meas_pb. rewrite <- (Rbw_moved f f' _ Hf M). f_equal. destruct M as (Ep & _). rewrite Ep.
  destruct u, pw, (fr_p f), o. vunf. apply v3_ext; rops; ring.
Qed.
Lemma pc_moved : forall e f f' pw, qunit (fr_q f) -> moved_frame u o f f' -> meas_pc e f' (v3add (qrot u pw) o) = meas_pc e f pw.
Proof. intros. unfold meas_pc. rewrite (pb_moved f f') by assumption. reflexivity. Qed.
Lemma jac_pw_moved : forall e f f' pw i v, qunit (fr_q f) -> moved_frame u o f f' -> (i < 2)%nat ->
  row3 (jac_pw e f' (v3add (qrot u pw) o)) i 0 (qrot u v) = row3 (jac_pw e f pw) i 0 v.
Proof. intros e f f' pw i v Hf M Hi. unfold jac_pw. rewrite !jmm_row by exact Hi. rewrite (pc_moved e f f'), (Rbw_moved f f') by assumption. reflexivity. Qed.
Lemma jac_pwb_moved : forall e f f' pw i v, qunit (fr_q f) -> moved_frame u o f f' -> (i < 2)%nat ->
  row3 (jac_pwb e f' (v3add (qrot u pw) o)) i 0 (qrot u v) = row3 (jac_pwb e f pw) i 0 v.
Proof. intros e f f' pw i v Hf M Hi. unfold jac_pwb. rewrite !jm_row by exact Hi. rewrite (pc_moved e f f'), (Rbw_moved f f') by assumption. reflexivity. Qed.
End Moved.
(** The misfit block by block. *)
Lemma misfit_blocks : forall exts (fs : list (frame R)) pw k cam z r dp x, (1 <= length fs)%nat -> (r < 2)%nat ->
  misfit exts fs pw (k, cam, z) r dp x =
  match nth_error exts cam, nth_error fs k with
  | Some e, Some f =>
      if sltb szero (sabs (v3z (meas_pc e f pw))) then
        (if Nat.eqb r 0 then v2x (meas_res e f pw z) else v2y (meas_res e f pw z)) - row3 (jac_pw e f pw) r 0 dp -
        (row3 (jac_pwb e f pw) r 0 (part x (col_pos (length exts) (length fs) k - 3)) + row3 (jac_Rwb e f pw) r 0 (part x (col_att (length exts) (length fs) k - 3)) +
         row3 (jac_pbc e f pw) r 0 (part x (col_ext cam - 3)) + row3 (jac_Rbc e f pw) r 0 (part x (col_ext cam)))
      else 0
  | _, _ => 0
  end.
Proof.
  intros exts fs pw k cam z r dp x H1 Hr. unfold misfit. unfold meas_entry.
  destruct (nth_error exts cam) as [e|] eqn:Ee; [|rewrite !rsum_0; [cbn; ring| |]; intros; cbn; ring].
  destruct (nth_error fs k) as [f|] eqn:Ef; [|rewrite !rsum_0; [cbn; ring| |]; intros; cbn; ring].
  destruct (sltb szero (sabs (v3z (meas_pc e f pw)))); [|rewrite !rsum_0; [cbn; ring| |]; intros; cbn; ring].
  assert (Hk : (k < length fs)%nat) by (apply nth_error_Some; congruence).
  assert (Hcam : (cam < length exts)%nat) by (apply nth_error_Some; congruence).
  set (ne := length exts) in *. set (nf := length fs) in *. set (n := err_size ne (nf - 1)).
  set (c1 := (col_pos ne nf k - 3)%nat) in *. set (c2 := (col_att ne nf k - 3)%nat) in *. set (c3 := (col_ext cam - 3)%nat). 
  assert (C : (col_pos ne nf k = c1 + 3 /\ col_att ne nf k = c2 + 3 /\ (c1 + 3 <= c2 \/ c2 + 3 <= c1) /\ c1 + 3 <= n /\ c2 + 3 <= n /\
    (c1 + 3 <= c3 \/ c3 + 6 <= c1) /\ (c2 + 3 <= c3 \/ c3 + 6 <= c2) /\ col_ext cam = c3 + 3 /\ c3 + 6 <= n /\ col_res ne nf = n + 3)%nat).
  { unfold c1, c2, c3, n, err_size, col_pos, col_att, col_ext, col_res. destruct (Nat.eqb_spec k (nf - 1)); lia. }
  destruct C as (C1 & C2 & C3 & C4 & C5 & C6 & C7 & C8 & C9 & C10). rewrite C1, C2, C8, C10.
  assert (E0 : forall a b c a' b' c' : R, a = a' -> b = b' -> c = c' -> a - b - c = a' - b' - c') by (intros; subst; reflexivity). apply E0; clear E0.
  - destruct (in3_spec 0 (n + 3)); [lia|]. destruct (in3_spec (c1 + 3) (n + 3)); [lia|]. destruct (in3_spec (c2 + 3) (n + 3)); [lia|].
    destruct (in3_spec (c3 + 3) (n + 3)); [lia|]. destruct (in3_spec (c3 + 3 + 3) (n + 3)); [lia|]. rewrite Nat.eqb_refl. reflexivity.
  - rewrite !rsum_S. cbn [ssum]. unfold row3. destruct dp as [a1 a2 a3]. unfold in3. cbn. ring.
  - transitivity (rsum n (fun j => (if in3 c1 j then me (jac_pwb e f pw) r (j - c1) * x j else 0) +
                     (if in3 c2 j then me (jac_Rwb e f pw) r (j - c2) * x j else 0) + (if in3 c3 j then me (jac_pbc e f pw) r (j - c3) * x j else 0) +
                     (if in3 (c3 + 3) j then me (jac_Rbc e f pw) r (j - (c3 + 3)) * x j else 0))).
    + apply rsum_ext. intros j Hj. destruct (in3_spec 0 (j + 3)); [lia|].
      destruct (in3_spec (c1 + 3) (j + 3)), (in3_spec c1 j); try lia.
      { destruct (in3_spec c2 j); [lia|]. destruct (in3_spec c3 j); [lia|]. destruct (in3_spec (c3 + 3) j); [lia|].
        replace (j + 3 - (c1 + 3))%nat with (j - c1)%nat by lia. ring. }
      destruct (in3_spec (c2 + 3) (j + 3)), (in3_spec c2 j); try lia.
      { destruct (in3_spec c3 j); [lia|]. destruct (in3_spec (c3 + 3) j); [lia|]. replace (j + 3 - (c2 + 3))%nat with (j - c2)%nat by lia. ring. }
      destruct (in3_spec (c3 + 3) (j + 3)), (in3_spec c3 j); try lia.
      { destruct (in3_spec (c3 + 3) j); [lia|]. replace (j + 3 - (c3 + 3))%nat with (j - c3)%nat by lia. ring. }
      destruct (in3_spec (c3 + 3 + 3) (j + 3)), (in3_spec (c3 + 3) j); try lia.
      { replace (j + 3 - (c3 + 3 + 3))%nat with (j - (c3 + 3))%nat by lia. ring. }
      destruct (Nat.eqb_spec (j + 3) (n + 3)); [lia|]. cbn. ring.
    + rewrite !rsum_plus. rewrite (rsum_in3 _ c1 (fun j => me (jac_pwb e f pw) r (j - c1) * x j)) by exact C4.
      rewrite (rsum_in3 _ c2 (fun j => me (jac_Rwb e f pw) r (j - c2) * x j)) by exact C5.
      rewrite (rsum_in3 _ c3 (fun j => me (jac_pbc e f pw) r (j - c3) * x j)) by lia.
      rewrite (rsum_in3 _ (c3 + 3) (fun j => me (jac_Rbc e f pw) r (j - (c3 + 3)) * x j)) by lia.
      unfold row3, part. cbn [v3x v3y v3z]. rewrite !Nat.sub_diag.
      replace (c1 + 1 - c1)%nat with 1%nat by lia. replace (c1 + 2 - c1)%nat with 2%nat by lia.
      replace (c2 + 1 - c2)%nat with 1%nat by lia. replace (c2 + 2 - c2)%nat with 2%nat by lia.
      replace (c3 + 1 - c3)%nat with 1%nat by lia. replace (c3 + 2 - c3)%nat with 2%nat by lia.
      replace (c3 + 3 + 1 - (c3 + 3))%nat with 1%nat by lia. replace (c3 + 3 + 2 - (c3 + 3))%nat with 2%nat by lia. ring.
Qed.

Section Moved2.
Context (u : quat R) (o : v3 R) (Hu : qunit u).
Lemma world_pos : forall ne nf k x, part (turn_all u ne x) (col_pos ne nf k - 3) = qrot u (part x (col_pos ne nf k - 3)).
Proof.
  intros ne nf k x. unfold col_pos. destruct (Nat.eqb k (nf - 1)).
  - change (3 - 3)%nat with (3 * 0)%nat. rewrite part_turn. reflexivity.
  - replace (3 + 15 + 6 * ne + 6 * k - 3)%nat with (3 * (5 + 2 * ne + 2 * k))%nat by lia. rewrite part_turn.
    replace (world_block ne (5 + 2 * ne + 2 * k)) with true; [reflexivity|]. unfold world_block. symmetry. apply Bool.orb_true_iff. right. apply andb_true_intro.
    split; [apply Nat.leb_le; lia|]. replace (5 + 2 * ne + 2 * k - (5 + 2 * ne))%nat with (2 * k)%nat by lia. apply Nat.even_spec. exists k. reflexivity.
Qed.
Lemma body_att : forall ne nf k x, part (turn_all u ne x) (col_att ne nf k - 3) = part x (col_att ne nf k - 3).
Proof.
  intros ne nf k x. unfold col_att. destruct (Nat.eqb k (nf - 1)).
  - change (3 + 6 - 3)%nat with (3 * 2)%nat. rewrite part_turn. reflexivity.
  - replace (3 + 15 + 6 * ne + 6 * k + 3 - 3)%nat with (3 * (5 + 2 * ne + (2 * k + 1)))%nat by lia. rewrite part_turn.
    replace (world_block ne (5 + 2 * ne + (2 * k + 1))) with false; [reflexivity|]. unfold world_block. symmetry. apply Bool.orb_false_iff.
    split; [apply Nat.ltb_ge; lia|]. apply Bool.andb_false_iff. right. replace (5 + 2 * ne + (2 * k + 1) - (5 + 2 * ne))%nat with (2 * k + 1)%nat by lia.
    apply Bool.not_true_is_false. intros H. apply Nat.even_spec in H. destruct H. lia.
Qed.
Lemma body_blk : forall ne c x, (2 <= c < 5 + 2 * ne)%nat -> part (turn_all u ne x) (3 * c) = part x (3 * c).
Proof.
  intros ne c x H. rewrite part_turn. replace (world_block ne c) with false; [reflexivity|]. unfold world_block. symmetry. apply Bool.orb_false_iff.
  split; [apply Nat.ltb_ge; lia|]. apply Bool.andb_false_iff. left. apply Nat.leb_gt. lia.
Qed.
Lemma body_ext : forall ne cam x, (cam < ne)%nat -> part (turn_all u ne x) (col_ext cam - 3) = part x (col_ext cam - 3) /\ part (turn_all u ne x) (col_ext cam) = part x (col_ext cam).
Proof.
  intros ne cam x H. unfold col_ext. replace (3 + 15 + 6 * cam - 3)%nat with (3 * (5 + 2 * cam))%nat by lia.
  replace (3 + 15 + 6 * cam)%nat with (3 * (6 + 2 * cam))%nat by lia. split; apply body_blk; lia.
Qed.
Lemma f2_nth : forall A B (Q : A -> B -> Prop) l l' k, Forall2 Q l l' -> match nth_error l k, nth_error l' k with Some a, Some b => Q a b | None, None => True | _, _ => False end.
Proof. intros A B Q l l' k H. revert k. induction H; intros [|k]; cbn; auto. apply IHForall2. Qed.
Lemma f2_len : forall A B (Q : A -> B -> Prop) l l', Forall2 Q l l' -> length l' = length l.
Proof. intros A B Q l l' H. induction H; cbn; congruence. Qed.

Context (exts : list (extrinsic R)) (fs fs' : list (frame R)).
Hypothesis Uf : List.Forall (fun f => qunit (fr_q f)) fs.
Hypothesis Mf : Forall2 (moved_frame u o) fs fs'.
Hypothesis L1 : (1 <= length fs)%nat.
Lemma misfit_moved : forall pw m r dp x, (r < 2)%nat ->
  misfit exts fs' (v3add (qrot u pw) o) m r (qrot u dp) (turn_all u (length exts) x) = misfit exts fs pw m r dp x.
Proof.
  intros pw [[k cam] z] r dp x Hr. pose proof (f2_len _ _ _ _ _ Mf) as L. rewrite !misfit_blocks by (try lia; congruence). rewrite L.
  destruct (nth_error exts cam) as [e|] eqn:Ee; [|reflexivity]. assert (Hcam : (cam < length exts)%nat) by (apply nth_error_Some; congruence).
  pose proof (f2_nth _ _ _ _ _ k Mf) as N. destruct (nth_error fs k) as [f|] eqn:Ef, (nth_error fs' k) as [f'|]; try contradiction; [|reflexivity].
  assert (Q : qunit (fr_q f)) by (apply (proj1 (List.Forall_forall _ _) Uf); eapply nth_error_In; exact Ef).
  unfold meas_res, jac_Rwb, jac_pbc, jac_Rbc. rewrite world_pos, body_att. destruct (body_ext (length exts) cam x Hcam) as [-> ->].
  rewrite (jac_pw_moved u o Hu e f f' pw r dp Q N Hr), (jac_pwb_moved u o Hu e f f' pw r _ Q N Hr). rewrite (pc_moved u o Hu e f f' pw Q N), (pb_moved u o Hu f f' pw Q N).
  reflexivity.
Qed.
Lemma track_moved : forall nord b f f' dp x, moved_feature u o f f' ->
  track_cost nord b exts fs' f' (qrot u dp) (turn_all u (length exts) x) = track_cost nord b exts fs f dp x.
Proof.
  intros nord b f f' dp x (Ep & E1 & E2 & _). unfold track_cost, meas_of. rewrite E1, E2, Ep. generalize (track_meas nord (Z.to_nat (ft_first f - b)) (ft_obs f)).
  induction l as [|m l IH]; cbn [fold_right]; [reflexivity|]. rewrite IH, !misfit_moved by lia. reflexivity.
Qed.
Lemma tracks_moved : forall nord b fl fl' dps x, Forall2 (moved_feature u o) fl fl' ->
  tracks_cost nord b exts fs' fl' (fun i => qrot u (dps i)) (turn_all u (length exts) x) = tracks_cost nord b exts fs fl dps x.
Proof.
  intros nord b fl fl' dps x H. revert dps. induction H as [|f f' fl fl' Hf _ IH]; intros dps; cbn [tracks_cost]; [reflexivity|].
  rewrite (track_moved nord b f f' _ _ Hf). f_equal. apply (IH (fun i => dps (S i))).
Qed.
Lemma rsum3_misfit : forall (gs : list (frame R)) pw m r dp, 
  rsum 3 (fun k => meas_entry (length exts) (length gs) exts gs pw m r k * v3get dp k) = misfit exts gs pw m r v3zero (fun _ => 0) - misfit exts gs pw m r dp (fun _ => 0).
Proof.
  intros gs pw m r dp. unfold misfit. rewrite (rsum_0 3 (fun k => meas_entry (length exts) (length gs) exts gs pw m r k * v3get v3zero k)).
  - ring.
  - intros [|[|[|]]] Hi; try lia; cbn; ring.
Qed.
Lemma locatable_moved : forall nord b f f', moved_feature u o f f' -> locatable nord b exts fs f -> locatable nord b exts fs' f'.
Proof.
  intros nord b f f' M Lf dp Hd. assert (Edp : dp = qrot u (qrot (qconj u) dp)) by (rewrite <- (qinv_unit u Hu); symmetry; apply qrot_inv_r; exact Hu).
  assert (Z0 : qrot u v3zero = v3zero) by (destruct u; vunf; apply v3_ext; rops; ring).
  rewrite Edp. rewrite (Lf (qrot (qconj u) dp)); [exact Z0|]. intros m r Hm Hr. destruct M as (Ep & E1 & E2 & _).
  rewrite <- (Hd m r); [|unfold meas_of in *; rewrite E1, E2; exact Hm|exact Hr]. rewrite !rsum3_misfit. rewrite Ep.
  rewrite <- !misfit_moved by exact Hr. rewrite Z0, <- Edp.
  assert (T0 : forall gs pw d, misfit exts gs pw m r d (turn_all u (length exts) (fun _ => 0)) = misfit exts gs pw m r d (fun _ => 0)).
  { intros gs pw d. unfold misfit. f_equal. apply rsum_ext. intros j _. f_equal. unfold turn_all. destruct (world_block _ _); [|unfold part; destruct (Nat.modulo j 3) as [|[|]]; reflexivity].
    change (part (fun _ => 0) _) with (V3 0 0 0). change (V3 0 0 0) with (v3zero (T := R)). rewrite Z0. destruct (Nat.modulo j 3) as [|[|]]; reflexivity. }
  rewrite !T0. reflexivity.
Qed.
Lemma usable_moved : forall ne b nf f f', moved_feature u o f f' -> usable ne b nf f -> usable ne b nf f'.
Proof. intros ne b nf f f' (_ & E1 & E2 & E3) H. unfold usable in *. rewrite E1, E2, E3. exact H. Qed.
Lemma consecutive_moved : forall b, consecutive b fs -> consecutive b fs'.
Proof.
  intros b H i f' Hi. pose proof (f2_nth _ _ _ _ _ i Mf) as N. rewrite Hi in N. destruct (nth_error fs i) as [f|] eqn:E; [|contradiction].
  destruct N as (_ & _ & -> & _). apply H. exact E.
Qed.
End Moved2.

(** ** The update *)
Lemma mcost_ext : forall n H x y, (forall i, (i < n)%nat -> x i = y i) -> mcost n H x = mcost n H y.
Proof. intros n H x y E. unfold mcost. apply dot_ext; intros i _; rewrite (mvec_ext n (me H) x y i E); reflexivity. Qed.
(** C106 *)
Theorem update_moved : forall u o (o1 o2 : voracle R) b exts (fs fs' : list (frame R)) h h' l l' fl fl' H1 H2 noise (P P' : mat R),
  qunit u -> valid_norder (vo_nord o1) -> exact_qr o1 -> exact_solver (vo_saes o1) ->
  valid_norder (vo_nord o2) -> exact_qr o2 -> exact_solver (vo_saes o2) ->
  (1 <= b)%Z -> consecutive b fs -> (b + Z.of_nat (length fs) < 4294967296)%Z -> (1 <= length fs)%nat ->
  List.Forall (fun f => qunit (fr_q f)) fs -> Forall2 (moved_frame u o) fs fs' ->
  Forall2 (fun p f => hp_cells h !! p = Some f) l fl -> Forall2 (fun p f => hp_cells h' !! p = Some f) l' fl' -> Forall2 (moved_feature u o) fl fl' ->
  List.Forall (usable (length exts) b (length fs)) fl -> List.Forall (locatable (vo_nord o1) b exts fs) fl ->
  measurement o1 exts fs h l = Ok (Some H1) -> measurement o2 exts fs' h' l' = Ok (Some H2) ->
  let n := err_size (length exts) (length fs - 1) in let U := matrix_of (turn_all u (length exts)) in
  mr P = n -> mc P = n -> fpsd n (me P) -> (zero_thr < noise * noise)%R ->
  mr P' = n -> mc P' = n -> feq n n (me P') (fmul n (fmul n U (me P)) (ftr U)) ->
  exists K1 dx1 P1 K2 dx2 P2, kalman (vo_saes o1) noise P H1 = Ok (K1, dx1, P1) /\ kalman (vo_saes o2) noise P' H2 = Ok (K2, dx2, P2) /\
    (forall i, (i < n)%nat -> me dx2 i 0%nat = turn_all u (length exts) (fun k => me dx1 k 0%nat) i) /\
    feq n n (me P2) (fmul n (fmul n U (me P1)) (ftr U)).
Proof.
  intros u o o1 o2 b exts fs fs' h h' l l' fl fl' H1 H2 noise P P' Hu N1 Q1 S1 N2 Q2 S2 Hb Hc Hl L1 Uf Mf F1 F2 Mfl Us Lo E1 E2 n U Pr Pc Psd Hz Pr' Pc' EP.
  pose proof (f2_len _ _ _ _ _ Mf) as Lf. set (m := (5 + 2 * length exts + 2 * (length fs - 1))%nat). assert (En : n = (3 * m)%nat) by (unfold n, m, err_size; lia).
  assert (Us' : List.Forall (usable (length exts) b (length fs)) fl').
  { clear - Mfl Us. induction Mfl; inversion Us; constructor; eauto using usable_moved. }
  assert (Lo' : List.Forall (locatable (vo_nord o2) b exts fs') fl').
  { clear - Mfl Lo Mf Uf L1 Hu N1 N2. induction Mfl; inversion Lo; constructor; [|auto]. apply (locatable_order (vo_nord o1)); [exact N1|exact N2|].
    eapply locatable_moved; eassumption. }
  destruct (measurement_cost o1 b exts fs h l fl H1 N1 Hb Hc Hl L1 Q1 F1 Us E1) as (C1 & c1 & A1 & B1). specialize (B1 Lo). fold n in C1, A1, B1.
  destruct (measurement_cost o2 b exts fs' h' l' fl' H2 N2 Hb (consecutive_moved u o fs fs' Mf b Hc) ltac:(rewrite Lf; exact Hl) ltac:(rewrite Lf; exact L1) Q2 F2 ltac:(rewrite Lf; exact Us') E2) as (C2 & c2 & A2 & B2).
  specialize (B2 Lo'). rewrite Lf in C2, A2, B2. fold n in C2, A2, B2.
  assert (Cost : forall x, mcost n H1 x + c1 = mcost n H2 (turn_all u (length exts) x) + c2).
  { intros x. apply Rle_antisym.
    - destruct (B2 (turn_all u (length exts) x)) as [dps D]. rewrite <- D.
      eapply Rle_trans; [apply (A1 x (fun i => qrot (qconj u) (dps i)))|]. right.
      rewrite <- (tracks_cost_nord (vo_nord o1) (vo_nord o2)) by assumption.
      rewrite <- (tracks_moved u o Hu exts fs fs' Uf Mf L1 (vo_nord o2) b fl fl' _ x Mfl).
      clear - Hu. revert dps. generalize (turn_all u (length exts) x) as y. intros y. induction fl' as [|f r IH]; intros dps; cbn [tracks_cost]; [reflexivity|].
      rewrite (IH (fun i => dps (S i))). f_equal. f_equal. rewrite <- (qinv_unit u Hu). apply qrot_inv_r. exact Hu.
    - destruct (B1 x) as [dps D]. rewrite <- D. eapply Rle_trans; [apply (A2 _ (fun i => qrot u (dps i)))|]. right.
      rewrite (tracks_moved u o Hu exts fs fs' Uf Mf L1 (vo_nord o2) b fl fl' dps x Mfl). apply tracks_cost_nord; assumption. }
  assert (OU : orth n U) by (rewrite En; apply tmat_orth; exact Hu).
  assert (VU : forall x i, (i < n)%nat -> mvec n U x i = turn_all u (length exts) x i) by (intros x i Hi; rewrite En in *; apply tmat_vec; assumption).
  set (G := Mat (mr H2) (n + 1) (fun i j => if Nat.ltb j n then fmul n (me H2) U i j else me H2 i j)).
  assert (CG : forall x, mcost n G x = mcost n H2 (turn_all u (length exts) x)).
  { intros x. unfold mcost. change (mr G) with (mr H2).
    assert (R1 : forall i, me G i n - mvec n (me G) x i = me H2 i n - mvec n (me H2) (turn_all u (length exts) x) i).
    { intros i. unfold G at 1. cbn [me]. rewrite Nat.ltb_irrefl. f_equal. rewrite <- (mvec_ext n (me H2) _ _ i (VU x)). rewrite <- mvec_mul. unfold mvec. apply rsum_ext. intros k Hk.
      unfold G. cbn [me]. destruct (Nat.ltb_spec k n); [reflexivity|lia]. }
    apply dot_ext; intros i _; apply R1. }
  assert (SG : solver_exact (vo_saes o1) noise P (get_block G 0 0 (mr G) n)) by (apply (exact_innovation _ _ n); [exact S1|exact Pr|exact Pc|reflexivity|exact (proj1 Psd)]).
  destruct (kalman_same (vo_saes o1) (vo_saes o1) noise n P H1 G (c2 - c1) Pr Pc C1 eq_refl Psd) as (K1 & dx1 & P1 & K3 & dx3 & P3 & R1 & R3 & Dx & Dp).
  { apply (exact_innovation _ _ n); [exact S1|exact Pr|exact Pc|reflexivity|exact (proj1 Psd)]. }
  { exact SG. }
  { exact Hz. }
  { intros x. rewrite CG. pose proof (Cost x). lra. }
  assert (Psd2 : fpsd n (me P')) by (apply (fpsd_ext n (fmul n (fmul n U (me P)) (ftr U))); [symmetry; exact EP|apply fpsd_congr; exact Psd]).
  destruct (kalman_turned (vo_saes o1) (vo_saes o2) noise n U P P' H2 Pr Pc Pr' Pc' C2 Psd OU EP SG) as (K4 & dx4 & P4 & K2 & dx2 & P2 & R4 & R2 & D2 & E4).
  { apply (exact_innovation _ _ n); [exact S2|exact Pr'|exact Pc'|reflexivity|exact (proj1 Psd2)]. }
  { exact Hz. }
  fold G in R4. rewrite R3 in R4. injection R4 as <- <- <-.
  exists K1, dx1, P1, K2, dx2, P2. split; [exact R1|]. split; [exact R2|]. split.
  - intros i Hi. rewrite D2 by exact Hi. rewrite <- (VU (fun k => me dx1 k 0%nat) i Hi). apply mvec_ext. intros k Hk. symmetry. apply (feq_at Dx); [exact Hk|lia].
  - rewrite E4, <- Dp. reflexivity.
Qed.

(** ** The corrected states *)
Lemma nth_ext_eq : forall A (l l' : list A), (forall k, nth_error l k = nth_error l' k) -> l = l'.
Proof.
  induction l as [|a l IH]; intros [|a' l'] H; [reflexivity|specialize (H O); discriminate|specialize (H O); discriminate|].
  pose proof (H O) as E. injection E as ->. f_equal. apply IH. intros k. exact (H (S k)).
Qed.
Lemma turned_moved : forall u (q : quat R) th, qunit u -> qunit q -> turned (qmul u q) th = qmul u (turned q th).
Proof.
  intros u q th Hu Hq. unfold turned. set (d := Quat _ _ _ _).
  assert (D : 0 < qnorm2 d) by (unfold d; generalize (sdiv (v3x th) s2) (sdiv (v3y th) s2) (sdiv (v3z th) s2); intros a b c; vunf; rops; nra).
  rewrite qnormalize_mul_unit by (try exact D; apply qmul_unit; assumption). rewrite qnormalize_mul_unit by assumption.
  destruct u, q, (qnormalize d). vunf. f_equal; rops; ring.
Qed.
Lemma add_moved : forall u o (p d : v3 R), v3add (v3add (qrot u p) o) (qrot u d) = v3add (qrot u (v3add p d)) o.
Proof. intros u o p d. rewrite (qrot_add u). generalize (qrot u p) (qrot u d). intros [] []. destruct o. vring. Qed.
Theorem corrected_moved : forall u o (s s' s1 s1' : vstate R) dx dx', qunit u ->
  moved_state u o s s' -> (forall it r, pq_items (vs_pq s) = it :: r -> qunit (mo_q (pi_mo it))) ->
  List.Forall (fun f => qunit (fr_q f)) (wn_frames (vs_win s)) ->
  let ne := length (vs_ext s) in
  (forall i, (i < err_size ne (length (wn_frames (vs_win s)) - 1))%nat -> me dx' i 0%nat = turn_all u ne (fun k => me dx k 0%nat) i) ->
  corrected dx s s1 -> corrected dx' s' s1' -> moved_state u o s1 s1'.
Proof.
  intros u o s s' s1 s1' dx dx' Hu ((it & r & it' & r' & I & I' & Mo) & Ba & Bg & Ex & Fr) Uh Uf ne Hdx C C'.
  set (nf := length (wn_frames (vs_win s))) in *. set (n := err_size ne (nf - 1)) in *.
  unfold corrected in C, C'. destruct C as (jt & q & J & Eq & Le & Ce & Hp & Mg & Lf & Cf). destruct C' as (jt' & q' & J' & Eq' & Le' & Ce' & Hp' & Mg' & Lf' & Cf').
  rewrite I in J. injection J as <- <-. rewrite I' in J'. injection J' as <- <-. rewrite Ex in Le', Ce'.
  pose proof (f2_len _ _ _ _ _ Fr) as LF. rewrite LF in Lf', Cf'. rewrite Ex in Cf'. fold ne in Cf, Cf', Le, Le'. fold nf in Lf, Lf', Cf, Cf'.
  pose proof (Uh it r I) as Uq.
  assert (T : forall k, (k + 3 <= n)%nat -> three dx' k = part (turn_all u ne (fun k => me dx k 0%nat)) k).
  { intros k Hk. unfold three, part. rewrite !Hdx by (fold n; lia). reflexivity. }
  assert (N15 : (15 <= n)%nat) by (unfold n, err_size; lia).
  assert (T0 : three dx' 0 = qrot u (three dx 0)) by (rewrite T by lia; apply (part_turn u ne (fun k => me dx k 0%nat) 0)).
  assert (T3 : three dx' 3 = qrot u (three dx 3)) by (rewrite T by lia; apply (part_turn u ne (fun k => me dx k 0%nat) 1)).
  assert (T6 : three dx' 6 = three dx 6) by (rewrite T by lia; apply (part_turn u ne (fun k => me dx k 0%nat) 2)).
  assert (T9 : three dx' 9 = three dx 9) by (rewrite T by lia; apply (body_blk u ne 3); lia).
  assert (T12 : three dx' 12 = three dx 12) by (rewrite T by lia; apply (body_blk u ne 4); lia).
  rewrite Mo in Eq', Cf'. cbn [moved_motion mo_p mo_v mo_q] in Eq', Cf'. rewrite T0, T3, T6, T9, T12 in Eq'. rewrite T3 in Cf'.
  rewrite turned_moved in Eq' by assumption. rewrite add_moved, <- (qrot_add u) in Eq'. rewrite Ba, Bg in Eq'.
  split; [|split; [|split; [|split]]].
  - rewrite Eq, Eq'. cbn [pq_items]. do 4 eexists. split; [reflexivity|]. split; [reflexivity|]. reflexivity.
  - rewrite Eq, Eq'. reflexivity.
  - rewrite Eq, Eq'. reflexivity.
  - apply nth_ext_eq. intros c. destruct (nth_error (vs_ext s) c) as [e|] eqn:Ee.
    + rewrite (Ce c e Ee), (Ce' c e Ee). assert (Hc : (c < ne)%nat) by (apply nth_error_Some; congruence).
      destruct (body_ext u ne c (fun k => me dx k 0%nat) Hc) as [B1 B2]. rewrite !T by (unfold n, err_size, col_ext; lia). rewrite B1, B2. reflexivity.
    + apply nth_error_None in Ee. assert (A : nth_error (vs_ext s1) c = None) by (apply nth_error_None; fold ne in Ee; lia). 
      assert (A' : nth_error (vs_ext s1') c = None) by (apply nth_error_None; fold ne in Ee; lia). rewrite A, A'. reflexivity.
  - assert (G : forall k f f', nth_error (wn_frames (vs_win s1)) k = Some f -> nth_error (wn_frames (vs_win s1')) k = Some f' -> moved_frame u o f f').
    { intros k f1 f1' E1 E1'. assert (Hk : (k < nf)%nat) by (rewrite <- Lf; apply nth_error_Some; congruence).
      pose proof (f2_nth _ _ _ _ _ k Fr) as NN. destruct (nth_error (wn_frames (vs_win s)) k) as [f|] eqn:Ef.
      2:{ apply nth_error_None in Ef. fold nf in Ef. lia. }
      destruct (nth_error (wn_frames (vs_win s')) k) as [f'|] eqn:Ef'; [|contradiction]. destruct NN as (Np & Nq & Ni & Nv).
      assert (Uk : qunit (fr_q f)) by (apply (proj1 (List.Forall_forall _ _) Uf); eapply nth_error_In; exact Ef).
      rewrite (Cf k f Ef) in E1. rewrite (Cf' k f' Ef') in E1'. injection E1 as <-. injection E1' as <-.
      assert (B1 : (col_pos ne nf k - 3 + 3 <= n)%nat) by (unfold n, err_size, col_pos; destruct (Nat.eqb_spec k (nf - 1)); lia).
      assert (B2 : (col_att ne nf k - 3 + 3 <= n)%nat) by (unfold n, err_size, col_att; destruct (Nat.eqb_spec k (nf - 1)); lia).
      rewrite (T _ B1), (T _ B2), world_pos, body_att.
      change (part (fun k0 => me dx k0 0%nat) (col_pos ne nf k - 3)) with (three dx (col_pos ne nf k - 3)).
      change (part (fun k0 => me dx k0 0%nat) (col_att ne nf k - 3)) with (three dx (col_att ne nf k - 3)).
      unfold moved_frame. cbn [fr_p fr_q fr_id fr_v]. rewrite Np, Nq, Ni, Nv. destruct (Nat.eqb k (nf - 1)).
      - rewrite add_moved, turned_moved, <- (qrot_add u) by assumption. repeat split.
      - rewrite add_moved, turned_moved by assumption. repeat split. }
    assert (LL : length (wn_frames (vs_win s1')) = length (wn_frames (vs_win s1))) by congruence.
    clear - G LL. revert G LL. generalize (wn_frames (vs_win s1)) (wn_frames (vs_win s1')). induction l as [|a l IH]; intros [|a' l'] G LL; try discriminate; constructor.
    + exact (G O a a' eq_refl eq_refl).
    + apply IH; [intros k f f' E E'; exact (G (S k) f f' E E')|cbn in LL; lia].
Qed.
Lemma consecutive_alone : forall b (fs : list (frame R)), consecutive b fs -> newest_alone fs.
Proof. intros b fs H i f g Hi Hg E. rewrite (H i f Hi), (H _ g Hg) in E. lia. Qed.
Lemma kalman_rows : forall saes noise (P Hr K dx P' : mat R), kalman saes noise P Hr = Ok (K, dx, P') -> mr dx = mr P.
Proof.
  intros saes noise P Hr K dx P' E. unfold kalman in E. destruct (Nat.eqb (mc Hr) 0); [discriminate|].
  repeat (binv E). injection E as <- <- <-. repeat match goal with X : mmulc _ _ = Ok _ |- _ => apply mmulc_inv in X; subst end. reflexivity.
Qed.
(** C106 *)
Theorem update_state_moved : forall u o (o1 o2 : voracle R) c b (s s' : vstate R) l l' fl fl' H1 H2 (P P' : mat R),
  qunit u -> valid_norder (vo_nord o1) -> exact_qr o1 -> exact_solver (vo_saes o1) ->
  valid_norder (vo_nord o2) -> exact_qr o2 -> exact_solver (vo_saes o2) ->
  let exts := vs_ext s in let fs := wn_frames (vs_win s) in
  (1 <= b)%Z -> consecutive b fs -> (b + Z.of_nat (length fs) < 4294967296)%Z -> (1 <= length fs)%nat ->
  List.Forall (fun f => qunit (fr_q f)) fs -> (forall it r, pq_items (vs_pq s) = it :: r -> qunit (mo_q (pi_mo it))) ->
  moved_state u o s s' ->
  Forall2 (fun p f => hp_cells (wn_heap (vs_win s)) !! p = Some f) l fl -> Forall2 (fun p f => hp_cells (wn_heap (vs_win s')) !! p = Some f) l' fl' ->
  Forall2 (moved_feature u o) fl fl' ->
  List.Forall (usable (length exts) b (length fs)) fl -> List.Forall (locatable (vo_nord o1) b exts fs) fl ->
  measurement o1 exts fs (wn_heap (vs_win s)) l = Ok (Some H1) -> measurement o2 (vs_ext s') (wn_frames (vs_win s')) (wn_heap (vs_win s')) l' = Ok (Some H2) ->
  let n := err_size (length exts) (length fs - 1) in let U := matrix_of (turn_all u (length exts)) in
  mr P = n -> mc P = n -> fpsd n (me P) -> (zero_thr < vc_noise c * vc_noise c)%R ->
  mr P' = n -> mc P' = n -> feq n n (me P') (fmul n (fmul n U (me P)) (ftr U)) ->
  exists P1 s1 P2 s1', update_state o1 c P H1 s = Ok (P1, s1) /\ update_state o2 c P' H2 s' = Ok (P2, s1') /\
  feq n n (me P2) (fmul n (fmul n U (me P1)) (ftr U)) /\ moved_state u o s1 s1'.
Proof.
  intros u o o1 o2 c b s s' l l' fl fl' H1 H2 P P' Hu N1 Q1 S1 N2 Q2 S2 exts fs Hb Hc Hl L1 Uf Uh M F1 F2 Mfl Us Lo E1 E2 n U Pr Pc Psd Hz Pr' Pc' EP.
  pose proof M as (_ & _ & _ & Ex & Mf). rewrite Ex in E2. fold exts in E2.
  destruct (update_moved u o o1 o2 b exts fs (wn_frames (vs_win s')) (wn_heap (vs_win s)) (wn_heap (vs_win s')) l l' fl fl' H1 H2 (vc_noise c) P P'
    Hu N1 Q1 S1 N2 Q2 S2 Hb Hc Hl L1 Uf Mf F1 F2 Mfl Us Lo E1 E2 Pr Pc Psd Hz Pr' Pc' EP) as (K1 & dx1 & P1' & K2 & dx2 & P2' & A1 & A2 & Dx & Dp).
  pose proof (f2_len _ _ _ _ _ Mf) as LF. destruct M as ((it & r & it' & r' & I & I' & Mo) & M'). 
  destruct (apply_delta_ok dx1 s b it r Hb Hc L1 I) as (s1 & B1 & _).
  { rewrite (kalman_rows _ _ _ _ _ _ _ A1). exact Pr. }
  destruct (apply_delta_ok dx2 s' b it' r' Hb) as (s1' & B2 & _).
  { eapply consecutive_moved; [exact Mf|exact Hc]. }
  { rewrite LF. exact L1. }
  { exact I'. }
  { rewrite (kalman_rows _ _ _ _ _ _ _ A2), Ex, LF. exact Pr'. }
  exists P1', s1, P2', s1'. unfold update_state. rewrite A1, A2. cbn [obind]. rewrite B1, B2. cbn [obind]. split; [reflexivity|]. split; [reflexivity|].
  split; [exact Dp|]. apply (corrected_moved u o s s' s1 s1' dx1 dx2 Hu); [split; [exists it, r, it', r'; auto|exact M']|exact Uh|exact Uf|exact Dx| |].
  - apply apply_delta_corrected; [assumption|]. apply (consecutive_alone b). exact Hc.
  - apply apply_delta_corrected; [assumption|]. apply (consecutive_alone b). eapply consecutive_moved; [exact Mf|exact Hc].
Qed.
