(** A vision update is the least-squares estimate of the states and the points together (C90). *)
From Coq Require Import Reals List Arith ZArith Lra Lia.
From stdpp Require Import gmap.
From Verif Require Import Fp Scalar Base LinAlg MathLib MatFacts Msg FeatureManager FrameManager Window WindowSpec Propagator Triangulate Pnp VisionUpdate
  UpdSpec UpdCovFacts FeatureFacts FrameFacts BackLenFacts MeasFacts QuatFacts KalmanFacts DerivSpec ProcSpec RunSpec CovRunFacts BlindSpec BlindFacts BundleSpec.
Import ListNotations.
Local Open Scope R_scope.

(** ** Vectors *)
Definition dot (n : nat) (x y : nat -> R) : R := rsum n (fun i => x i * y i).
Lemma mvec_ext : forall n a x y i, (forall k, (k < n)%nat -> x k = y k) -> mvec n a x i = mvec n a y i.
Proof. intros n a x y i H. apply rsum_ext. intros k Hk. rewrite H by exact Hk. reflexivity. Qed.
Lemma mvec_feq : forall n m a c x i, feq m n a c -> (i < m)%nat -> mvec n a x i = mvec n c x i.
Proof. intros n m a c x i H Hi. apply rsum_ext. intros k Hk. rewrite (feq_at H i k) by lia. reflexivity. Qed.
Lemma mvec_mul : forall n k a c x i, mvec n (fmul k a c) x i = mvec k a (mvec n c x) i.
Proof.
  intros n k a c x i. unfold mvec, fmul. transitivity (rsum n (fun j => rsum k (fun l => a i l * c l j * x j))).
  - apply rsum_ext. intros j _. rewrite <- rsum_scal_r. reflexivity.
  - rewrite rsum_swap. apply rsum_ext. intros l _. rewrite <- rsum_scal_l. apply rsum_ext. intros; ring.
Qed.
Lemma mvec_lin : forall n a c x d y i, mvec n a (fun k => c * x k + d * y k) i = c * mvec n a x i + d * mvec n a y i.
Proof. intros. unfold mvec. rewrite <- !rsum_scal_l, <- rsum_plus. apply rsum_ext. intros; ring. Qed.
Lemma mvec_add : forall n a c x i, mvec n (fadd a c) x i = mvec n a x i + mvec n c x i.
Proof. intros. unfold mvec, fadd. rewrite <- rsum_plus. apply rsum_ext. intros; ring. Qed.
Lemma mvec_sub : forall n a c x i, mvec n (fsub a c) x i = mvec n a x i - mvec n c x i.
Proof. intros. unfold mvec, fsub. rewrite <- rsum_minus. apply rsum_ext. intros; ring. Qed.
Lemma mvec_id : forall n x i, (i < n)%nat -> mvec n fid x i = x i.
Proof.
  intros n x i H. unfold mvec, fid. rewrite <- (rsum_delta2 n i x H). apply rsum_ext. intros k _. destruct (Nat.eqb i k); cbn; ring.
Qed.
Lemma mvec_scale_id : forall n s x i, (i < n)%nat -> mvec n (fscale s fid) x i = s * x i.
Proof.
  intros n s x i H. rewrite <- (mvec_id n x i H) at 1. unfold mvec, fscale. rewrite <- rsum_scal_l. apply rsum_ext. intros; ring.
Qed.
Lemma dot_tr : forall m n a u x, dot m u (mvec n a x) = dot n (mvec m (ftr a) u) x.
Proof.
  intros. unfold dot, mvec, ftr. transitivity (rsum m (fun i => rsum n (fun k => u i * a i k * x k))).
  - apply rsum_ext. intros i _. rewrite <- rsum_scal_l. apply rsum_ext. intros; ring.
  - rewrite rsum_swap. apply rsum_ext. intros k _. rewrite <- rsum_scal_r. apply rsum_ext. intros; ring.
Qed.
Lemma dot_sym : forall n x y, dot n x y = dot n y x.
Proof. intros. apply rsum_ext. intros; ring. Qed.
Lemma dot_ext : forall n x y x' y', (forall i, (i < n)%nat -> x i = x' i) -> (forall i, (i < n)%nat -> y i = y' i) -> dot n x y = dot n x' y'.
Proof. intros n x y x' y' H1 H2. apply rsum_ext. intros i Hi. rewrite H1, H2 by exact Hi. reflexivity. Qed.
Lemma dot_lin : forall n c x d y z, dot n (fun k => c * x k + d * y k) z = c * dot n x z + d * dot n y z.
Proof. intros. unfold dot. rewrite <- !rsum_scal_l, <- rsum_plus. apply rsum_ext. intros; ring. Qed.
Lemma dot_lin_r : forall n c x d y z, dot n z (fun k => c * x k + d * y k) = c * dot n z x + d * dot n z y.
Proof. intros. unfold dot. rewrite <- !rsum_scal_l, <- rsum_plus. apply rsum_ext. intros; ring. Qed.
Lemma qform_dot : forall n a x, qform n a x = dot n x (mvec n a x).
Proof. intros. unfold qform, dot, mvec. apply rsum_ext. intros i _. rewrite <- rsum_scal_l. apply rsum_ext. intros; ring. Qed.
Lemma dot_nonneg : forall n x, 0 <= dot n x x.
Proof. intros. apply rsum_nonneg. intros; nra. Qed.
Lemma orth_dot : forall m q x, orth m q -> dot m (mvec m (ftr q) x) (mvec m (ftr q) x) = dot m x x.
Proof.
  intros m q x [_ H]. rewrite dot_tr. apply dot_ext; [|reflexivity]. intros i Hi. rewrite <- mvec_mul.
  change (ftr (ftr q)) with q. rewrite (mvec_feq m m _ fid _ i H Hi). apply mvec_id. exact Hi.
Qed.

(** ** The Kalman update *)
(** Squared misfit of the rows of [H] with residuals in column [n]. *)
Definition mcost (n : nat) (H : mat R) (x : nat -> R) : R :=
  dot (mr H) (fun i => me H i n - mvec n (me H) x i) (fun i => me H i n - mvec n (me H) x i).
Definition vsub (x y : nat -> R) : nat -> R := fun i => 1 * x i + (-1) * y i.
Theorem kalman_min : forall saes noise n (P Hr : mat R), mr P = n -> mc P = n -> mc Hr = (n + 1)%nat -> fpsd n (me P) ->
  solver_exact saes noise P (get_block Hr 0 0 (mr Hr) n) -> zero_thr < noise * noise ->
  let J y := qform n (me P) y + mcost n Hr (mvec n (me P) y) / (noise * noise) in
  let D e := qform n (me P) e + dot (mr Hr) (mvec n (me Hr) (mvec n (me P) e)) (mvec n (me Hr) (mvec n (me P) e)) / (noise * noise) in
  exists K dx P' y0, kalman saes noise P Hr = Ok (K, dx, P') /\ mr dx = n /\ mr P' = n /\ mc P' = n /\
    (forall i, (i < n)%nat -> me dx i 0%nat = mvec n (me P) y0 i) /\
    (forall y, J y = J y0 + D (vsub y y0)) /\
    (forall z, exists e, (forall i, (i < n)%nat -> mvec n (me P') z i = mvec n (me P) e i) /\ D e = qform n (me P') z /\
       forall i, (i < n)%nat -> z i = e i + mvec (mr Hr) (ftr (me Hr)) (mvec n (me Hr) (mvec n (me P) e)) i / (noise * noise)) /\
    (exists u, (forall i, (i < n)%nat -> y0 i = mvec (mr Hr) (ftr (me Hr)) u i) /\
       forall i, (i < mr Hr)%nat -> me Hr i n - mvec n (me Hr) (mvec n (me P) y0) i = noise * noise * u i).
Proof.
  intros saes noise n P Hr Pr Pc Hc Hp Hs Hz J D.
  destruct (kalman_eq saes noise n P Hr Pr Pc Hc Hs) as (K & dx & P' & v & d & E & Kr & Kc & Xr & Xc & Pr' & Pc' & He & EK & Ex & EP).
  set (m := mr Hr) in *. set (h := me Hr) in *. set (s := noise * noise) in *. set (p := me P) in *.
  set (sp := fmul m (fmul m v (fdiag (fun i => pinv1 (d i)))) (ftr v)) in *.
  pose proof He as [Ho Hsm]. assert (Hps : fsym n p) by apply Hp.
  assert (Hs0 : 0 < s) by (pose proof zero_thr_pos; lra).
  assert (Hpsd : fpsd m sp) by (apply spectral_psd; intros i _; apply pinv1_nonneg).
  assert (SI : feq m m (fmul m (innov_cov n p h s) sp) fid).
  { rewrite Hsm. unfold sp. rewrite spectral_mul by exact Ho. rewrite <- (spectral_one m v Ho). apply spectral_ext.
    intros i Hi. apply pinv1_inv. pose proof (innov_eigen_ge n m p h s v d Hp He i Hi). lra. }
  assert (Sv : forall x i, (i < m)%nat -> mvec n h (mvec n p (mvec m (ftr h) (mvec m sp x))) i + s * mvec m sp x i = x i).
  { intros x i Hi. transitivity (mvec m fid x i); [|apply mvec_id; exact Hi]. rewrite <- (mvec_feq m m _ fid x i SI Hi). rewrite mvec_mul. unfold innov_cov.
    rewrite mvec_add, mvec_scale_id by exact Hi. rewrite !mvec_mul. reflexivity. }
  assert (Psym : forall x y, dot n x (mvec n p y) = dot n y (mvec n p x)).
  { intros x y. rewrite dot_tr, dot_sym. apply dot_ext; [reflexivity|]. intros i Hi. apply (mvec_feq n n); [exact Hps|exact Hi]. }
  set (u := mvec m sp (fun k => h k n)). set (y0 := mvec m (ftr h) u).
  assert (U : forall i, (i < m)%nat -> h i n - mvec n h (mvec n p y0) i = s * u i).
  { intros i Hi. pose proof (Sv (fun k => h k n) i Hi) as A. fold u in A. fold y0 in A. lra. }
  exists K, dx, P', y0. split; [exact E|]. split; [exact Xr|]. split; [exact Pr'|]. split; [exact Pc'|]. split; [|split; [|split]].
  4:{ exists u. split; [reflexivity|exact U]. }
  - intros i Hi. rewrite Ex by exact Hi. rewrite (mvec_feq m n _ _ _ i EK Hi). rewrite !mvec_mul. reflexivity.
  - intros y. set (e := vsub y y0). unfold J, D. fold m h s p.
    assert (Ey : forall i, y i = 1 * y0 i + 1 * e i) by (intros i; unfold e, vsub; ring).
    assert (Py : forall i, mvec n p y i = 1 * mvec n p y0 i + 1 * mvec n p e i).
    { intros i. rewrite <- mvec_lin. apply mvec_ext. intros k _. apply Ey. }
    assert (Q : qform n p y = qform n p y0 + 2 * dot n e (mvec n p y0) + qform n p e).
    { rewrite !qform_dot. rewrite (dot_ext n y _ _ _ (fun i _ => Ey i) (fun i _ => Py i)). rewrite dot_lin, !dot_lin_r. rewrite (Psym y0 e). ring. }
    assert (C : dot n e (mvec n p y0) = dot m u (mvec n h (mvec n p e))).
    { rewrite Psym. unfold y0. symmetry. exact (dot_tr m n h u (mvec n p e)). }
    assert (M : mcost n Hr (mvec n p y) = mcost n Hr (mvec n p y0) - 2 * s * dot m u (mvec n h (mvec n p e)) +
                  dot m (mvec n h (mvec n p e)) (mvec n h (mvec n p e))).
    { unfold mcost. fold m h. set (g := mvec n h (mvec n p e)).
      assert (A : forall i, (i < m)%nat -> h i n - mvec n h (mvec n p y) i = s * u i + (-1) * g i).
      { intros i Hi. rewrite <- (U i Hi). rewrite (mvec_ext n h _ _ i (fun k _ => Py k)), mvec_lin. unfold g. ring. }
      rewrite (dot_ext m _ _ _ _ A A), (dot_ext m _ _ _ _ U U). rewrite dot_lin, !dot_lin_r.
      assert (B : dot m (fun i => s * u i) (fun i => s * u i) = s * s * dot m u u).
      { unfold dot. rewrite <- rsum_scal_l. apply rsum_ext. intros; ring. }
      rewrite B. rewrite (dot_sym m g u). ring. }
    rewrite Q, C, M. field. lra.
  - intros z. set (g := mvec n h (mvec n p z)). set (w := mvec m sp g).
    set (e := vsub z (mvec m (ftr h) w)). exists e.
    assert (Pe : forall i, mvec n p e i = 1 * mvec n p z i + (-1) * mvec n p (mvec m (ftr h) w) i) by (intros i; apply mvec_lin).
    assert (EPk : feq n n (me P') (fsub p (fmul m (fmul m (fmul n p (ftr h)) sp) (ftr (fmul n p (ftr h)))))).
    { assert (Drop : fpsd n (fmul m (fmul m (fmul n p (ftr h)) sp) (ftr (fmul n p (ftr h))))) by (apply fpsd_congr; exact Hpsd).
      cbv zeta in EP. rewrite EP. rewrite EK. pose proof (gain_short n m p h sp Hps) as G. cbv zeta in G.
      rewrite G. rewrite (ftr_sub n n p). rewrite Hps. destruct Drop as [Dsym _]. rewrite Dsym.
      split. intros i j _ _. unfold fscale, fadd, fsub. field. }
    assert (Yt : feq m n (ftr (fmul n p (ftr h))) (fmul n h p)) by (exact (gain_y_tr n m p h Hps)).
    assert (A : forall i, (i < n)%nat -> mvec n (me P') z i = mvec n p e i).
    { intros i Hi. rewrite (mvec_feq n n _ _ _ i EPk Hi). rewrite mvec_sub, Pe. rewrite !mvec_mul.
      assert (B : mvec n p (mvec m (ftr h) (mvec m sp (mvec n (ftr (fmul n p (ftr h))) z))) i = mvec n p (mvec m (ftr h) w) i).
      { apply mvec_ext. intros k _. apply mvec_ext. intros l _. unfold w. apply mvec_ext. intros t Ht.
        rewrite (mvec_feq n m _ _ _ t Yt Ht). unfold g. apply mvec_mul. }
      rewrite B. ring. }
    split; [exact A|]. unfold D. fold m h s p.
    assert (He' : forall i, (i < m)%nat -> mvec n h (mvec n p e) i = s * w i + 0 * w i).
    { intros i Hi. rewrite (mvec_ext n h _ _ i (fun k _ => Pe k)), mvec_lin. fold g.
      pose proof (Sv g i Hi) as B. fold w in B. rewrite <- B. ring. }
    rewrite (dot_ext m _ _ _ _ He' He'). rewrite (dot_lin m), !(dot_lin_r m).
    rewrite !qform_dot. rewrite (dot_ext n z (mvec n (me P') z) z (mvec n p e) (fun i _ => eq_refl) A).
    assert (B : dot n e (mvec n p e) = dot n z (mvec n p e) - s * dot m w w).
    { unfold e at 1, vsub. rewrite dot_lin.
      replace (dot n (mvec m (ftr h) w) (mvec n p e)) with (dot m w (mvec n h (mvec n p e))) by apply dot_tr.
      rewrite (dot_ext m w _ w _ (fun i _ => eq_refl) He'), dot_lin_r. ring. }
    split; [rewrite B; field; lra|]. intros i Hi. rewrite (mvec_ext m (ftr h) _ _ i He'), mvec_lin. unfold e, vsub. field. lra.
Qed.

(** ** One feature *)
(** Misfit of the rows of the full matrix of a feature [ p_w (3) | x (n) | residual ]. *)
Definition hrow (n : nat) (H : fmat) (dp x : nat -> R) (i : nat) : R :=
  H i (n + 3)%nat - rsum 3 (fun k => H i k * dp k) - rsum n (fun j => H i (j + 3)%nat * x j).
Definition hcost (m n : nat) (H : fmat) (dp x : nat -> R) : R := dot m (hrow n H dp x) (hrow n H dp x).
Lemma hrow_mul : forall m n (w H : fmat) dp x i, hrow n (fmul m w H) dp x i = mvec m w (hrow n H dp x) i.
Proof.
  intros m n w H dp x i.
  assert (C : forall a c (g : nat -> R), rsum a (fun k => fmul m w H i (c k) * g k) = rsum m (fun l => w i l * rsum a (fun k => H l (c k) * g k))).
  { intros a c g. unfold fmul. transitivity (rsum a (fun k => rsum m (fun l => w i l * H l (c k) * g k))).
    - apply rsum_ext. intros k _. rewrite <- rsum_scal_r. reflexivity.
    - rewrite rsum_swap. apply rsum_ext. intros l _. rewrite <- rsum_scal_l. apply rsum_ext. intros; ring. }
  unfold hrow, mvec. rewrite (C n (fun j => (j + 3)%nat)), (C 3%nat (fun k => k)). unfold fmul at 1. rewrite <- !rsum_minus.
  apply rsum_ext. intros; ring.
Qed.
(** Three equations in triangular form can be solved when the columns are independent. *)
Lemma upper3_solve : forall (a : fmat) (c : nat -> R), (forall i j, (i < 3)%nat -> (j < i)%nat -> a i j = 0) ->
  (forall x, (forall i, (i < 3)%nat -> rsum 3 (fun k => a i k * v3get x k) = 0) -> x = V3 0 0 0) ->
  exists x, forall i, (i < 3)%nat -> rsum 3 (fun k => a i k * v3get x k) = c i.
Proof.
  intros a c Hu Hi.
  assert (E : forall i (x y z : R), rsum 3 (fun k => a i k * v3get (V3 x y z) k) = a i 0%nat * x + a i 1%nat * y + a i 2%nat * z).
  { intros i x y z. rewrite !rsum_S. cbn [ssum v3get v3x v3y v3z]. cbn. ring. }
  pose proof (Hu 1%nat 0%nat ltac:(lia) ltac:(lia)) as A10. pose proof (Hu 2%nat 0%nat ltac:(lia) ltac:(lia)) as A20. pose proof (Hu 2%nat 1%nat ltac:(lia) ltac:(lia)) as A21.
  assert (N0 : a 0%nat 0%nat <> 0).
  { intros Z. pose proof (Hi (V3 1 0 0)) as K. assert (V3 1 0 0 = V3 0 0 0) as W; [|injection W; lra].
    apply K. intros i Hi'. rewrite E. destruct i as [|[|[|]]]; [rewrite Z; ring|rewrite A10; ring|rewrite A20; ring|lia]. }
  assert (N1 : a 1%nat 1%nat <> 0).
  { intros Z. pose proof (Hi (V3 (- a 0%nat 1%nat / a 0%nat 0%nat) 1 0)) as K. assert (V3 (- a 0%nat 1%nat / a 0%nat 0%nat) 1 0 = V3 0 0 0) as W; [|injection W; lra].
    apply K. intros i Hi'. rewrite E. destruct i as [|[|[|]]]; [field; exact N0|rewrite A10, Z; ring|rewrite A20, A21; ring|lia]. }
  assert (N2 : a 2%nat 2%nat <> 0).
  { intros Z. set (y := - a 1%nat 2%nat / a 1%nat 1%nat). set (x := - (a 0%nat 1%nat * y + a 0%nat 2%nat) / a 0%nat 0%nat).
    pose proof (Hi (V3 x y 1)) as K. assert (V3 x y 1 = V3 0 0 0) as W; [|injection W; lra].
    apply K. intros i Hi'. rewrite E. destruct i as [|[|[|]]]; [unfold x; field; exact N0|rewrite A10; unfold y; field; exact N1|rewrite A20, A21, Z; ring|lia]. }
  set (z := c 2%nat / a 2%nat 2%nat). set (y := (c 1%nat - a 1%nat 2%nat * z) / a 1%nat 1%nat).
  set (x := (c 0%nat - a 0%nat 1%nat * y - a 0%nat 2%nat * z) / a 0%nat 0%nat).
  exists (V3 x y z). intros i Hi'. rewrite E.
  destruct i as [|[|[|]]]; [unfold x; field; exact N0|rewrite A10; unfold y; field; exact N1|rewrite A20, A21; unfold z; field; exact N2|lia].
Qed.
(** The rows below the first three of Q^t H, without the columns of the point, carry what the best choice of the point leaves. *)
Lemma project_cost : forall m n (H q : fmat), (3 <= m)%nat -> qr_of m 3 H q ->
  let G := fmul m (ftr q) H in
  let M := Mat (m - 3) (n + 1) (fun i j => G (i + 3)%nat (j + 3)%nat) in
  (forall x dp, mcost n M x <= hcost m n H dp x) /\
  ((forall dp, (forall i, (i < m)%nat -> rsum 3 (fun k => H i k * v3get dp k) = 0) -> dp = V3 0 0 0) ->
   forall x, exists dp, hcost m n H (v3get dp) x = mcost n M x).
Proof.
  intros m n H q H3 [Qo Qt'] G M.
  assert (Qt : forall i j, (i < m)%nat -> (j < 3)%nat -> (j < i)%nat -> G i j = 0) by exact Qt'. clear Qt'.
  assert (S : forall dp x, hcost m n H dp x = dot 3 (hrow n G dp x) (hrow n G dp x) + mcost n M x).
  { intros dp x. unfold hcost. rewrite <- (orth_dot m q _ Qo).
    rewrite (dot_ext m _ _ (hrow n G dp x) (hrow n G dp x)) by (intros; symmetry; apply hrow_mul).
    unfold dot at 1. replace m with (3 + (m - 3))%nat at 1 by lia. rewrite rsum_app. f_equal.
    unfold mcost. cbn [mr M]. unfold dot. apply rsum_ext. intros i Hi.
    assert (A : hrow n G dp x (3 + i) = me M i n - mvec n (me M) x i).
    { unfold hrow, M. cbn [me]. rewrite (rsum_0 3). 2:{ intros k Hk. rewrite (Qt (3 + i)%nat k) by lia. ring. }
      unfold mvec. rewrite (Nat.add_comm 3 i). rewrite Rminus_0_r. reflexivity. }
    rewrite A. reflexivity. }
  split.
  - intros x dp. rewrite S. pose proof (dot_nonneg 3 (hrow n G dp x)). lra.
  - intros Hi x.
    destruct (upper3_solve G (fun i => G i (n + 3)%nat - rsum n (fun j => G i (j + 3)%nat * x j))) as [dp Hdp].
    + intros i j Hi' Hj. apply Qt; lia.
    + intros dp Hd. apply Hi. intros i Hi'.
      assert (A : forall l, (l < m)%nat -> rsum 3 (fun k => G l k * v3get dp k) = 0).
      { intros l Hl. destruct (lt_dec l 3) as [L|L]; [apply Hd; exact L|]. apply rsum_0. intros k Hk. rewrite (Qt l k) by lia. ring. }
      assert (B : mvec 3 (fmul m q G) (v3get dp) i = 0).
      { rewrite mvec_mul. unfold mvec at 1. apply rsum_0. intros l Hl. unfold mvec. rewrite A by exact Hl. ring. }
      rewrite <- B. symmetry. apply (mvec_feq 3 m); [|exact Hi'].
      unfold G. rewrite <- fmul_assoc. destruct Qo as [_ Q2]. rewrite Q2. apply fmul_id_l.
    + exists dp. rewrite S. assert (Z : dot 3 (hrow n G (v3get dp) x) (hrow n G (v3get dp) x) = 0); [|lra].
      apply rsum_0. intros i Hi'. unfold hrow. rewrite Hdp by exact Hi'. ring.
Qed.
Lemma rsum_pairs : forall A (ms : list A) (g : nat -> R) (h : A -> nat -> R),
  (forall i m, nth_error ms (i / 2) = Some m -> g i = h m (i mod 2)%nat) ->
  rsum (2 * length ms) g = fold_right (fun m acc => h m 0%nat + h m 1%nat + acc) 0 ms.
Proof.
  intros A ms. induction ms as [|m ms IH]; intros g h H; [reflexivity|]. cbn [length fold_right].
  replace (2 * S (length ms))%nat with (2 + 2 * length ms)%nat by lia. rewrite rsum_app.
  rewrite (IH (fun i => g (2 + i)%nat) h).
  2:{ intros i x Hx. replace (i mod 2)%nat with ((2 + i) mod 2)%nat.
      - apply H. replace ((2 + i) / 2)%nat with (S (i / 2)).
        + exact Hx.
        + replace (2 + i)%nat with (1 * 2 + i)%nat by lia. rewrite Nat.div_add_l by lia. reflexivity.
      - replace (2 + i)%nat with (i + 1 * 2)%nat by lia. apply Nat.mod_add. lia. }
  f_equal. rewrite !rsum_S. cbn [ssum]. rewrite (H 0%nat m eq_refl), (H 1%nat m eq_refl). cbn. ring.
Qed.
Lemma feature_cost : forall (o : voracle R) b exts (fs : list (frame R)) (f : feature R),
  valid_norder (vo_nord o) -> (1 <= b)%Z -> consecutive b fs -> (b + Z.of_nat (length fs) < 4294967296)%Z -> (1 <= length fs)%nat ->
  usable (length exts) b (length fs) f -> exact_qr o ->
  let n := err_size (length exts) (length fs - 1) in
  exists R', meas_feature o exts fs n f = Ok (Some R') /\ mc R' = (n + 1)%nat /\
    (forall x dp, mcost n R' x <= track_cost (vo_nord o) b exts fs f dp x) /\
    (locatable (vo_nord o) b exts fs f -> forall x, exists dp, track_cost (vo_nord o) b exts fs f dp x = mcost n R' x).
Proof.
  intros o b exts fs f Hn Hb Hc Hl H1 ((k & K1 & K2) & Hnum & H2 & Hlt & Hcam) Q n.
  destruct (measurement_layout o b exts fs f k Hn Hb Hc Hl K1 K2 H1 Hnum Hlt Hcam) as (R1 & R2 & H & E & Mr & Mc & Ent).
  set (ne := length exts) in *. set (nf := length fs) in *.
  assert (En : hx_cols ne nf = n) by (unfold hx_cols, n, err_size, imu_size; lia). rewrite En in E.
  assert (Ecol : (col_res ne nf = n + 3)%nat) by (unfold col_res, n, err_size; lia). rewrite Ecol in Mc, Ent.
  assert (Ems : track_meas (vo_nord o) k (ft_obs f) = meas_of (vo_nord o) b f) by (unfold meas_of; f_equal; lia). rewrite Ems in R2, Ent.
  set (ms := meas_of (vo_nord o) b f) in *. set (m := rows_of f) in *. assert (H3 : (3 <= m)%nat) by lia.
  pose proof (Q (get_block H 0 0 (mr H) 3)) as Qh. cbn [get_block mr mc] in Qh.
  assert (Qh' : qr_of m 3 (me H) (vo_qr o (get_block H 0 0 m 3))) by (rewrite <- Mr; exact Qh). clear Qh.
  unfold meas_feature. fold m. cbv zeta. rewrite E. cbn [obind].
  rewrite block_ok by lia. cbn [obind]. rewrite Mr.
  set (q := vo_qr o (get_block H 0 0 m 3)) in *.
  assert (Sr : mr (qr_apply (vo_qr o) (get_block H 0 0 m 3) H) = m) by (cbn; exact Mr).
  assert (Sc : mc (qr_apply (vo_qr o) (get_block H 0 0 m 3) H) = (n + 4)%nat) by (change (mc H = (n + 4)%nat); lia).
  rewrite Sr, Sc. replace (Nat.ltb m 3) with false by (symmetry; apply Nat.ltb_ge; exact H3).
  rewrite block_ok by (rewrite ?Sr, ?Sc; lia). cbn [obind].
  eexists. split; [reflexivity|]. split; [cbn [mc get_block]; lia|].
  destruct (project_cost m n (me H) q H3 Qh') as [Lo At]. cbv zeta in Lo, At.
  set (G := fmul m (ftr q) (me H)) in *. set (M := Mat (m - 3) (n + 1) (fun i j => G (i + 3)%nat (j + 3)%nat)) in *.
  assert (Eb : forall x, mcost n (get_block (qr_apply (vo_qr o) (get_block H 0 0 m 3) H) 3 3 (m - 3) (n + 4 - 3)) x = mcost n M x).
  { assert (A : forall i j, me (get_block (qr_apply (vo_qr o) (get_block H 0 0 m 3) H) 3 3 (m - 3) (n + 4 - 3)) i j = me M i j).
    { intros i j. unfold get_block at 1, qr_apply, mmul, mtr, M, G. cbn [me mc mr]. fold q. rewrite Mr.
      unfold fmul, ftr. apply rsum_ext. intros l _. cbn [smul ops_R]. rewrite (Nat.add_comm i 3), (Nat.add_comm j 3). reflexivity. }
    intros x. unfold mcost. cbn [mr get_block M]. apply dot_ext; intros i _; rewrite A; f_equal; apply rsum_ext; intros j _; rewrite A; reflexivity. }
  assert (Et : forall dp x, track_cost (vo_nord o) b exts fs f dp x = hcost m n (me H) (v3get dp) x).
  { intros dp x. unfold hcost, dot, track_cost. fold ms. rewrite R2. symmetry.
    rewrite (rsum_pairs _ ms (fun i => hrow n (me H) (v3get dp) x i * hrow n (me H) (v3get dp) x i) (fun mm r => misfit exts fs (ft_pw f) mm r dp x ^ 2)); [reflexivity|].
    intros i mm Hm. assert (Hi : (i < m)%nat).
    { rewrite R2. assert (i / 2 < length ms)%nat by (apply nth_error_Some; congruence). pose proof (Nat.div_mod i 2 ltac:(lia)). pose proof (Nat.mod_upper_bound i 2 ltac:(lia)). lia. }
    assert (A : forall j, (j < n + 4)%nat -> me H i j = meas_entry ne nf exts fs (ft_pw f) mm (i mod 2) j).
    { intros j Hj. destruct (Ent i j Hi ltac:(lia)) as (m' & Em' & ->). replace m' with mm by congruence. reflexivity. }
    assert (B : hrow n (me H) (v3get dp) x i = misfit exts fs (ft_pw f) mm (i mod 2) dp x).
    { unfold hrow, misfit. fold ne nf n. rewrite Ecol. rewrite A by lia. f_equal; [f_equal|]; apply rsum_ext; intros j Hj; rewrite A by lia; reflexivity. }
    rewrite B. ring. }
  split.
  - intros x dp. rewrite Eb, Et. apply Lo.
  - intros Loc x. destruct (At) with (x := x) as [dp Hdp]; [|exists dp; rewrite Eb, Et; exact Hdp].
    intros dp Hd. apply Loc. fold ms. fold ne nf. intros mm r Hm Hr. apply In_nth_error in Hm as [a Ha].
    assert (La : (a < length ms)%nat) by (apply nth_error_Some; congruence).
    assert (D1 : ((2 * a + r) / 2 = a)%nat) by (rewrite Nat.mul_comm, Nat.div_add_l by lia; rewrite Nat.div_small by exact Hr; lia).
    assert (D2 : ((2 * a + r) mod 2 = r)%nat) by (rewrite Nat.add_comm, Nat.mul_comm, Nat.mod_add by lia; apply Nat.mod_small; exact Hr).
    rewrite <- (Hd (2 * a + r)%nat) by (rewrite R2; lia). apply rsum_ext. intros j Hj.
    destruct (Ent (2 * a + r)%nat j ltac:(rewrite R2; lia) ltac:(lia)) as (m' & Em' & ->). rewrite D1 in Em'. rewrite D2. replace m' with mm by congruence. reflexivity.
Qed.

(** ** The stack and its compression *)
Lemma mcost_set : forall n (H sub : mat R) row x, (row + mr sub <= mr H)%nat -> mc sub = (n + 1)%nat ->
  (forall i j, (row <= i < mr H)%nat -> (j <= n)%nat -> me H i j = 0) ->
  mcost n (set_block H row 0 sub) x = mcost n H x + mcost n sub x /\
  (forall i j, (row + mr sub <= i < mr H)%nat -> (j <= n)%nat -> me (set_block H row 0 sub) i j = 0).
Proof.
  intros n H sub row x Hr Hc Z.
  assert (In : forall i j, (i < mr sub)%nat -> (j <= n)%nat -> me (set_block H row 0 sub) (row + i) j = me sub i j).
  { intros i j Hi Hj. unfold set_block. cbn [me]. replace (Nat.leb row (row + i)) with true by (symmetry; apply Nat.leb_le; lia).
    replace (Nat.ltb (row + i) (row + mr sub)) with true by (symmetry; apply Nat.ltb_lt; lia).
    replace (Nat.ltb j (0 + mc sub)) with true by (symmetry; apply Nat.ltb_lt; lia). cbn. rewrite Nat.sub_0_r. f_equal. lia. }
  assert (Out : forall i j, (i < row \/ row + mr sub <= i)%nat -> me (set_block H row 0 sub) i j = me H i j).
  { intros i j [L|L]; unfold set_block; cbn [me].
    - replace (Nat.leb row i) with false by (symmetry; apply Nat.leb_gt; lia). reflexivity.
    - replace (Nat.ltb i (row + mr sub)) with false by (symmetry; apply Nat.ltb_ge; lia). rewrite andb_false_r. reflexivity. }
  split; [|intros i j Hi Hj; rewrite Out by lia; apply Z; lia].
  unfold mcost. cbn [mr set_block]. change (mr H) with (mr (set_block H row 0 sub)) at 1.
  cbn [mr set_block]. set (B := set_block H row 0 sub) in *. unfold dot.
  assert (R0 : forall i, (row <= i < mr H)%nat -> me H i n - mvec n (me H) x i = 0).
  { intros i Hi. rewrite Z by lia. unfold mvec. rewrite rsum_0; [ring|]. intros j Hj. rewrite Z by lia. ring. }
  assert (RB : forall i, (i < row \/ row + mr sub <= i)%nat -> me B i n - mvec n (me B) x i = me H i n - mvec n (me H) x i).
  { intros i Hi. rewrite Out by exact Hi. f_equal. apply rsum_ext. intros j _. rewrite Out by exact Hi. reflexivity. }
  assert (RS : forall i, (i < mr sub)%nat -> me B (row + i) n - mvec n (me B) x (row + i)%nat = me sub i n - mvec n (me sub) x i).
  { intros i Hi. rewrite In by lia. f_equal. apply rsum_ext. intros j Hj. rewrite In by lia. reflexivity. }
  replace (mr H) with (row + (mr sub + (mr H - row - mr sub)))%nat by lia. rewrite !rsum_app.
  rewrite (rsum_ext row _ (fun i => (me H i n - mvec n (me H) x i) * (me H i n - mvec n (me H) x i))) by (intros i Hi; rewrite RB by lia; reflexivity).
  rewrite (rsum_ext (mr sub) (fun i => (me B (row + i) n - _) * _) (fun i => (me sub i n - mvec n (me sub) x i) * (me sub i n - mvec n (me sub) x i))) by (intros i Hi; rewrite RS by lia; reflexivity).
  rewrite (rsum_0 (mr H - row - mr sub)) by (intros i Hi; rewrite RB by lia; rewrite R0 by lia; ring).
  rewrite (rsum_0 (mr sub) (fun i => (me H (row + i) n - _) * _)) by (intros i Hi; rewrite R0 by lia; ring).
  rewrite (rsum_0 (mr H - row - mr sub)) by (intros i Hi; rewrite R0 by lia; ring). ring.
Qed.
Lemma stack_cost : forall (o : voracle R) b exts (fs : list (frame R)) h,
  valid_norder (vo_nord o) -> (1 <= b)%Z -> consecutive b fs -> (b + Z.of_nat (length fs) < 4294967296)%Z -> (1 <= length fs)%nat -> exact_qr o ->
  let n := err_size (length exts) (length fs - 1) in
  forall l fl row H H', Forall2 (fun p f => hp_cells h !! p = Some f) l fl ->
  List.Forall (usable (length exts) b (length fs)) fl ->
  stack_loop o exts fs n h l row H = Ok (Some H') -> mc H = (n + 1)%nat ->
  (forall i j, (row <= i < mr H)%nat -> (j <= n)%nat -> me H i j = 0) ->
  mc H' = (n + 1)%nat /\
  (forall x dps, mcost n H' x <= mcost n H x + tracks_cost (vo_nord o) b exts fs fl dps x) /\
  (List.Forall (locatable (vo_nord o) b exts fs) fl ->
   forall x, exists dps, mcost n H x + tracks_cost (vo_nord o) b exts fs fl dps x = mcost n H' x).
Proof.
  intros o b exts fs h Hn Hb Hc Hl H1 Q n. induction l as [|p l IH]; intros fl row H H' Hp Hu E Hm Z; inversion Hp as [|? f ? fl' Ef Ht]; subst; cbn [stack_loop] in E.
  - injection E as <-. split; [exact Hm|]. cbn [tracks_cost]. split; [intros; lra|]. intros _ x. exists (fun _ => V3 0 0 0). lra.
  - inversion Hu as [|? ? Uf Hu']; subst.
    destruct (feature_cost o b exts fs f Hn Hb Hc Hl H1 Uf Q) as (R' & ER & MC & Lo & At). fold n in ER, MC, Lo, At.
    rewrite (hget_ok h p f Ef) in E. cbn [obind] in E. rewrite ER in E. cbn [obind] in E.
    binv E. apply setbn_inv in E0. destruct E0 as (S1 & S2 & S3 & S4 & ->).
    assert (Sz : (row + mr R' <= mr H)%nat) by lia.
    destruct (IH fl' (row + sub_rows f)%nat _ H' Ht Hu' E) as (M' & Lo' & At').
    { exact Hm. }
    { intros i j Hi Hj. cbn [mr set_block] in Hi. apply (proj2 (mcost_set n H R' row (fun _ => 0) Sz MC Z)); lia. }
    split; [exact M'|]. cbn [tracks_cost]. split.
    + intros x dps. pose proof (Lo' x (fun i => dps (S i))) as A. rewrite (proj1 (mcost_set n H R' row x Sz MC Z)) in A.
      pose proof (Lo x (dps O)). lra.
    + intros Loc x. inversion Loc as [|? ? L1 L2]; subst. destruct (At L1 x) as [dp Hdp]. destruct (At' L2 x) as [dps Hdps].
      exists (fun i => match i with O => dp | S i => dps i end). rewrite (proj1 (mcost_set n H R' row x Sz MC Z)) in Hdps.
      change (mcost n H x + (track_cost (vo_nord o) b exts fs f dp x + tracks_cost (vo_nord o) b exts fs fl' dps x) = mcost n H' x). lra.
Qed.
(** Compression keeps the cost up to a constant. *)
Lemma compress_cost : forall (o : voracle R) n H H', mc H = (n + 1)%nat -> exact_qr o -> compress o H = Ok H' ->
  mc H' = (n + 1)%nat /\ exists c, forall x, mcost n H x = mcost n H' x + c.
Proof.
  intros o n H H' Hm Q E. unfold compress in E. destruct (Nat.ltb_spec (mc H) (mr H)) as [L|L]; [|injection E as <-; split; [exact Hm|exists 0; intros; ring]].
  rewrite Hm in E, L. replace (n + 1 - 1)%nat with n in E by lia. rewrite block_ok in E by lia. cbn [obind] in E. injection E as <-.
  set (m := mr H) in *. pose proof (Q (get_block H 0 0 m n)) as Qh. cbn [get_block mr mc] in Qh. set (q := vo_qr o (get_block H 0 0 m n)) in *.
  destruct Qh as [Qo Qt]. set (M := qr_apply (vo_qr o) (get_block H 0 0 m n) H).
  assert (MQ : mr M = m /\ mc M = (n + 1)%nat) by (split; [reflexivity|exact Hm]). destruct MQ as [MQ1 MQ2].
  assert (Qt' : forall i j, (i < m)%nat -> (j < n)%nat -> (j < i)%nat -> fmul m (ftr q) (me H) i j = 0) by exact Qt. clear Qt.
  assert (EM : forall i j, me M i j = fmul m (ftr q) (me H) i j).
  { intros i j. unfold M, qr_apply, mmul, mtr. cbn [me mc mr]. reflexivity. }
  split; [cbn [cresize mc]; exact MQ2|].
  exists (rsum (m - n) (fun i => me M (n + i) n * me M (n + i) n)). intros x.
  assert (A : mcost n H x = mcost n M x).
  { unfold mcost. rewrite MQ1. fold m. rewrite <- (orth_dot m q _ Qo). 
    assert (B : forall i, (i < m)%nat -> mvec m (ftr q) (fun i => me H i n - mvec n (me H) x i) i = me M i n - mvec n (me M) x i).
    { intros i Hi. rewrite EM. assert (B0 : mvec n (me M) x i = mvec n (fmul m (ftr q) (me H)) x i) by (apply rsum_ext; intros; rewrite EM; reflexivity).
      rewrite B0, mvec_mul.
      unfold mvec at 1 3. unfold fmul. rewrite <- rsum_minus. apply rsum_ext. intros; ring. }
    apply dot_ext; exact B. }
  rewrite A. unfold mcost, dot. rewrite MQ1. cbn [mr cresize]. rewrite Hm. replace (n + 1 - 1)%nat with n by lia.
  replace m with (n + (m - n))%nat at 1 by lia. rewrite rsum_app. f_equal.
  - apply rsum_ext. intros i Hi.
    assert (C : forall j, (j < n + 1)%nat -> me (cresize (vo_junk o) M n (n + 1)) i j = me M i j) by (intros j Hj; apply cresize_in; lia).
    assert (C0 : mvec n (me (cresize (vo_junk o) M n (n + 1))) x i = mvec n (me M) x i) by (apply rsum_ext; intros j Hj; rewrite C by lia; reflexivity).
    rewrite C by lia. rewrite C0. reflexivity.
  - apply rsum_ext. intros i Hi. assert (D : mvec n (me M) x (n + i)%nat = 0).
    { apply rsum_0. intros j Hj. rewrite EM, Qt' by lia. ring. }
    rewrite D. ring.
Qed.
Lemma measurement_cost : forall (o : voracle R) b exts (fs : list (frame R)) h l fl Hr,
  valid_norder (vo_nord o) -> (1 <= b)%Z -> consecutive b fs -> (b + Z.of_nat (length fs) < 4294967296)%Z -> (1 <= length fs)%nat -> exact_qr o ->
  Forall2 (fun p f => hp_cells h !! p = Some f) l fl -> List.Forall (usable (length exts) b (length fs)) fl ->
  measurement o exts fs h l = Ok (Some Hr) ->
  let n := err_size (length exts) (length fs - 1) in
  mc Hr = (n + 1)%nat /\ exists c,
  (forall x dps, mcost n Hr x + c <= tracks_cost (vo_nord o) b exts fs fl dps x) /\
  (List.Forall (locatable (vo_nord o) b exts fs) fl -> forall x, exists dps, tracks_cost (vo_nord o) b exts fs fl dps x = mcost n Hr x + c).
Proof.
  intros o b exts fs h l fl Hr Hn Hb Hc Hl H1 Q Hp Hu E n. unfold measurement in E. binv E. binv E. destruct x0 as [H0|]; [|discriminate].
  binv E. injection E as <-.
  assert (En : hx_cols (length exts) (length fs) = n) by (unfold hx_cols, n, err_size, imu_size; lia). rewrite En in E1.
  destruct (stack_cost o b exts fs h Hn Hb Hc Hl H1 Q l fl _ _ _ Hp Hu E1) as (M & Lo & At); [reflexivity|reflexivity|].
  fold n in M, Lo, At. destruct (compress_cost o n H0 x0 M Q E2) as (M' & c & C). split; [exact M'|]. exists c.
  assert (Z : forall y, mcost n (mzero (Z.to_nat x) (n + 1)) y = 0).
  { intros y. apply rsum_0. intros i _. unfold mvec. rewrite rsum_0; cbn; [ring|]. intros; ring. }
  split.
  - intros y dps. rewrite <- C. pose proof (Lo y dps) as A. rewrite Z in A. lra.
  - intros Loc y. destruct (At Loc y) as [dps A]. exists dps. rewrite Z in A. rewrite <- C. lra.
Qed.

(** C90 *)
Lemma psd_kernel : forall n p e, fpsd n p -> qform n p e = 0 -> forall i, (i < n)%nat -> mvec n p e i = 0.
Proof.
  intros n p e [Hs Hp] H i Hi. set (g := mvec n p e). set (t := dot n g g).
  (* qform (e - s g) = -2 s t + s^2 qform g >= 0 for every s, so t = 0 *)
  assert (T : t = 0).
  { pose proof (dot_nonneg n g) as T0. fold t in T0. set (w := qform n p g).
    assert (A : forall s, 0 <= - 2 * s * t + s * s * w).
    { intros s. pose proof (Hp (fun k => 1 * e k + (- s) * g k)) as A. rewrite qform_dot in A.
      rewrite (dot_ext n _ (mvec n p _) (fun k => 1 * e k + (- s) * g k) (fun k => 1 * g k + (- s) * mvec n p g k)) in A; [|reflexivity|intros; apply mvec_lin].
      rewrite dot_lin, !dot_lin_r in A.
      assert (B1 : dot n e g = 0) by (rewrite <- H; symmetry; apply qform_dot).
      assert (B2 : dot n e (mvec n p g) = t).
      { rewrite dot_tr. apply dot_ext; [|reflexivity]. intros k Hk. apply (mvec_feq n n); [exact Hs|exact Hk]. }
      rewrite B1, B2 in A. change (dot n g g) with t in A. rewrite <- qform_dot in A. fold w in A. lra. }
    pose proof (A 1) as A1. assert (W : 0 <= w) by apply Hp. destruct (Req_dec w 0) as [W0|W0]; [rewrite W0 in A1; lra|].
    pose proof (A (t / w)) as A2. replace (- 2 * (t / w) * t + t / w * (t / w) * w) with (- (t * t / w)) in A2 by (field; exact W0).
    assert (0 < w) by lra. destruct (Req_dec t 0) as [|T1]; [assumption|]. assert (0 < t * t / w) by (apply Rdiv_lt_0_compat; nra). lra. }
  assert (G : g i * g i = 0) by (apply (rsum_pos_0 n (fun k => g k * g k)); [intros; nra|exact T|exact Hi]). fold g. nra.
Qed.
Theorem update_bundle : forall (o : voracle R) b exts (fs : list (frame R)) h l fl Hr noise (P : mat R),
  valid_norder (vo_nord o) -> exact_qr o -> exact_solver (vo_saes o) ->
  (1 <= b)%Z -> consecutive b fs -> (b + Z.of_nat (length fs) < 4294967296)%Z -> (1 <= length fs)%nat ->
  Forall2 (fun p f => hp_cells h !! p = Some f) l fl ->
  List.Forall (usable (length exts) b (length fs)) fl -> List.Forall (locatable (vo_nord o) b exts fs) fl ->
  measurement o exts fs h l = Ok (Some Hr) ->
  let n := err_size (length exts) (length fs - 1) in
  let cost := bundle_cost (vo_nord o) b exts fs (me P) noise fl in
  mr P = n -> mc P = n -> fpsd n (me P) -> zero_thr < noise * noise ->
  exists K dx P' y0 dps0, kalman (vo_saes o) noise P Hr = Ok (K, dx, P') /\ mr dx = n /\ mr P' = n /\ mc P' = n /\
    (forall i, (i < n)%nat -> me dx i 0%nat = mvec n (me P) y0 i) /\
    (forall y dps, cost y0 dps0 <= cost y dps) /\
    (forall y dps, cost y dps = cost y0 dps0 -> forall i, (i < n)%nat -> mvec n (me P) y i = me dx i 0%nat) /\
    (forall z, exists y dps, (forall i, (i < n)%nat -> mvec n (me P) y i = me dx i 0%nat + mvec n (me P') z i) /\
       (forall dps', cost y dps <= cost y dps') /\ cost y dps = cost y0 dps0 + qform n (me P') z).
Proof.
  intros o b exts fs h l fl Hr noise P Hn Q Sv Hb Hc Hl H1 Hp Hu Hlo E n cost Pr Pc Psd Hz.
  destruct (measurement_cost o b exts fs h l fl Hr Hn Hb Hc Hl H1 Q Hp Hu E) as (Mc & c & Lo & At). fold n in Mc, Lo, At. specialize (At Hlo).
  destruct (kalman_min (vo_saes o) noise n P Hr Pr Pc Mc Psd) as (K & dx & P' & y0 & Ek & Xr & Pr' & Pc' & Dx & Min & Post & _).
  { apply (exact_innovation _ _ n); [exact Sv|exact Pr|exact Pc|reflexivity|exact (proj1 Psd)]. }
  { exact Hz. }
  cbv zeta in Min, Post. set (J := fun y => qform n (me P) y + mcost n Hr (mvec n (me P) y) / (noise * noise)).
  set (D := fun e => qform n (me P) e + dot (mr Hr) (mvec n (me Hr) (mvec n (me P) e)) (mvec n (me Hr) (mvec n (me P) e)) / (noise * noise)).
  assert (Min' : forall y, J y = J y0 + D (vsub y y0)) by exact Min. clear Min.
  assert (s0 : 0 < noise * noise) by (pose proof zero_thr_pos; lra). set (s := noise * noise) in *.
  assert (CL : forall y dps, J y + c / s <= cost y dps).
  { intros y dps. unfold cost, bundle_cost, J. fold n s. replace (noise ^ 2) with s by (unfold s; ring).
    pose proof (Lo (mvec n (me P) y) dps) as A. apply (Rmult_le_compat_r (/ s)) in A; [|left; apply Rinv_0_lt_compat; exact s0]. unfold Rdiv. lra. }
  assert (CA : forall y, exists dps, cost y dps = J y + c / s).
  { intros y. destruct (At (mvec n (me P) y)) as [dps A]. exists dps. unfold cost, bundle_cost, J. fold n s. replace (noise ^ 2) with s by (unfold s; ring).
    rewrite A. field. lra. }
  assert (DP : forall e, qform n (me P) e <= D e).
  { intros e. unfold D. fold s. pose proof (dot_nonneg (mr Hr) (mvec n (me Hr) (mvec n (me P) e))) as A.
    apply (Rmult_le_compat_r (/ s)) in A; [|left; apply Rinv_0_lt_compat; exact s0]. unfold Rdiv. lra. }
  destruct (CA y0) as [dps0 C0]. exists K, dx, P', y0, dps0. do 5 (split; [assumption|]). split; [|split].
  - intros y dps. rewrite C0. pose proof (CL y dps) as A. rewrite Min' in A. pose proof (DP (vsub y y0)). pose proof (proj2 Psd (vsub y y0)). lra.
  - intros y dps Eq i Hi. rewrite Dx by exact Hi. rewrite C0 in Eq. pose proof (CL y dps) as A. rewrite Min' in A.
    pose proof (DP (vsub y y0)) as B. pose proof (proj2 Psd (vsub y y0)) as B2.
    pose proof (psd_kernel n (me P) (vsub y y0) Psd ltac:(lra) i Hi) as Z. unfold vsub in Z. rewrite mvec_lin in Z. lra.
  - intros z. destruct (Post z) as (e & Ee & De & _). set (y := fun i => 1 * y0 i + 1 * e i). destruct (CA y) as [dps Cy]. exists y, dps.
    split; [intros i Hi; rewrite Dx, Ee by exact Hi; unfold y; rewrite mvec_lin; ring|].
    split; [intros dps'; rewrite Cy; apply CL|].
    rewrite Cy, C0, Min'. assert (A : D (vsub y y0) = D e).
    { assert (B : forall i, vsub y y0 i = e i) by (intros i; unfold vsub, y; ring). unfold D.
      f_equal; [apply qform_ext; [reflexivity|intros; apply B]|]. f_equal. apply dot_ext; intros i _; apply mvec_ext; intros k _; apply mvec_ext; intros t _; apply B. }
    rewrite A. assert (De' : D e = qform n (me P') z) by exact De. rewrite De'. ring.
Qed.
