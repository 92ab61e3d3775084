(** Utility::Inverse and the Kalman update of UpdateState in exact arithmetic. *)
From Coq Require Import Reals Lra Lia List Arith Bool Setoid Morphisms.
From Verif Require Import Fp Scalar Base LinAlg MathLib Propagator VisionUpdate MatFacts QuatFacts UpdSpec UpdCovFacts.
Import ListNotations.
Local Open Scope R_scope.

#[global] Instance fdiag_proper : forall n, Proper (eq ==> feq n n) fdiag.
Proof. intros n a b ->. reflexivity. Qed.
Lemma fdiag_ext : forall n d e, (forall i, (i < n)%nat -> d i = e i) -> feq n n (fdiag d) (fdiag e).
Proof. intros n d e H. split. intros i j Hi Hj. unfold fdiag. destruct (Nat.eqb_spec i j); [apply H; exact Hi|reflexivity]. Qed.
Lemma fdiag_tr : forall n d, feq n n (ftr (fdiag d)) (fdiag d).
Proof. intros n d. split. intros i j _ _. unfold ftr, fdiag. rewrite Nat.eqb_sym. destruct (Nat.eqb_spec i j); [subst; reflexivity|reflexivity]. Qed.
Lemma fmul_diag_l : forall n d a i j, (i < n)%nat -> fmul n (fdiag d) a i j = d i * a i j.
Proof.
  intros n d a i j Hi. unfold fmul, fdiag. rewrite <- (rsum_delta2 n i (fun k => d i * a k j) Hi). apply rsum_ext.
  intros k _. destruct (Nat.eqb i k); ring.
Qed.
Lemma fmul_diag_r : forall n d a i j, (j < n)%nat -> fmul n a (fdiag d) i j = a i j * d j.
Proof.
  intros n d a i j Hj. unfold fmul, fdiag. rewrite <- (rsum_delta n j (fun k => a i k * d k) Hj). apply rsum_ext.
  intros k _. destruct (Nat.eqb k j); ring.
Qed.
Lemma fdiag_mul : forall n d e, feq n n (fmul n (fdiag d) (fdiag e)) (fdiag (fun i => d i * e i)).
Proof. intros n d e. split. intros i j Hi Hj. rewrite fmul_diag_l by exact Hi. unfold fdiag. destruct (Nat.eqb i j); ring. Qed.
Lemma fdiag_one : forall n, feq n n (fdiag (fun _ => 1)) fid.
Proof. intros n. reflexivity. Qed.

(** V D1 V^t V D2 V^t = V D1 D2 V^t. *)
Lemma spectral_mul : forall n v d e, orth n v ->
  feq n n (fmul n (fmul n (fmul n v (fdiag d)) (ftr v)) (fmul n (fmul n v (fdiag e)) (ftr v)))
          (fmul n (fmul n v (fdiag (fun i => d i * e i))) (ftr v)).
Proof.
  intros n v d e [H _].
  rewrite fmul_assoc. rewrite <- (fmul_assoc n n n n (ftr v) (fmul n v (fdiag e)) (ftr v)).
  rewrite <- (fmul_assoc n n n n (ftr v) v (fdiag e)). rewrite H. rewrite fmul_id_l. rewrite <- fmul_assoc.
  rewrite (fmul_assoc n n n n v (fdiag d) (fdiag e)). rewrite fdiag_mul. reflexivity.
Qed.
Lemma spectral_one : forall n v, orth n v -> feq n n (fmul n (fmul n v (fdiag (fun _ => 1))) (ftr v)) fid.
Proof. intros n v [_ H]. rewrite fdiag_one, fmul_id_r. exact H. Qed.
Lemma spectral_ext : forall n v d e, (forall i, (i < n)%nat -> d i = e i) ->
  feq n n (fmul n (fmul n v (fdiag d)) (ftr v)) (fmul n (fmul n v (fdiag e)) (ftr v)).
Proof. intros n v d e H. rewrite (fdiag_ext n d e H). reflexivity. Qed.
Lemma spectral_psd : forall n v d, (forall i, (i < n)%nat -> 0 <= d i) -> fpsd n (fmul n (fmul n v (fdiag d)) (ftr v)).
Proof. intros n v d H. apply fpsd_congr. apply fpsd_diag. exact H. Qed.
(** A function of a symmetric matrix does not depend on the decomposition used. *)
Lemma spectral_unique : forall n v d w e (f : R -> R), orth n v -> orth n w ->
  feq n n (fmul n (fmul n v (fdiag d)) (ftr v)) (fmul n (fmul n w (fdiag e)) (ftr w)) ->
  feq n n (fmul n (fmul n v (fdiag (fun i => f (d i)))) (ftr v)) (fmul n (fmul n w (fdiag (fun i => f (e i)))) (ftr w)).
Proof.
  intros n v d w e f [V1 V2] [W1 W2] H.
  set (u := fmul n (ftr w) v).
  assert (U : feq n n (fmul n u (fdiag d)) (fmul n (fdiag e) u)).
  { unfold u. transitivity (fmul n (ftr w) (fmul n (fmul n (fmul n v (fdiag d)) (ftr v)) v)).
    - rewrite (fmul_assoc n n n n (fmul n v (fdiag d)) (ftr v) v), V1, fmul_id_r, fmul_assoc. reflexivity.
    - rewrite H. rewrite (fmul_assoc n n n n w (fdiag e) (ftr w)).
      rewrite (fmul_assoc n n n n w (fmul n (fdiag e) (ftr w)) v). rewrite <- fmul_assoc. rewrite W1, fmul_id_l, fmul_assoc. reflexivity. }
  assert (U' : feq n n (fmul n u (fdiag (fun i => f (d i)))) (fmul n (fdiag (fun i => f (e i))) u)).
  { split. intros i j Hi Hj. pose proof (feq_at U i j Hi Hj) as E. rewrite fmul_diag_l, fmul_diag_r in E by assumption.
    rewrite fmul_diag_l, fmul_diag_r by assumption.
    destruct (Req_dec (d j) (e i)) as [->|Hne]; [ring|]. assert (u i j = 0) by nra. nra. }
  assert (Wv : feq n n (fmul n w u) v) by (unfold u; rewrite <- fmul_assoc, W2, fmul_id_l; reflexivity).
  assert (Uv : feq n n (fmul n u (ftr v)) (ftr w)) by (unfold u; rewrite fmul_assoc, V2, fmul_id_r; reflexivity).
  transitivity (fmul n (fmul n (fmul n w u) (fdiag (fun i => f (d i)))) (ftr v)); [rewrite Wv; reflexivity|].
  rewrite (fmul_assoc n n n n w u). rewrite U'. rewrite <- (fmul_assoc n n n n w _ u). rewrite fmul_assoc. rewrite Uv. reflexivity.
Qed.

(** ** Utility::Inverse *)

Definition zero_thr : R := szero (T := R).
Definition pinv1 (x : R) : R := if Rltb zero_thr x then 1 / x else 0.
Lemma zero_thr_pos : 0 < zero_thr.
Proof. unfold zero_thr, szero. cbn [sof32 ops_R]. apply Flocq.Core.Float_prop.F2R_gt_0. reflexivity. Qed.
Lemma pinv1_nonneg : forall x, 0 <= pinv1 x.
Proof.
  intros x. unfold pinv1, Rltb. pose proof zero_thr_pos. destruct (Rlt_dec zero_thr x); [|lra].
  unfold Rdiv. rewrite Rmult_1_l. left. apply Rinv_0_lt_compat. lra.
Qed.
Lemma pinv1_idem : forall x, pinv1 x * x * pinv1 x = pinv1 x.
Proof. intros x. unfold pinv1, Rltb. pose proof zero_thr_pos. destruct (Rlt_dec zero_thr x); [field; lra|ring]. Qed.
Lemma pinv1_inv : forall x, zero_thr < x -> pinv1 x * x = 1 /\ x * pinv1 x = 1.
Proof. intros x H. unfold pinv1, Rltb. pose proof zero_thr_pos. destruct (Rlt_dec zero_thr x); [split; field; lra|lra]. Qed.

Lemma sym_inverse_eq : forall (saes : mat R -> eigen_dec R) (a : mat R), mr (ed_vec (saes a)) = mr a -> mc (ed_vec (saes a)) = mr a ->
  mr (sym_inverse saes a) = mr a /\ mc (sym_inverse saes a) = mr a /\
  feq (mr a) (mr a) (me (sym_inverse saes a))
    (fmul (mr a) (fmul (mr a) (me (ed_vec (saes a))) (fdiag (fun i => pinv1 (ed_val (saes a) i)))) (ftr (me (ed_vec (saes a))))).
Proof.
  intros saes a Hr Hc. unfold sym_inverse. cbn [mr mc mmul mtr]. split; [exact Hr|]. split; [exact Hr|].
  split. intros i j Hi Hj. cbn [me]. apply rsum_ext. intros k Hk. cbn [smul ops_R]. unfold ftr. f_equal.
  unfold mmul. cbn [me mc]. rewrite Hc. apply rsum_ext. intros l Hl. reflexivity.
Qed.

(** C65 *)
Theorem inverse_pseudo : forall (saes : mat R -> eigen_dec R) (a : mat R),
  mr (ed_vec (saes a)) = mr a -> mc (ed_vec (saes a)) = mr a ->
  eigen_of (mr a) (me a) (me (ed_vec (saes a))) (ed_val (saes a)) ->
  let n := mr a in let b := sym_inverse saes a in
  mr b = n /\ mc b = n /\ fpsd n (me b) /\
  feq n n (fmul n (fmul n (me b) (me a)) (me b)) (me b) /\
  feq n n (fmul n (me a) (me b)) (fmul n (me b) (me a)) /\
  (forall i, (i < n)%nat -> forall r, (r < n)%nat ->
     mvec n (me b) (fun k => me (ed_vec (saes a)) k i) r =
     (if Rlt_dec zero_thr (ed_val (saes a) i) then me (ed_vec (saes a)) r i / ed_val (saes a) i else 0)) /\
  ((forall i, (i < n)%nat -> zero_thr < ed_val (saes a) i) ->
     feq n n (fmul n (me b) (me a)) fid /\ feq n n (fmul n (me a) (me b)) fid).
Proof.
  intros saes a Hr Hc [Ho Ha] n b. destruct (sym_inverse_eq saes a Hr Hc) as (Br & Bc & Bb).
  fold b in Br, Bc, Bb. fold n in Br, Bc, Bb, Ho, Ha. set (v := me (ed_vec (saes a))) in *. set (d := ed_val (saes a)) in *.
  split; [exact Br|]. split; [exact Bc|].
  assert (BA : feq n n (fmul n (me b) (me a)) (fmul n (fmul n v (fdiag (fun i => pinv1 (d i) * d i))) (ftr v)))
    by (rewrite Bb, Ha; apply spectral_mul; exact Ho).
  assert (AB : feq n n (fmul n (me a) (me b)) (fmul n (fmul n v (fdiag (fun i => d i * pinv1 (d i)))) (ftr v)))
    by (rewrite Bb, Ha; apply spectral_mul; exact Ho).
  split; [|split; [|split; [|split]]].
  - apply (fpsd_ext _ _ _ (symmetry Bb)). apply spectral_psd. intros i _. apply pinv1_nonneg.
  - rewrite BA. rewrite Bb. rewrite spectral_mul by exact Ho. apply spectral_ext. intros i _. apply pinv1_idem.
  - rewrite BA, AB. apply spectral_ext. intros; ring.
  - intros i Hi r Hrn. transitivity (fmul n (me b) v r i); [reflexivity|].
    assert (E : feq n n (fmul n (me b) v) (fmul n v (fdiag (fun k => pinv1 (d k))))).
    { rewrite Bb. rewrite fmul_assoc. destruct Ho as [H1 _]. rewrite H1. apply fmul_id_r. }
    rewrite (feq_at E r i Hrn Hi), fmul_diag_r by exact Hi. unfold pinv1, Rltb. fold v.
    destruct (Rlt_dec zero_thr (d i)); [unfold Rdiv; ring|ring].
  - intros Hd. split.
    + rewrite BA. rewrite <- (spectral_one n v Ho). apply spectral_ext. intros i Hi. apply pinv1_inv. apply Hd. exact Hi.
    + rewrite AB. rewrite <- (spectral_one n v Ho). apply spectral_ext. intros i Hi. apply pinv1_inv. apply Hd. exact Hi.
Qed.

(** ** The Kalman update *)

Lemma fsym_tr : forall n a, fsym n a -> feq n n (ftr a) a.
Proof. intros n a H. exact H. Qed.
Lemma fmul_scale_id_r : forall n m s a, feq n m (fmul m a (fscale s fid)) (fscale s a).
Proof. intros n m s a. rewrite fmul_scale_r, fmul_id_r. reflexivity. Qed.
Lemma fmul_scale_id_l : forall n m s a, feq n m (fmul n (fscale s fid) a) (fscale s a).
Proof. intros n m s a. rewrite fmul_scale_l, fmul_id_l. reflexivity. Qed.

(** Joseph form for any gain: P - K Y^t - Y K^t + K S K^t with Y = P H^t. *)
Lemma joseph_expand : forall n m p h k s, fsym n p ->
  let y := fmul n p (ftr h) in
  feq n n (joseph n m p h k s)
    (fadd (fsub (fsub p (fmul m k (ftr y))) (fmul m y (ftr k))) (fmul m (fmul m k (innov_cov n p h s)) (ftr k))).
Proof.
  intros n m p h k s Hp y. unfold joseph.
  assert (Yt : feq m n (ftr y) (fmul n h p)).
  { unfold y. rewrite (ftr_mul m n n p (ftr h)). rewrite (ftr_tr m n h). rewrite Hp. reflexivity. }
  assert (KH : feq n n (fmul n (fmul m k h) p) (fmul m k (ftr y))).
  { rewrite fmul_assoc. rewrite Yt. reflexivity. }
  assert (KHt : feq n n (fmul n p (ftr (fmul m k h))) (fmul m y (ftr k))).
  { rewrite (ftr_mul n n m k h). unfold y. rewrite fmul_assoc. reflexivity. }
  rewrite (ftr_sub n n fid (fmul m k h)). rewrite (ftr_id n n).
  rewrite fmul_sub_l. rewrite (fmul_id_l n n p). rewrite KH.
  rewrite (fmul_sub_r n n n _ fid). rewrite fmul_id_r. rewrite (fmul_sub_l n n n p). rewrite KHt.
  assert (Q : feq n n (fmul n (fmul m k (ftr y)) (ftr (fmul m k h))) (fmul m (fmul m k (fmul n (fmul n h p) (ftr h))) (ftr k))).
  { rewrite (ftr_mul n n m k h). rewrite Yt.
    rewrite <- (fmul_assoc n n n m (fmul m k (fmul n h p)) (ftr h) (ftr k)).
    rewrite (fmul_assoc n m m n k (fmul n h p) (ftr h)). reflexivity. }
  rewrite Q.
  unfold innov_cov. rewrite (fmul_add_r n m m k). rewrite fmul_scale_id_r. rewrite (fmul_add_l n n m). rewrite (fmul_scale_l n n m s k).
  split. intros i j Hi Hj. unfold fadd, fsub. ring.
Qed.

Lemma innov_psd : forall n m p h s, fpsd n p -> 0 <= s -> fpsd m (innov_cov n p h s).
Proof.
  intros n m p h s Hp Hs. unfold innov_cov. apply fpsd_add; [apply fpsd_congr; exact Hp|].
  apply (fpsd_ext m (fdiag (fun _ => s))).
  - split. intros i j _ _. unfold fdiag, fscale, fid. destruct (Nat.eqb i j); ring.
  - apply fpsd_diag. intros; exact Hs.
Qed.
Lemma fpsd_scale : forall n s a, 0 <= s -> fpsd n a -> fpsd n (fscale s a).
Proof.
  intros n s a Hs [H1 H2]. split.
  - split. intros i j Hi Hj. unfold ftr, fscale. f_equal. apply (feq_at H1 i j Hi Hj).
  - intros x. replace (qform n (fscale s a) x) with (s * qform n a x); [apply Rmult_le_pos; [exact Hs|apply H2]|].
    unfold qform, fscale. rewrite <- rsum_scal_l. apply rsum_ext. intros i _. rewrite <- rsum_scal_l. apply rsum_ext. intros; ring.
Qed.
Lemma fpsd_gram : forall n m k, fpsd n (fmul m k (ftr k)).
Proof.
  intros n m k. apply (fpsd_ext n (fmul m (fmul m k fid) (ftr k))); [rewrite (fmul_id_r n m k); reflexivity|].
  apply fpsd_congr. apply fpsd_id.
Qed.
Lemma joseph_psd : forall n m p h k s, 0 <= s -> fpsd n p -> fpsd n (joseph n m p h k s).
Proof.
  intros n m p h k s Hs Hp. unfold joseph. apply fpsd_add; [apply fpsd_congr; exact Hp|]. apply fpsd_scale; [exact Hs|apply fpsd_gram].
Qed.

(** The gain built from any symmetric weak inverse of the innovation covariance. *)
Section Gain.
Variables (n m : nat) (p h sp : fmat) (s : R).
Hypothesis Hp : fsym n p.
Hypothesis Hsp : fsym m sp.
Hypothesis Hin : feq m m (fmul m (fmul m sp (innov_cov n p h s)) sp) sp.
Let y : fmat := fmul n p (ftr h).
Let k : fmat := fmul m y sp.

Lemma gain_tr : feq m n (ftr k) (fmul m sp (ftr y)).
Proof. unfold k. rewrite (ftr_mul m n m y sp). rewrite Hsp. reflexivity. Qed.
Lemma gain_y_tr : feq m n (ftr y) (fmul n h p).
Proof. unfold y. rewrite (ftr_mul m n n p (ftr h)). rewrite (ftr_tr m n h). rewrite Hp. reflexivity. Qed.
Lemma gain_ksk : feq n n (fmul m (fmul m k (innov_cov n p h s)) (ftr k)) (fmul m k (ftr y)).
Proof.
  rewrite gain_tr. unfold k. rewrite (fmul_assoc n m m m y sp). rewrite <- (fmul_assoc n n m m _ sp (ftr y)).
  rewrite (fmul_assoc n m m m y). rewrite Hin. reflexivity.
Qed.
Lemma gain_sym : feq n n (fmul m y (ftr k)) (fmul m k (ftr y)).
Proof. rewrite gain_tr. unfold k. rewrite fmul_assoc. reflexivity. Qed.
Lemma gain_joseph : feq n n (joseph n m p h k s) (fsub p (fmul m k (ftr y))).
Proof.
  rewrite joseph_expand by exact Hp. fold y. rewrite gain_ksk, gain_sym. split. intros i j _ _. unfold fadd, fsub. ring.
Qed.
(** (I - K H) P. *)
Lemma gain_short : feq n n (fmul n (fadd (fmul m (fopp k) h) fid) p) (fsub p (fmul m k (ftr y))).
Proof.
  rewrite fmul_add_l. rewrite (fmul_id_l n n p). rewrite (fmul_opp_l n n m k h). rewrite (fmul_opp_l n n n (fmul m k h) p).
  rewrite (fmul_assoc n n m n k h p). rewrite gain_y_tr. split. intros i j _ _. unfold fadd, fsub, fopp. ring.
Qed.
Lemma gain_drop_psd : fpsd m sp -> fpsd n (fmul m k (ftr y)).
Proof. intros H. unfold k. apply fpsd_congr. exact H. Qed.
(** With K S = P H^t any other gain L gives a larger covariance: the difference is (L - K) S (L - K)^t. *)
Lemma gain_optimal : forall l, feq n m (fmul m k (innov_cov n p h s)) y ->
  feq n n (fsub (joseph n m p h l s) (fsub p (fmul m k (ftr y))))
    (fmul m (fmul m (fsub l k) (innov_cov n p h s)) (ftr (fsub l k))).
Proof.
  intros l Hk. rewrite joseph_expand by exact Hp. fold y. set (sm := innov_cov n p h s) in *.
  assert (St : feq m m (ftr sm) sm).
  { unfold sm, innov_cov. rewrite ftr_add. assert (E : feq m m (ftr (fscale s fid)) (fscale s fid)).
    { split. intros i j _ _. unfold ftr, fscale, fid. rewrite Nat.eqb_sym. reflexivity. }
    rewrite E. rewrite (ftr_mul m m n (fmul n h p) (ftr h)). rewrite (ftr_mul n m n h p). rewrite (ftr_tr m n h). rewrite Hp.
    rewrite fmul_assoc. reflexivity. }
  assert (Ht : feq m n (fmul m sm (ftr k)) (ftr y)).
  { rewrite <- St at 1. rewrite <- (ftr_mul m n m k sm). rewrite Hk. reflexivity. }
  rewrite (ftr_sub m n l k). rewrite (fmul_sub_l n m m l k sm). rewrite Hk.
  rewrite (fmul_sub_r n n m _ (ftr l) (ftr k)). rewrite !fmul_sub_l.
  rewrite (fmul_assoc n n m m l sm (ftr k)). rewrite Ht. rewrite gain_sym.
  split. intros i j _ _. unfold fadd, fsub. ring.
Qed.
End Gain.

(** Eigenvalues of the innovation covariance are at least the noise. *)
Lemma innov_eigen_ge : forall n m p h s v d, fpsd n p -> eigen_of m (innov_cov n p h s) v d ->
  forall i, (i < m)%nat -> s <= d i.
Proof.
  intros n m p h s v d Hp [[V1 V2] He] i Hi.
  assert (E : feq m m (fmul m (fmul m (ftr v) (innov_cov n p h s)) v) (fdiag d)).
  { rewrite He. rewrite <- (fmul_assoc m m m m (ftr v)). rewrite <- (fmul_assoc m m m m (ftr v) v (fdiag d)).
    rewrite V1, fmul_id_l. rewrite fmul_assoc, V1, fmul_id_r. reflexivity. }
  assert (E2 : feq m m (fmul m (fmul m (ftr v) (innov_cov n p h s)) v)
                 (fadd (fmul m (fmul m (ftr v) (fmul n (fmul n h p) (ftr h))) (ftr (ftr v))) (fscale s fid))).
  { unfold innov_cov. rewrite (fmul_add_r m m m (ftr v)). rewrite (fmul_add_l m m m). rewrite fmul_scale_id_r.
    rewrite (fmul_scale_l m m m s (ftr v) v). rewrite V1. reflexivity. }
  pose proof (feq_at E i i Hi Hi) as E'. rewrite (feq_at E2 i i Hi Hi) in E'. unfold fadd, fdiag, fscale, fid in E'.
  rewrite Nat.eqb_refl in E'.
  assert (Q : fpsd m (fmul m (fmul m (ftr v) (fmul n (fmul n h p) (ftr h))) (ftr (ftr v)))) by (apply fpsd_congr, fpsd_congr; exact Hp).
  destruct Q as [_ Q]. specialize (Q (fun k => if Nat.eqb k i then 1 else 0)).
  unfold qform in Q. replace (rsum m _) with (fmul m (fmul m (ftr v) (fmul n (fmul n h p) (ftr h))) (ftr (ftr v)) i i) in Q.
  2:{ symmetry. rewrite <- (rsum_delta m i (fun k => fmul m (fmul m (ftr v) (fmul n (fmul n h p) (ftr h))) (ftr (ftr v)) k i) Hi).
      apply rsum_ext. intros k Hk. destruct (Nat.eqb_spec k i) as [->|].
      - rewrite <- (rsum_delta m i (fun k => fmul m (fmul m (ftr v) (fmul n (fmul n h p) (ftr h))) (ftr (ftr v)) i k) Hi).
        apply rsum_ext. intros l Hl. destruct (Nat.eqb l i); ring.
      - apply rsum_0. intros; ring. }
  lra.
Qed.

(** ** The model of UpdateState, first step *)

(** Sizes and entries of the innovation covariance. *)
Lemma innovation_eq : forall n (P H : mat R) noise, mr P = n -> mc P = n -> mc H = n ->
  exists sm, innovation noise P H = Ok sm /\ mr sm = mr H /\ mc sm = mr H /\
    feq (mr H) (mr H) (me sm) (innov_cov n (me P) (me H) (noise * noise)).
Proof.
  intros n P H noise Pr Pc Hc. unfold innovation. rewrite mmulc_ok by (cbn; lia). cbn [obind].
  rewrite mmulc_ok by (cbn; lia). cbn [obind]. eexists. split; [reflexivity|]. split; [reflexivity|]. split; [reflexivity|].
  assert (A : feq (mr H) (mr H) (fmul n (fmul n (me H) (me P)) (ftr (me H))) (fmul n (me H) (fmul n (me P) (ftr (me H))))) by apply fmul_assoc.
  split. intros i j Hi Hj. unfold innov_cov, fadd, fscale, fid. rewrite (feq_at A i j Hi Hj). unfold add_diag. cbn [me mmul].
  rewrite Hc, Pc. cbn [sadd smul ops_R]. change (rsum n (fun k => me H i k * rsum n (fun k0 => me P k k0 * me H j k0))) with
    (fmul n (me H) (fmul n (me P) (ftr (me H))) i j).
  destruct (Nat.eqb i j); [|rewrite Rmult_0_r, Rplus_0_r; reflexivity]. rewrite Rmult_1_r. reflexivity.
Qed.

(** What the eigen-solver has to deliver for the innovation covariance of (P, H). *)
Definition solver_exact (saes : mat R -> eigen_dec R) (noise : R) (P H : mat R) : Prop :=
  forall sm, innovation noise P H = Ok sm ->
    mr (ed_vec (saes sm)) = mr sm /\ mc (ed_vec (saes sm)) = mr sm /\
    eigen_of (mr sm) (me sm) (me (ed_vec (saes sm))) (ed_val (saes sm)).

(** The result in closed form, with S+ from the eigen-solver's decomposition. *)
Lemma kalman_eq : forall saes noise n (P Hr : mat R), mr P = n -> mc P = n -> mc Hr = (n + 1)%nat ->
  solver_exact saes noise P (get_block Hr 0 0 (mr Hr) n) ->
  let m := mr Hr in let h := me Hr in
  exists K dx P' v d, kalman saes noise P Hr = Ok (K, dx, P') /\
    mr K = n /\ mc K = m /\ mr dx = n /\ mc dx = 1%nat /\ mr P' = n /\ mc P' = n /\
    eigen_of m (innov_cov n (me P) h (noise * noise)) v d /\
    feq n m (me K) (fmul m (fmul n (me P) (ftr h)) (fmul m (fmul m v (fdiag (fun i => pinv1 (d i)))) (ftr v))) /\
    (forall i, (i < n)%nat -> me dx i 0%nat = mvec m (me K) (fun k => me Hr k n) i) /\
    (let nc := fmul n (fadd (fmul m (fopp (me K)) h) fid) (me P) in
     feq n n (me P') (fscale (1 / 2) (fadd nc (ftr nc)))).
Proof.
  intros saes noise n P Hr Pr Pc Hc Hs m h. unfold kalman. rewrite Hc.
  replace (Nat.eqb (n + 1) 0) with false by (symmetry; apply Nat.eqb_neq; lia).
  replace (n + 1 - 1)%nat with n by lia. rewrite block_ok by lia. cbn [obind]. rewrite block_ok by lia. cbn [obind].
  set (H := get_block Hr 0 0 (mr Hr) n) in *. set (r := get_block Hr 0 n (mr Hr) 1).
  assert (Hr' : mr H = m) by reflexivity. assert (Hc' : mc H = n) by reflexivity.
  rewrite mmulc_ok by (cbn; lia). cbn [obind].
  destruct (innovation_eq n P H noise Pr Pc Hc') as (sm & Es & Sr & Sc & Se). rewrite Es. cbn [obind].
  destruct (Hs sm Es) as (Vr & Vc & Ve). destruct (sym_inverse_eq saes sm Vr Vc) as (Ir & Ic & Ie).
  set (V := ed_vec (saes sm)) in *. set (d := ed_val (saes sm)) in *. rewrite Sr in *. rewrite Hr' in *.
  rewrite mmulc_ok by (cbn [mc mmul mtr]; congruence). cbn [obind]. set (K := mmul (mmul P (mtr H)) (sym_inverse saes sm)).
  assert (Kr : mr K = n) by (cbn; exact Pr). assert (Kc : mc K = m) by exact Ic.
  rewrite mmulc_ok by exact Kc. cbn [obind].
  rewrite mmulc_ok by exact Kc. cbn [obind].
  rewrite mmulc_ok by (cbn [add_diag mc mmul]; congruence). cbn [obind].
  rewrite maddc_ok by (cbn [add_diag mc mr mmul mtr mopp]; congruence). cbn [obind].
  exists K, (mmul K r). eexists. exists (me V), d. split; [reflexivity|].
  split; [exact Kr|]. split; [exact Kc|]. split; [exact Kr|]. split; [reflexivity|]. split; [exact Kr|]. split; [exact Pc|].
  split.
  { destruct Ve as [Vo Ve]. split; [exact Vo|]. rewrite <- Ve. symmetry. exact Se. }
  split.
  { rewrite <- Ie. split. intros i j Hi Hj. unfold K, mmul. cbn [me mc mtr]. rewrite Hr', Pc. reflexivity. }
  split.
  { intros i Hi. unfold mmul. cbn [me]. rewrite Kc. apply rsum_ext. intros k Hk. cbn [smul ops_R]. unfold r, get_block. cbn [me].
    rewrite Nat.add_0_r. reflexivity. }
  assert (E : feq n n (me (mmul (add_diag (mmul (mopp K) H) s1) P)) (fmul n (fadd (fmul m (fopp (me K)) h) fid) (me P))).
  { split. intros i j Hi Hj. unfold mmul at 1. cbn [me mc add_diag mmul]. rewrite Hc'. apply rsum_ext. intros l Hl. cbn [smul ops_R]. f_equal.
    unfold fadd, fid, fmul, add_diag. cbn [me mmul mc mopp]. rewrite Kc. cbn [sadd s1 sopp smul ops_R].
    destruct (Nat.eqb i l); [reflexivity|rewrite Rplus_0_r; reflexivity]. }
  cbv zeta. rewrite <- E. split. intros i j Hi Hj. unfold fscale, fadd, ftr, mscale, madd. cbn [me mtr]. unfold shalf, s2.
  cbn [sadd smul sdiv s1 ops_R]. reflexivity.
Qed.

(** C45 *)
Theorem kalman_contracts : forall saes noise n (P Hr : mat R), mr P = n -> mc P = n -> mc Hr = (n + 1)%nat -> fpsd n (me P) ->
  solver_exact saes noise P (get_block Hr 0 0 (mr Hr) n) ->
  let m := mr Hr in let h := me Hr in let s := noise * noise in
  exists K dx P', kalman saes noise P Hr = Ok (K, dx, P') /\
    mr K = n /\ mc K = m /\ mr dx = n /\ mc dx = 1%nat /\ mr P' = n /\ mc P' = n /\
    (* the new covariance is the one of the linear update with gain K *)
    feq n n (me P') (joseph n m (me P) h (me K) s) /\
    fpsd n (me P') /\ fpsd n (fsub (me P) (me P')) /\
    (* the correction *)
    (forall i, (i < n)%nat -> me dx i 0%nat = mvec m (me K) (fun k => me Hr k n) i) /\
    ((forall k, (k < m)%nat -> me Hr k n = 0) -> forall i, (i < n)%nat -> me dx i 0%nat = 0) /\
    (* with noise above the threshold of Inverse, K is the optimal gain *)
    (zero_thr < s -> feq n m (fmul m (me K) (innov_cov n (me P) h s)) (fmul n (me P) (ftr h)) /\
       forall l, fpsd n (fsub (joseph n m (me P) h l s) (me P'))).
Proof.
  intros saes noise n P Hr Pr Pc Hc Hp Hs m h s.
  destruct (kalman_eq saes noise n P Hr Pr Pc Hc Hs) as (K & dx & P' & v & d & E & Kr & Kc & Xr & Xc & Pr' & Pc' & He & EK & Ex & EP).
  fold m in Kc, He, EK, Ex, EP. fold h in He, EK, EP. fold s in He. exists K, dx, P'. split; [exact E|]. do 6 (split; [assumption|]).
  set (sp := fmul m (fmul m v (fdiag (fun i => pinv1 (d i)))) (ftr v)) in *.
  pose proof He as [Ho Hsm]. assert (Hpsd : fpsd m sp) by (apply spectral_psd; intros i _; apply pinv1_nonneg).
  assert (Hsym : fsym m sp) by apply Hpsd. assert (Hps : fsym n (me P)) by apply Hp.
  assert (Hin : feq m m (fmul m (fmul m sp (innov_cov n (me P) h s)) sp) sp).
  { rewrite Hsm. unfold sp. rewrite spectral_mul by exact Ho. rewrite spectral_mul by exact Ho. apply spectral_ext.
    intros i _. apply pinv1_idem. }
  set (y := fmul n (me P) (ftr h)) in *. set (k := fmul m y sp) in *.
  assert (Drop : fpsd n (fmul m k (ftr y))) by (unfold k; apply fpsd_congr; exact Hpsd).
  assert (EPk : feq n n (me P') (fsub (me P) (fmul m k (ftr y)))).
  { cbv zeta in EP. rewrite EP. rewrite EK. pose proof (gain_short n m (me P) h sp Hps) as G. cbv zeta in G. fold y k in G.
    rewrite G. rewrite (ftr_sub n n (me P)). rewrite Hps. destruct Drop as [Dsym _]. rewrite Dsym.
    split. intros i j _ _. unfold fscale, fadd, fsub. field. }
  assert (EJ : feq n n (joseph n m (me P) h (me K) s) (fsub (me P) (fmul m k (ftr y)))).
  { transitivity (joseph n m (me P) h k s).
    - unfold joseph. rewrite EK. reflexivity.
    - apply (gain_joseph n m (me P) h sp s Hps Hsym Hin). }
  split; [rewrite EPk, EJ; reflexivity|]. split; [|split; [|split; [exact Ex|split]]].
  - apply (fpsd_ext n (joseph n m (me P) h (me K) s)); [rewrite EPk, EJ; reflexivity|]. apply joseph_psd; [unfold s; nra|exact Hp].
  - apply (fpsd_ext n (fmul m k (ftr y))); [|exact Drop]. rewrite EPk. split. intros i j _ _. unfold fsub. ring.
  - intros H0 i Hi. rewrite Ex by exact Hi. apply rsum_0. intros l Hl. rewrite H0 by exact Hl. ring.
  - intros Hz.
    assert (KS : feq n m (fmul m k (innov_cov n (me P) h s)) y).
    { unfold k. rewrite fmul_assoc. assert (I : feq m m (fmul m sp (innov_cov n (me P) h s)) fid).
      { rewrite Hsm. unfold sp. rewrite spectral_mul by exact Ho. rewrite <- (spectral_one m v Ho). apply spectral_ext.
        intros i Hi. apply pinv1_inv. pose proof (innov_eigen_ge n m (me P) h s v d Hp He i Hi). lra. }
      rewrite I. apply fmul_id_r. }
    split; [rewrite EK; exact KS|]. intros l.
    apply (fpsd_ext n (fmul m (fmul m (fsub l k) (innov_cov n (me P) h s)) (ftr (fsub l k)))).
    + rewrite EPk. symmetry. apply (gain_optimal n m (me P) h sp s Hps Hsym l KS).
    + apply fpsd_congr. apply innov_psd; [exact Hp|unfold s; nra].
Qed.

(** ** Compression by QR *)

(** Block diagonal matrix: [a] in the first n rows and columns, [c] on the rest of the diagonal. *)
Definition bdiag (n : nat) (a : fmat) (c : R) : fmat :=
  fun i j => if (Nat.ltb i n && Nat.ltb j n)%bool then a i j else if Nat.eqb i j then c else 0.
Lemma bdiag_proper : forall n m a b c, feq n n a b -> feq m m (bdiag n a c) (bdiag n b c).
Proof.
  intros n m a b c H. split. intros i j _ _. unfold bdiag. destruct (Nat.ltb_spec i n), (Nat.ltb_spec j n); cbn [andb]; try reflexivity.
  apply (feq_at H); assumption.
Qed.
Lemma bdiag_mul_l : forall n m a c x, (n <= m)%nat ->
  feq m m (fmul m (bdiag n a c) x) (fun i j => if Nat.ltb i n then fmul n a x i j else c * x i j).
Proof.
  intros n m a c x Hnm. split. intros i j Hi Hj. unfold fmul, bdiag. destruct (Nat.ltb_spec i n) as [H|H].
  - replace m with (n + (m - n))%nat by lia. rewrite rsum_app. rewrite (rsum_0 (m - n)).
    + rewrite Rplus_0_r. apply rsum_ext. intros k Hk. destruct (Nat.ltb_spec k n); [reflexivity|lia].
    + intros k Hk. destruct (Nat.ltb_spec (n + k) n); [lia|]. cbn [andb]. destruct (Nat.eqb_spec i (n + k)); [lia|ring].
  - cbn [andb]. rewrite <- (rsum_delta2 m i (fun k => c * x k j) Hi). apply rsum_ext. intros k _. destruct (Nat.eqb i k); ring.
Qed.
Lemma bdiag_mul : forall n m a b c d, (n <= m)%nat -> feq m m (fmul m (bdiag n a c) (bdiag n b d)) (bdiag n (fmul n a b) (c * d)).
Proof.
  intros n m a b c d Hnm. rewrite bdiag_mul_l by exact Hnm. split. intros i j Hi Hj. unfold bdiag at 2 3.
  destruct (Nat.ltb_spec i n) as [H|H]; cbn [andb].
  - unfold fmul, bdiag. destruct (Nat.ltb_spec j n) as [H'|H'].
    + apply rsum_ext. intros k Hk. destruct (Nat.ltb_spec k n); [reflexivity|lia].
    + destruct (Nat.eqb_spec i j); [lia|]. apply rsum_0. intros k Hk. destruct (Nat.ltb_spec k n); [cbn [andb]|lia].
      destruct (Nat.eqb_spec k j); [lia|ring].
  - destruct (Nat.eqb i j); ring.
Qed.
Lemma bdiag_tr : forall n m a c, feq m m (ftr (bdiag n a c)) (bdiag n (ftr a) c).
Proof.
  intros n m a c. split. intros i j _ _. unfold ftr, bdiag. rewrite (Nat.eqb_sym j i).
  destruct (Nat.ltb i n), (Nat.ltb j n); reflexivity.
Qed.
Lemma bdiag_id : forall n m, feq m m (bdiag n fid 1) fid.
Proof. intros n m. split. intros i j _ _. unfold bdiag, fid. destruct (Nat.ltb i n), (Nat.ltb j n); reflexivity. Qed.
Lemma bdiag_diag : forall n m d c, feq m m (bdiag n (fdiag d) c) (fdiag (fun i => if Nat.ltb i n then d i else c)).
Proof.
  intros n m d c. split. intros i j _ _. unfold bdiag, fdiag.
  destruct (Nat.ltb_spec i n), (Nat.ltb_spec j n); cbn [andb]; try reflexivity; destruct (Nat.eqb_spec i j); try reflexivity; lia.
Qed.
Lemma bdiag_orth : forall n m v, (n <= m)%nat -> orth n v -> orth m (bdiag n v 1).
Proof.
  intros n m v Hnm [H1 H2]. split; rewrite bdiag_tr, bdiag_mul by exact Hnm; rewrite Rmult_1_l.
  - rewrite (bdiag_proper n m _ _ 1 H1). apply bdiag_id.
  - rewrite (bdiag_proper n m _ _ 1 H2). apply bdiag_id.
Qed.
Lemma orth_mul : forall m a b, orth m a -> orth m b -> orth m (fmul m a b).
Proof.
  intros m a b [A1 A2] [B1 B2]. split; rewrite (ftr_mul m m m a b).
  - rewrite fmul_assoc. rewrite <- (fmul_assoc m m m m (ftr a) a b). rewrite A1, fmul_id_l. exact B1.
  - rewrite fmul_assoc. rewrite <- (fmul_assoc m m m m b (ftr b) (ftr a)). rewrite B2, fmul_id_l. exact A2.
Qed.

Section Compress.
Variables (n m : nat) (p h q : fmat) (s : R).
Hypothesis Hnm : (n <= m)%nat.
Hypothesis Hq : orth m q.
Let g : fmat := fmul m (ftr q) h.
Hypothesis Hg : forall i j, (i < m)%nat -> (j < n)%nat -> (n <= i)%nat -> g i j = 0.
Variables (v v1 : fmat) (d d1 : nat -> R).
Hypothesis He : eigen_of m (innov_cov n p h s) v d.
Hypothesis He1 : eigen_of n (innov_cov n p g s) v1 d1.

Lemma cmp_h : feq m n h (fmul m q g).
Proof. unfold g. rewrite <- fmul_assoc. destruct Hq as [_ H]. rewrite H. symmetry. apply fmul_id_l. Qed.
(** g P g^t is zero outside its first n rows and columns. *)
Lemma cmp_gpg : feq m m (innov_cov n p g s) (bdiag n (innov_cov n p g s) s).
Proof.
  assert (Z1 : forall i j, (i < m)%nat -> (n <= i)%nat -> fmul n (fmul n g p) (ftr g) i j = 0).
  { intros i j Hi H. apply rsum_0. intros k Hk. replace (fmul n g p i k) with 0; [ring|]. symmetry. apply rsum_0.
    intros l Hl. rewrite Hg by assumption. ring. }
  assert (Z2 : forall i j, (j < m)%nat -> (n <= j)%nat -> fmul n (fmul n g p) (ftr g) i j = 0).
  { intros i j Hj H. apply rsum_0. intros k Hk. unfold ftr. rewrite Hg by assumption. ring. }
  split. intros i j Hi Hj. unfold bdiag. destruct (Nat.ltb_spec i n), (Nat.ltb_spec j n); cbn [andb]; try reflexivity;
    unfold innov_cov, fadd, fscale, fid.
  - rewrite Z2 by lia. destruct (Nat.eqb_spec i j); [lia|ring].
  - rewrite Z1 by lia. destruct (Nat.eqb_spec i j); [lia|ring].
  - rewrite Z1 by lia. destruct (Nat.eqb i j); ring.
Qed.
Lemma cmp_s : feq m m (innov_cov n p h s) (fmul m (fmul m q (innov_cov n p g s)) (ftr q)).
Proof.
  unfold innov_cov. rewrite cmp_h. rewrite (ftr_mul n m m q g). destruct Hq as [Q1 Q2].
  rewrite (fmul_add_r m m m q). rewrite fmul_scale_id_r. rewrite (fmul_add_l m m m). rewrite (fmul_scale_l m m m s q (ftr q)). rewrite Q2.
  rewrite (fmul_assoc m n m n q g p). rewrite <- (fmul_assoc m m n m _ (ftr g) (ftr q)).
  rewrite (fmul_assoc m m m n q (fmul n g p) (ftr g)). reflexivity.
Qed.
Lemma cmp_pinv : feq m m (fmul m (fmul m v (fdiag (fun i => pinv1 (d i)))) (ftr v))
  (fmul m (fmul m q (bdiag n (fmul n (fmul n v1 (fdiag (fun i => pinv1 (d1 i)))) (ftr v1)) (pinv1 s))) (ftr q)).
Proof.
  destruct He as [Ho HS]. destruct He1 as [Ho1 HS1].
  set (w := fmul m q (bdiag n v1 1)). set (e := fun i => if Nat.ltb i n then d1 i else s).
  assert (Ow : orth m w) by (apply orth_mul; [exact Hq|apply bdiag_orth; assumption]).
  assert (G : forall f : R -> R, feq m m (fmul m (fmul m w (fdiag (fun i => f (e i)))) (ftr w))
     (fmul m (fmul m q (bdiag n (fmul n (fmul n v1 (fdiag (fun i => f (d1 i)))) (ftr v1)) (f s))) (ftr q))).
  { intros f.
    assert (Ef : feq m m (fdiag (fun i => f (e i))) (bdiag n (fdiag (fun i => f (d1 i))) (f s))).
    { rewrite bdiag_diag. apply fdiag_ext. intros i _. unfold e. destruct (Nat.ltb i n); reflexivity. }
    rewrite Ef. unfold w. rewrite (ftr_mul m m m q). rewrite bdiag_tr.
    rewrite (fmul_assoc m m m m q (bdiag n v1 1)). rewrite bdiag_mul by exact Hnm.
    rewrite <- (fmul_assoc m m m m _ (bdiag n (ftr v1) 1) (ftr q)).
    rewrite (fmul_assoc m m m m q). rewrite bdiag_mul by exact Hnm. rewrite Rmult_1_l, Rmult_1_r. reflexivity. }
  rewrite <- (G pinv1). apply spectral_unique; [exact Ho|exact Ow|]. rewrite <- HS.
  pose proof (G (fun x => x)) as G1. cbv beta in G1. change (fun i => e i) with e in G1. rewrite G1.
  change (fun i => d1 i) with d1. rewrite cmp_s, cmp_gpg. rewrite (bdiag_proper n m _ _ s HS1). reflexivity.
Qed.
(** The gain of the full system is the gain of the compressed one, padded with zeros, times q^t. *)
Lemma cmp_gain :
  let k := fmul m (fmul n p (ftr h)) (fmul m (fmul m v (fdiag (fun i => pinv1 (d i)))) (ftr v)) in
  let k1 := fmul n (fmul n p (ftr g)) (fmul n (fmul n v1 (fdiag (fun i => pinv1 (d1 i)))) (ftr v1)) in
  feq n m k (fmul m (fun i j => if Nat.ltb j n then k1 i j else 0) (ftr q)).
Proof.
  intros k k1. unfold k. rewrite cmp_pinv. set (x := fmul n (fmul n v1 (fdiag (fun i => pinv1 (d1 i)))) (ftr v1)) in *.
  destruct Hq as [Q1 Q2]. rewrite cmp_h at 1. rewrite (ftr_mul n m m q g).
  rewrite <- (fmul_assoc n m n m p (ftr g) (ftr q)). rewrite <- (fmul_assoc n m m m).
  rewrite <- (fmul_assoc n m m m _ q). rewrite (fmul_assoc n m m m _ (ftr q) q). rewrite Q1. rewrite (fmul_id_r n m).
  apply fmul_proper; [|reflexivity]. split. intros i j Hi Hj. unfold k1.
  assert (Z : forall l, (l < m)%nat -> (n <= l)%nat -> fmul n p (ftr g) i l = 0).
  { intros l Hl H. apply rsum_0. intros a Ha. unfold ftr. rewrite Hg by assumption. ring. }
  unfold fmul at 1. replace m with (n + (m - n))%nat by lia. rewrite rsum_app. rewrite (rsum_0 (m - n)).
  2:{ intros l Hl. rewrite Z by lia. ring. }
  rewrite Rplus_0_r. destruct (Nat.ltb_spec j n) as [H|H].
  - unfold fmul at 3. apply rsum_ext. intros l Hl. unfold bdiag. destruct (Nat.ltb_spec l n), (Nat.ltb_spec j n); try lia. reflexivity.
  - apply rsum_0. intros l Hl. unfold bdiag. destruct (Nat.ltb_spec l n), (Nat.ltb_spec j n); try lia. cbn [andb].
    destruct (Nat.eqb_spec l j); [lia|ring].
Qed.
(** Hence the same correction for every residual, and the same K H. *)
Lemma cmp_apply : forall (k k1 : fmat) (x : fmat) c,
  feq n m k (fmul m (fun i j => if Nat.ltb j n then k1 i j else 0) (ftr q)) ->
  feq n c (fmul m k x) (fmul n k1 (fmul m (ftr q) x)).
Proof.
  intros k k1 x c H. rewrite H. rewrite fmul_assoc. split. intros i j Hi Hj. unfold fmul at 1.
  replace m with (n + (m - n))%nat at 1 by lia. rewrite rsum_app. rewrite (rsum_0 (m - n)).
  2:{ intros l Hl. destruct (Nat.ltb_spec (n + l) n); [lia|ring]. }
  rewrite Rplus_0_r. unfold fmul at 2. apply rsum_ext. intros l Hl. destruct (Nat.ltb_spec l n); [reflexivity|lia].
Qed.
End Compress.

Lemma eigen_ext : forall n a b v d, feq n n a b -> eigen_of n a v d -> eigen_of n b v d.
Proof. intros n a b v d H [H1 H2]. split; [exact H1|]. rewrite <- H. exact H2. Qed.

(** C46 *)
Theorem compress_same_update : forall (o : voracle R) noise n (P Hr Hc : mat R),
  mr P = n -> mc P = n -> mc Hr = (n + 1)%nat ->
  qr_of (mr Hr) n (me Hr) (vo_qr o (get_block Hr 0 0 (mr Hr) n)) ->
  compress o Hr = Ok Hc ->
  solver_exact (vo_saes o) noise P (get_block Hr 0 0 (mr Hr) n) ->
  solver_exact (vo_saes o) noise P (get_block Hc 0 0 (mr Hc) n) ->
  (mr Hc <= n + 1)%nat /\ mc Hc = (n + 1)%nat /\
  exists K dx P' K1 dx1 P1,
    kalman (vo_saes o) noise P Hr = Ok (K, dx, P') /\ kalman (vo_saes o) noise P Hc = Ok (K1, dx1, P1) /\
    mr dx1 = mr dx /\ mr P1 = mr P' /\ mc P1 = mc P' /\
    feq n 1 (me dx1) (me dx) /\ feq n n (me P1) (me P').
Proof.
  intros o noise n P Hr Hc Pr Pc Hcols [Qo Qt] Ec S S1.
  destruct (kalman_eq _ noise n P Hr Pr Pc Hcols S) as (K & dx & P' & v & d & E & Kr & Kc & Xr & Xc & Pr' & Pc' & He & EK & Ex & EP).
  unfold compress in Ec. rewrite Hcols in Ec. destruct (Nat.ltb_spec (n + 1) (mr Hr)) as [Hlt|Hle].
  2:{ injection Ec as <-. split; [lia|]. split; [exact Hcols|]. exists K, dx, P', K, dx, P'.
      do 2 (split; [exact E|]). do 3 (split; [reflexivity|]). split; reflexivity. }
  replace (n + 1 - 1)%nat with n in Ec by lia. rewrite block_ok in Ec by lia. cbn [obind] in Ec.
  set (q := vo_qr o (get_block Hr 0 0 (mr Hr) n)) in *. injection Ec as Ec.
  set (m := mr Hr) in *.
  assert (Cr : mr Hc = n) by (subst Hc; cbn [mr cresize mc qr_apply mmul]; lia).
  assert (Cc : mc Hc = (n + 1)%nat) by (subst Hc; cbn [mc cresize qr_apply mmul]; exact Hcols).
  split; [lia|]. split; [exact Cc|].
  destruct (kalman_eq _ noise n P Hc Pr Pc Cc S1) as (K1 & dx1 & P1 & v1 & d1 & E1 & Kr1 & Kc1 & Xr1 & Xc1 & Pr1 & Pc1 & He1 & EK1 & Ex1 & EP1).
  rewrite Cr in *.
  set (g := fmul m (ftr q) (me Hr)) in *.
  assert (Hg0 : forall i j, (i < n)%nat -> (j < n + 1)%nat -> me Hc i j = g i j).
  { intros i j Hi Hj. subst Hc. rewrite cresize_in; [reflexivity| |].
    - change (i < m)%nat. lia.
    - change (j < mc Hr)%nat. lia. }
  assert (Hgf : feq n n (me Hc) g) by (split; intros i j Hi Hj; apply Hg0; lia).
  assert (He1' : eigen_of n (innov_cov n (me P) g (noise * noise)) v1 d1).
  { apply (eigen_ext _ (innov_cov n (me P) (me Hc) (noise * noise))); [|exact He1]. unfold innov_cov. rewrite Hgf. reflexivity. }
  assert (Hz : forall i j, (i < m)%nat -> (j < n)%nat -> (n <= i)%nat -> g i j = 0) by (intros i j Hi Hj H; apply Qt; lia).
  assert (Hnm : (n <= m)%nat) by lia.
  pose proof (cmp_gain n m (me P) (me Hr) q (noise * noise) Hnm Qo Hz v v1 d d1 He He1') as G. cbv zeta in G. fold g in G.
  rewrite <- EK in G.
  assert (EK1' : feq n n (me K1) (fmul n (fmul n (me P) (ftr g)) (fmul n (fmul n v1 (fdiag (fun i => pinv1 (d1 i)))) (ftr v1))))
    by (rewrite EK1, Hgf; reflexivity).
  set (kk := fmul n (fmul n (me P) (ftr g)) (fmul n (fmul n v1 (fdiag (fun i => pinv1 (d1 i)))) (ftr v1))) in *.
  exists K, dx, P', K1, dx1, P1. split; [exact E|]. split; [exact E1|]. split; [congruence|]. split; [congruence|]. split; [congruence|]. split.
  - split. intros i j Hi Hj. assert (j = 0%nat) by lia. subst j. rewrite Ex, Ex1 by exact Hi.
    pose proof (cmp_apply n m q Hnm (me K) kk (fun a _ => me Hr a n) 1 G) as A. pose proof (feq_at A i 0%nat Hi ltac:(lia)) as A0.
    unfold mvec. unfold fmul at 1 in A0. rewrite A0. unfold fmul at 1. apply rsum_ext. intros l Hl.
    rewrite (feq_at EK1' i l Hi Hl). f_equal. rewrite Hg0 by lia. reflexivity.
  - pose proof (cmp_apply n m q Hnm (me K) kk (me Hr) n G) as A. fold g in A.
    assert (KH : feq n n (fmul n (me K1) (me Hc)) (fmul m (me K) (me Hr))) by (rewrite A, EK1', Hgf; reflexivity).
    cbv zeta in EP, EP1. rewrite EP, EP1.
    assert (N : feq n n (fmul n (fadd (fmul n (fopp (me K1)) (me Hc)) fid) (me P)) (fmul n (fadd (fmul m (fopp (me K)) (me Hr)) fid) (me P))).
    { rewrite (fmul_opp_l n n n (me K1)), (fmul_opp_l n n m (me K)). rewrite KH. reflexivity. }
    rewrite N. reflexivity.
Qed.
