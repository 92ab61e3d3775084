(** Exact QR factorizations exist (Householder reflections): the assumptions on HouseholderQR can be met. *)
From Coq Require Import Reals List Arith Lra Lia.
From Verif Require Import Fp Scalar Base LinAlg MathLib MatFacts UpdSpec KalmanFacts.
Local Open Scope R_scope.

(** Reflection in the hyperplane orthogonal to [u]. *)
Definition refl (r : nat) (u : nat -> R) : fmat :=
  let s := rsum r (fun k => u k * u k) in
  if Req_EM_T s 0 then fid else fun i j => fid i j - 2 / s * (u i * u j).
Lemma fid_sym : forall i j, fid i j = fid j i.
Proof. intros. unfold fid. rewrite Nat.eqb_sym. reflexivity. Qed.
Lemma refl_tr : forall r u i j, refl r u j i = refl r u i j.
Proof. intros. unfold refl. destruct (Req_EM_T _ _); [apply fid_sym|]. rewrite (fid_sym j i). ring. Qed.
Lemma fid_row : forall r i (g : nat -> R), (i < r)%nat -> rsum r (fun k => fid i k * g k) = g i.
Proof.
  intros r i g H. rewrite <- (rsum_delta2 r i g H). apply rsum_ext. intros k _. unfold fid. destruct (Nat.eqb i k); ring.
Qed.
Lemma refl_apply : forall r u g i, (i < r)%nat -> rsum r (fun k => u k * u k) <> 0 ->
  rsum r (fun k => refl r u i k * g k) = g i - 2 / rsum r (fun k => u k * u k) * rsum r (fun k => u k * g k) * u i.
Proof.
  intros r u g i Hi Hs. unfold refl. destruct (Req_EM_T _ _) as [E|_]; [contradiction|]. set (s := rsum r (fun k => u k * u k)) in *.
  transitivity (rsum r (fun k => fid i k * g k) - rsum r (fun k => 2 / s * u i * (u k * g k))).
  - rewrite <- rsum_minus. apply rsum_ext. intros; ring.
  - rewrite fid_row by exact Hi. rewrite rsum_scal_l. ring.
Qed.
Lemma refl_sq : forall r u, feq r r (fmul r (refl r u) (refl r u)) fid.
Proof.
  intros r u. destruct (Req_EM_T (rsum r (fun k => u k * u k)) 0) as [E|E].
  - assert (A : refl r u = fid) by (unfold refl; destruct (Req_EM_T _ _); [reflexivity|contradiction]). rewrite A. apply fmul_id_l.
  - split. intros i j Hi Hj. unfold fmul. rewrite (refl_apply r u (fun k => refl r u k j)) by assumption.
    assert (B : rsum r (fun k => u k * refl r u k j) = - u j).
    { transitivity (rsum r (fun k => refl r u j k * u k)); [apply rsum_ext; intros k _; rewrite refl_tr; ring|].
      rewrite refl_apply by assumption. field. exact E. }
    rewrite B. unfold refl. destruct (Req_EM_T _ _); [contradiction|]. field. exact E.
Qed.
Lemma refl_orth : forall r u, orth r (refl r u).
Proof.
  intros r u. assert (A : feq r r (ftr (refl r u)) (refl r u)) by (split; intros i j _ _; apply refl_tr).
  split; rewrite A; apply refl_sq.
Qed.
(** The vector that reflects the tail of [x] from position [c] on onto the axis [c]. *)
Definition hvec (r c : nat) (x : nat -> R) (k : nat) : R :=
  if Nat.ltb k c then 0 else x k - (if Nat.eqb k c then sqrt (rsum r (fun i => if Nat.ltb i c then 0 else x i * x i)) else 0).
Lemma hvec_fix : forall r c x g i, (i < r)%nat -> (forall k, (c <= k < r)%nat -> g k = 0) ->
  rsum r (fun k => refl r (hvec r c x) i k * g k) = g i.
Proof.
  intros r c x g i Hi Hg. set (u := hvec r c x). destruct (Req_EM_T (rsum r (fun k => u k * u k)) 0) as [E|E].
  - assert (A : refl r u = fid) by (unfold refl; destruct (Req_EM_T _ _); [reflexivity|contradiction]). rewrite A. apply fid_row. exact Hi.
  - rewrite refl_apply by assumption. rewrite (rsum_0 r (fun k => u k * g k)); [ring|].
    intros k Hk. unfold u, hvec. destruct (Nat.ltb_spec k c); [ring|rewrite Hg by lia; ring].
Qed.
Lemma hvec_head : forall r c x i, (i < c)%nat -> forall g, (i < r)%nat -> rsum r (fun k => refl r (hvec r c x) i k * g k) = g i.
Proof.
  intros r c x i Hc g Hi. set (u := hvec r c x). assert (U : u i = 0) by (unfold u, hvec; destruct (Nat.ltb_spec i c); [reflexivity|lia]).
  destruct (Req_EM_T (rsum r (fun k => u k * u k)) 0) as [E|E].
  - assert (A : refl r u = fid) by (unfold refl; destruct (Req_EM_T _ _); [reflexivity|contradiction]). rewrite A. apply fid_row. exact Hi.
  - rewrite refl_apply by assumption. rewrite U. ring.
Qed.
Lemma hvec_zero : forall r c x i, (c < i < r)%nat -> rsum r (fun k => refl r (hvec r c x) i k * x k) = 0.
Proof.
  intros r c x i Hi. set (u := hvec r c x). set (y := rsum r (fun i => if Nat.ltb i c then 0 else x i * x i)).
  assert (Hy : 0 <= y) by (apply rsum_nonneg; intros k _; destruct (Nat.ltb k c); nra). set (al := sqrt y).
  assert (Ha : al * al = y) by (apply sqrt_sqrt; exact Hy).
  assert (Ui : u i = x i). { unfold u, hvec. destruct (Nat.ltb_spec i c), (Nat.eqb_spec i c); try lia. ring. }
  assert (Hc : (c < r)%nat) by lia.
  assert (UX : rsum r (fun k => u k * x k) = y - al * x c).
  { transitivity (rsum r (fun k => (if Nat.ltb k c then 0 else x k * x k) - (if Nat.eqb k c then al * x k else 0))).
    - apply rsum_ext. intros k _. unfold u, hvec. fold y. fold al. destruct (Nat.ltb_spec k c), (Nat.eqb_spec k c); try lia; ring.
    - rewrite rsum_minus. rewrite (rsum_delta r c (fun k => al * x k) Hc). reflexivity. }
  assert (UU : rsum r (fun k => u k * u k) = 2 * (y - al * x c)).
  { transitivity (rsum r (fun k => (if Nat.ltb k c then 0 else x k * x k) + (if Nat.eqb k c then al * al - 2 * al * x k else 0))).
    - apply rsum_ext. intros k _. unfold u, hvec. fold y. fold al. destruct (Nat.ltb_spec k c), (Nat.eqb_spec k c); try lia; ring.
    - rewrite rsum_plus. rewrite (rsum_delta r c (fun k => al * al - 2 * al * x k) Hc). fold y. lra. }
  destruct (Req_EM_T (rsum r (fun k => u k * u k)) 0) as [E|E].
  - assert (A : refl r u = fid) by (unfold refl; destruct (Req_EM_T _ _); [reflexivity|contradiction]). rewrite A, fid_row by lia.
    assert (Z := rsum_pos_0 r (fun k => u k * u k) ltac:(intros; nra) E i ltac:(lia)). cbv beta in Z. rewrite Ui in Z. nra.
  - rewrite refl_apply by (try exact E; lia). rewrite UX, UU in *. rewrite Ui. field. intros Z. apply E. rewrite Z. ring.
Qed.

(** Column by column. *)
Fixpoint qr_fac (r c : nat) (a : fmat) : fmat :=
  match c with
  | O => fid
  | S c' => let q := qr_fac r c' a in fmul r q (refl r (hvec r c' (fun k => fmul r (ftr q) a k c')))
  end.
Lemma fid_orth : forall r, orth r fid.
Proof. intros r. split; [rewrite (ftr_id r r)|rewrite (ftr_id r r)]; apply fmul_id_l. Qed.
Theorem qr_fac_of : forall r c a, qr_of r c a (qr_fac r c a).
Proof.
  intros r c a. induction c as [|c [IO IZ]]; cbn [qr_fac].
  - split; [apply fid_orth|]. intros; lia.
  - set (q := qr_fac r c a) in *. set (x := fun k => fmul r (ftr q) a k c).
    split; [apply orth_mul; [exact IO|apply refl_orth]|]. intros i j Hi Hj Hji.
    assert (E : fmul r (ftr (fmul r q (refl r (hvec r c x)))) a i j = rsum r (fun k => refl r (hvec r c x) i k * fmul r (ftr q) a k j)).
    { unfold fmul at 1, ftr at 1, fmul at 1. unfold fmul.
      transitivity (rsum r (fun l => rsum r (fun k => q l k * refl r (hvec r c x) k i * a l j))).
      - apply rsum_ext. intros l _. rewrite <- rsum_scal_r. reflexivity.
      - rewrite rsum_swap. apply rsum_ext. intros k _. rewrite <- rsum_scal_l. apply rsum_ext. intros l _. unfold ftr. rewrite refl_tr. ring. }
    rewrite E. destruct (Nat.eq_dec j c) as [->|Hn].
    + apply hvec_zero. lia.
    + destruct (le_lt_dec c i) as [Hc|Hc].
      * rewrite (hvec_fix r c x (fun k => fmul r (ftr q) a k j)); [|exact Hi|intros k Hk; apply IZ; lia]. apply IZ; lia.
      * rewrite hvec_head by lia. apply IZ; lia.
Qed.
