(** Finite sums and matrices over the reals. *)
From Coq Require Import Reals Lra Lia Arith Bool List Setoid Morphisms.
From Verif Require Import Fp Scalar Base LinAlg.
Local Open Scope R_scope.

Notation rsum := (ssum (T := R)).
Notation rmat := (mat R).

(** ** Sums *)
Lemma rsum_S : forall n (f : nat -> R), rsum (S n) f = rsum n f + f n.
Proof. reflexivity. Qed.
Lemma rsum_ext : forall n (f g : nat -> R), (forall i, (i < n)%nat -> f i = g i) -> rsum n f = rsum n g.
Proof.
  induction n as [|n IH]; intros f g H; [reflexivity|]. rewrite !rsum_S. rewrite (IH f g) by (intros; apply H; lia).
  rewrite (H n) by lia. reflexivity.
Qed.
Lemma rsum_0 : forall n (f : nat -> R), (forall i, (i < n)%nat -> f i = 0) -> rsum n f = 0.
Proof.
  induction n as [|n IH]; intros f H; [reflexivity|]. rewrite rsum_S, (IH f) by (intros; apply H; lia). rewrite (H n) by lia. lra.
Qed.
Lemma rsum_plus : forall n (f g : nat -> R), rsum n (fun i => f i + g i) = rsum n f + rsum n g.
Proof. induction n as [|n IH]; intros f g; [cbn; lra|]. rewrite !rsum_S, IH. lra. Qed.
Lemma rsum_minus : forall n (f g : nat -> R), rsum n (fun i => f i - g i) = rsum n f - rsum n g.
Proof. induction n as [|n IH]; intros f g; [cbn; lra|]. rewrite !rsum_S, IH. lra. Qed.
Lemma rsum_opp : forall n (f : nat -> R), rsum n (fun i => - f i) = - rsum n f.
Proof. induction n as [|n IH]; intros f; [cbn; lra|]. rewrite !rsum_S, IH. lra. Qed.
Lemma rsum_scal_l : forall n c (f : nat -> R), rsum n (fun i => c * f i) = c * rsum n f.
Proof. induction n as [|n IH]; intros c f; [cbn; lra|]. rewrite !rsum_S, IH. lra. Qed.
Lemma rsum_scal_r : forall n c (f : nat -> R), rsum n (fun i => f i * c) = rsum n f * c.
Proof. induction n as [|n IH]; intros c f; [cbn; lra|]. rewrite !rsum_S, IH. lra. Qed.
Lemma rsum_swap : forall n m (f : nat -> nat -> R),
  rsum n (fun i => rsum m (fun j => f i j)) = rsum m (fun j => rsum n (fun i => f i j)).
Proof.
  induction n as [|n IH]; intros m f.
  - cbn. symmetry. apply rsum_0. reflexivity.
  - rewrite rsum_S, IH, <- rsum_plus. apply rsum_ext. intros. rewrite rsum_S. reflexivity.
Qed.
Lemma rsum_app : forall n m (f : nat -> R), rsum (n + m) f = rsum n f + rsum m (fun i => f (n + i)%nat).
Proof.
  intros n m f. induction m as [|m IH].
  - rewrite Nat.add_0_r. cbn. lra.
  - replace (n + S m)%nat with (S (n + m)) by lia. rewrite !rsum_S, IH. lra.
Qed.
Lemma rsum_delta : forall n k (f : nat -> R), (k < n)%nat -> rsum n (fun i => if Nat.eqb i k then f i else 0) = f k.
Proof.
  induction n as [|n IH]; intros k f H; [lia|]. rewrite rsum_S. destruct (Nat.eq_dec k n) as [->|Hk].
  - rewrite Nat.eqb_refl, rsum_0; [lra|]. intros i Hi. destruct (Nat.eqb_spec i n); [lia|reflexivity].
  - rewrite IH by lia. destruct (Nat.eqb_spec n k); [lia|lra].
Qed.
Lemma rsum_delta2 : forall n k (f : nat -> R), (k < n)%nat -> rsum n (fun i => if Nat.eqb k i then f i else 0) = f k.
Proof.
  intros n k f H. rewrite <- (rsum_delta n k f H). apply rsum_ext. intros i _. rewrite Nat.eqb_sym. reflexivity.
Qed.
Lemma rsum_nonneg : forall n (f : nat -> R), (forall i, (i < n)%nat -> 0 <= f i) -> 0 <= rsum n f.
Proof.
  induction n as [|n IH]; intros f H; [cbn; lra|]. rewrite rsum_S. pose proof (IH f ltac:(intros; apply H; lia)).
  pose proof (H n ltac:(lia)). lra.
Qed.
Lemma rsum_pos_0 : forall n (f : nat -> R), (forall i, (i < n)%nat -> 0 <= f i) -> rsum n f = 0 -> forall i, (i < n)%nat -> f i = 0.
Proof.
  induction n as [|n IH]; intros f H H0 i Hi; [lia|]. rewrite rsum_S in H0.
  pose proof (rsum_nonneg n f ltac:(intros; apply H; lia)). pose proof (H n ltac:(lia)).
  destruct (Nat.eq_dec i n) as [->|]; [lra|]. apply IH; [intros; apply H; lia|lra|lia].
Qed.

(** ** Entry functions with explicit sizes *)
Notation fmat := (nat -> nat -> R).
Record feq (n m : nat) (a b : fmat) : Prop := Feq { feq_at : forall i j, (i < n)%nat -> (j < m)%nat -> a i j = b i j }.
Arguments Feq {n m a b}. Arguments feq_at {n m a b}.
Definition fmul (k : nat) (a b : fmat) : fmat := fun i j => rsum k (fun l => a i l * b l j).
Definition fadd (a b : fmat) : fmat := fun i j => a i j + b i j.
Definition fsub (a b : fmat) : fmat := fun i j => a i j - b i j.
Definition fopp (a : fmat) : fmat := fun i j => - a i j.
Definition fscale (c : R) (a : fmat) : fmat := fun i j => c * a i j.
Definition ftr (a : fmat) : fmat := fun i j => a j i.
Definition fid : fmat := fun i j => if Nat.eqb i j then 1 else 0.
Definition fzero : fmat := fun _ _ => 0.

#[global] Instance feq_equiv : forall n m, Equivalence (feq n m).
Proof.
  intros n m. split.
  - intros a. split. intros i j _ _. reflexivity.
  - intros a b [H]. split. intros i j Hi Hj. symmetry. apply H; assumption.
  - intros a b c [H1] [H2]. split. intros i j Hi Hj. rewrite H1 by assumption. apply H2; assumption.
Qed.
#[global] Instance fmul_proper : forall n k m, Proper (feq n k ==> feq k m ==> feq n m) (fmul k).
Proof.
  intros n k m a a' [Ha] b b' [Hb]. split. intros i j Hi Hj. apply rsum_ext. intros l Hl. rewrite Ha, Hb by assumption. reflexivity.
Qed.
#[global] Instance fadd_proper : forall n m, Proper (feq n m ==> feq n m ==> feq n m) fadd.
Proof. intros n m a a' [Ha] b b' [Hb]. split. intros i j Hi Hj. unfold fadd. rewrite Ha, Hb by assumption. reflexivity. Qed.
#[global] Instance fsub_proper : forall n m, Proper (feq n m ==> feq n m ==> feq n m) fsub.
Proof. intros n m a a' [Ha] b b' [Hb]. split. intros i j Hi Hj. unfold fsub. rewrite Ha, Hb by assumption. reflexivity. Qed.
#[global] Instance fopp_proper : forall n m, Proper (feq n m ==> feq n m) fopp.
Proof. intros n m a a' [Ha]. split. intros i j Hi Hj. unfold fopp. rewrite Ha by assumption. reflexivity. Qed.
#[global] Instance fscale_proper : forall n m c, Proper (feq n m ==> feq n m) (fscale c).
Proof. intros n m c a a' [Ha]. split. intros i j Hi Hj. unfold fscale. rewrite Ha by assumption. reflexivity. Qed.
#[global] Instance ftr_proper : forall n m, Proper (feq n m ==> feq m n) ftr.
Proof. intros n m a a' [Ha]. split. intros i j Hi Hj. unfold ftr. apply Ha; assumption. Qed.

Lemma fmul_assoc : forall n m k l a b c, feq n m (fmul l (fmul k a b) c) (fmul k a (fmul l b c)).
Proof.
  intros n m k l a b c. split. intros i j _ _. unfold fmul.
  transitivity (rsum l (fun x => rsum k (fun y => a i y * b y x * c x j))).
  - apply rsum_ext. intros x _. rewrite <- rsum_scal_r. reflexivity.
  - rewrite rsum_swap. apply rsum_ext. intros y _. rewrite <- rsum_scal_l. apply rsum_ext. intros; ring.
Qed.
Lemma fmul_id_l : forall n m a, feq n m (fmul n fid a) a.
Proof.
  intros n m a. split. intros i j Hi Hj. unfold fmul, fid. rewrite <- (rsum_delta2 n i (fun l => a l j) Hi). apply rsum_ext.
  intros l _. destruct (Nat.eqb i l); ring.
Qed.
Lemma fmul_id_r : forall n m a, feq n m (fmul m a fid) a.
Proof.
  intros n m a. split. intros i j Hi Hj. unfold fmul, fid. rewrite <- (rsum_delta m j (fun l => a i l) Hj). apply rsum_ext.
  intros l _. destruct (Nat.eqb l j); ring.
Qed.
Lemma fmul_add_l : forall n m k a b c, feq n m (fmul k (fadd a b) c) (fadd (fmul k a c) (fmul k b c)).
Proof. intros n m k a b c. split. intros i j _ _. unfold fmul, fadd. rewrite <- rsum_plus. apply rsum_ext. intros; ring. Qed.
Lemma fmul_add_r : forall n m k a b c, feq n m (fmul k a (fadd b c)) (fadd (fmul k a b) (fmul k a c)).
Proof. intros n m k a b c. split. intros i j _ _. unfold fmul, fadd. rewrite <- rsum_plus. apply rsum_ext. intros; ring. Qed.
Lemma fmul_sub_l : forall n m k a b c, feq n m (fmul k (fsub a b) c) (fsub (fmul k a c) (fmul k b c)).
Proof. intros n m k a b c. split. intros i j _ _. unfold fmul, fsub. rewrite <- rsum_minus. apply rsum_ext. intros; ring. Qed.
Lemma fmul_sub_r : forall n m k a b c, feq n m (fmul k a (fsub b c)) (fsub (fmul k a b) (fmul k a c)).
Proof. intros n m k a b c. split. intros i j _ _. unfold fmul, fsub. rewrite <- rsum_minus. apply rsum_ext. intros; ring. Qed.
Lemma fmul_opp_l : forall n m k a b, feq n m (fmul k (fopp a) b) (fopp (fmul k a b)).
Proof. intros n m k a b. split. intros i j _ _. unfold fmul, fopp. rewrite <- rsum_opp. apply rsum_ext. intros; ring. Qed.
Lemma fmul_scale_l : forall n m k c a b, feq n m (fmul k (fscale c a) b) (fscale c (fmul k a b)).
Proof. intros n m k c a b. split. intros i j _ _. unfold fmul, fscale. rewrite <- rsum_scal_l. apply rsum_ext. intros; ring. Qed.
Lemma fmul_scale_r : forall n m k c a b, feq n m (fmul k a (fscale c b)) (fscale c (fmul k a b)).
Proof. intros n m k c a b. split. intros i j _ _. unfold fmul, fscale. rewrite <- rsum_scal_l. apply rsum_ext. intros; ring. Qed.
Lemma fmul_zero_r : forall n m k a, feq n m (fmul k a fzero) fzero.
Proof. intros n m k a. split. intros i j _ _. unfold fmul, fzero. apply rsum_0. intros; ring. Qed.
Lemma ftr_mul : forall n m k a b, feq n m (ftr (fmul k a b)) (fmul k (ftr b) (ftr a)).
Proof. intros n m k a b. split. intros i j _ _. unfold fmul, ftr. apply rsum_ext. intros; ring. Qed.
Lemma ftr_add : forall n m a b, feq n m (ftr (fadd a b)) (fadd (ftr a) (ftr b)).
Proof. intros n m a b. split. intros i j _ _. reflexivity. Qed.
Lemma ftr_sub : forall n m a b, feq n m (ftr (fsub a b)) (fsub (ftr a) (ftr b)).
Proof. intros n m a b. split. intros i j _ _. reflexivity. Qed.
Lemma ftr_tr : forall n m a, feq n m (ftr (ftr a)) a.
Proof. intros n m a. split. intros i j _ _. reflexivity. Qed.
Lemma ftr_id : forall n m, feq n m (ftr fid) fid.
Proof. intros n m. split. intros i j _ _. unfold ftr, fid. rewrite Nat.eqb_sym. reflexivity. Qed.

(** ** Symmetric positive semidefinite matrices *)
Definition fsym (n : nat) (a : fmat) : Prop := feq n n (ftr a) a.
(** The quadratic form x^T A x. *)
Definition qform (n : nat) (a : fmat) (x : nat -> R) : R := rsum n (fun i => rsum n (fun j => x i * a i j * x j)).
Definition fpsd (n : nat) (a : fmat) : Prop := fsym n a /\ forall x, 0 <= qform n a x.

Lemma qform_ext : forall n a b x y, feq n n a b -> (forall i, (i < n)%nat -> x i = y i) -> qform n a x = qform n b y.
Proof.
  intros n a b x y H Hx. apply rsum_ext. intros i Hi. apply rsum_ext. intros j Hj.
  rewrite (feq_at H), (Hx i), (Hx j) by assumption. reflexivity.
Qed.
Lemma fpsd_ext : forall n a b, feq n n a b -> fpsd n a -> fpsd n b.
Proof.
  intros n a b H [Hs Hp]. split.
  - unfold fsym. rewrite <- H. exact Hs.
  - intros x. rewrite <- (qform_ext n a b x x H) by reflexivity. apply Hp.
Qed.
Lemma qform_add : forall n a b x, qform n (fadd a b) x = qform n a x + qform n b x.
Proof.
  intros n a b x. unfold qform, fadd. rewrite <- rsum_plus. apply rsum_ext. intros i _. rewrite <- rsum_plus.
  apply rsum_ext. intros; ring.
Qed.
Lemma qform_sub : forall n a b x, qform n (fsub a b) x = qform n a x - qform n b x.
Proof.
  intros n a b x. unfold qform, fsub. rewrite <- rsum_minus. apply rsum_ext. intros i _. rewrite <- rsum_minus.
  apply rsum_ext. intros; ring.
Qed.
(** x^T (A B) y as a product of vectors, and the congruence x^T (A M A^T) x = (A^T x)^T M (A^T x). *)
Definition fvec (n : nat) (a : fmat) (x : nat -> R) : nat -> R := fun i => rsum n (fun k => a i k * x k).
Lemma qform_congr : forall n k a m x, qform n (fmul k (fmul k a m) (ftr a)) x = qform k m (fvec n (ftr a) x).
Proof.
  intros n k a m x. unfold qform, fmul, fvec, ftr.
  transitivity (rsum n (fun i => rsum n (fun j => rsum k (fun q => rsum k (fun p => x i * a i p * m p q * a j q * x j))))).
  { apply rsum_ext; intros i _. apply rsum_ext; intros j _. rewrite <- rsum_scal_l, <- rsum_scal_r. apply rsum_ext; intros q _.
    rewrite <- rsum_scal_r, <- rsum_scal_l, <- rsum_scal_r. apply rsum_ext; intros p _. ring. }
  transitivity (rsum k (fun p => rsum k (fun q => rsum n (fun i => rsum n (fun j => x i * a i p * m p q * a j q * x j))))).
  { transitivity (rsum n (fun i => rsum k (fun q => rsum k (fun p => rsum n (fun j => x i * a i p * m p q * a j q * x j))))).
    { apply rsum_ext; intros i _. rewrite rsum_swap. apply rsum_ext; intros q _. apply rsum_swap. }
    rewrite rsum_swap.
    transitivity (rsum k (fun q => rsum k (fun p => rsum n (fun i => rsum n (fun j => x i * a i p * m p q * a j q * x j))))).
    { apply rsum_ext; intros q _. apply rsum_swap. }
    apply rsum_swap. }
  apply rsum_ext; intros p _. apply rsum_ext; intros q _.
  rewrite <- rsum_scal_r, <- rsum_scal_r. apply rsum_ext; intros i _.
  rewrite <- rsum_scal_l. apply rsum_ext; intros j _. ring.
Qed.
Lemma fpsd_congr : forall n k a m, fpsd k m -> fpsd n (fmul k (fmul k a m) (ftr a)).
Proof.
  intros n k a m [Hs Hp]. split.
  - unfold fsym. rewrite ftr_mul. rewrite (ftr_mul k n k a m). rewrite (ftr_tr n k a).
    unfold fsym in Hs. rewrite Hs. symmetry. apply fmul_assoc.
  - intros x. rewrite qform_congr. apply Hp.
Qed.
Lemma fpsd_add : forall n a b, fpsd n a -> fpsd n b -> fpsd n (fadd a b).
Proof.
  intros n a b [Ha1 Ha2] [Hb1 Hb2]. split.
  - unfold fsym. rewrite ftr_add, Ha1, Hb1. reflexivity.
  - intros x. rewrite qform_add. pose proof (Ha2 x). pose proof (Hb2 x). lra.
Qed.
Lemma qform_diag : forall n d x, qform n (fun i j => if Nat.eqb i j then d i else 0) x = rsum n (fun i => d i * (x i * x i)).
Proof.
  intros n d x. apply rsum_ext. intros i Hi. rewrite <- (rsum_delta2 n i (fun j => d i * (x i * x j)) Hi).
  apply rsum_ext. intros j _. destruct (Nat.eqb i j); ring.
Qed.
Lemma fpsd_diag : forall n d, (forall i, (i < n)%nat -> 0 <= d i) -> fpsd n (fun i j => if Nat.eqb i j then d i else 0).
Proof.
  intros n d H. split.
  - split. intros i j _ _. unfold ftr. rewrite Nat.eqb_sym. destruct (Nat.eqb_spec i j); [subst; reflexivity|reflexivity].
  - intros x. rewrite qform_diag. apply rsum_nonneg. intros i Hi. apply Rmult_le_pos; [apply H; exact Hi|nra].
Qed.
Lemma fpsd_id : forall n, fpsd n fid.
Proof. intros n. apply (fpsd_diag n (fun _ => 1)). intros; lra. Qed.

(** A principal submatrix (rows and columns selected by [s]) of a psd matrix is psd. *)
Lemma fpsd_select : forall n k a (s : nat -> nat), (forall i, (i < k)%nat -> (s i < n)%nat) -> fpsd n a ->
  fpsd k (fun i j => a (s i) (s j)).
Proof.
  intros n k a s Hsel Hp.
  apply (fpsd_ext k (fmul n (fmul n (fun i p => if Nat.eqb (s i) p then 1 else 0) a) (ftr (fun i p => if Nat.eqb (s i) p then 1 else 0)))).
  - split. intros i j Hi Hj. unfold fmul, ftr.
    rewrite <- (rsum_delta2 n (s j) (fun q => a (s i) q) (Hsel j Hj)). apply rsum_ext. intros q _.
    rewrite <- (rsum_delta2 n (s i) (fun p => a p q) (Hsel i Hi)).
    destruct (Nat.eqb (s j) q); [rewrite Rmult_1_r; apply rsum_ext; intros p _; destruct (Nat.eqb (s i) p); ring|ring].
  - apply fpsd_congr. exact Hp.
Qed.
