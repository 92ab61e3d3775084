(** C69: the quaternion of a rotation matrix, in exact arithmetic. *)
From Coq Require Import Reals Lra Psatz Lia Nsatz.
From Verif Require Import Fp Scalar Base LinAlg MathLib Config ConfigSpec QuatFacts.
Local Open Scope R_scope.

Section Algebra.
Variables a00 a01 a02 a10 a11 a12 a20 a21 a22 : R.
Hypothesis H00 : a00 * a00 + a01 * a01 + a02 * a02 = 1.
Hypothesis H11 : a10 * a10 + a11 * a11 + a12 * a12 = 1.
Hypothesis H22 : a20 * a20 + a21 * a21 + a22 * a22 = 1.
Hypothesis H01 : a00 * a10 + a01 * a11 + a02 * a12 = 0.
Hypothesis H02 : a00 * a20 + a01 * a21 + a02 * a22 = 0.
Hypothesis H12 : a10 * a20 + a11 * a21 + a12 * a22 = 0.
Hypothesis Hd : a00 * (a11 * a22 - a12 * a21) - a01 * (a10 * a22 - a12 * a20) + a02 * (a10 * a21 - a11 * a20) = 1.
(** Every entry is its cofactor, and the columns are orthonormal. *)
Lemma cof00 : a00 = a11 * a22 - a12 * a21. Proof. nsatz. Qed.
Lemma cof01 : a01 = a12 * a20 - a10 * a22. Proof. nsatz. Qed.
Lemma cof02 : a02 = a10 * a21 - a11 * a20. Proof. nsatz. Qed.
Lemma cof10 : a10 = a02 * a21 - a01 * a22. Proof. nsatz. Qed.
Lemma cof11 : a11 = a00 * a22 - a02 * a20. Proof. nsatz. Qed.
Lemma cof12 : a12 = a01 * a20 - a00 * a21. Proof. nsatz. Qed.
Lemma cof20 : a20 = a01 * a12 - a02 * a11. Proof. nsatz. Qed.
Lemma cof21 : a21 = a02 * a10 - a00 * a12. Proof. nsatz. Qed.
Lemma cof22 : a22 = a00 * a11 - a01 * a10. Proof. nsatz. Qed.
Lemma col00 : a00 * a00 + a10 * a10 + a20 * a20 = 1. Proof. nsatz. Qed.
Lemma col11 : a01 * a01 + a11 * a11 + a21 * a21 = 1. Proof. nsatz. Qed.
Lemma col22 : a02 * a02 + a12 * a12 + a22 * a22 = 1. Proof. nsatz. Qed.
Lemma col01 : a00 * a01 + a10 * a11 + a20 * a21 = 0. Proof. nsatz. Qed.
Lemma col02 : a00 * a02 + a10 * a12 + a20 * a22 = 0. Proof. nsatz. Qed.
Lemma col12 : a01 * a02 + a11 * a12 + a21 * a22 = 0. Proof. nsatz. Qed.

(** The matrix and the norm of (w, x, y, z). *)
Definition means (w x y z : R) : Prop :=
  w * w + x * x + y * y + z * z = 1 /\
  a00 = 1 - 2 * (y * y + z * z) /\ a01 = 2 * (x * y - w * z) /\ a02 = 2 * (x * z + w * y) /\
  a10 = 2 * (x * y + w * z) /\ a11 = 1 - 2 * (x * x + z * z) /\ a12 = 2 * (y * z - w * x) /\
  a20 = 2 * (x * z - w * y) /\ a21 = 2 * (y * z + w * x) /\ a22 = 1 - 2 * (x * x + y * y).

Ltac facts := pose proof cof00; pose proof cof01; pose proof cof02; pose proof cof10; pose proof cof11; pose proof cof12;
  pose proof cof20; pose proof cof21; pose proof cof22; pose proof col00; pose proof col11; pose proof col22;
  pose proof col01; pose proof col02; pose proof col12.
Lemma big_w : forall k, 4 * k * k * (1 + a00 + a11 + a22) = 1 ->
  means (k * (1 + a00 + a11 + a22)) ((a21 - a12) * k) ((a02 - a20) * k) ((a10 - a01) * k).
Proof. intros k Hk. facts. unfold means. repeat split; nsatz. Qed.
Lemma big_x : forall k, 4 * k * k * (1 + a00 - a11 - a22) = 1 ->
  means ((a21 - a12) * k) (k * (1 + a00 - a11 - a22)) ((a10 + a01) * k) ((a20 + a02) * k).
Proof. intros k Hk. facts. unfold means. repeat split; nsatz. Qed.
Lemma big_y : forall k, 4 * k * k * (1 + a11 - a22 - a00) = 1 ->
  means ((a02 - a20) * k) ((a01 + a10) * k) (k * (1 + a11 - a22 - a00)) ((a21 + a12) * k).
Proof. intros k Hk. facts. unfold means. repeat split; nsatz. Qed.
Lemma big_z : forall k, 4 * k * k * (1 + a22 - a00 - a11) = 1 ->
  means ((a10 - a01) * k) ((a02 + a20) * k) ((a12 + a21) * k) (k * (1 + a22 - a00 - a11)).
Proof. intros k Hk. facts. unfold means. repeat split; nsatz. Qed.
End Algebra.

Lemma scaled_root : forall s, 0 < s -> exists k, 1 / (1 + 1) / sqrt s = k /\ 1 / (1 + 1) * sqrt s = k * s /\ 4 * k * k * s = 1.
Proof.
  intros s Hs. assert (Hr : 0 < sqrt s) by (apply sqrt_lt_R0; exact Hs). assert (E : sqrt s * sqrt s = s) by (apply sqrt_sqrt; lra).
  exists (1 / (1 + 1) / sqrt s). split; [reflexivity|]. set (r := sqrt s) in *. rewrite <- E. split; field; lra.
Qed.
Local Notation n0 := 0%nat. Local Notation n1 := 1%nat. Local Notation n2 := 2%nat.
Theorem rotation_quat : forall n m a, rotation a ->
  let q := quat_of_mat (Mat n m a) in qunit q /\ forall i j, (i < 3)%nat -> (j < 3)%nat -> m33get (qmat q) i j = a i j.
Proof.
  intros n m a [Ho Hd]. cbv zeta.
  pose proof (Ho n0 n0 ltac:(lia) ltac:(lia)) as H00. pose proof (Ho n1 n1 ltac:(lia) ltac:(lia)) as H11. pose proof (Ho n2 n2 ltac:(lia) ltac:(lia)) as H22.
  pose proof (Ho n0 n1 ltac:(lia) ltac:(lia)) as H01. pose proof (Ho n0 n2 ltac:(lia) ltac:(lia)) as H02. pose proof (Ho n1 n2 ltac:(lia) ltac:(lia)) as H12.
  cbn [Nat.eqb] in *. clear Ho.
  assert (Fin : forall w x y z, means (a n0 n0) (a n0 n1) (a n0 n2) (a n1 n0) (a n1 n1) (a n1 n2) (a n2 n0) (a n2 n1) (a n2 n2) w x y z ->
    qunit (Quat w x y z) /\ forall i j, (i < 3)%nat -> (j < 3)%nat -> m33get (qmat (Quat w x y z)) i j = a i j).
  { intros w x y z (N & E). split; [unfold qunit; vunf; lra|].
    intros i j Hi Hj. destruct E as (E00 & E01 & E02 & E10 & E11 & E12 & E20 & E21 & E22).
    destruct i as [|[|[|i]]]; try lia; destruct j as [|[|[|j]]]; try lia; vunf; lra. }
  unfold quat_of_mat. cbn [me]. cbv zeta. change (@shalf R ops_R) with (1 / (1 + 1)).
  change (@sltb R ops_R) with Rltb. change (@s0 R ops_R) with 0. change (@s1 R ops_R) with 1.
  change (@sadd R ops_R) with Rplus. change (@ssub R ops_R) with Rminus. change (@smul R ops_R) with Rmult. change (@sdiv R ops_R) with Rdiv. change (@ssqrt R ops_R) with sqrt.
  unfold Rltb. destruct (Rlt_dec 0 _) as [Ht|Ht].
  - destruct (scaled_root (a n0 n0 + (a n1 n1 + a n2 n2) + 1)) as (k & -> & -> & Hk); [lra|]. apply Fin.
    replace (k * (a n0 n0 + (a n1 n1 + a n2 n2) + 1)) with (k * (1 + a n0 n0 + a n1 n1 + a n2 n2)) by ring. apply big_w; try assumption. lra.
  - assert (X : (a n1 n1 <= a n0 n0 -> a n2 n2 <= a n0 n0 -> 0 < a n0 n0 - a n1 n1 - a n2 n2 + 1)) by (intros; lra).
    assert (Y : (a n0 n0 <= a n1 n1 -> a n2 n2 <= a n1 n1 -> 0 < a n1 n1 - a n2 n2 - a n0 n0 + 1)) by (intros; lra).
    assert (Z : (a n0 n0 <= a n2 n2 -> a n1 n1 <= a n2 n2 -> 0 < a n2 n2 - a n0 n0 - a n1 n1 + 1)) by (intros; lra).
    destruct (Rlt_dec (a n0 n0) (a n1 n1)) as [L1|L1]; cbv iota.
    + destruct (Rlt_dec (a n1 n1) (a n2 n2)) as [L2|L2]; cbn [Nat.add Nat.modulo Nat.divmod fst snd Nat.sub].
      * destruct (scaled_root (a n2 n2 - a n0 n0 - a n1 n1 + 1)) as (k & -> & -> & Hk); [apply Z; lra|]. apply Fin.
        replace (k * (a n2 n2 - a n0 n0 - a n1 n1 + 1)) with (k * (1 + a n2 n2 - a n0 n0 - a n1 n1)) by ring. apply big_z; try assumption. lra.
      * destruct (scaled_root (a n1 n1 - a n2 n2 - a n0 n0 + 1)) as (k & -> & -> & Hk); [apply Y; lra|]. apply Fin.
        replace (k * (a n1 n1 - a n2 n2 - a n0 n0 + 1)) with (k * (1 + a n1 n1 - a n2 n2 - a n0 n0)) by ring. apply big_y; try assumption. lra.
    + destruct (Rlt_dec (a n0 n0) (a n2 n2)) as [L2|L2]; cbn [Nat.add Nat.modulo Nat.divmod fst snd Nat.sub].
      * destruct (scaled_root (a n2 n2 - a n0 n0 - a n1 n1 + 1)) as (k & -> & -> & Hk); [apply Z; lra|]. apply Fin.
        replace (k * (a n2 n2 - a n0 n0 - a n1 n1 + 1)) with (k * (1 + a n2 n2 - a n0 n0 - a n1 n1)) by ring. apply big_z; try assumption. lra.
      * destruct (scaled_root (a n0 n0 - a n1 n1 - a n2 n2 + 1)) as (k & -> & -> & Hk); [apply X; lra|]. apply Fin.
        replace (k * (a n0 n0 - a n1 n1 - a n2 n2 + 1)) with (k * (1 + a n0 n0 - a n1 n1 - a n2 n2)) by ring. apply big_x; try assumption. lra.
Qed.
(** A rotation matrix: the camera of config/T_bc0.txt. *)
Definition t_bc0 (i j : nat) : R :=
  match i, j with 0%nat, 2%nat => -1 | 0%nat, 3%nat => 1 / 20 | 1%nat, 0%nat => -1 | 1%nat, 3%nat => 1 / 25 | 2%nat, 1%nat => 1 | 2%nat, 3%nat => 3 / 100 | 3%nat, 3%nat => 1 | _, _ => 0 end.
Lemma t_bc0_rotation : rotation t_bc0.
Proof.
  split; [|cbn; lra]. intros i j Hi Hj. destruct i as [|[|[|i]]]; try lia; destruct j as [|[|[|j]]]; try lia; cbn; lra.
Qed.
