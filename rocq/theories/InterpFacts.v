(** Weights of the interpolated IMU sample (PopPackedMessage lines 117-125). *)
From Coq Require Import ZArith Reals Bool Lra Lia.
From Flocq Require Import Core BinarySingleNaN Plus_error.
From Verif Require Import Fp FpFacts Scalar Base LinAlg Msg DataLoader.

Local Open Scope R_scope.

Definition rnd32 (r : R) : R := round radix2 (SpecFloat.fexp prec32 emax32) (round_mode mode_NE) r.
#[global] Instance fexp32_valid : Valid_exp (SpecFloat.fexp prec32 emax32) := fexp_correct prec32 emax32 prec32_gt_0.
#[global] Instance fexp64_monotone : Monotone_exp (SpecFloat.fexp prec64 emax64) := fexp_monotone prec64 emax64.
#[global] Instance fexp32_monotone : Monotone_exp (SpecFloat.fexp prec32 emax32) := fexp_monotone prec32 emax32.

Lemma rnd64_1 : rnd64 1 = 1.
Proof.
  apply round_generic; auto with typeclass_instances.
  replace 1 with (B2R (f64_of_Z 1)); [apply generic_format_B2R|].
  destruct (f64_finite_of_SF (f64_of_Z 1) false 4503599627370496 (-52)) as [H ->]; [vm_compute; reflexivity|].
  unfold B2R, F2R; simpl. lra.
Qed.
Lemma rnd32_mono : forall a b, a <= b -> rnd32 a <= rnd32 b.
Proof. intros a b H. apply round_le; auto with typeclass_instances. Qed.
Lemma rnd32_0 : rnd32 0 = 0.
Proof. apply round_0; auto with typeclass_instances. Qed.
Lemma rnd32_1 : rnd32 1 = 1.
Proof.
  apply round_generic; auto with typeclass_instances.
  replace 1 with (bpow radix2 0) by reflexivity. apply generic_format_bpow. vm_compute. discriminate.
Qed.

Lemma rnd64_01 : forall r, 0 <= r <= 1 -> 0 <= rnd64 r <= 1.
Proof. intros r [H1 H2]. apply rnd64_mono in H1, H2. rewrite rnd64_0 in H1. rewrite rnd64_1 in H2. auto. Qed.
Lemma rnd32_01 : forall r, 0 <= r <= 1 -> 0 <= rnd32 r <= 1.
Proof. intros r [H1 H2]. apply rnd32_mono in H1, H2. rewrite rnd32_0 in H1. rewrite rnd32_1 in H2. auto. Qed.

Lemma rnd64_err : forall r, 0 <= r <= 1 -> Rabs (rnd64 r - r) <= bpow radix2 (-53).
Proof.
  intros r H. eapply Rle_trans; [apply error_le_half_ulp; auto with typeclass_instances|].
  assert (ulp radix2 (SpecFloat.fexp prec64 emax64) r <= ulp radix2 (SpecFloat.fexp prec64 emax64) 1) as Hu.
  { apply ulp_le; auto with typeclass_instances. rewrite !Rabs_pos_eq; lra. }
  replace (ulp radix2 (SpecFloat.fexp prec64 emax64) 1) with (bpow radix2 (-52)) in Hu.
  - change (-52)%Z with (-53 + 1)%Z in Hu. rewrite bpow_plus in Hu.
    change (bpow radix2 1) with 2 in Hu. lra.
  - replace 1 with (bpow radix2 0) by reflexivity. rewrite ulp_bpow. reflexivity.
Qed.
Lemma rnd32_err : forall r, 0 <= r <= 1 -> Rabs (rnd32 r - r) <= bpow radix2 (-24).
Proof.
  intros r H. eapply Rle_trans; [apply error_le_half_ulp; auto with typeclass_instances|].
  assert (ulp radix2 (SpecFloat.fexp prec32 emax32) r <= ulp radix2 (SpecFloat.fexp prec32 emax32) 1) as Hu.
  { apply ulp_le; auto with typeclass_instances. rewrite !Rabs_pos_eq; lra. }
  replace (ulp radix2 (SpecFloat.fexp prec32 emax32) 1) with (bpow radix2 (-23)) in Hu.
  - change (-23)%Z with (-24 + 1)%Z in Hu. rewrite bpow_plus in Hu.
    change (bpow radix2 1) with 2 in Hu. lra.
  - replace 1 with (bpow radix2 0) by reflexivity. rewrite ulp_bpow. reflexivity.
Qed.

Lemma bpow_gt1 : forall e, (0 < e)%Z -> 1 < bpow radix2 e.
Proof. intros e H. change 1 with (bpow radix2 0). apply bpow_lt. exact H. Qed.

(** Narrowing of a double in [0,1]. *)
Lemma f64_to_f32_01 : forall x : f64, is_finite x = true -> 0 <= B2R x <= 1 ->
  B2R (f64_to_f32 x) = rnd32 (B2R x).
Proof.
  intros [s|s| |s m e H] Hf Hr; try discriminate.
  - simpl. rewrite rnd32_0. reflexivity.
  - unfold f64_to_f32.
    pose proof (binary_normalize_correct prec32 emax32 prec32_gt_0 prec32_lt_emax mode_NE (cond_Zopp s (Zpos m)) e s) as Hn.
    cbv zeta in Hn. change (F2R (Float radix2 (cond_Zopp s (Zpos m)) e)) with (B2R (B754_finite s m e H)) in Hn.
    fold (rnd32 (B2R (B754_finite s m e H))) in Hn.
    pose proof (rnd32_01 _ Hr) as H1. rewrite Rlt_bool_true in Hn; [exact (proj1 Hn)|].
    rewrite Rabs_pos_eq by lra. eapply Rle_lt_trans; [apply H1|]. apply bpow_gt1. reflexivity.
Qed.

Lemma f64_of_Z_1 : is_finite (f64_of_Z 1) = true /\ B2R (f64_of_Z 1) = 1.
Proof.
  destruct (f64_finite_of_SF (f64_of_Z 1) false 4503599627370496 (-52)) as [H ->]; [vm_compute; reflexivity|].
  split; [reflexivity|]. unfold B2R, F2R; simpl. lra.
Qed.

Section Weights.
Variables (l t r : f64).
Hypothesis Fl : is_finite l = true.
Hypothesis Fr : is_finite r = true.
Hypothesis Ft : is_finite t = true.
Hypothesis Fd : is_finite (f64_sub r l) = true.
Hypothesis Hlt : f64_leb l t = true.
Hypothesis Htr : f64_ltb t r = true.

Definition w_rate : f64 := f64_div (f64_sub t l) (f64_sub r l).

Lemma order_R : B2R l <= B2R t < B2R r.
Proof.
  apply f64_leb_iff in Hlt as (_ & _ & H1). apply f64_ltb_iff in Htr as (_ & _ & H2).
  rewrite !ext_fin in * by assumption. lra.
Qed.

Lemma sub_val : forall a b : f64, is_finite a = true -> is_finite b = true -> is_finite (f64_sub a b) = true ->
  B2R (f64_sub a b) = rnd64 (B2R a - B2R b).
Proof.
  intros a b Ha Hb Hab. pose proof (Bminus_correct prec64 emax64 _ _ mode_NE a b Ha Hb) as H.
  fold (rnd64 (B2R a - B2R b)) in H. unfold f64_sub in *.
  revert H. case Rlt_bool_spec; intros _ H; [exact (proj1 H)|].
  destruct H as [H _]. exfalso. unfold binary_overflow, overflow_to_inf in H.
  destruct (Bminus mode_NE a b); try discriminate.
Qed.

Lemma sub_tl_fin : is_finite (f64_sub t l) = true.
Proof.
  pose proof order_R as Ho. pose proof (Bminus_correct prec64 emax64 _ _ mode_NE t l Ft Fl) as H.
  fold (rnd64 (B2R t - B2R l)) in H. rewrite Rlt_bool_true in H; [apply H|].
  assert (0 <= rnd64 (B2R t - B2R l) <= rnd64 (B2R r - B2R l)) as [H1 H2].
  { rewrite <- rnd64_0 at 1. split; apply rnd64_mono; lra. }
  rewrite Rabs_pos_eq by exact H1. eapply Rle_lt_trans; [exact H2|].
  rewrite <- sub_val by assumption. rewrite <- big_eq. apply f64_fin_lt.
Qed.

Lemma den_pos : 0 < B2R (f64_sub r l).
Proof.
  rewrite sub_val by assumption. pose proof order_R as Ho.
  assert (0 <= rnd64 (B2R r - B2R l)) by (rewrite <- rnd64_0 at 1; apply rnd64_mono; lra).
  enough (rnd64 (B2R r - B2R l) <> 0) by lra.
  unfold rnd64, Rminus. apply round_plus_neq_0; auto with typeclass_instances.
  - apply generic_format_B2R.
  - apply generic_format_opp, generic_format_B2R.
  - lra.
Qed.

Lemma rate_01 : is_finite w_rate = true /\ 0 <= B2R w_rate <= 1.
Proof.
  pose proof order_R as Ho. pose proof den_pos as Hd.
  assert (0 <= B2R (f64_sub t l) <= B2R (f64_sub r l)) as [Hn1 Hn2].
  { rewrite (sub_val t l), (sub_val r l) by (assumption || apply sub_tl_fin).
    rewrite <- rnd64_0 at 1. split; apply rnd64_mono; lra. }
  assert (0 <= B2R (f64_sub t l) / B2R (f64_sub r l) <= 1) as Hq.
  { split; [apply Rmult_le_pos; [exact Hn1|left; apply Rinv_0_lt_compat; exact Hd]|].
    apply Rmult_le_reg_r with (1 := Hd). unfold Rdiv. rewrite Rmult_assoc, Rinv_l by lra. lra. }
  pose proof (rnd64_01 _ Hq) as Hr.
  pose proof (Bdiv_correct prec64 emax64 _ _ mode_NE (f64_sub t l) (f64_sub r l)) as H.
  assert (B2R (f64_sub r l) <> 0) as Hne by lra. specialize (H Hne).
  fold (rnd64 (B2R (f64_sub t l) / B2R (f64_sub r l))) in H.
  rewrite Rlt_bool_true in H.
  - destruct H as (H1 & H2 & _). unfold w_rate, f64_div. rewrite H1, H2. split; [apply sub_tl_fin|exact Hr].
  - rewrite Rabs_pos_eq by apply Hr. eapply Rle_lt_trans; [apply Hr|]. apply bpow_gt1. reflexivity.
Qed.

Lemma one_minus_rate : is_finite (f64_sub (f64_of_Z 1) w_rate) = true /\
  B2R (f64_sub (f64_of_Z 1) w_rate) = rnd64 (1 - B2R w_rate).
Proof.
  destruct rate_01 as [Ff Hr]. destruct f64_of_Z_1 as [F1 V1].
  pose proof (Bminus_correct prec64 emax64 _ _ mode_NE (f64_of_Z 1) w_rate F1 Ff) as H.
  rewrite V1 in H. fold (rnd64 (1 - B2R w_rate)) in H.
  rewrite Rlt_bool_true in H; [split; apply H|].
  pose proof (rnd64_01 (1 - B2R w_rate) ltac:(lra)) as H1.
  rewrite Rabs_pos_eq by lra. eapply Rle_lt_trans; [apply H1|]. apply bpow_gt1. reflexivity.
Qed.

Lemma weights :
  let a := B2R (f64_to_f32 (f64_sub (f64_of_Z 1) w_rate)) in
  let b := B2R (f64_to_f32 w_rate) in
  0 <= a <= 1 /\ 0 <= b <= 1 /\ Rabs (a + b - 1) <= / 4194304.
Proof.
  destruct rate_01 as [Ff Hr]. destruct one_minus_rate as [F1 V1].
  pose proof (rnd64_01 (1 - B2R w_rate) ltac:(lra)) as H1.
  intros a b. unfold a, b. rewrite (f64_to_f32_01 _ Ff Hr). rewrite f64_to_f32_01 by (rewrite ?V1; assumption). rewrite V1.
  split; [apply rnd32_01; exact H1|]. split; [apply rnd32_01; exact Hr|].
  pose proof (rnd64_err (1 - B2R w_rate) ltac:(lra)) as E1.
  pose proof (rnd32_err _ H1) as E2. pose proof (rnd32_err _ Hr) as E3.
  assert (bpow radix2 (-53) <= bpow radix2 (-24)) as E4 by (apply bpow_le; lia).
  assert (bpow radix2 (-24) = / 16777216) as E5 by reflexivity. rewrite E5 in *.
  apply Rabs_le_inv in E1, E2, E3. apply Rabs_le. lra.
Qed.
End Weights.

Lemma convex_bound : forall a b e x y : R, 0 <= a <= 1 -> 0 <= b <= 1 -> 0 <= e -> Rabs (a + b - 1) <= e ->
  Rmin x y - e * Rmax (Rabs x) (Rabs y) <= x * a + y * b <= Rmax x y + e * Rmax (Rabs x) (Rabs y).
Proof.
  intros a b e x y Ha Hb He Hab.
  set (M := Rmax (Rabs x) (Rabs y)).
  assert (Rabs x <= M) as Hx by apply Rmax_l. assert (Rabs y <= M) as Hy by apply Rmax_r.
  pose proof (Rabs_pos x).
  assert (forall h, h = x \/ h = y -> Rabs ((a + b - 1) * h) <= e * M) as Hh.
  { intros h Hh. rewrite Rabs_mult. apply Rmult_le_compat; try apply Rabs_pos; auto. destruct Hh as [->| ->]; auto. }
  pose proof (Rmin_l x y). pose proof (Rmin_r x y). pose proof (Rmax_l x y). pose proof (Rmax_r x y).
  assert (Rmin x y = x \/ Rmin x y = y) as Hm by (unfold Rmin; destruct (Rle_dec x y); auto).
  assert (Rmax x y = x \/ Rmax x y = y) as HM by (unfold Rmax; destruct (Rle_dec x y); auto).
  pose proof (Rabs_le_inv _ _ (Hh _ Hm)) as K1. pose proof (Rabs_le_inv _ _ (Hh _ HM)) as K2.
  split; [|].
  - assert (0 <= (x - Rmin x y) * a + (y - Rmin x y) * b) by (apply Rplus_le_le_0_compat; apply Rmult_le_pos; lra). lra.
  - assert (0 <= (Rmax x y - x) * a + (Rmax x y - y) * b) by (apply Rplus_le_le_0_compat; apply Rmult_le_pos; lra). lra.
Qed.
