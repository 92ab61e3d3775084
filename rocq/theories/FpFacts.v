(** Facts about IEEE comparison and subtraction. *)
From Coq Require Import ZArith Reals Bool Lra Lia.
From Flocq Require Import Core BinarySingleNaN.
From Verif Require Import Fp.

Local Open Scope R_scope.

(** A bound beyond every finite double, kept opaque for [lra]. *)
Lemma big_ex : { b : R | (0 < b /\ forall x : f64, - b < B2R x < b) /\ b = bpow radix2 emax64 }.
Proof.
  exists (bpow radix2 1024). split; [|reflexivity]. split; [apply bpow_gt_0|]. intros x.
  pose proof (abs_B2R_lt_emax prec64 emax64 x) as Hx.
  change (bpow radix2 emax64) with (bpow radix2 1024) in Hx.
  revert Hx. generalize (bpow radix2 1024). intros b Hx.
  apply Rabs_def2 in Hx. tauto.
Qed.
Definition big : R := proj1_sig big_ex.
Lemma big_pos : 0 < big.
Proof. exact (proj1 (proj1 (proj2_sig big_ex))). Qed.
Lemma f64_fin_lt : forall x : f64, - big < B2R x < big.
Proof. exact (proj2 (proj1 (proj2_sig big_ex))). Qed.
Lemma big_eq : big = bpow radix2 emax64.
Proof. exact (proj2 (proj2_sig big_ex)). Qed.
#[global] Opaque big.

(** Position of a non-NaN double on the extended real line (infinities beyond all finite values). *)
Definition ext (x : f64) : R :=
  match x with
  | B754_infinity s => if s then - big else big
  | _ => B2R x
  end.

Lemma f64_ltb_nan_l : forall x y, f64_isnan x = true -> f64_ltb x y = false.
Proof. intros [| | |] y; simpl; intros H; try discriminate; reflexivity. Qed.
Lemma f64_ltb_nan_r : forall x y, f64_isnan y = true -> f64_ltb x y = false.
Proof. intros [| | |] [| | |]; simpl; intros H; try discriminate; reflexivity. Qed.
Lemma f64_leb_nan_l : forall x y, f64_isnan x = true -> f64_leb x y = false.
Proof. intros [| | |] y; simpl; intros H; try discriminate; reflexivity. Qed.
Lemma f64_leb_nan_r : forall x y, f64_isnan y = true -> f64_leb x y = false.
Proof. intros [| | |] [| | |]; simpl; intros H; try discriminate; reflexivity. Qed.

Lemma f64_ltb_ext : forall x y, f64_isnan x = false -> f64_isnan y = false ->
  f64_ltb x y = Rlt_bool (ext x) (ext y).
Proof.
  intros x y Hx Hy. pose proof big_pos as HP.
  destruct (is_finite x) eqn:Fx; destruct (is_finite y) eqn:Fy.
  - assert (ext x = B2R x) as -> by (destruct x; try discriminate; reflexivity).
    assert (ext y = B2R y) as -> by (destruct y; try discriminate; reflexivity).
    apply Bltb_correct; assumption.
  - assert (ext x = B2R x) as -> by (destruct x; try discriminate; reflexivity).
    pose proof (f64_fin_lt x).
    destruct y as [|sy| |]; try discriminate; destruct sy.
    + change (ext (B754_infinity true)) with (- big).
      rewrite Rlt_bool_false by lra. destruct x as [[]|[]| |[] ]; try discriminate; reflexivity.
    + change (ext (B754_infinity false)) with (big).
      rewrite Rlt_bool_true by lra. destruct x as [[]|[]| |[] ]; try discriminate; reflexivity.
  - assert (ext y = B2R y) as -> by (destruct y; try discriminate; reflexivity).
    pose proof (f64_fin_lt y).
    destruct x as [|sx| |]; try discriminate; destruct sx.
    + change (ext (B754_infinity true)) with (- big).
      rewrite Rlt_bool_true by lra. destruct y as [[]|[]| |[] ]; try discriminate; reflexivity.
    + change (ext (B754_infinity false)) with (big).
      rewrite Rlt_bool_false by lra. destruct y as [[]|[]| |[] ]; try discriminate; reflexivity.
  - destruct x as [|sx| |]; try discriminate; destruct y as [|sy| |]; try discriminate.
    destruct sx, sy; unfold ext; symmetry;
      ((rewrite Rlt_bool_false by lra; reflexivity) || (rewrite Rlt_bool_true by lra; reflexivity)).
Qed.

Lemma f64_leb_ext : forall x y, f64_isnan x = false -> f64_isnan y = false ->
  f64_leb x y = Rle_bool (ext x) (ext y).
Proof.
  intros x y Hx Hy. pose proof big_pos as HP.
  destruct (is_finite x) eqn:Fx; destruct (is_finite y) eqn:Fy.
  - assert (ext x = B2R x) as -> by (destruct x; try discriminate; reflexivity).
    assert (ext y = B2R y) as -> by (destruct y; try discriminate; reflexivity).
    apply Bleb_correct; assumption.
  - assert (ext x = B2R x) as -> by (destruct x; try discriminate; reflexivity).
    pose proof (f64_fin_lt x).
    destruct y as [|sy| |]; try discriminate; destruct sy.
    + change (ext (B754_infinity true)) with (- big).
      rewrite Rle_bool_false by lra. destruct x as [[]|[]| |[] ]; try discriminate; reflexivity.
    + change (ext (B754_infinity false)) with (big).
      rewrite Rle_bool_true by lra. destruct x as [[]|[]| |[] ]; try discriminate; reflexivity.
  - assert (ext y = B2R y) as -> by (destruct y; try discriminate; reflexivity).
    pose proof (f64_fin_lt y).
    destruct x as [|sx| |]; try discriminate; destruct sx.
    + change (ext (B754_infinity true)) with (- big).
      rewrite Rle_bool_true by lra. destruct y as [[]|[]| |[] ]; try discriminate; reflexivity.
    + change (ext (B754_infinity false)) with (big).
      rewrite Rle_bool_false by lra. destruct y as [[]|[]| |[] ]; try discriminate; reflexivity.
  - destruct x as [|sx| |]; try discriminate; destruct y as [|sy| |]; try discriminate.
    destruct sx, sy; unfold ext; symmetry;
      ((rewrite Rle_bool_false by lra; reflexivity) || (rewrite Rle_bool_true by lra; reflexivity)).
Qed.

(** Reading a comparison as an order fact. *)
Lemma f64_ltb_iff : forall x y,
  f64_ltb x y = true <-> f64_isnan x = false /\ f64_isnan y = false /\ ext x < ext y.
Proof.
  intros x y. destruct (f64_isnan x) eqn:Hx.
  - rewrite f64_ltb_nan_l by assumption. intuition discriminate.
  - destruct (f64_isnan y) eqn:Hy.
    + rewrite f64_ltb_nan_r by assumption. intuition discriminate.
    + rewrite f64_ltb_ext by assumption. case Rlt_bool_spec; intros; intuition (try discriminate; lra).
Qed.
Lemma f64_leb_iff : forall x y,
  f64_leb x y = true <-> f64_isnan x = false /\ f64_isnan y = false /\ ext x <= ext y.
Proof.
  intros x y. destruct (f64_isnan x) eqn:Hx.
  - rewrite f64_leb_nan_l by assumption. intuition discriminate.
  - destruct (f64_isnan y) eqn:Hy.
    + rewrite f64_leb_nan_r by assumption. intuition discriminate.
    + rewrite f64_leb_ext by assumption. case Rle_bool_spec; intros; intuition (try discriminate; lra).
Qed.
Lemma f64_ltb_false_iff : forall x y, f64_isnan x = false -> f64_isnan y = false ->
  (f64_ltb x y = false <-> ext y <= ext x).
Proof. intros. rewrite f64_ltb_ext by assumption. case Rlt_bool_spec; intros; intuition (try discriminate; lra). Qed.
Lemma f64_leb_false_iff : forall x y, f64_isnan x = false -> f64_isnan y = false ->
  (f64_leb x y = false <-> ext y < ext x).
Proof. intros. rewrite f64_leb_ext by assumption. case Rle_bool_spec; intros; intuition (try discriminate; lra). Qed.

Lemma f64_ltb_trans : forall x y z, f64_ltb x y = true -> f64_ltb y z = true -> f64_ltb x z = true.
Proof. intros x y z. rewrite !f64_ltb_iff. intuition lra. Qed.
Lemma f64_ltb_irrefl : forall x, f64_ltb x x = false.
Proof. intros x. destruct (f64_ltb x x) eqn:H; auto. apply f64_ltb_iff in H. intuition lra. Qed.
Lemma f64_ltb_leb : forall x y, f64_ltb x y = true -> f64_leb x y = true.
Proof. intros x y. rewrite f64_ltb_iff, f64_leb_iff. intuition lra. Qed.
Lemma f64_leb_trans : forall x y z, f64_leb x y = true -> f64_leb y z = true -> f64_leb x z = true.
Proof. intros x y z. rewrite !f64_leb_iff. intuition lra. Qed.
Lemma f64_leb_refl : forall x, f64_isnan x = false -> f64_leb x x = true.
Proof. intros x H. apply f64_leb_iff. intuition lra. Qed.
Lemma f64_leb_false_ltb : forall x y, f64_isnan x = false -> f64_isnan y = false ->
  f64_leb x y = false -> f64_ltb y x = true.
Proof. intros x y Hx Hy H. apply f64_leb_false_iff in H; auto. apply f64_ltb_iff. auto. Qed.
Lemma f64_ltb_false_leb : forall x y, f64_isnan x = false -> f64_isnan y = false ->
  f64_ltb x y = false -> f64_leb y x = true.
Proof. intros x y Hx Hy H. apply f64_ltb_false_iff in H; auto. apply f64_leb_iff. auto. Qed.
Lemma f64_ltb_leb_false : forall x y, f64_ltb x y = true -> f64_leb y x = false.
Proof.
  intros x y H. apply f64_ltb_iff in H as (Hx & Hy & H).
  apply f64_leb_false_iff; auto.
Qed.
Lemma f64_leb_ltb_trans : forall x y z, f64_leb x y = true -> f64_ltb y z = true -> f64_ltb x z = true.
Proof. intros x y z. rewrite !f64_ltb_iff, f64_leb_iff. intuition lra. Qed.
Lemma f64_ltb_leb_trans : forall x y z, f64_ltb x y = true -> f64_leb y z = true -> f64_ltb x z = true.
Proof. intros x y z. rewrite !f64_ltb_iff, f64_leb_iff. intuition lra. Qed.

(** A double with a given spec_float image. *)
Lemma f64_finite_of_SF : forall (x : f64) s m e, B2SF x = SpecFloat.S754_finite s m e ->
  exists H, x = B754_finite s m e H.
Proof. intros x s m e H. destruct x as [| | |s' m' e' H']; try discriminate H. simpl in H. injection H as <- <- <-. eauto. Qed.

(** Subtracting -1 is adding 1, bit for bit. *)
Lemma f64_sub_m1 : forall x : f64, f64_sub x (f64_of_Z (-1)) = f64_add x (f64_of_Z 1).
Proof.
  destruct (f64_finite_of_SF (f64_of_Z (-1)) true 4503599627370496 (-52)) as [H ->]; [vm_compute; reflexivity|].
  destruct (f64_finite_of_SF (f64_of_Z 1) false 4503599627370496 (-52)) as [H' ->]; [vm_compute; reflexivity|].
  intros [s|s| |s mx ex Hx]; try reflexivity.
  unfold f64_sub, f64_add, Bminus, Bplus, negb. f_equal.
  apply Eqdep_dec.UIP_dec. decide equality.
Qed.

(** ** Subtraction is monotone *)
Definition rnd64 (r : R) : R := round radix2 (SpecFloat.fexp prec64 emax64) (round_mode mode_NE) r.
#[global] Instance fexp64_valid : Valid_exp (SpecFloat.fexp prec64 emax64) := fexp_correct prec64 emax64 prec64_gt_0.

Lemma rnd64_mono : forall a b, a <= b -> rnd64 a <= rnd64 b.
Proof. intros a b H. apply round_le; auto with typeclass_instances. Qed.
Lemma rnd64_0 : rnd64 0 = 0.
Proof. apply round_0; auto with typeclass_instances. Qed.

(** Extended result of an operation whose exact value is [r]. *)
Definition clamp64 (r : R) : R :=
  if Rle_dec big r then big else if Rle_dec r (- big) then - big else r.
Lemma clamp64_mono : forall a b, a <= b -> clamp64 a <= clamp64 b.
Proof.
  intros a b H. pose proof big_pos. unfold clamp64.
  destruct (Rle_dec big a), (Rle_dec big b), (Rle_dec a (- big)), (Rle_dec b (- big)); lra.
Qed.

Lemma Bsign_false_ge0 : forall x : f64, is_finite x = true -> Bsign x = false -> 0 <= B2R x.
Proof.
  intros [s|s| |s m e H] Hf Hs; try discriminate; simpl in *.
  - lra.
  - subst s. apply F2R_ge_0. simpl. lia.
Qed.
Lemma Bsign_true_le0 : forall x : f64, is_finite x = true -> Bsign x = true -> B2R x <= 0.
Proof.
  intros [s|s| |s m e H] Hf Hs; try discriminate; simpl in *.
  - lra.
  - subst s. apply F2R_le_0. simpl. lia.
Qed.

Lemma ext_fin : forall x, is_finite x = true -> ext x = B2R x.
Proof. intros [| | |]; try discriminate; reflexivity. Qed.
Lemma fin_notnan : forall x : f64, is_finite x = true -> f64_isnan x = false.
Proof. intros [| | |]; try discriminate; reflexivity. Qed.

Lemma f64_sub_fin : forall x c : f64, is_finite x = true -> is_finite c = true ->
  f64_isnan (f64_sub x c) = false /\ ext (f64_sub x c) = clamp64 (rnd64 (B2R x - B2R c)).
Proof.
  intros x c Hx Hc. pose proof (Bminus_correct prec64 emax64 _ _ mode_NE x c Hx Hc) as H.
  fold (rnd64 (B2R x - B2R c)) in H. rewrite <- big_eq in H.
  unfold f64_sub. pose proof big_pos as HP.
  revert H. case Rlt_bool_spec; intros Hb H.
  - destruct H as (H1 & H2 & _). split; [apply fin_notnan; exact H2|].
    rewrite ext_fin by exact H2. rewrite H1. unfold clamp64.
    apply Rabs_def2 in Hb. destruct Hb as [Hb1 Hb2].
    destruct (Rle_dec big _); [lra|]. destruct (Rle_dec _ (- big)); [lra|reflexivity].
  - destruct H as [H1 H2].
    assert (Hinf : forall z : f64, B2SF z = binary_overflow prec64 emax64 mode_NE (Bsign x) -> z = B754_infinity (Bsign x)).
    { intros z Hz. unfold binary_overflow, overflow_to_inf in Hz. destruct z; try discriminate. simpl in Hz. congruence. }
    rewrite (Hinf _ H1). split; [reflexivity|].
    unfold ext. destruct (Bsign x) eqn:Es.
    + assert (Bsign c = false) as Hcs by (destruct (Bsign c); simpl in H2; congruence).
      pose proof (Bsign_true_le0 _ Hx Es). pose proof (Bsign_false_ge0 _ Hc Hcs).
      assert (rnd64 (B2R x - B2R c) <= 0) as Hr by (rewrite <- rnd64_0; apply rnd64_mono; lra).
      rewrite Rabs_left1 in Hb by exact Hr. unfold clamp64.
      destruct (Rle_dec big _); [lra|]. destruct (Rle_dec _ (- big)); [reflexivity|lra].
    + assert (Bsign c = true) as Hcs by (destruct (Bsign c); simpl in H2; congruence).
      pose proof (Bsign_false_ge0 _ Hx Es). pose proof (Bsign_true_le0 _ Hc Hcs).
      assert (0 <= rnd64 (B2R x - B2R c)) as Hr by (rewrite <- rnd64_0; apply rnd64_mono; lra).
      rewrite Rabs_pos_eq in Hb by exact Hr. unfold clamp64.
      destruct (Rle_dec big _); [reflexivity|lra].
Qed.

Lemma clamp64_range : forall r, - big <= clamp64 r <= big.
Proof.
  intros r. pose proof big_pos. unfold clamp64.
  destruct (Rle_dec big r), (Rle_dec r (- big)); lra.
Qed.
Lemma ext_range : forall x, - big <= ext x <= big.
Proof.
  intros x. pose proof big_pos. pose proof (f64_fin_lt x). unfold ext. destruct x as [|[]| |]; lra.
Qed.

Lemma f64_cases : forall x : f64, is_finite x = true \/ x = B754_infinity true \/ x = B754_infinity false \/ x = B754_nan.
Proof. intros [|[]| |]; auto. Qed.

(** Smaller minuend, smaller difference; smaller subtrahend, larger difference. *)
Lemma f64_sub_mono_l : forall x y c : f64, f64_leb x y = true ->
  f64_isnan (f64_sub x c) = false -> f64_isnan (f64_sub y c) = false ->
  f64_leb (f64_sub x c) (f64_sub y c) = true.
Proof.
  intros x y c H Hx Hy. apply f64_leb_iff in H as (Nx & Ny & H). apply f64_leb_iff. split; [exact Hx|]. split; [exact Hy|].
  pose proof big_pos. pose proof (ext_range (f64_sub x c)). pose proof (ext_range (f64_sub y c)).
  destruct (f64_cases c) as [Fc|[->|[->| ->]]].
  - destruct (f64_cases x) as [Fx|[->|[->| ->]]]; destruct (f64_cases y) as [Fy|[->|[->| ->]]]; try discriminate.
    + rewrite (proj2 (f64_sub_fin x c Fx Fc)), (proj2 (f64_sub_fin y c Fy Fc)).
      rewrite !ext_fin in H by assumption. apply clamp64_mono, rnd64_mono. lra.
    + rewrite ext_fin in H by assumption. simpl in H. pose proof (f64_fin_lt x). lra.
    + destruct c; try discriminate; simpl; lra.
    + destruct c; try discriminate; simpl; lra.
    + lra.
    + destruct c; try discriminate; simpl; lra.
    + rewrite (ext_fin y) in H by assumption. simpl in H. pose proof (f64_fin_lt y). lra.
    + simpl in H. lra.
    + lra.
  - destruct x as [|[]| |]; destruct y as [|[]| |]; try discriminate; simpl in *; lra.
  - destruct x as [|[]| |]; destruct y as [|[]| |]; try discriminate; simpl in *; lra.
  - destruct x as [|[]| |]; try discriminate Hx.
Qed.
Lemma f64_sub_mono_r : forall x y c : f64, f64_leb x y = true ->
  f64_isnan (f64_sub c x) = false -> f64_isnan (f64_sub c y) = false ->
  f64_leb (f64_sub c y) (f64_sub c x) = true.
Proof.
  intros x y c H Hx Hy. apply f64_leb_iff in H as (Nx & Ny & H). apply f64_leb_iff. split; [exact Hy|]. split; [exact Hx|].
  pose proof big_pos. pose proof (ext_range (f64_sub c x)). pose proof (ext_range (f64_sub c y)).
  destruct (f64_cases c) as [Fc|[->|[->| ->]]].
  - destruct (f64_cases x) as [Fx|[->|[->| ->]]]; destruct (f64_cases y) as [Fy|[->|[->| ->]]]; try discriminate.
    + rewrite (proj2 (f64_sub_fin c x Fc Fx)), (proj2 (f64_sub_fin c y Fc Fy)).
      rewrite !ext_fin in H by assumption. apply clamp64_mono, rnd64_mono. lra.
    + rewrite ext_fin in H by assumption. simpl in H. pose proof (f64_fin_lt x). lra.
    + destruct c; try discriminate; simpl; lra.
    + destruct c; try discriminate; simpl; lra.
    + lra.
    + destruct c; try discriminate; simpl; lra.
    + rewrite (ext_fin y) in H by assumption. simpl in H. pose proof (f64_fin_lt y). lra.
    + simpl in H. lra.
    + lra.
  - destruct x as [|[]| |]; destruct y as [|[]| |]; try discriminate; simpl in *; lra.
  - destruct x as [|[]| |]; destruct y as [|[]| |]; try discriminate; simpl in *; lra.
  - destruct x as [|[]| |]; try discriminate Hx.
Qed.
