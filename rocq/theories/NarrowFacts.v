(** Narrowing of time differences is monotone; times within 0.55 periods are within one period. *)
From Coq Require Import ZArith Reals Bool Lra Lia.
From Flocq Require Import Core BinarySingleNaN.
From Verif Require Import Fp FpFacts Backend QueueSpec AttitudeFacts.
Local Open Scope R_scope.

Definition r32 (r : R) : R := round radix2 (SpecFloat.fexp prec32 emax32) (round_mode mode_NE) r.
Lemma r32_mono : forall a b, a <= b -> r32 a <= r32 b.
Proof. intros a b H. apply round_le; [exact (fexp_correct prec32 emax32 prec32_gt_0)|auto with typeclass_instances|exact H]. Qed.
Lemma r32_0 : r32 0 = 0.
Proof. apply round_0. auto with typeclass_instances. Qed.

Lemma big32_ex : { b : R | 0 < b /\ b = bpow radix2 emax32 }.
Proof. exists (bpow radix2 emax32). split; [apply bpow_gt_0|reflexivity]. Qed.
Definition big32 : R := proj1_sig big32_ex.
Lemma big32_pos : 0 < big32. Proof. exact (proj1 (proj2_sig big32_ex)). Qed.
Lemma big32_eq : big32 = bpow radix2 emax32. Proof. exact (proj2 (proj2_sig big32_ex)). Qed.
#[local] Opaque big32.

Lemma narrow_fin : forall x : f64, is_finite x = true ->
  (is_finite (f64_to_f32 x) = true /\ B2R (f64_to_f32 x) = r32 (B2R x) /\ Rabs (r32 (B2R x)) < big32) \/
  (f64_to_f32 x = B754_infinity true /\ r32 (B2R x) <= - big32) \/ (f64_to_f32 x = B754_infinity false /\ big32 <= r32 (B2R x)).
Proof.
  intros [s|s| |s m e H] Hf; try discriminate.
  - left. cbn. rewrite r32_0, Rabs_R0. split; [reflexivity|]. split; [reflexivity|apply big32_pos].
  - pose proof (binary_normalize_correct prec32 emax32 prec32_gt_0 prec32_lt_emax mode_NE (cond_Zopp s (Zpos m)) e s) as Hn.
    cbv zeta in Hn. change (F2R (Float radix2 (cond_Zopp s (Zpos m)) e)) with (B2R (B754_finite s m e H)) in Hn.
    fold (r32 (B2R (B754_finite s m e H))) in Hn. rewrite <- big32_eq in Hn.
    change (binary_normalize prec32 emax32 prec32_gt_0 prec32_lt_emax mode_NE (cond_Zopp s (Zpos m)) e s) with (f64_to_f32 (B754_finite s m e H)) in Hn.
    revert Hn. generalize (f64_to_f32 (B754_finite s m e H)). generalize (B2R (B754_finite s m e H)). clear. intros r z.
    case Rlt_bool_spec; intros Hb Hz.
    + left. destruct Hz as (H1 & H2 & _). auto.
    + right. unfold binary_overflow, overflow_to_inf in Hz. destruct z as [|sz| |]; try discriminate Hz. cbn in Hz. injection Hz as ->.
      case Rlt_bool_spec; intros Hr.
      * left. split; [reflexivity|]. pose proof (r32_mono r 0 ltac:(lra)) as Hm. rewrite r32_0 in Hm. rewrite Rabs_left1 in Hb by exact Hm. lra.
      * right. split; [reflexivity|]. pose proof (r32_mono 0 r Hr) as Hm. rewrite r32_0 in Hm. rewrite Rabs_pos_eq in Hb by exact Hm. lra.
Qed.

Lemma f32_ltb_minf : forall a : f32, f32_ltb a (B754_infinity true) = false.
Proof. intros [[]|[]| |[]]; reflexivity. Qed.
Lemma f32_ltb_pinf : forall a : f32, f32_ltb (B754_infinity false) a = false.
Proof. intros [[]|[]| |[]]; reflexivity. Qed.
Lemma f32_ltb_nan : forall a b : f32, f32_isnan a = true \/ f32_isnan b = true -> f32_ltb a b = false.
Proof. intros [| | |] [| | |] [H|H]; try discriminate H; reflexivity. Qed.
Lemma narrow_nan : forall x, f64_isnan x = true -> f32_isnan (f64_to_f32 x) = true.
Proof. intros [| | |] H; try discriminate H; reflexivity. Qed.

Lemma narrow_mono : forall x y, f64_leb x y = true -> f32_ltb (f64_to_f32 y) (f64_to_f32 x) = false.
Proof.
  intros x y H. apply f64_leb_iff in H as (Nx & Ny & H). pose proof big_pos as HP. pose proof big32_pos as HB.
  destruct (f64_cases x) as [Fx|[->|[->| ->]]]; [|apply f32_ltb_minf| |discriminate].
  - destruct (f64_cases y) as [Fy|[->|[->| ->]]]; [| |apply f32_ltb_pinf|discriminate].
    + rewrite !ext_fin in H by assumption. apply r32_mono in H.
      destruct (narrow_fin x Fx) as [(X1 & X2 & X3)|[[-> X]|[-> X]]]; [|apply f32_ltb_minf|].
      * destruct (narrow_fin y Fy) as [(Y1 & Y2 & Y3)|[[-> Y]|[-> Y]]]; [| |apply f32_ltb_pinf].
        -- unfold f32_ltb. rewrite Bltb_correct by assumption. rewrite X2, Y2. apply Rlt_bool_false. exact H.
        -- apply Rabs_def2 in X3. lra.
      * destruct (narrow_fin y Fy) as [(Y1 & Y2 & Y3)|[[-> Y]|[-> Y]]]; [|lra|apply f32_ltb_pinf]. apply Rabs_def2 in Y3. lra.
    + rewrite ext_fin in H by assumption. cbn [ext] in H. pose proof (f64_fin_lt x). lra.
  - destruct (f64_cases y) as [Fy|[->|[->| ->]]]; [| |apply f32_ltb_pinf|discriminate].
    + rewrite (ext_fin y) in H by assumption. cbn [ext] in H. pose proof (f64_fin_lt y). lra.
    + cbn [ext] in H. lra.
Qed.

(** A later time is not older. *)
Lemma not_old_later : forall t x y p, f64_leb x y = true -> f64_ltb p (f64_sub t x) = false ->
  f32_ltb (f64_to_f32 p) (f64_to_f32 (f64_sub t y)) = false.
Proof.
  intros t x y p Hxy Hx. destruct (f64_isnan (f64_sub t y)) eqn:Ny; [apply f32_ltb_nan; right; apply narrow_nan; exact Ny|].
  destruct (f64_isnan p) eqn:Np; [apply f32_ltb_nan; left; apply narrow_nan; exact Np|].
  destruct (f64_isnan (f64_sub t x)) eqn:Nx.
  - apply f64_leb_iff in Hxy as (Hxn & Hyn & Hl). pose proof big_pos as HP.
    assert (Hm : f64_sub t y = B754_infinity true).
    { destruct (f64_cases t) as [Ft|[->|[->| ->]]]; destruct (f64_cases x) as [Fx|[->|[->| ->]]]; try discriminate Hxn; try discriminate Ny; try discriminate Nx;
        try (rewrite (proj1 (f64_sub_fin t x Ft Fx)) in Nx; discriminate).
      all: try (destruct t; try discriminate Ft; discriminate Nx).
      all: try (destruct x; try discriminate Fx; discriminate Nx).
      - destruct (f64_cases y) as [Fy|[->|[->| ->]]]; try discriminate Hyn; try discriminate Ny; [|reflexivity].
        destruct y; try discriminate Fy; reflexivity.
      - cbn [ext] in Hl. destruct (f64_cases y) as [Fy|[->|[->| ->]]]; try discriminate Hyn; try discriminate Ny.
        + rewrite (ext_fin y Fy) in Hl. pose proof (f64_fin_lt y). lra.
        + cbn [ext] in Hl. lra. }
    rewrite Hm. apply f32_ltb_minf.
  - apply narrow_mono. eapply f64_leb_trans; [apply f64_sub_mono_r; eassumption|]. apply f64_ltb_false_leb; assumption.
Qed.

Lemma c055 : is_finite f64_0_55 = true /\ 0 < B2R f64_0_55 <= 1.
Proof.
  unfold f64_0_55. destruct (f64_finite_of_SF (f64_lit 0x1199999999999a (-53)) false 4953959590107546 (-53)) as [H ->]; [vm_compute; reflexivity|].
  split; [reflexivity|]. cbn [B2R cond_Zopp]. unfold F2R. cbn [Fnum Fexp]. 
  change (bpow radix2 (-53)) with (/ IZR (Zpower_pos radix2 53)). assert (IZR (Zpower_pos radix2 53) = 9007199254740992) as -> by reflexivity. lra.
Qed.
Lemma rnd64_B2R : forall p : f64, is_finite p = true -> rnd64 (B2R p) = B2R p.
Proof. intros p H. apply round_generic; [auto with typeclass_instances|]. apply generic_format_B2R. Qed.

Lemma within_period : forall t x p, f64_ltb (tdist t x) (f64_mul p f64_0_55) = true -> f64_leb (f64_sub t x) p = true.
Proof.
  intros t x p H. apply f64_ltb_iff in H as (N1 & N2 & H). rewrite isnan_tdist in N1. unfold tdist in H. rewrite ext_abs in H.
  destruct c055 as [Fc [C1 C2]]. pose proof big_pos as HP.
  pose proof (Rle_abs (ext (f64_sub t x))) as Ha. pose proof (Rabs_pos (ext (f64_sub t x))) as Ha0.
  assert (Hp : f64_isnan p = false /\ ext (f64_mul p f64_0_55) <= ext p \/ ext (f64_mul p f64_0_55) <= 0).
  { destruct (f64_cases p) as [Fp|[->|[->| ->]]].
    - pose proof (Bmult_correct prec64 emax64 _ _ mode_NE p f64_0_55) as Hm. fold (rnd64 (B2R p * B2R f64_0_55)) in Hm.
      rewrite <- big_eq in Hm. fold (f64_mul p f64_0_55) in Hm. pose proof (f64_fin_lt p) as Hlt. pose proof (rnd64_B2R p Fp) as Hr.
      destruct (Rle_or_lt 0 (B2R p)) as [Hs|Hs].
      + left. split; [apply fin_notnan; exact Fp|]. rewrite (ext_fin p Fp).
        assert (R1 : rnd64 (B2R p * B2R f64_0_55) <= B2R p) by (rewrite <- Hr at 2; apply rnd64_mono; nra).
        assert (R0 : 0 <= rnd64 (B2R p * B2R f64_0_55)) by (rewrite <- rnd64_0; apply rnd64_mono; nra).
        rewrite Rlt_bool_true in Hm by (rewrite Rabs_pos_eq by exact R0; lra). destruct Hm as (M1 & M2 & _). rewrite Fp, Fc in M2.
        rewrite ext_fin by exact M2. lra.
      + right. assert (R1 : rnd64 (B2R p * B2R f64_0_55) <= 0) by (rewrite <- rnd64_0; apply rnd64_mono; nra).
        assert (R0 : B2R p <= rnd64 (B2R p * B2R f64_0_55)) by (rewrite <- Hr at 1; apply rnd64_mono; nra).
        rewrite Rlt_bool_true in Hm by (rewrite Rabs_left1 by exact R1; lra). destruct Hm as (M1 & M2 & _). rewrite Fp, Fc in M2.
        rewrite ext_fin by exact M2. lra.
    - right. unfold f64_0_55 in *. destruct (f64_lit _ _) as [| | |s m e Hb]; try discriminate Fc; [cbn in C1; lra|].
      destruct s; [exfalso|]. { cbn [B2R] in C1. pose proof (F2R_lt_0 radix2 (Float radix2 (cond_Zopp true (Zpos m)) e) ltac:(cbn; lia)). lra. }
      cbn. lra.
    - left. split; [reflexivity|]. change (ext (B754_infinity false)) with big. exact (proj2 (ext_range _)).
    - discriminate N2. }
  destruct Hp as [[Np Hp]|Hp]; [|lra]. apply f64_leb_iff. split; [exact N1|]. split; [exact Np|lra].
Qed.
