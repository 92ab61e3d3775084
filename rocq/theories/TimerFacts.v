(** Facts about the timer (C92). *)
From Coq Require Import ZArith Reals List Bool Lia Lra Psatz.
From Flocq Require Import Core BinarySingleNaN Relative.
From Verif Require Import Fp Base FpFacts InterpFacts NarrowFacts Timer TimerSpec.
Import ListNotations.
Local Open Scope R_scope.

Lemma e9_val : is_finite (f64_of_Z 1000000000) = true /\ B2R (f64_of_Z 1000000000) = 1000000000.
Proof.
  destruct (f64_finite_of_SF (f64_of_Z 1000000000) false 8388608000000000 (-23)) as [H ->]; [vm_compute; reflexivity|].
  split; [reflexivity|]. unfold B2R, F2R; simpl. lra.
Qed.
Lemma e3_val : is_finite (f64_of_Z 1000) = true /\ B2R (f64_of_Z 1000) = 1000.
Proof.
  destruct (f64_finite_of_SF (f64_of_Z 1000) false 8796093022208000 (-43)) as [H ->]; [vm_compute; reflexivity|].
  split; [reflexivity|]. unfold B2R, F2R; simpl. lra.
Qed.

(** Relative errors of the two roundings; [u] is 2^-53 and [v] is 2^-24. *)
Definition u53 : R := / 9007199254740992.
Definition v24 : R := / 16777216.
Lemma rnd64_rel : forall x, / 1000000000000000 <= Rabs x -> exists e, Rabs e <= u53 /\ rnd64 x = x * (1 + e).
Proof.
  intros x Hx. destruct (relative_error_N_FLT_ex radix2 (3 - emax64 - prec64) prec64 prec64_gt_0 (fun z => negb (Z.even z)) x) as (e & He & E).
  - apply Rle_trans with (2 := Hx). apply Rle_trans with (bpow radix2 (-52)); [apply bpow_le; vm_compute; discriminate|]. change (bpow radix2 (-52)) with (/ 4503599627370496). lra.
  - exists e. split; [|exact E]. eapply Rle_trans; [exact He|]. change (bpow radix2 (- prec64 + 1)) with (/ 4503599627370496). unfold u53. lra.
Qed.
Lemma r32_rel : forall x, / 1000000000000000 <= Rabs x -> exists e, Rabs e <= v24 /\ r32 x = x * (1 + e).
Proof.
  intros x Hx. destruct (relative_error_N_FLT_ex radix2 (3 - emax32 - prec32) prec32 prec32_gt_0 (fun z => negb (Z.even z)) x) as (e & He & E).
  - apply Rle_trans with (2 := Hx). apply Rle_trans with (bpow radix2 (-52)); [apply bpow_le; vm_compute; discriminate|]. change (bpow radix2 (-52)) with (/ 4503599627370496). lra.
  - exists e. split; [|exact E]. eapply Rle_trans; [exact He|]. change (bpow radix2 (- prec32 + 1)) with (/ 8388608). unfold v24. lra.
Qed.
(** The four roundings of the conversion. *)
Definition ms_R (d : R) : R := r32 (rnd64 (rnd64 (rnd64 d / 1000000000) * 1000)).
Lemma ms_R_mono : forall a b, a <= b -> ms_R a <= ms_R b.
Proof. intros a b H. unfold ms_R. apply r32_mono, rnd64_mono. apply Rmult_le_compat_r; [lra|]. apply rnd64_mono. apply Rmult_le_compat_r; [lra|]. apply rnd64_mono, H. Qed.
Lemma mult_range : forall x c lo hi, lo <= Rabs x <= hi -> 0 <= lo -> 0 < c -> lo * c <= Rabs (x * c) <= hi * c.
Proof. intros x c lo hi [H1 H2] Hl Hc. rewrite Rabs_mult, (Rabs_pos_eq c) by lra. split; apply Rmult_le_compat_r; lra. Qed.
Lemma factor : forall e, Rabs e <= / 16777216 -> 9 / 10 < 1 + e < 11 / 10.
Proof. intros e H. apply Rabs_le_inv in H. lra. Qed.
Lemma chain : forall d, 1 <= Rabs d <= 9223372036854775808 -> exists e1 e2 e3 e4, Rabs e1 <= u53 /\ Rabs e2 <= u53 /\ Rabs e3 <= u53 /\ Rabs e4 <= v24 /\
  rnd64 d = d * (1 + e1) /\ rnd64 (rnd64 d / 1000000000) = d / 1000000000 * ((1 + e1) * (1 + e2)) /\
  rnd64 (rnd64 (rnd64 d / 1000000000) * 1000) = d / 1000000 * ((1 + e1) * (1 + e2) * (1 + e3)) /\
  ms_R d = d / 1000000 * ((1 + e1) * (1 + e2) * (1 + e3) * (1 + e4)).
Proof.
  intros d Hd. assert (US : u53 <= / 16777216) by (unfold u53; lra).
  destruct (rnd64_rel d) as (e1 & H1 & E1); [lra|]. pose proof (factor e1 ltac:(lra)) as F1.
  pose proof (mult_range d (1 + e1) _ _ Hd ltac:(lra) ltac:(lra)) as R1. rewrite <- E1 in R1.
  destruct (rnd64_rel (rnd64 d / 1000000000)) as (e2 & H2 & E2).
  { pose proof (mult_range (rnd64 d) (/ 1000000000) _ _ R1 ltac:(lra) ltac:(lra)) as K. unfold Rdiv. lra. }
  pose proof (factor e2 ltac:(lra)) as F2.
  pose proof (mult_range (rnd64 d) (/ 1000000000 * (1 + e2)) _ _ R1 ltac:(lra) ltac:(lra)) as R2.
  replace (rnd64 d * (/ 1000000000 * (1 + e2))) with (rnd64 (rnd64 d / 1000000000)) in R2 by (rewrite E2; unfold Rdiv; ring).
  destruct (rnd64_rel (rnd64 (rnd64 d / 1000000000) * 1000)) as (e3 & H3 & E3).
  { pose proof (mult_range _ 1000 _ _ R2 ltac:(nra) ltac:(lra)) as K. nra. }
  pose proof (factor e3 ltac:(lra)) as F3.
  destruct (r32_rel (rnd64 (rnd64 (rnd64 d / 1000000000) * 1000))) as (e4 & H4 & E4).
  { pose proof (mult_range _ (1000 * (1 + e3)) _ _ R2 ltac:(nra) ltac:(lra)) as K. rewrite E3, Rmult_assoc. nra. }
  exists e1, e2, e3, e4. repeat (split; [assumption|]). split; [|split].
  - rewrite E2, E1. field.
  - rewrite E3, E2, E1. field.
  - unfold ms_R. rewrite E4, E3, E2, E1. field.
Qed.
Lemma prod_bound : forall e1 e2 e3 e4, Rabs e1 <= u53 -> Rabs e2 <= u53 -> Rabs e3 <= u53 -> Rabs e4 <= v24 ->
  Rabs ((1 + e1) * (1 + e2) * (1 + e3) * (1 + e4) - 1) <= / 8388608.
Proof.
  intros e1 e2 e3 e4 H1 H2 H3 H4. unfold u53, v24 in *.
  assert (P : forall a b s t, Rabs a <= s -> Rabs b <= t -> Rabs ((1 + a) * (1 + b) - 1) <= s + t + s * t).
  { intros a b s t Ha Hb. replace ((1 + a) * (1 + b) - 1) with (a + b + a * b) by ring.
    eapply Rle_trans; [apply Rabs_triang|]. apply Rplus_le_compat; [eapply Rle_trans; [apply Rabs_triang|apply Rplus_le_compat; assumption]|].
    rewrite Rabs_mult. apply Rmult_le_compat; try apply Rabs_pos; assumption. }
  pose proof (P e1 e2 _ _ H1 H2) as P2. set (a := (1 + e1) * (1 + e2) - 1) in *. replace ((1 + e1) * (1 + e2)) with (1 + a) by (unfold a; ring).
  pose proof (P a e3 _ _ P2 H3) as P3. set (b := (1 + a) * (1 + e3) - 1) in *. replace ((1 + a) * (1 + e3)) with (1 + b) by (unfold b; ring).
  pose proof (P b e4 _ _ P3 H4) as P4. eapply Rle_trans; [exact P4|]. clear. lra.
Qed.
Lemma ms_R_0 : ms_R 0 = 0.
Proof. unfold ms_R, Rdiv. rewrite !rnd64_0, Rmult_0_l, rnd64_0, Rmult_0_l, rnd64_0. apply r32_0. Qed.
Lemma int_abs : forall d : Z, (- 2 ^ 63 <= d < 2 ^ 63)%Z -> d = 0%Z \/ 1 <= Rabs (IZR d) <= 9223372036854775808.
Proof.
  intros d H. destruct (Z.eq_dec d 0) as [->|N]; [left; reflexivity|right]. rewrite <- abs_IZR. change (2 ^ 63)%Z with 9223372036854775808%Z in H. split; apply IZR_le; lia.
Qed.
(** The conversion is never infinite or NaN, and its value is that of the four roundings. *)
Lemma ms_val : forall d, (- 2 ^ 63 <= d < 2 ^ 63)%Z -> is_finite (count_ms d) = true /\ B2R (count_ms d) = ms_R (IZR d).
Proof.
  intros d Hd. assert (B : forall x, Rabs x < 1000000000000000000000 -> Rabs x < bpow radix2 emax64 /\ Rabs x < bpow radix2 emax32).
  { intros x Hx. split; apply Rlt_trans with (1 := Hx); apply Rlt_le_trans with (bpow radix2 100); try (apply bpow_le; vm_compute; discriminate); change (bpow radix2 100) with 1267650600228229401496703205376; lra. }
  assert (RG : Rabs (rnd64 (IZR d)) < 1000000000000000000000 /\ Rabs (rnd64 (rnd64 (IZR d) / 1000000000)) < 1000000000000000000000 /\
    Rabs (rnd64 (rnd64 (rnd64 (IZR d) / 1000000000) * 1000)) < 1000000000000000000000 /\ Rabs (ms_R (IZR d)) < 1000000000000000000000).
  { destruct (int_abs d Hd) as [->|Ha].
    - unfold ms_R, Rdiv. rewrite !rnd64_0, Rmult_0_l, rnd64_0, Rmult_0_l, rnd64_0, r32_0, Rabs_R0. lra.
    - destruct (chain _ Ha) as (e1 & e2 & e3 & e4 & H1 & H2 & H3 & H4 & E1 & E2 & E3 & E4). unfold u53, v24 in *.
      pose proof (factor e1 ltac:(lra)) as F1. pose proof (factor e2 ltac:(lra)) as F2. pose proof (factor e3 ltac:(lra)) as F3. pose proof (factor e4 ltac:(lra)) as F4.
      assert (F12 : 0 < (1 + e1) * (1 + e2) < 2) by nra. assert (F13 : 0 < (1 + e1) * (1 + e2) * (1 + e3) < 3) by nra.
      assert (F14 : 0 < (1 + e1) * (1 + e2) * (1 + e3) * (1 + e4) < 4) by nra.
      rewrite E4, E3, E2, E1. unfold Rdiv. rewrite !(Rmult_assoc (IZR d)).
      set (p12 := (1 + e1) * (1 + e2)) in *. set (p13 := p12 * (1 + e3)) in *. set (p14 := p13 * (1 + e4)) in *. clearbody p14. clearbody p13. clearbody p12.
      split; [|split; [|split]]; rewrite Rabs_mult; rewrite (Rabs_pos_eq (_ * _)) || rewrite (Rabs_pos_eq (1 + e1)); try nra. }
  destruct RG as (G1 & G2 & G3 & G4). destruct e9_val as [F9 V9]. destruct e3_val as [F3 V3].
  unfold count_ms. set (a := f64_of_Z d).
  assert (A : is_finite a = true /\ B2R a = rnd64 (IZR d)).
  { pose proof (binary_normalize_correct prec64 emax64 prec64_gt_0 prec64_lt_emax mode_NE d 0 false) as H. cbv zeta in H.
    replace (F2R (Float radix2 d 0)) with (IZR d) in H by (unfold F2R; cbn; ring). fold (rnd64 (IZR d)) in H. rewrite Rlt_bool_true in H by (apply B, G1).
    split; apply H. }
  destruct A as [Fa Va]. clearbody a. set (b := f64_div a (f64_of_Z 1000000000)).
  assert (A : is_finite b = true /\ B2R b = rnd64 (rnd64 (IZR d) / 1000000000)).
  { pose proof (Bdiv_correct prec64 emax64 _ _ mode_NE a (f64_of_Z 1000000000) ltac:(rewrite V9; lra)) as H. rewrite V9, Va in H. fold (rnd64 (rnd64 (IZR d) / 1000000000)) in H.
    rewrite Rlt_bool_true in H by (apply B, G2). destruct H as (H1 & H2 & _). unfold b, f64_div. rewrite H2. split; [exact Fa|exact H1]. }
  destruct A as [Fb Vb]. clearbody b. set (c := f64_mul b (f64_of_Z 1000)).
  assert (A : is_finite c = true /\ B2R c = rnd64 (rnd64 (rnd64 (IZR d) / 1000000000) * 1000)).
  { pose proof (Bmult_correct prec64 emax64 _ _ mode_NE b (f64_of_Z 1000)) as H. rewrite V3, Vb in H. fold (rnd64 (rnd64 (rnd64 (IZR d) / 1000000000) * 1000)) in H.
    rewrite Rlt_bool_true in H by (apply B, G3). destruct H as (H1 & H2 & _). unfold c, f64_mul. rewrite H2, Fb, F3. split; [reflexivity|exact H1]. }
  destruct A as [Fc Vc]. clearbody c. destruct (B _ G4) as [_ K]. unfold ms_R in *. rewrite <- Vc in *. rewrite <- big32_eq in K. apply Rabs_def2 in K.
  destruct (narrow_fin c Fc) as [(X1 & X2 & _)|[[_ X]|[_ X]]]; [split; assumption| |]; exfalso; lra.
Qed.

Theorem ms_measures : forall a b, (- 2 ^ 63 <= b - a < 2 ^ 63)%Z -> measures (count_ms (b - a)) a b.
Proof.
  intros a b H. destruct (ms_val _ H) as [F V]. split; [exact F|]. rewrite V. unfold elapsed.
  destruct (int_abs _ H) as [E|Ha].
  - rewrite E, ms_R_0. unfold Rdiv. rewrite Rmult_0_l, Rminus_0_r, Rabs_R0. lra.
  - destruct (chain _ Ha) as (e1 & e2 & e3 & e4 & H1 & H2 & H3 & H4 & _ & _ & _ & ->). set (d := IZR (b - a)). set (p := (1 + e1) * (1 + e2) * (1 + e3) * (1 + e4)).
    pose proof (prod_bound _ _ _ _ H1 H2 H3 H4) as P. fold p in P. replace (d / 1000000 * p - d / 1000000) with ((p - 1) * (d / 1000000)) by ring.
    rewrite Rabs_mult. apply Rmult_le_compat_r; [apply Rabs_pos|exact P].
Qed.
(** The sign of a measured time. *)
Lemma measures_sign : forall r a b, measures r a b -> (B2R r < 0 <-> (b < a)%Z) /\ (0 < B2R r <-> (a < b)%Z) /\ (B2R r = 0 <-> a = b).
Proof.
  intros r a b [_ H]. unfold elapsed in H. destruct (Z.lt_trichotomy a b) as [L|[->|L]].
  - assert (0 < IZR (b - a)) by (apply IZR_lt; lia). set (d := IZR (b - a)) in *. rewrite (Rabs_pos_eq (d / 1000000)) in H by lra. apply Rabs_le_inv in H.
    assert (0 < B2R r) by lra. repeat split; intros; try lia; try lra.
  - rewrite Z.sub_diag in H. unfold Rdiv in H. rewrite Rmult_0_l, Rabs_R0, Rminus_0_r, Rmult_0_r in H. assert (B2R r = 0).
    { destruct (Req_dec (B2R r) 0) as [E|N]; [exact E|]. apply Rabs_pos_lt in N. lra. }
    repeat split; intros; try lia; try lra.
  - assert (IZR (b - a) < 0) by (apply IZR_lt; lia). set (d := IZR (b - a)) in *. rewrite (Rabs_left (d / 1000000)) in H by lra. apply Rabs_le_inv in H.
    assert (B2R r < 0) by lra. repeat split; intros; try lia; try lra.
Qed.
Lemma diff_ok : forall a b, date a -> date b -> count_diff b a = Ok (b - a)%Z /\ (- 2 ^ 63 <= b - a < 2 ^ 63)%Z.
Proof.
  intros a b Ha Hb. unfold date in *. assert (R : (- 2 ^ 63 <= b - a < 2 ^ 63)%Z) by lia. split; [|exact R]. unfold count_diff. cbv zeta.
  destruct (Z.leb_spec (- 2 ^ 63) (b - a)); [|lia]. destruct (Z.ltb_spec (b - a) (2 ^ 63)); [|lia]. reflexivity.
Qed.
Lemma tick_ok : forall clk t, (forall k, date (clk k)) -> date (tm_stamp t) -> exists r, tick_tock clk t = Ok (r, Timer (clk (tm_pos t)) (S (tm_pos t))) /\ measures r (tm_stamp t) (clk (tm_pos t)).
Proof.
  intros clk t Hc Ht. destruct (diff_ok _ _ Ht (Hc (tm_pos t))) as [E R]. unfold tick_tock. cbv zeta. rewrite E. cbn [obind]. eexists. split; [reflexivity|]. apply ms_measures, R.
Qed.
Theorem ticks_measure : forall clk n pos, (forall k, date (clk k)) -> exists l t, ticks clk n (timer_new clk pos) = Ok (l, t) /\ length l = n /\
  (forall i r, nth_error l i = Some r -> measures r (clk (pos + i)%nat) (clk (pos + i + 1)%nat)).
Proof.
  intros clk n pos Hc. assert (G : forall n t, date (tm_stamp t) -> exists l t', ticks clk n t = Ok (l, t') /\ length l = n /\
    (forall i r, nth_error l i = Some r -> measures r (match i with O => tm_stamp t | S j => clk (tm_pos t + j)%nat end) (clk (tm_pos t + i)%nat))).
  { clear n pos. induction n as [|n IH]; intros t Ht; cbn [ticks].
    - exists [], t. split; [reflexivity|]. split; [reflexivity|]. intros [|i] r H; discriminate H.
    - destruct (tick_ok clk t Hc Ht) as (r & -> & M). cbn [obind fst snd]. destruct (IH (Timer (clk (tm_pos t)) (S (tm_pos t))) (Hc _)) as (l & t' & -> & L & N).
      cbn [obind fst snd]. exists (r :: l), t'. split; [reflexivity|]. split; [cbn; lia|]. intros [|i] r' H; cbn [nth_error] in H.
      + injection H as <-. rewrite Nat.add_0_r. exact M.
      + specialize (N i r' H). cbn [tm_stamp tm_pos] in N. replace (tm_pos t + S i)%nat with (S (tm_pos t) + i)%nat by lia.
        destruct i as [|i]; [rewrite Nat.add_0_r; exact N|]. replace (tm_pos t + S i)%nat with (S (tm_pos t) + i)%nat by lia. exact N. }
  destruct (G n (timer_new clk pos) (Hc pos)) as (l & t & E & L & N). exists l, t. split; [exact E|]. split; [exact L|].
  intros i r H. specialize (N i r H). cbn [timer_new tm_stamp tm_pos] in N. replace (pos + i + 1)%nat with (S pos + i)%nat by lia.
  destruct i as [|i]; [rewrite Nat.add_0_r; exact N|]. replace (pos + S i)%nat with (S pos + i)%nat by lia. exact N.
Qed.
(** The results of a run add up to the time from its start to its end. *)
Theorem ticks_total : forall clk n pos l t, (forall k, date (clk k)) -> (forall k, (clk k <= clk (S k))%Z) -> ticks clk n (timer_new clk pos) = Ok (l, t) ->
  Rabs (fold_right Rplus 0 (map (B2R (prec := prec32) (emax := emax32)) l) - elapsed (clk pos) (clk (pos + n)%nat)) <= / 8388608 * elapsed (clk pos) (clk (pos + n)%nat).
Proof.
  intros clk n pos l t Hc Hm H. destruct (ticks_measure clk n pos Hc) as (l' & t' & E & L & N). rewrite H in E. assert (l' = l) as -> by congruence. clear E H t t'.
  revert n pos L N. induction l as [|r l IH]; intros n pos L N.
  - cbn in L. subst n. cbn [map fold_right]. rewrite Nat.add_0_r. unfold elapsed. rewrite Z.sub_diag. unfold Rdiv. rewrite Rmult_0_l, Rminus_0_r, Rabs_R0. lra.
  - destruct n as [|n]; [discriminate L|]. cbn [map fold_right]. 
    specialize (IH n (S pos) ltac:(cbn in L; lia)). 
    assert (N' : forall i r0, nth_error l i = Some r0 -> measures r0 (clk (S pos + i)%nat) (clk (S pos + i + 1)%nat)).
    { intros i r0 H. replace (S pos + i)%nat with (pos + S i)%nat by lia. apply N. exact H. }
    specialize (IH N'). replace (pos + S n)%nat with (S pos + n)%nat by lia. pose proof (N 0%nat r eq_refl) as [_ M]. replace (pos + 0 + 1)%nat with (S pos) in M by lia. rewrite Nat.add_0_r in M.
    assert (S1 : elapsed (clk pos) (clk (S pos + n)%nat) = elapsed (clk pos) (clk (S pos)) + elapsed (clk (S pos)) (clk (S pos + n)%nat)).
    { unfold elapsed. rewrite <- Rdiv_plus_distr, <- plus_IZR. do 2 f_equal. lia. }
    assert (P : 0 <= elapsed (clk pos) (clk (S pos))). { unfold elapsed. pose proof (Hm pos). assert (0 <= IZR (clk (S pos) - clk pos)) by (apply IZR_le; lia). lra. }
    rewrite (Rabs_pos_eq _ P) in M. rewrite S1. set (x := elapsed (clk pos) (clk (S pos))) in *. set (y := elapsed (clk (S pos)) (clk (S pos + n)%nat)) in *.
    set (sm := fold_right Rplus 0 _) in *. replace (B2R r + sm - (x + y)) with ((B2R r - x) + (sm - y)) by ring.
    eapply Rle_trans; [apply Rabs_triang|]. lra.
Qed.
(** A longer interval never shows as a shorter time. *)
Theorem ms_monotone : forall d e, (- 2 ^ 63 <= d)%Z -> (d <= e)%Z -> (e < 2 ^ 63)%Z -> B2R (count_ms d) <= B2R (count_ms e).
Proof. intros d e H1 H2 H3. destruct (ms_val d ltac:(lia)) as [_ ->]. destruct (ms_val e ltac:(lia)) as [_ ->]. apply ms_R_mono, IZR_le, H2. Qed.
(** The times test_pnp prints are those of the three solver calls alone. *)
Theorem pnp_times_ok : forall clk, (forall k, date (clk k)) -> exists a b c, pnp_times clk = Ok (a, b, c) /\
  measures a (clk 0%nat) (clk 1%nat) /\ measures b (clk 2%nat) (clk 3%nat) /\ measures c (clk 4%nat) (clk 5%nat).
Proof.
  intros clk Hc. unfold pnp_times. cbv zeta.
  destruct (tick_ok clk (timer_new clk 0) Hc (Hc 0%nat)) as (a & -> & Ma). cbn [obind fst snd timer_new tm_pos tm_stamp] in *.
  match goal with |- context [tick_tock clk ?t] => destruct (tick_ok clk t Hc (Hc _)) as (x & -> & Mx) end. cbn [obind fst snd tm_pos tm_stamp] in *.
  match goal with |- context [tick_tock clk ?t] => destruct (tick_ok clk t Hc (Hc _)) as (b & -> & Mb) end. cbn [obind fst snd tm_pos tm_stamp] in *.
  match goal with |- context [tick_tock clk ?t] => destruct (tick_ok clk t Hc (Hc _)) as (y & -> & My) end. cbn [obind fst snd tm_pos tm_stamp] in *.
  match goal with |- context [tick_tock clk ?t] => destruct (tick_ok clk t Hc (Hc _)) as (c & -> & Mc) end. cbn [obind fst snd tm_pos tm_stamp] in *.
  exists a, b, c. repeat split; try apply Ma; try apply Mb; try apply Mc.
Qed.
(** ** What does not hold *)
Definition set_back (k : nat) : Z := match k with O => 5000000 | _ => 2000000 end.
Theorem time_nonneg_refuted : exists clk r t, (forall k, date (clk k)) /\ tick_tock clk (timer_new clk 0) = Ok (r, t) /\ B2R (r : f32) < 0.
Proof.
  exists set_back. assert (D : forall k, date (set_back k)) by (intros [|k]; unfold date, set_back; lia).
  destruct (tick_ok set_back (timer_new set_back 0) D (D 0%nat)) as (r & E & M). exists r. eexists. split; [exact D|]. split; [exact E|].
  apply (measures_sign _ _ _ M). cbn. lia.
Qed.
Theorem time_exact_refuted : exists d e, (0 <= d < e)%Z /\ (e < 2 ^ 63)%Z /\ count_ms d = count_ms e.
Proof. exists 16777217%Z, 16777218%Z. split; [lia|]. split; [lia|]. apply B2SF_inj. vm_compute. reflexivity. Qed.
Theorem time_defined_refuted : exists clk, (forall k, (- 2 ^ 63 <= clk k < 2 ^ 63)%Z) /\ tick_tock clk (timer_new clk 0) = Ub UbOverflow.
Proof. exists (fun k => match k with O => - 2 ^ 63 | _ => 0 end)%Z. split; [intros [|k]; lia|reflexivity]. Qed.
(** A clock for the examples: a million nanoseconds between readings, beginning in 2020. *)
Definition steady (k : nat) : Z := (1577836800000000000 + 1000000 * Z.of_nat (Nat.min k 6))%Z.
Theorem steady_example : (forall k, date (steady k)) /\ (forall k, (steady k <= steady (S k))%Z) /\ elapsed (steady 0) (steady 6) = 6.
Proof.
  split; [intros k; unfold date, steady; lia|]. split; [intros k; unfold steady; lia|]. unfold elapsed. change (steady 6 - steady 0)%Z with 6000000%Z. lra.
Qed.
Theorem sign_example : exists r, measures r 1000000 3000000.
Proof. exists (count_ms (3000000 - 1000000)). apply ms_measures. lia. Qed.
