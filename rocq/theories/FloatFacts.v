(** Error bounds of binary32 operations. *)
From Coq Require Import ZArith Reals Bool Lra Lia Psatz.
From Flocq Require Import Core BinarySingleNaN Relative.
From Verif Require Import Fp FpFacts InterpFacts NarrowFacts.
Local Open Scope R_scope.

(** Half an ulp of 1, a coarse absolute error below the normal range, and a coarse overflow limit. *)
Definition uf : R := / 16777216.
Definition ef : R := / 1152921504606846976.
Definition top : R := 1329227995784915872903807060280344576.

Lemma r32_err : forall x, Rabs (r32 x - x) <= uf * Rabs x + ef.
Proof.
  intros x. destruct (error_N_FLT radix2 (3 - emax32 - prec32) prec32 prec32_gt_0 (fun z => negb (Z.even z)) x) as (e & d & He & Hd & _ & E).
  change (r32 x) with (round radix2 (FLT_exp (3 - emax32 - prec32) prec32) (Znearest (fun z => negb (Z.even z))) x). rewrite E.
  replace (x * (1 + e) + d - x) with (x * e + d) by ring.
  eapply Rle_trans; [apply Rabs_triang|]. rewrite Rabs_mult, (Rmult_comm uf). apply Rplus_le_compat.
  - apply Rmult_le_compat_l; [apply Rabs_pos|]. eapply Rle_trans; [exact He|]. change (bpow radix2 (- prec32 + 1)) with (/ 8388608). unfold uf. lra.
  - eapply Rle_trans; [exact Hd|]. apply Rle_trans with (bpow radix2 (-60)).
    + apply Rle_trans with (bpow radix2 (3 - emax32 - prec32)); [pose proof (bpow_gt_0 radix2 (3 - emax32 - prec32)); lra|]. apply bpow_le. vm_compute. discriminate.
    + change (bpow radix2 (-60)) with (/ 1152921504606846976). unfold ef. lra.
Qed.
Lemma r32_top : forall x, Rabs x <= top -> Rabs (r32 x) < bpow radix2 emax32.
Proof.
  intros x H. apply Rle_lt_trans with (bpow radix2 120); [|apply bpow_lt; reflexivity].
  apply abs_round_le_generic; [exact (fexp_correct prec32 emax32 prec32_gt_0)|auto with typeclass_instances| |exact H].
  apply generic_format_bpow. vm_compute. discriminate.
Qed.

(** A finite float with the given value. *)
Definition fin (x : f32) : Prop := is_finite x = true.
Lemma add_val : forall x y, fin x -> fin y -> Rabs (B2R x + B2R y) <= top -> fin (f32_add x y) /\ B2R (f32_add x y) = r32 (B2R x + B2R y).
Proof.
  intros x y Hx Hy H. pose proof (Bplus_correct prec32 emax32 _ _ mode_NE x y Hx Hy) as C. rewrite Rlt_bool_true in C by exact (r32_top _ H).
  split; apply C.
Qed.
Lemma sub_val32 : forall x y, fin x -> fin y -> Rabs (B2R x - B2R y) <= top -> fin (f32_sub x y) /\ B2R (f32_sub x y) = r32 (B2R x - B2R y).
Proof.
  intros x y Hx Hy H. pose proof (Bminus_correct prec32 emax32 _ _ mode_NE x y Hx Hy) as C. rewrite Rlt_bool_true in C by exact (r32_top _ H).
  split; apply C.
Qed.
Lemma mul_val : forall x y, fin x -> fin y -> Rabs (B2R x * B2R y) <= top -> fin (f32_mul x y) /\ B2R (f32_mul x y) = r32 (B2R x * B2R y).
Proof.
  intros x y Hx Hy H. pose proof (Bmult_correct prec32 emax32 _ _ mode_NE x y) as C. rewrite Rlt_bool_true in C by exact (r32_top _ H).
  unfold fin in *. split; [|apply C]. unfold f32_mul. destruct C as (_ & -> & _). rewrite Hx, Hy. reflexivity.
Qed.
Lemma div_val : forall x y, fin x -> B2R y <> 0 -> Rabs (B2R x / B2R y) <= top -> fin (f32_div x y) /\ B2R (f32_div x y) = r32 (B2R x / B2R y).
Proof.
  intros x y Hx Hy H. pose proof (Bdiv_correct prec32 emax32 _ _ mode_NE x y Hy) as C. rewrite Rlt_bool_true in C by exact (r32_top _ H).
  unfold fin in *. split; [|apply C]. unfold f32_div. destruct C as (_ & -> & _). exact Hx.
Qed.
Lemma sqrt_val : forall x, fin x -> 0 < B2R x -> fin (f32_sqrt x) /\ B2R (f32_sqrt x) = r32 (sqrt (B2R x)).
Proof.
  intros x Hx H. pose proof (Bsqrt_correct prec32 emax32 _ _ mode_NE x) as C. split; [|apply C].
  unfold fin, f32_sqrt. destruct C as (_ & -> & _). destruct x as [| | |[] m e E]; try discriminate; auto.
  cbn in H. exfalso. apply (Rlt_not_le _ _ H). apply F2R_le_0. cbn. lia.
Qed.

(** [ap x r e]: [x] is finite and within [e] of [r]. *)
Definition ap (x : f32) (r e : R) : Prop := fin x /\ Rabs (B2R x - r) <= e.
Lemma ap_exact : forall x, fin x -> ap x (B2R x) 0.
Proof. intros x H. split; [exact H|]. unfold Rminus. rewrite Rplus_opp_r, Rabs_R0. lra. Qed.
Lemma ap_weak : forall x r e e', ap x r e -> e <= e' -> ap x r e'.
Proof. intros x r e e' [H1 H2] H. split; [exact H1|lra]. Qed.
Lemma ap_nonneg : forall x r e, ap x r e -> 0 <= e.
Proof. intros x r e [_ H]. eapply Rle_trans; [apply Rabs_pos|exact H]. Qed.
Lemma ap_abs : forall x r e b, ap x r e -> Rabs r <= b -> Rabs (B2R x) <= b + e.
Proof. intros x r e b [_ H] Hb. replace (B2R x) with (r + (B2R x - r)) by ring. eapply Rle_trans; [apply Rabs_triang|]. lra. Qed.

(** The rounded result of an operation whose exact result on the floats is [s], near [t]. *)
Lemma ap_round : forall z s t h b g, fin z /\ B2R z = r32 s -> Rabs (s - t) <= h -> Rabs t <= b -> h + uf * (b + h) + ef <= g -> ap z t g.
Proof.
  intros z s t h b g [Hf Hz] Hh Hb Hg. split; [exact Hf|]. rewrite Hz. replace (r32 s - t) with ((r32 s - s) + (s - t)) by ring.
  eapply Rle_trans; [apply Rabs_triang|]. pose proof (r32_err s) as He.
  assert (Rabs s <= b + h) as Hs. { replace s with (t + (s - t)) by ring. eapply Rle_trans; [apply Rabs_triang|]. lra. }
  assert (uf * Rabs s <= uf * (b + h)) by (apply Rmult_le_compat_l; [unfold uf; lra|exact Hs]). lra.
Qed.
Lemma near_top : forall s t h b, Rabs (s - t) <= h -> Rabs t <= b -> b + h <= top -> Rabs s <= top.
Proof. intros s t h b Hh Hb H. replace s with (t + (s - t)) by ring. eapply Rle_trans; [apply Rabs_triang|]. lra. Qed.

Lemma ap_add : forall x y r s e f b g, ap x r e -> ap y s f -> Rabs (r + s) <= b -> b + (e + f) <= top ->
  e + f + uf * (b + (e + f)) + ef <= g -> ap (f32_add x y) (r + s) g.
Proof.
  intros x y r s e f b g [Hx Ex] [Hy Ey] Hb Ht Hg.
  assert (Rabs ((B2R x + B2R y) - (r + s)) <= e + f) as H.
  { replace (B2R x + B2R y - (r + s)) with ((B2R x - r) + (B2R y - s)) by ring. eapply Rle_trans; [apply Rabs_triang|]. lra. }
  eapply ap_round; [apply add_val; auto; exact (near_top _ _ _ _ H Hb Ht)|exact H|exact Hb|exact Hg].
Qed.
Lemma ap_sub : forall x y r s e f b g, ap x r e -> ap y s f -> Rabs (r - s) <= b -> b + (e + f) <= top ->
  e + f + uf * (b + (e + f)) + ef <= g -> ap (f32_sub x y) (r - s) g.
Proof.
  intros x y r s e f b g [Hx Ex] [Hy Ey] Hb Ht Hg.
  assert (Rabs ((B2R x - B2R y) - (r - s)) <= e + f) as H.
  { replace (B2R x - B2R y - (r - s)) with ((B2R x - r) - (B2R y - s)) by ring. unfold Rminus at 1. eapply Rle_trans; [apply Rabs_triang|]. rewrite Rabs_Ropp. lra. }
  eapply ap_round; [apply sub_val32; auto; exact (near_top _ _ _ _ H Hb Ht)|exact H|exact Hb|exact Hg].
Qed.
Lemma ap_mul : forall x y r s e f b c g, ap x r e -> ap y s f -> Rabs r <= b -> Rabs s <= c -> b * c + (e * c + b * f + e * f) <= top ->
  (e * c + b * f + e * f) + uf * (b * c + (e * c + b * f + e * f)) + ef <= g -> ap (f32_mul x y) (r * s) g.
Proof.
  intros x y r s e f b c g [Hx Ex] [Hy Ey] Hb Hc Ht Hg.
  assert (Rabs ((B2R x * B2R y) - (r * s)) <= e * c + b * f + e * f) as H.
  { replace (B2R x * B2R y - r * s) with ((B2R x - r) * s + r * (B2R y - s) + (B2R x - r) * (B2R y - s)) by ring.
    eapply Rle_trans; [apply Rabs_triang|]. eapply Rle_trans; [apply Rplus_le_compat_r, Rabs_triang|]. rewrite !Rabs_mult.
    pose proof (Rabs_pos (B2R x - r)). pose proof (Rabs_pos (B2R y - s)). pose proof (Rabs_pos r). pose proof (Rabs_pos s).
    repeat apply Rplus_le_compat; apply Rmult_le_compat; lra. }
  assert (Rabs (r * s) <= b * c) as Hbc. { rewrite Rabs_mult. apply Rmult_le_compat; try apply Rabs_pos; assumption. }
  eapply ap_round; [apply mul_val; auto; exact (near_top _ _ _ _ H Hbc Ht)|exact H|exact Hbc|exact Hg].
Qed.
Lemma ap_opp : forall x r e, ap x r e -> ap (f32_opp x) (- r) e.
Proof.
  intros x r e [H E]. unfold ap, fin, f32_opp. rewrite is_finite_Bopp, B2R_Bopp. split; [exact H|].
  replace (- B2R x - - r) with (- (B2R x - r)) by ring. rewrite Rabs_Ropp. exact E.
Qed.
