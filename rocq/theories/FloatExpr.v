(** Error bounds of float expressions, computed with rationals. *)
From Coq Require Import ZArith QArith Reals Qreals Bool Lra Lia Psatz.
From Flocq Require Import Core BinarySingleNaN.
From Coq Require Import List.
From Verif Require Import Fp NarrowFacts Scalar FloatFacts.
Import ListNotations.
Local Open Scope R_scope.

Inductive fx := FV (n : nat) | FA (a b : fx) | FS (a b : fx) | FM (a b : fx) | FH (a : fx) | FO.
Fixpoint fev (v : nat -> f32) (e : fx) : f32 :=
  match e with FV n => v n | FA a b => f32_add (fev v a) (fev v b) | FS a b => f32_sub (fev v a) (fev v b) | FM a b => f32_mul (fev v a) (fev v b)
  | FH a => f32_div (fev v a) (f32_add (f32_of_Z 1) (f32_of_Z 1)) | FO => f32_of_Z 1 end.
Fixpoint rev_ (v : nat -> R) (e : fx) : R :=
  match e with FV n => v n | FA a b => rev_ v a + rev_ v b | FS a b => rev_ v a - rev_ v b | FM a b => rev_ v a * rev_ v b
  | FH a => rev_ v a / (1 + 1) | FO => 1 end.

Definition uq : Q := 1 # 16777216.
Definition eq_ : Q := 1 # 1152921504606846976.
Definition topq : Q := 1329227995784915872903807060280344576 # 1.
(** Rounding a bound up to a multiple of 2^-60. *)
Definition up (q : Q) : Q := (Z.div (Qnum q * 1152921504606846976) (Zpos (Qden q)) + 1) # 1152921504606846976.
Record bd := Bd { b_err : Q; b_mag : Q; b_ok : bool }.
Definition fin_bd (h m : Q) (ok : bool) : bd := Bd (up (h + uq * (m + h) + eq_)) (up m) (ok && Qle_bool (m + h) topq).
(** Error, magnitude and absence of overflow. *)
Fixpoint bnd (v : nat -> Q * Q) (e : fx) : bd :=
  match e with
  | FV n => Bd (fst (v n)) (snd (v n)) true
  | FA a b | FS a b => let x := bnd v a in let y := bnd v b in fin_bd (b_err x + b_err y) (b_mag x + b_mag y) (b_ok x && b_ok y)
  | FM a b => let x := bnd v a in let y := bnd v b in
      fin_bd (b_err x * b_mag y + b_mag x * b_err y + b_err x * b_err y) (b_mag x * b_mag y) (b_ok x && b_ok y)
  | FH a => let x := bnd v a in fin_bd (b_err x * (1 # 2)) (b_mag x * (1 # 2)) (b_ok x)
  | FO => Bd 0 1 true
  end.

Lemma up_le : forall q, (q <= up q)%Q.
Proof.
  intros [n d]. unfold up, Qle. cbn [Qnum Qden]. pose proof (Z.div_mod (n * 1152921504606846976) (Zpos d) ltac:(lia)) as H.
  pose proof (Z.mod_pos_bound (n * 1152921504606846976) (Zpos d) ltac:(lia)). lia.
Qed.
Lemma up_R : forall q, Q2R q <= Q2R (up q).
Proof. intros q. apply Qle_Rle, up_le. Qed.
Lemma uq_R : Q2R uq = uf.
Proof. unfold Q2R, uq, uf. cbn [Qnum Qden]. lra. Qed.
Lemma eq_R : Q2R eq_ = ef.
Proof. unfold Q2R, eq_, ef. cbn [Qnum Qden]. lra. Qed.
Lemma topq_R : Q2R topq = top.
Proof. unfold Q2R, topq, top. cbn [Qnum Qden]. lra. Qed.

Lemma one_two : fin (f32_of_Z 1) /\ B2R (f32_of_Z 1) = 1 /\ B2R (f32_add (f32_of_Z 1) (f32_of_Z 1)) = 2.
Proof.
  assert (forall (x : f32) s m e, B2SF x = SpecFloat.S754_finite s m e -> is_finite x = true /\ B2R x = F2R (Float radix2 (cond_Zopp s (Zpos m)) e)) as C.
  { intros x s m e H. destruct x as [| | |s' m' e' E]; try discriminate H. cbn in H. injection H as <- <- <-. split; reflexivity. }
  destruct (C (f32_of_Z 1) false 8388608%positive (-23)%Z) as [H1 ->]; [vm_compute; reflexivity|].
  destruct (C (f32_add (f32_of_Z 1) (f32_of_Z 1)) false 8388608%positive (-22)%Z) as [H2 ->]; [vm_compute; reflexivity|].
  split; [exact H1|]. unfold F2R; simpl. lra.
Qed.
Lemma bnd_sound : forall (v : nat -> f32) (r : nat -> R) (b : nat -> Q * Q) e,
  (forall n, ap (v n) (r n) (Q2R (fst (b n))) /\ Rabs (r n) <= Q2R (snd (b n))) -> b_ok (bnd b e) = true ->
  ap (fev v e) (rev_ r e) (Q2R (b_err (bnd b e))) /\ Rabs (rev_ r e) <= Q2R (b_mag (bnd b e)).
Proof.
  intros v r b e Hv. induction e as [n|x IHx y IHy|x IHx y IHy|x IHx y IHy|x IHx|]; cbn [bnd fev rev_]; intros Hok.
  - apply Hv.
  - cbn [fin_bd b_err b_mag b_ok] in *. apply andb_true_iff in Hok as [Hok Hm]. apply andb_true_iff in Hok as [Ox Oy].
    destruct (IHx Ox) as [Ax Mx], (IHy Oy) as [Ay My]. apply Qle_bool_iff, Qle_Rle in Hm. rewrite topq_R, !Q2R_plus in Hm.
    assert (Rabs (rev_ r x + rev_ r y) <= Q2R (b_mag (bnd b x)) + Q2R (b_mag (bnd b y))) as M by (eapply Rle_trans; [apply Rabs_triang|lra]).
    split; [|eapply Rle_trans; [exact M|rewrite <- Q2R_plus; apply up_R]].
    eapply ap_weak; [eapply (ap_add _ _ _ _ _ _ _ _ Ax Ay M); [exact Hm|apply Rle_refl]|].
    eapply Rle_trans; [|apply up_R]. rewrite !Q2R_plus, Q2R_mult, !Q2R_plus, uq_R, eq_R. apply Rle_refl.
  - cbn [fin_bd b_err b_mag b_ok] in *. apply andb_true_iff in Hok as [Hok Hm]. apply andb_true_iff in Hok as [Ox Oy].
    destruct (IHx Ox) as [Ax Mx], (IHy Oy) as [Ay My]. apply Qle_bool_iff, Qle_Rle in Hm. rewrite topq_R, !Q2R_plus in Hm.
    assert (Rabs (rev_ r x - rev_ r y) <= Q2R (b_mag (bnd b x)) + Q2R (b_mag (bnd b y))) as M by (unfold Rminus; eapply Rle_trans; [apply Rabs_triang|rewrite Rabs_Ropp; lra]).
    split; [|eapply Rle_trans; [exact M|rewrite <- Q2R_plus; apply up_R]].
    eapply ap_weak; [eapply (ap_sub _ _ _ _ _ _ _ _ Ax Ay M); [exact Hm|apply Rle_refl]|].
    eapply Rle_trans; [|apply up_R]. rewrite !Q2R_plus, Q2R_mult, !Q2R_plus, uq_R, eq_R. apply Rle_refl.
  - cbn [fin_bd b_err b_mag b_ok] in *. apply andb_true_iff in Hok as [Hok Hm]. apply andb_true_iff in Hok as [Ox Oy].
    destruct (IHx Ox) as [Ax Mx], (IHy Oy) as [Ay My]. apply Qle_bool_iff, Qle_Rle in Hm. rewrite topq_R in Hm.
    repeat rewrite ?Q2R_plus, ?Q2R_mult in Hm.
    split.
    + eapply ap_weak; [eapply (ap_mul _ _ _ _ _ _ _ _ _ Ax Ay Mx My); [exact Hm|apply Rle_refl]|].
      eapply Rle_trans; [|apply up_R]. repeat rewrite ?Q2R_plus, ?Q2R_mult. rewrite uq_R, eq_R. apply Rle_refl.
    + eapply Rle_trans; [|apply up_R]. rewrite Q2R_mult, Rabs_mult. apply Rmult_le_compat; try apply Rabs_pos; assumption.
  - replace (1 + 1) with 2 by ring. cbn [fin_bd b_err b_mag b_ok] in *. apply andb_true_iff in Hok as [Ox Hm]. destruct (IHx Ox) as [Ax Mx]. destruct one_two as (_ & _ & H2).
    apply Qle_bool_iff, Qle_Rle in Hm. rewrite topq_R, Q2R_plus, !Q2R_mult in Hm. replace (Q2R (1 # 2)) with (/ 2) in Hm by (unfold Q2R; cbn; lra).
    assert (Rabs (rev_ r x / 2) <= Q2R (b_mag (bnd b x)) * / 2) as M.
    { unfold Rdiv. rewrite Rabs_mult, (Rabs_pos_eq (/ 2)) by lra. apply Rmult_le_compat_r; [lra|exact Mx]. }
    split.
    + assert (Rabs (B2R (fev v x) / B2R (f32_add (f32_of_Z 1) (f32_of_Z 1)) - rev_ r x / 2) <= Q2R (b_err (bnd b x)) * / 2) as N.
      { rewrite H2. replace (B2R (fev v x) / 2 - rev_ r x / 2) with ((B2R (fev v x) - rev_ r x) * / 2) by field. rewrite Rabs_mult, (Rabs_pos_eq (/ 2)) by lra.
        apply Rmult_le_compat_r; [lra|apply Ax]. }
      eapply ap_weak; [eapply ap_round; [apply div_val; [apply Ax|rewrite H2; lra|exact (near_top _ _ _ _ N M Hm)]|exact N|exact M|apply Rle_refl]|].
      eapply Rle_trans; [|apply up_R]. repeat rewrite ?Q2R_plus, ?Q2R_mult. rewrite uq_R, eq_R. replace (Q2R (1 # 2)) with (/ 2) by (unfold Q2R; cbn; lra). apply Rle_refl.
    + eapply Rle_trans; [exact M|]. eapply Rle_trans; [|apply up_R]. rewrite Q2R_mult. replace (Q2R (1 # 2)) with (/ 2) by (unfold Q2R; cbn; lra). apply Rle_refl.
  - destruct one_two as (F1 & V1 & _). cbn [b_err b_mag]. replace (Q2R 0) with 0 by (unfold Q2R; cbn; lra). replace (Q2R 1) with 1 by (unfold Q2R; cbn; lra).
    split; [|rewrite Rabs_pos_eq; lra]. split; [exact F1|]. rewrite V1. unfold Rminus. rewrite Rplus_opp_r, Rabs_R0. lra.
Qed.

(** Environments given by lists. *)
Fixpoint env_ok (v : list f32) (r : list R) (b : list (Q * Q)) : Prop :=
  match v, r, b with
  | [], [], [] => True
  | x :: v', y :: r', c :: b' => (ap x y (Q2R (fst c)) /\ Rabs y <= Q2R (snd c)) /\ env_ok v' r' b'
  | _, _, _ => False
  end.
Definition lf (v : list f32) (n : nat) : f32 := nth n v (B754_zero false).
Definition lr (r : list R) (n : nat) : R := nth n r 0.
Definition lq (b : list (Q * Q)) (n : nat) : Q * Q := nth n b (0, 0)%Q.
Lemma env_at : forall v r b, env_ok v r b -> forall n, ap (lf v n) (lr r n) (Q2R (fst (lq b n))) /\ Rabs (lr r n) <= Q2R (snd (lq b n)).
Proof.
  induction v as [|x v IH]; intros [|y r] [|c b] H; cbn [env_ok] in H; try contradiction.
  - intros n. unfold lf, lr, lq. destruct n; cbn; (replace (Q2R 0) with 0 by (unfold Q2R; cbn; lra)); (split; [split; [reflexivity|cbn; unfold Rminus; rewrite Rplus_opp_r, Rabs_R0; lra]|rewrite Rabs_R0; lra]).
  - destruct H as [H1 H2]. intros [|n]; [exact H1|]. exact (IH r b H2 n).
Qed.
(** The error of an expression is at most [g]. *)
Lemma expr_err : forall v r b e (g : Q), env_ok v r b -> b_ok (bnd (lq b) e) && Qle_bool (b_err (bnd (lq b) e)) g = true -> ap (fev (lf v) e) (rev_ (lr r) e) (Q2R g).
Proof.
  intros v r b e g H Hc. apply andb_true_iff in Hc as [H1 H2]. eapply ap_weak; [apply (bnd_sound _ _ _ e (env_at _ _ _ H) H1)|]. apply Qle_Rle, Qle_bool_iff. exact H2.
Qed.
Lemma expr_mag : forall v r b e (g : Q), env_ok v r b -> b_ok (bnd (lq b) e) && Qle_bool (b_mag (bnd (lq b) e)) g = true -> Rabs (rev_ (lr r) e) <= Q2R g.
Proof.
  intros v r b e g H Hc. apply andb_true_iff in Hc as [H1 H2]. eapply Rle_trans; [apply (bnd_sound _ _ _ e (env_at _ _ _ H) H1)|]. apply Qle_Rle, Qle_bool_iff. exact H2.
Qed.

(** Expressions as scalars; division only occurs by two. The remaining operations do not occur. *)
Definition ops_fx : SOps fx := {|
  s0 := FO; s1 := FO; sadd := FA; ssub := FS; smul := FM; sdiv := fun a _ => FH a; sopp := fun a => a; sabs := fun a => a; ssqrt := fun a => a;
  satan2 := fun a _ => a; slog := fun a => a; sasin := fun a => a; sacos := fun a => a; sltb := fun _ _ => false; sleb := fun _ _ => false;
  sisnan := fun _ => false; sisinf := fun _ => false; sof32 := fun _ => FO; sgt64 := fun _ _ => false; slt64 := fun _ _ => false; ssqrtq64 := fun a _ => a |}.
