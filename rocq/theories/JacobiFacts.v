(** Every symmetric matrix has an eigen-decomposition (Jacobi's method and compactness), so that exact eigen-solvers
    exist; used for the examples of C77. *)
From Coq Require Import Reals Lra List Lia Arith Psatz ConstructiveEpsilon.
From Coquelicot Require Import Coquelicot.
From Verif Require Import Scalar LinAlg MatFacts UpdSpec.
Import ListNotations.
Local Open Scope R_scope.

(** ** Sums *)
Lemma rsum_two : forall n p q (h : nat -> R), (p < n)%nat -> (q < n)%nat -> p <> q ->
  (forall k, (k < n)%nat -> k <> p -> k <> q -> h k = 0) -> rsum n h = h p + h q.
Proof.
  intros n p q h Hp Hq Hn H. rewrite <- (rsum_delta n p h Hp), <- (rsum_delta n q h Hq), <- rsum_plus. apply rsum_ext. intros k Hk.
  destruct (Nat.eqb_spec k p), (Nat.eqb_spec k q); subst; try lra; [congruence|]. rewrite H by assumption. lra.
Qed.
Lemma rsum_le : forall n (f g : nat -> R), (forall i, (i < n)%nat -> f i <= g i) -> rsum n f <= rsum n g.
Proof. induction n as [|n IH]; intros f g H; [apply Rle_refl|]. rewrite 2 rsum_S. apply Rplus_le_compat; [apply IH; intros; apply H; lia|apply H; lia]. Qed.
Lemma rsum_abs : forall n (f : nat -> R), Rabs (rsum n f) <= rsum n (fun i => Rabs (f i)).
Proof.
  induction n as [|n IH]; intros f; [change (rsum 0 f) with 0; change (rsum 0 (fun i => Rabs (f i))) with 0; rewrite Rabs_R0; lra|]. rewrite 2 rsum_S.
  eapply Rle_trans; [apply Rabs_triang|]. apply Rplus_le_compat_r. apply IH.
Qed.
Lemma lim_rsum : forall n (f : nat -> nat -> R) (l : nat -> R), (forall i, (i < n)%nat -> is_lim_seq (fun k => f k i) (l i)) ->
  is_lim_seq (fun k => rsum n (f k)) (rsum n l).
Proof.
  induction n as [|n IH]; intros f l H.
  - change (rsum 0 l) with 0. eapply is_lim_seq_ext; [|apply is_lim_seq_const]. intros k. reflexivity.
  - rewrite rsum_S. eapply is_lim_seq_ext; [intros k; symmetry; apply rsum_S|]. apply is_lim_seq_plus'; [apply IH; intros; apply H; lia|apply H; lia].
Qed.

(** ** Convergent subsequences *)
Lemma bw1 : forall u : nat -> R, (forall k, Rabs (u k) <= 1) ->
  {l : R & {phi : nat -> nat | (forall k, (phi k < phi (S k))%nat) /\ is_lim_seq (fun k => u (phi k)) l}}.
Proof.
  intros u Hu. destruct (ex_LimSup_seq u) as [L HL]. assert (B : forall k, -1 <= u k <= 1) by (intros k; apply Rabs_le_between; apply Hu).
  destruct L as [l| |].
  2:{ exfalso. destruct (HL 1 0%nat) as (k & _ & Hk). specialize (B k). lra. }
  2:{ exfalso. destruct (HL (-2)) as (N & HN). specialize (HN N (le_n N)). specialize (B N). lra. }
  assert (P : forall (e : posreal) N, {k | (N <= k)%nat /\ Rabs (u k - l) < e}).
  { intros e N. apply constructive_indefinite_ground_description_nat.
    - intros k. destruct (le_dec N k) as [A|A]; [|right; tauto]. destruct (Rlt_dec (Rabs (u k - l)) e) as [C|C]; [left; tauto|right; tauto].
    - destruct (HL e) as [H1 (N2 & H2)]. destruct (H1 (max N N2)) as (k & K1 & K2). exists k. split; [lia|]. specialize (H2 k ltac:(lia)).
      apply Rabs_lt_between. lra. }
  assert (pos : forall k, 0 < / INR (S k)) by (intros k; apply Rinv_0_lt_compat, lt_0_INR; lia).
  set (phi := fix phi k := match k with O => proj1_sig (P (mkposreal _ (pos 0%nat)) 0%nat) | S j => proj1_sig (P (mkposreal _ (pos (S j))) (S (phi j))) end).
  exists l, phi. split.
  - intros k. exact (proj1 (proj2_sig (P (mkposreal _ (pos (S k))) (S (phi k))))).
  - assert (Hphi : forall k, Rabs (u (phi k) - l) < / INR (S k)).
    { intros [|k]; cbn [phi]; [exact (proj2 (proj2_sig (P (mkposreal _ (pos 0%nat)) 0%nat)))|exact (proj2 (proj2_sig (P (mkposreal _ (pos (S k))) (S (phi k)))))]. }
    apply is_lim_seq_spec. intros e. destruct (archimed_cor1 e (cond_pos e)) as (N & HN & Npos). exists N. intros k Hk.
    eapply Rlt_trans; [apply Hphi|]. eapply Rle_lt_trans; [|exact HN]. apply Rinv_le_contravar; [apply lt_0_INR; exact Npos|apply le_INR; lia].
Qed.
Lemma bwn : forall m (u : nat -> nat -> R), (forall k i, (i < m)%nat -> Rabs (u k i) <= 1) ->
  {phi : nat -> nat & {l : nat -> R | (forall k, (phi k < phi (S k))%nat) /\ forall i, (i < m)%nat -> is_lim_seq (fun k => u (phi k) i) (l i)}}.
Proof.
  induction m as [|m IH]; intros u Hu.
  - exists (fun k => k), (fun _ => 0). split; [intros; lia|intros; lia].
  - destruct (IH u ltac:(intros; apply Hu; lia)) as (phi & l & H1 & H2).
    destruct (bw1 (fun k => u (phi k) m) ltac:(intros; apply Hu; lia)) as (lm & psi & H3 & H4).
    exists (fun k => phi (psi k)), (fun i => if Nat.eqb i m then lm else l i). split.
    + assert (mono : forall a b, (a < b)%nat -> (phi a < phi b)%nat) by (intros a b Hab; induction Hab; [apply H1|]; specialize (H1 m0); lia).
      intros k. apply mono. apply H3.
    + intros i Hi. destruct (Nat.eqb_spec i m) as [->|Hn]; [exact H4|].
      apply (is_lim_seq_subseq (fun k => u (phi k) i) (l i) psi); [apply eventually_subseq; exact H3|]. apply H2. lia.
Qed.

(** ** The bilinear form of a symmetric matrix *)
Section Jacobi.
Context (n : nat) (a : fmat) (Ha : fsym n a).
Definition bil (x y : nat -> R) : R := rsum n (fun i => rsum n (fun j => x i * a i j * y j)).
Lemma bil_sym : forall x y, bil x y = bil y x.
Proof.
  intros x y. unfold bil. rewrite rsum_swap. apply rsum_ext. intros i Hi. apply rsum_ext. intros j Hj.
  pose proof (feq_at Ha i j Hi Hj) as E. unfold ftr in E. rewrite E. ring.
Qed.
Lemma bil_lin : forall c x d y z, bil (fun i => c * x i + d * y i) z = c * bil x z + d * bil y z.
Proof.
  intros c x d y z. unfold bil. rewrite <- 2 rsum_scal_l, <- rsum_plus. apply rsum_ext. intros i _.
  rewrite <- 2 rsum_scal_l, <- rsum_plus. apply rsum_ext. intros j _. ring.
Qed.
Lemma bil_lin_r : forall c x d y z, bil z (fun i => c * x i + d * y i) = c * bil z x + d * bil z y.
Proof. intros. rewrite bil_sym, bil_lin, (bil_sym x), (bil_sym y). reflexivity. Qed.
Lemma bil_ext : forall x x' y y', (forall i, (i < n)%nat -> x i = x' i) -> (forall i, (i < n)%nat -> y i = y' i) -> bil x y = bil x' y'.
Proof. intros x x' y y' H1 H2. unfold bil. apply rsum_ext. intros i Hi. apply rsum_ext. intros j Hj. rewrite H1, H2 by assumption. reflexivity. Qed.
Definition bound : R := rsum n (fun i => rsum n (fun j => Rabs (a i j))).
Lemma bil_bound : forall x y, (forall i, (i < n)%nat -> Rabs (x i) <= 1) -> (forall i, (i < n)%nat -> Rabs (y i) <= 1) -> Rabs (bil x y) <= bound.
Proof.
  intros x y Hx Hy. unfold bil, bound. eapply Rle_trans; [apply rsum_abs|]. apply rsum_le. intros i Hi. eapply Rle_trans; [apply rsum_abs|]. apply rsum_le.
  intros j Hj. rewrite 2 Rabs_mult. pose proof (Rabs_pos (a i j)). pose proof (Rabs_pos (x i)). pose proof (Rabs_pos (y j)).
  specialize (Hx i Hi). specialize (Hy j Hj). apply Rle_trans with (1 * Rabs (a i j) * 1); [|lra].
  apply Rmult_le_compat; try assumption; [apply Rmult_le_pos; assumption|]. apply Rmult_le_compat_r; assumption.
Qed.

(** The matrix V^t a V, entry by entry, and orthogonality of V. *)
Definition cnj (v : fmat) : fmat := fun i j => bil (fun k => v k i) (fun k => v k j).
Definition ortho (v : fmat) : Prop :=
  (forall i j, (i < n)%nat -> (j < n)%nat -> rsum n (fun k => v k i * v k j) = fid i j) /\
  (forall i j, (i < n)%nat -> (j < n)%nat -> rsum n (fun k => v i k * v j k) = fid i j).
Lemma conj_sym : forall v i j, cnj v i j = cnj v j i.
Proof. intros. apply bil_sym. Qed.
Lemma ortho_bound : forall v, ortho v -> forall i j, (i < n)%nat -> (j < n)%nat -> Rabs (v i j) <= 1.
Proof.
  intros v [_ H] i j Hi Hj. specialize (H i i Hi Hi). unfold fid in H. rewrite Nat.eqb_refl in H.
  assert (Q : v i j * v i j <= 1).
  { rewrite <- H. rewrite <- (rsum_delta n j (fun k => v i k * v i k) Hj). apply rsum_le. intros k _. destruct (Nat.eqb k j); [lra|]. nra. }
  apply Rabs_le. split; nra.
Qed.
Lemma ortho_id : ortho fid.
Proof.
  split; intros i j Hi Hj.
  - pose proof (rsum_delta n i (fun k => fid k j) Hi) as E. cbn beta in E. rewrite <- E. apply rsum_ext. intros k _. unfold fid. destruct (Nat.eqb k i); ring.
  - transitivity (fid j i); [|unfold fid; rewrite Nat.eqb_sym; reflexivity]. pose proof (rsum_delta2 n i (fun k => fid j k) Hi) as E. cbn beta in E.
    rewrite <- E. apply rsum_ext. intros k _. unfold fid. destruct (Nat.eqb i k); ring.
Qed.

(** ** One rotation *)
Definition rot (v : fmat) (p q : nat) (c s : R) : fmat := fun i j =>
  if Nat.eqb j p then c * v i p + (- s) * v i q else if Nat.eqb j q then s * v i p + c * v i q else v i j.
Lemma rot_ortho : forall v p q c s, ortho v -> (p < n)%nat -> (q < n)%nat -> p <> q -> c * c + s * s = 1 -> ortho (rot v p q c s).
Proof.
  intros v p q c s [H1 H2] Hp Hq Hn Hcs. split; intros i j Hi Hj.
  - assert (L : forall x y (c1 d1 c2 d2 : R), (x < n)%nat -> (y < n)%nat -> forall x' y', (x' < n)%nat -> (y' < n)%nat ->
      rsum n (fun k => (c1 * v k x + d1 * v k x') * (c2 * v k y + d2 * v k y')) = c1 * c2 * fid x y + c1 * d2 * fid x y' + d1 * c2 * fid x' y + d1 * d2 * fid x' y').
    { intros x y c1 d1 c2 d2 Hx Hy x' y' Hx' Hy'. rewrite <- (H1 x y), <- (H1 x y'), <- (H1 x' y), <- (H1 x' y') by assumption.
      rewrite <- 4 rsum_scal_l, <- 3 rsum_plus. apply rsum_ext. intros; ring. }
    assert (G : forall j, (j < n)%nat -> exists c1 d1 x x', (x < n)%nat /\ (x' < n)%nat /\ (forall k, rot v p q c s k j = c1 * v k x + d1 * v k x') /\
      ((j = p /\ c1 = c /\ d1 = - s /\ x = p /\ x' = q) \/ (j = q /\ c1 = s /\ d1 = c /\ x = p /\ x' = q) \/ (j <> p /\ j <> q /\ c1 = 1 /\ d1 = 0 /\ x = j /\ x' = j))).
    { intros k Hk. unfold rot. destruct (Nat.eqb_spec k p) as [->|N1]; [exists c, (- s), p, q; tauto|]. destruct (Nat.eqb_spec k q) as [->|N2]; [exists s, c, p, q; tauto|].
      exists 1, 0, k, k. repeat split; try assumption; [intros; ring|tauto]. }
    destruct (G i Hi) as (c1 & d1 & x & x' & X1 & X2 & Ei & Ci). destruct (G j Hj) as (c2 & d2 & y & y' & Y1 & Y2 & Ej & Cj).
    rewrite (rsum_ext _ _ (fun k => (c1 * v k x + d1 * v k x') * (c2 * v k y + d2 * v k y'))) by (intros k _; rewrite Ei, Ej; reflexivity).
    rewrite L by assumption. unfold fid. clear - Ci Cj Hn Hcs.
    destruct Ci as [(?&?&?&?&?)|[(?&?&?&?&?)|(?&?&?&?&?&?)]]; destruct Cj as [(?&?&?&?&?)|[(?&?&?&?&?)|(?&?&?&?&?&?)]]; subst;
      repeat match goal with |- context [Nat.eqb ?u ?w] => destruct (Nat.eqb_spec u w); try congruence end; subst; try congruence; try lra; nra.
  - rewrite <- (H2 i j Hi Hj). apply Rminus_diag_uniq. rewrite <- rsum_minus. rewrite (rsum_two n p q) by (try assumption; intros k _ N1 N2; unfold rot;
      apply Nat.eqb_neq in N1; apply Nat.eqb_neq in N2; rewrite N1, N2; ring).
    unfold rot. rewrite Nat.eqb_refl. apply not_eq_sym in Hn. apply Nat.eqb_neq in Hn. rewrite Hn, Nat.eqb_refl.
    replace (_ + _) with ((c * c + s * s - 1) * (v i p * v j p + v i q * v j q)) by ring. rewrite Hcs. ring.
Qed.
Definition diag2 (v : fmat) : R := rsum n (fun i => cnj v i i * cnj v i i).
Lemma rot_diag : forall v p q c s, (p < n)%nat -> (q < n)%nat -> p <> q -> c * c + s * s = 1 ->
  c * s * (cnj v p p - cnj v q q) + (c * c - s * s) * cnj v p q = 0 -> diag2 (rot v p q c s) - diag2 v = 2 * (cnj v p q * cnj v p q).
Proof.
  intros v p q c s Hp Hq Hn Hcs Hz. unfold diag2. rewrite <- rsum_minus. pose proof (not_eq_sym Hn) as Hn'. apply Nat.eqb_neq in Hn'. rewrite (rsum_two n p q) by (try assumption; intros k _ N1 N2; unfold cnj, rot;
    apply Nat.eqb_neq in N1; apply Nat.eqb_neq in N2; rewrite N1, N2; ring).
  assert (Ep : cnj (rot v p q c s) p p = c * c * cnj v p p - 2 * c * s * cnj v p q + s * s * cnj v q q).
  { unfold cnj, rot. rewrite Nat.eqb_refl. rewrite bil_lin, 2 bil_lin_r. rewrite (bil_sym (fun k => v k q) (fun k => v k p)). ring. }
  assert (Eq : cnj (rot v p q c s) q q = s * s * cnj v p p + 2 * c * s * cnj v p q + c * c * cnj v q q).
  { unfold cnj, rot. rewrite Hn', Nat.eqb_refl. rewrite bil_lin, 2 bil_lin_r. rewrite (bil_sym (fun k => v k q) (fun k => v k p)). ring. }
  rewrite Ep, Eq. set (x := cnj v p p) in *. set (y := cnj v p q) in *. set (z := cnj v q q) in *. clearbody x y z. clear Ep Eq.
  assert (K : forall X Y : R, X = 0 -> X * Y = 0) by (intros X Y ->; ring).
  pose proof (K _ (c * s * (x - z) + (c * c - s * s) * y) Hz) as Hz2. 
  assert (E4 : (c * c + s * s) * (c * c + s * s) = 1) by (rewrite Hcs; ring).
  replace (_ + _) with (((c * c + s * s) * (c * c + s * s) - 1) * (x * x + z * z + 2 * (y * y)) + 2 * (y * y) - 2 * ((c * s * (x - z) + (c * c - s * s) * y) * (c * s * (x - z) + (c * c - s * s) * y))) by ring.
  rewrite Hz2, E4. ring.
Qed.
Lemma angle : forall x y z, {cs : R * R | fst cs * fst cs + snd cs * snd cs = 1 /\ fst cs * snd cs * (x - z) + (fst cs * fst cs - snd cs * snd cs) * y = 0}.
Proof.
  intros x y z. destruct (Req_EM_T y 0) as [->|Hy]; [exists (1, 0); cbn; lra|].
  set (th := (x - z) / (2 * y)). set (t := th + sqrt (th * th + 1)). set (c := / sqrt (1 + t * t)). exists (c, t * c). cbn [fst snd].
  assert (Et : t * t = 2 * th * t + 1).
  { unfold t. pose proof (sqrt_sqrt (th * th + 1) ltac:(nra)). set (r := sqrt (th * th + 1)) in *. clearbody r. nra. }
  assert (Ec : c * c * (1 + t * t) = 1).
  { unfold c. pose proof (sqrt_sqrt (1 + t * t) ltac:(nra)) as Q. assert (0 < sqrt (1 + t * t)) by (apply sqrt_lt_R0; nra). rewrite <- Q at 3. field. lra. }
  split; [rewrite <- Ec; ring|]. assert (Exz : x - z = 2 * th * y) by (unfold th; field; exact Hy). rewrite Exz.
  replace (_ + _) with (c * c * y * (2 * th * t + 1 - t * t)) by ring. rewrite Et. ring.
Qed.
Lemma argmax : forall (A : Type) (g : A -> R) (l : list A) x0, {x | In x (x0 :: l) /\ forall y, In y (x0 :: l) -> g y <= g x}.
Proof.
  intros A g l. induction l as [|x1 l IH]; intros x0.
  - exists x0. split; [left; reflexivity|]. intros y [->|[]]. lra.
  - destruct (IH x1) as (x & H1 & H2). destruct (Rle_dec (g x0) (g x)) as [L|L].
    + exists x. split; [right; exact H1|]. intros y [<-|Hy]; [exact L|apply H2; exact Hy].
    + exists x0. split; [left; reflexivity|]. intros y [<-|Hy]; [lra|]. specialize (H2 y Hy). lra.
Qed.
Context (H2 : (2 <= n)%nat).
Lemma step : forall v, ortho v -> {w | ortho w /\ forall i j, (i < n)%nat -> (j < n)%nat -> i <> j -> 2 * (cnj v i j * cnj v i j) <= diag2 w - diag2 v}.
Proof.
  intros v Hv. set (l := filter (fun ij => negb (Nat.eqb (fst ij) (snd ij))) (list_prod (seq 0 n) (seq 0 n))).
  assert (Hl : forall i j, In (i, j) l <-> (i < n)%nat /\ (j < n)%nat /\ i <> j).
  { intros i j. unfold l. rewrite filter_In, in_prod_iff, 2 in_seq. cbn [fst snd]. rewrite Bool.negb_true_iff, Nat.eqb_neq. lia. }
  destruct (argmax _ (fun ij => cnj v (fst ij) (snd ij) * cnj v (fst ij) (snd ij)) l (0, 1)%nat) as ([p q] & Hin & Hmax). cbn [fst snd] in Hmax.
  assert (Hpq : (p < n)%nat /\ (q < n)%nat /\ p <> q) by (destruct Hin as [e|e]; [injection e as <- <-; lia|apply Hl; exact e]). destruct Hpq as (Hp & Hq & Hn).
  destruct (angle (cnj v p p) (cnj v p q) (cnj v q q)) as ([c s] & Hcs & Hz). cbn [fst snd] in Hcs, Hz.
  exists (rot v p q c s). split; [apply rot_ortho; assumption|]. intros i j Hi Hj Hij. rewrite rot_diag by assumption.
  specialize (Hmax (i, j)). cbn [fst snd] in Hmax. assert (In (i, j) ((0, 1)%nat :: l)) by (right; apply Hl; auto). specialize (Hmax H). lra.
Qed.
Definition iter : nat -> {v | ortho v} :=
  fix it k := match k with O => exist _ fid ortho_id | S j => let v := it j in exist _ (proj1_sig (step (proj1_sig v) (proj2_sig v))) (proj1 (proj2_sig (step (proj1_sig v) (proj2_sig v)))) end.
Definition seqv (k : nat) : fmat := proj1_sig (iter k).
Lemma seqv_ortho : forall k, ortho (seqv k).
Proof. intros k. exact (proj2_sig (iter k)). Qed.
Lemma seqv_step : forall k i j, (i < n)%nat -> (j < n)%nat -> i <> j -> 2 * (cnj (seqv k) i j * cnj (seqv k) i j) <= diag2 (seqv (S k)) - diag2 (seqv k).
Proof. intros k. unfold seqv at 3. cbn [iter proj1_sig]. exact (proj2 (proj2_sig (step (proj1_sig (iter k)) (proj2_sig (iter k))))). Qed.
Lemma conj_bound : forall v i j, ortho v -> (i < n)%nat -> (j < n)%nat -> Rabs (cnj v i j) <= bound.
Proof. intros v i j Hv Hi Hj. apply bil_bound; intros k Hk; apply ortho_bound; assumption. Qed.
Lemma off_zero : forall i j, (i < n)%nat -> (j < n)%nat -> i <> j -> is_lim_seq (fun k => cnj (seqv k) i j) 0.
Proof.
  intros i j Hi Hj Hij.
  assert (C : ex_finite_lim_seq (fun k => diag2 (seqv k))).
  { apply ex_finite_lim_seq_incr with (M := rsum n (fun _ => bound * bound)).
    - intros k. pose proof (seqv_step k i j Hi Hj Hij). nra.
    - intros k. unfold diag2. apply rsum_le. intros m Hm. pose proof (conj_bound (seqv k) m m (seqv_ortho k) Hm Hm) as B. apply Rabs_le_between in B.
      pose proof (Rabs_pos (cnj (seqv k) m m)). nra. }
  destruct C as [L HL]. pose proof (proj1 (is_lim_seq_incr_1 _ _) HL) as HL1.
  pose proof (is_lim_seq_minus' _ _ _ _ HL1 HL) as HD. rewrite Rminus_eq_0 in HD.
  assert (HS : is_lim_seq (fun k => cnj (seqv k) i j * cnj (seqv k) i j) 0).
  { apply is_lim_seq_le_le with (u := fun _ => 0) (w := fun k => diag2 (seqv (S k)) - diag2 (seqv k)); [|apply is_lim_seq_const|exact HD].
    intros k. pose proof (seqv_step k i j Hi Hj Hij). nra. }
  apply is_lim_seq_abs_0. apply is_lim_seq_spec. apply is_lim_seq_spec in HS. intros e. assert (E2 : 0 < e * e) by (apply Rmult_lt_0_compat; apply cond_pos).
  destruct (HS (mkposreal _ E2)) as [N HN]. exists N. intros k Hk. specialize (HN k Hk). cbn in HN. rewrite Rminus_0_r in HN |- *. rewrite Rabs_Rabsolu.
  rewrite Rabs_mult in HN. pose proof (Rabs_pos (cnj (seqv k) i j)). pose proof (cond_pos e). nra.
Qed.
Lemma spectral2 : {v : fmat | ortho v /\ forall i j, (i < n)%nat -> (j < n)%nat -> i <> j -> cnj v i j = 0}.
Proof.
  destruct (bwn (n * n) (fun k m => seqv k (m / n)%nat (m mod n))) as (phi & l & Hphi & Hl).
  { intros k m Hm. apply ortho_bound; [apply seqv_ortho| |apply Nat.mod_upper_bound; lia]. apply Nat.div_lt_upper_bound; lia. }
  set (v := fun i j => l (i * n + j)%nat). assert (Hv : forall i j, (i < n)%nat -> (j < n)%nat -> is_lim_seq (fun k => seqv (phi k) i j) (v i j)).
  { intros i j Hi Hj. specialize (Hl (i * n + j)%nat ltac:(nia)). rewrite Nat.div_add_l, Nat.div_small, Nat.add_0_r in Hl by lia.
    rewrite Nat.add_comm, Nat.mod_add, Nat.mod_small in Hl by lia. unfold v. rewrite Nat.add_comm. exact Hl. }
  assert (U : forall (f : nat -> R) x y, is_lim_seq f (Finite x) -> is_lim_seq f (Finite y) -> x = y).
  { intros f x y Hx Hy. apply is_lim_seq_unique in Hx. apply is_lim_seq_unique in Hy. congruence. }
  exists v. split.
  - split; intros i j Hi Hj.
    + eapply U; [|apply is_lim_seq_const]. apply is_lim_seq_ext with (u := fun k => rsum n (fun m => seqv (phi k) m i * seqv (phi k) m j)).
      * intros k. apply (seqv_ortho (phi k)); assumption.
      * apply lim_rsum. intros m Hm. apply is_lim_seq_mult'; apply Hv; assumption.
    + eapply U; [|apply is_lim_seq_const]. apply is_lim_seq_ext with (u := fun k => rsum n (fun m => seqv (phi k) i m * seqv (phi k) j m)).
      * intros k. apply (seqv_ortho (phi k)); assumption.
      * apply lim_rsum. intros m Hm. apply is_lim_seq_mult'; apply Hv; assumption.
  - intros i j Hi Hj Hij. eapply U.
    + apply (lim_rsum n (fun k x => rsum n (fun y => seqv (phi k) x i * a x y * seqv (phi k) y j)) (fun x => rsum n (fun y => v x i * a x y * v y j))). intros x Hx. apply lim_rsum. intros y Hy.
      apply is_lim_seq_mult'; [|apply Hv; assumption]. apply is_lim_seq_mult'; [apply Hv; assumption|apply is_lim_seq_const].
    + apply (is_lim_seq_subseq (fun k => cnj (seqv k) i j) 0 phi); [apply eventually_subseq; exact Hphi|]. apply off_zero; assumption.
Qed.
End Jacobi.

(** ** The spectral theorem *)
Theorem spectral : forall n a, fsym n a -> {v : fmat & {d : nat -> R | eigen_of n a v d}}.
Proof.
  intros n a Ha. assert (X : {v : fmat | ortho n v /\ forall i j, (i < n)%nat -> (j < n)%nat -> i <> j -> cnj n a v i j = 0}).
  { destruct (le_dec 2 n) as [L|L]; [apply spectral2; assumption|]. exists fid. split; [apply ortho_id|]. intros; lia. }
  destruct X as (v & [O1 O2] & Z). exists v, (fun i => cnj n a v i i).
  assert (V1 : feq n n (fmul n (ftr v) v) fid) by (split; intros i j Hi Hj; apply (O1 i j Hi Hj)).
  assert (V2 : feq n n (fmul n v (ftr v)) fid) by (split; intros i j Hi Hj; apply (O2 i j Hi Hj)).
  split; [split; assumption|].
  assert (D : feq n n (fmul n (fmul n (ftr v) a) v) (fdiag (fun i => cnj n a v i i))).
  { split. intros i j Hi Hj. unfold fdiag. transitivity (cnj n a v i j).
    - unfold cnj, bil, fmul, ftr. rewrite rsum_swap. apply rsum_ext. intros k _. rewrite <- rsum_scal_r. reflexivity.
    - destruct (Nat.eqb_spec i j) as [->|N]; [reflexivity|apply Z; assumption]. }
  rewrite <- D. symmetry. transitivity (fmul n (fmul n v (ftr v)) (fmul n a (fmul n v (ftr v)))).
  - rewrite (fmul_assoc n n n n (ftr v) a v). rewrite <- (fmul_assoc n n n n v (ftr v) (fmul n a v)). rewrite (fmul_assoc n n n n (fmul n v (ftr v)) (fmul n a v) (ftr v)).
    rewrite (fmul_assoc n n n n a v (ftr v)). reflexivity.
  - rewrite V2. rewrite fmul_id_l, fmul_id_r. reflexivity.
Qed.
