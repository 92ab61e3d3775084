(** Proofs for C83: the steps of the pose refinement. *)
From Coq Require Import Reals Lra Lia Arith List Bool.
From Coquelicot Require Import Coquelicot.
From Verif Require Import Fp Scalar Base LinAlg MathLib Triangulate Pnp VisionUpdate MatFacts UpdSpec JacobiFacts QuatFacts GeoSpec TriFacts DerivSpec DerivFacts LmFacts GeoWitness StepSpec.
Import ListNotations.
Local Open Scope R_scope.

(** ** Sums over lists *)
Lemma lsum_ext_in : forall A (f g : A -> R) l, (forall x, In x l -> f x = g x) -> lsum f l = lsum g l.
Proof. induction l as [|x l IH]; intros H; cbn [lsum]; [reflexivity|]. rewrite (H x), IH; [reflexivity| |left; reflexivity]. intros y Hy. apply H. right; exact Hy. Qed.
Lemma lsum_plus : forall A (f g : A -> R) l, lsum (fun x => f x + g x) l = lsum f l + lsum g l.
Proof. induction l as [|x l IH]; cbn [lsum]; [ring|]. rewrite IH. ring. Qed.
Lemma lsum_scal : forall A c (f : A -> R) l, lsum (fun x => c * f x) l = c * lsum f l.
Proof. induction l as [|x l IH]; cbn [lsum]; [ring|]. rewrite IH. ring. Qed.
Lemma lsum_nonneg : forall A (f : A -> R) l, (forall x, In x l -> 0 <= f x) -> 0 <= lsum f l.
Proof. induction l as [|x l IH]; intros H; cbn [lsum]; [lra|]. apply Rplus_le_le_0_compat; [apply H; left; reflexivity|apply IH; intros y Hy; apply H; right; exact Hy]. Qed.
Lemma lsum_zero : forall A (f : A -> R) l, (forall x, In x l -> 0 <= f x) -> lsum f l = 0 -> forall x, In x l -> f x = 0.
Proof.
  induction l as [|y l IH]; intros H E x Hx; [destruct Hx|]. cbn [lsum] in E. destruct Hx as [<-|Hx].
  - pose proof (H y (or_introl eq_refl)). pose proof (lsum_nonneg _ f l (fun z Hz => H z (or_intror Hz))). lra.
  - apply IH; [intros z Hz; apply H; right; exact Hz| |exact Hx].
    pose proof (H y (or_introl eq_refl)). pose proof (lsum_nonneg _ f l (fun z Hz => H z (or_intror Hz))). lra.
Qed.
Lemma lsum_derive : forall A (f : A -> R -> R) (f' : A -> R) l, (forall x, In x l -> is_derive (f x) 0 (f' x)) ->
  is_derive (fun t => lsum (fun x => f x t) l) 0 (lsum f' l).
Proof.
  induction l as [|x l IH]; intros H; cbn [lsum].
  - apply (is_derive_const (V := R_NormedModule)).
  - apply (is_derive_plus (V := R_NormedModule) (f x)); [apply H; left; reflexivity|apply IH; intros y Hy; apply H; right; exact Hy].
Qed.

(** ** Consistent semidefinite systems *)
Lemma pinv_solves : forall n a v d (b : nat -> R), eigen_of n a v d ->
  (forall k, (k < n)%nat -> d k = 0 -> rsum n (fun i => v i k * b i) = 0) ->
  let y i := rsum n (fun k => v i k * ((if Req_EM_T (d k) 0 then 0 else / d k) * rsum n (fun i => v i k * b i))) in
  forall i, (i < n)%nat -> fvec n a y i = b i.
Proof.
  intros n a v d b [[O1 O2] E] Hz y i Hi. set (c k := rsum n (fun j => v j k * b j)) in *.
  set (u k := (if Req_EM_T (d k) 0 then 0 else / d k) * c k).
  assert (C : forall k, (k < n)%nat -> rsum n (fun j => v j k * y j) = u k).
  { intros k Hk. unfold y. fold (c k).
    rewrite (rsum_ext _ _ (fun j => rsum n (fun l => v j k * v j l * u l))).
    2:{ intros j Hj. rewrite <- rsum_scal_l. apply rsum_ext. intros l Hl. unfold u. fold (c l). ring. }
    rewrite rsum_swap.
    rewrite (rsum_ext _ _ (fun l => if Nat.eqb k l then u l else 0)); [apply rsum_delta2; exact Hk|].
    intros l Hl. rewrite rsum_scal_r. pose proof (feq_at O1 k l Hk Hl) as X. unfold fmul, ftr, fid in X. rewrite X. destruct (Nat.eqb k l); ring. }
  unfold fvec.
  rewrite (rsum_ext _ _ (fun j => rsum n (fun k => v i k * (d k * (v j k * y j))))).
  2:{ intros j Hj. rewrite (feq_at E i j Hi Hj). unfold fmul at 1. rewrite <- rsum_scal_r. apply rsum_ext. intros k Hk.
      unfold fmul, fdiag, ftr. rewrite (rsum_ext _ _ (fun l => if Nat.eqb l k then v i l * d l else 0)).
      2:{ intros l Hl. destruct (Nat.eqb l k); ring. }
      rewrite rsum_delta by exact Hk. ring. }
  rewrite rsum_swap.
  rewrite (rsum_ext _ _ (fun k => v i k * c k)).
  2:{ intros k Hk. rewrite rsum_scal_l, rsum_scal_l, C by exact Hk. f_equal. unfold u. destruct (Req_EM_T (d k) 0) as [Z|Z].
      - pose proof (Hz k Hk Z) as Q. change (c k = 0) in Q. rewrite Q. ring.
      - field. exact Z. }
  unfold c. rewrite (rsum_ext _ _ (fun k => rsum n (fun j => v i k * v j k * b j))).
  2:{ intros k Hk. rewrite <- rsum_scal_l. apply rsum_ext. intros j Hj. ring. }
  rewrite rsum_swap. rewrite (rsum_ext _ _ (fun j => if Nat.eqb i j then b j else 0)); [apply rsum_delta2; exact Hi|].
  intros j Hj. rewrite rsum_scal_r. pose proof (feq_at O2 i j Hi Hj) as X. unfold fmul, ftr, fid in X. rewrite X. destruct (Nat.eqb i j); ring.
Qed.

(** Pseudo-inverse of the symmetric part. *)
Definition sym_part (a : fmat) : fmat := fun i j => (a i j + a j i) / 2.
Lemma sym_part_sym : forall n a, fsym n (sym_part a).
Proof. intros n a. split. intros i j _ _. unfold ftr, sym_part. field. Qed.
Definition pinv6 (H b : mat R) : nat -> R :=
  match spectral 6 (sym_part (me H)) (sym_part_sym 6 (me H)) with existT v (exist d _) =>
  fun i => rsum 6 (fun k => v i k * ((if Req_EM_T (d k) 0 then 0 else / d k) * rsum 6 (fun i => v i k * me b i 0%nat))) end.
Lemma eigen_fvec : forall n a v d k i, eigen_of n a v d -> (k < n)%nat -> (i < n)%nat -> fvec n a (fun j => v j k) i = d k * v i k.
Proof.
  intros n a v d k i [[O1 _] E] Hk Hi. unfold fvec.
  rewrite (rsum_ext _ _ (fun j => rsum n (fun l => v i l * (d l * (v j l * v j k))))).
  2:{ intros j Hj. rewrite (feq_at E i j Hi Hj). unfold fmul at 1. rewrite <- rsum_scal_r. apply rsum_ext. intros l Hl.
      unfold fmul, fdiag, ftr. rewrite (rsum_ext _ _ (fun m => if Nat.eqb m l then v i m * d m else 0)).
      2:{ intros m Hm. destruct (Nat.eqb m l); ring. }
      rewrite rsum_delta by exact Hl. ring. }
  rewrite rsum_swap. rewrite (rsum_ext _ _ (fun l => if Nat.eqb l k then d l * v i l else 0)); [apply rsum_delta; exact Hk|].
  intros l Hl. rewrite !rsum_scal_l. pose proof (feq_at O1 l k Hl Hk) as X. unfold fmul, ftr, fid in X. rewrite X. destruct (Nat.eqb l k); ring.
Qed.
Lemma fvec_ext_l : forall n a b x i, feq n n a b -> (i < n)%nat -> fvec n a x i = fvec n b x i.
Proof. intros n a b x i E Hi. apply rsum_ext. intros j Hj. rewrite (feq_at E i j Hi Hj). reflexivity. Qed.
Lemma fvec_sym : forall n a x y, fsym n a -> rsum n (fun i => x i * fvec n a y i) = rsum n (fun i => y i * fvec n a x i).
Proof.
  intros n a x y S. unfold fvec.
  rewrite (rsum_ext _ _ (fun i => rsum n (fun j => x i * a i j * y j))) by (intros i Hi; rewrite <- rsum_scal_l; apply rsum_ext; intros; ring).
  rewrite rsum_swap. apply rsum_ext. intros i Hi. rewrite <- rsum_scal_l. apply rsum_ext. intros j Hj.
  pose proof (feq_at S i j Hi Hj) as X. unfold ftr in X. rewrite X. ring.
Qed.
Lemma sym_part_id : forall n a, fsym n a -> feq n n (sym_part a) a.
Proof. intros n a S. split. intros i j Hi Hj. unfold sym_part. pose proof (feq_at S i j Hi Hj) as X. unfold ftr in X. rewrite X. field. Qed.
(** A symmetric system is solvable when the right-hand side is orthogonal to the kernel. *)
Lemma pinv6_solves : forall H b, fsym 6 (me H) ->
  (forall x, (forall i, (i < 6)%nat -> fvec 6 (me H) x i = 0) -> rsum 6 (fun i => x i * me b i 0%nat) = 0) ->
  forall i, (i < 6)%nat -> fvec 6 (me H) (pinv6 H b) i = me b i 0%nat.
Proof.
  intros H b S K i Hi. unfold pinv6.
  destruct (spectral 6 (sym_part (me H)) (sym_part_sym 6 (me H))) as (v & d & E).
  rewrite <- (fvec_ext_l _ _ _ _ i (sym_part_id _ _ S) Hi).
  apply (pinv_solves 6 (sym_part (me H)) v d (fun i => me b i 0%nat) E); [|exact Hi].
  intros k Hk Z. apply (K (fun i => v i k)). intros j Hj.
  rewrite <- (fvec_ext_l _ _ _ _ j (sym_part_id _ _ S) Hj), (eigen_fvec _ _ _ _ k j E Hk Hj), Z. ring.
Qed.
Lemma pinv6_psd : solves_psd pinv6.
Proof.
  intros H b [S _] [y Hy] i Hi. apply pinv6_solves; [exact S| |exact Hi]. intros x Hx.
  rewrite (rsum_ext _ _ (fun i => x i * fvec 6 (me H) y i)) by (intros j Hj; rewrite Hy by exact Hj; reflexivity).
  rewrite fvec_sym by exact S. apply rsum_0. intros j Hj. rewrite Hx by exact Hj. ring.
Qed.

(** ** The normal equations *)
Lemma turned_correct : forall q th, turned_by q th = q_correct q th.
Proof. reflexivity. Qed.
Definition to6 (th dp : v3 R) : nat -> R := fun i => if Nat.ltb i 3 then v3get dp i else v3get th (i - 3).
Lemma to6_dp : forall th dp, head3 (to6 th dp) = dp.
Proof. intros th [? ? ?]. reflexivity. Qed.
Lemma to6_th : forall th dp, tail3 (to6 th dp) = th.
Proof. intros [? ? ?] dp. reflexivity. Qed.

Section Pose.
Variables (q : quat R) (p : v3 R).
Hypothesis Hq : qunit q.
Definition jx (pt : v3 R * v2 R) (k : nat) (x : nat -> R) : R := rsum 6 (fun j => me (pnp_jac q p (fst pt)) k j * x j).
Definition rx (pt : v3 R * v2 R) : R := v2x (pnp_res q p (fst pt) (snd pt)).
Definition ry (pt : v3 R * v2 R) : R := v2y (pnp_res q p (fst pt) (snd pt)).
Lemma pc_conj : forall pt, pnp_pc q p pt = qrot (qconj q) (v3sub pt p).
Proof using Hq. intros pt. unfold pnp_pc. rewrite (qinv_unit q Hq). reflexivity. Qed.
Lemma off_plane_skip : forall pt, slt64 (sabs (v3z (pnp_pc q p (fst pt)))) d1em6 = negb (off_plane q p pt).
Proof using Hq.
  intros pt. rewrite pc_conj. unfold off_plane. destruct (Rle_dec _ _) as [L|L]; cbn [negb].
  - apply not_true_iff_false. intros C. apply slt64_R in C. rewrite d1em6_val in C. cbn [sabs ops_R] in C. lra.
  - apply slt64_R. rewrite d1em6_val. cbn [sabs ops_R]. lra.
Qed.
Lemma off_plane_z : forall pt, off_plane q p pt = true -> v3z (qrot (qconj q) (v3sub (fst pt) p)) <> 0.
Proof. intros pt H E. unfold off_plane in H. rewrite E, Rabs_R0 in H. destruct (Rle_dec _ 0); [lra|discriminate]. Qed.
Lemma res_err : forall pt, rx pt * rx pt + ry pt * ry pt = pair_err q p pt.
Proof using Hq. intros pt. unfold rx, ry, pnp_res, pair_err, reproj_err. rewrite pc_conj. reflexivity. Qed.
Lemma err_pos : forall pt, 0 <= pair_err q p pt.
Proof. intros pt. unfold pair_err, reproj_err. apply Rplus_le_le_0_compat; apply Rle_0_sqr. Qed.
Lemma jx_row : forall pt k x, jx pt k x = row3 (pnp_jac q p (fst pt)) k 0 (head3 x) + row3 (pnp_jac q p (fst pt)) k 3 (tail3 x).
Proof. intros pt k x. unfold jx, row3, head3, tail3. cbn [ssum v3x v3y v3z]. vunf. ring. Qed.
Lemma jx_add : forall pt k x y c, jx pt k (fun i => x i + c * y i) = jx pt k x + c * jx pt k y.
Proof. intros pt k x y c. unfold jx. rewrite <- rsum_scal_l, <- rsum_plus. apply rsum_ext. intros; ring. Qed.

Variables (wt : option (R -> R)) (w : R -> R).
Hypothesis Hw : forall e, 0 <= e -> 0 < w e /\ match wt with None => w e = 1 | Some k => k (R_sqrt.sqrt e) = w e end.
Definition wp (pt : v3 R * v2 R) : R := w (pair_err q p pt).
Lemma accum_entries : forall (H b H' b' : mat R) pt, off_plane q p pt = true -> pnp_accum wt q p (H, b) pt = (H', b') -> 
  (forall i j, me H' i j = me H i j + wp pt * (me (pnp_jac q p (fst pt)) 0 i * me (pnp_jac q p (fst pt)) 0 j + me (pnp_jac q p (fst pt)) 1 i * me (pnp_jac q p (fst pt)) 1 j)) /\
  (forall i, me b' i 0%nat = me b i 0%nat - wp pt * (rx pt * me (pnp_jac q p (fst pt)) 0 i + ry pt * me (pnp_jac q p (fst pt)) 1 i)).
Proof using Hq Hw.
  intros H b H' b' pt U E. unfold pnp_accum in E. rewrite off_plane_skip, U in E. cbn [negb] in E.
  destruct (Hw (pair_err q p pt) (err_pos pt)) as [_ W]. unfold wp. unfold rx, ry in *.
  assert (N : v2norm (pnp_res q p (fst pt) (snd pt)) = R_sqrt.sqrt (pair_err q p pt)) by (rewrite <- res_err; reflexivity).
  cbn zeta in E. assert (MJ : mr (pnp_jac q p (fst pt)) = 2%nat) by reflexivity.
  revert E W N MJ. generalize (pnp_jac q p (fst pt)), (pnp_res q p (fst pt) (snd pt)), (pair_err q p pt). intros J r e E W N MJ.
  destruct wt as [k|]; injection E as <- <-; [rewrite <- W, <- N|rewrite W];
    split; intros; cbn [me madd mmul mtr mopp mr mc]; rewrite MJ; cbn [ssum sadd smul sopp s0 ops_R]; try change (v2norm r) with (R_sqrt.sqrt (v2x r * v2x r + v2y r * v2y r)); ring.
Qed.
Definition hform (H : mat R) (x y : nat -> R) : R := rsum 6 (fun i => x i * fvec 6 (me H) y i).
Definition bform (b : mat R) (x : nat -> R) : R := rsum 6 (fun i => x i * me b i 0%nat).
Lemma fold_forms : forall pts (acc : mat R * mat R), (forall i j, me (fst acc) i j = me (fst acc) j i) ->
  let r := fold_left (pnp_accum wt q p) pts acc in let used := filter (off_plane q p) pts in
  (forall i j, me (fst r) i j = me (fst r) j i) /\
  (forall x y, hform (fst r) x y = hform (fst acc) x y + lsum (fun pt => wp pt * (jx pt 0 x * jx pt 0 y + jx pt 1 x * jx pt 1 y)) used) /\
  (forall x, bform (snd r) x = bform (snd acc) x - lsum (fun pt => wp pt * (rx pt * jx pt 0 x + ry pt * jx pt 1 x)) used).
Proof using Hq Hw.
  induction pts as [|pt pts IH]; intros [H b] S; cbn [fold_left filter fst snd] in *.
  - cbn [lsum]. repeat split; intros; try apply S; ring.
  - destruct (pnp_accum wt q p (H, b) pt) as [H' b'] eqn:E. destruct (off_plane q p pt) eqn:U.
    + destruct (accum_entries H b H' b' pt U E) as [EH Eb]. cbn zeta in IH.
      destruct (IH (H', b')) as (A & B & C).
      { intros i j. cbn [fst]. rewrite !EH, S. ring. }
      cbn [fst snd] in *. split; [exact A|]. split; intros; cbn [lsum].
      * rewrite B. rewrite <- Rplus_assoc. f_equal. unfold hform.
        assert (F : forall i, fvec 6 (me H') y i = fvec 6 (me H) y i + wp pt * (me (pnp_jac q p (fst pt)) 0 i * jx pt 0 y + me (pnp_jac q p (fst pt)) 1 i * jx pt 1 y)).
        { intros i. unfold fvec, jx. set (a := wp pt). set (J := me (pnp_jac q p (fst pt))) in *.
          rewrite (rsum_ext _ _ (fun k => me H i k * y k + a * (J 0%nat i * (J 0%nat k * y k) + J 1%nat i * (J 1%nat k * y k)))) by (intros k Hk; rewrite EH; unfold a; ring).
          rewrite rsum_plus, rsum_scal_l, rsum_plus, !rsum_scal_l. reflexivity. }
        rewrite (rsum_ext _ _ (fun i => x i * fvec 6 (me H) y i + wp pt * ((me (pnp_jac q p (fst pt)) 0 i * x i) * jx pt 0 y + (me (pnp_jac q p (fst pt)) 1 i * x i) * jx pt 1 y)))
          by (intros i Hi; rewrite F; ring).
        rewrite rsum_plus, rsum_scal_l, rsum_plus, !rsum_scal_r. reflexivity.
      * rewrite C. unfold Rminus. rewrite Ropp_plus_distr, <- Rplus_assoc. f_equal. unfold bform.
        rewrite (rsum_ext _ _ (fun i => x i * me b i 0%nat + - (wp pt * (rx pt * (me (pnp_jac q p (fst pt)) 0 i * x i) + ry pt * (me (pnp_jac q p (fst pt)) 1 i * x i)))))
          by (intros i Hi; rewrite Eb; ring).
        rewrite rsum_plus, rsum_opp, rsum_scal_l, rsum_plus, !rsum_scal_l. reflexivity.
    + unfold pnp_accum in E. rewrite off_plane_skip, U in E. cbn [negb] in E. injection E as <- <-. apply (IH (H, b)). exact S.
Qed.
Variable pts : list (v3 R * v2 R).
Let used := filter (off_plane q p) pts.
Lemma normal_forms : exists H b, pnp_normal wt q p pts = (H, b) /\ fsym 6 (me H) /\
  (forall x y, hform H x y = lsum (fun pt => wp pt * (jx pt 0 x * jx pt 0 y + jx pt 1 x * jx pt 1 y)) used) /\
  (forall x, bform b x = - lsum (fun pt => wp pt * (rx pt * jx pt 0 x + ry pt * jx pt 1 x)) used).
Proof using Hq Hw.
  unfold pnp_normal. destruct (fold_left (pnp_accum wt q p) pts (mzero 6 6, mzero 6 1)) as [H b] eqn:E.
  exists H, b. split; [reflexivity|].
  destruct (fold_forms pts (mzero 6 6, mzero 6 1) (fun _ _ => eq_refl)) as (A & B & C). rewrite E in A, B, C. cbn [fst snd] in A, B, C.
  split; [split; intros i j _ _; apply A|]. split.
  - intros x y. rewrite B. replace (hform (mzero 6 6) x y) with 0; [fold used; ring|]. symmetry. unfold hform. apply rsum_0. intros i _.
    unfold fvec. rewrite rsum_0; [ring|]. intros k _. cbn [me mzero s0 ops_R]. ring.
  - intros x. rewrite C. replace (bform (mzero 6 1) x) with 0; [fold used; ring|]. symmetry. unfold bform. apply rsum_0. intros i _. cbn [me mzero s0 ops_R]. ring.
Qed.
Lemma wp_pos : forall pt, 0 < wp pt.
Proof using Hq Hw. intros pt. apply Hw. apply err_pos. Qed.

(** A solution of the normal equations. *)
Lemma normal_solved : forall f, solves_psd f -> exists H b, pnp_normal wt q p pts = (H, b) /\
  (forall x y, hform H x y = lsum (fun pt => wp pt * (jx pt 0 x * jx pt 0 y + jx pt 1 x * jx pt 1 y)) used) /\
  (forall x, bform b x = - lsum (fun pt => wp pt * (rx pt * jx pt 0 x + ry pt * jx pt 1 x)) used) /\
  forall y, hform H y (f H b) = bform b y.
Proof using Hq Hw.
  intros f Hf. destruct normal_forms as (H & b & E & S & A & B). exists H, b. split; [exact E|]. split; [exact A|]. split; [exact B|].
  assert (P : fpsd 6 (me H)).
  { split; [exact S|]. intros x. replace (qform 6 (me H) x) with (hform H x x).
    - rewrite A. apply lsum_nonneg. intros pt _. pose proof (wp_pos pt). apply Rmult_le_pos; [lra|]. apply Rplus_le_le_0_compat; apply Rle_0_sqr.
    - unfold hform, qform, fvec. apply rsum_ext. intros i _. rewrite <- rsum_scal_l. apply rsum_ext. intros; ring. }
  assert (K : forall i, (i < 6)%nat -> fvec 6 (me H) (f H b) i = me b i 0%nat).
  { apply Hf; [exact P|]. exists (pinv6 H b). apply pinv6_solves; [exact S|]. intros x Hx. change (bform b x = 0). rewrite B.
    assert (Z : hform H x x = 0) by (unfold hform; apply rsum_0; intros i Hi; rewrite Hx by exact Hi; ring). rewrite A in Z.
    assert (N : forall pt, In pt used -> wp pt * (jx pt 0 x * jx pt 0 x + jx pt 1 x * jx pt 1 x) = 0).
    { apply lsum_zero; [|exact Z]. intros pt _. pose proof (wp_pos pt). apply Rmult_le_pos; [lra|]. apply Rplus_le_le_0_compat; apply Rle_0_sqr. }
    rewrite (lsum_ext_in _ _ (fun pt => 0 * 1) used); [rewrite lsum_scal; ring|]. intros pt Hpt. specialize (N pt Hpt). pose proof (wp_pos pt).
    assert (Q : jx pt 0 x * jx pt 0 x + jx pt 1 x * jx pt 1 x = 0) by (destruct (Rmult_integral _ _ N); [lra|assumption]).
    assert (Q0 : jx pt 0 x = 0) by nra. assert (Q1 : jx pt 1 x = 0) by nra. rewrite Q0, Q1. ring. }
  intros y. apply rsum_ext. intros i Hi. rewrite K by exact Hi. reflexivity.
Qed.
End Pose.

(** ** One step *)
Section Step.
Variables (q : quat R) (p : v3 R).
Hypothesis Hq : qunit q.
Lemma pred_derive : forall pt th dp, off_plane q p pt = true ->
  let c t := qrot (qconj (turned_by q (v3scale th t))) (v3sub (fst pt) (v3add p (v3scale dp t))) in
  c 0 = qrot (qconj q) (v3sub (fst pt) p) /\
  is_derive (fun t : R => v3x (c t) / v3z (c t)) 0 (jx q p pt 0 (to6 th dp)) /\ is_derive (fun t : R => v3y (c t) / v3z (c t)) 0 (jx q p pt 1 (to6 th dp)).
Proof using Hq.
  intros pt th dp U c. split; [unfold c; rewrite turned_correct, q_correct_0, v3_at0 by exact Hq; reflexivity|].
  rewrite !jx_row, to6_dp, to6_th. exact (pnp_jacobian q p (fst pt) th dp Hq (off_plane_z q p pt U)).
Qed.
Lemma err_derive : forall pt th dp, off_plane q p pt = true ->
  is_derive (fun t => pair_err (turned_by q (v3scale th t)) (v3add p (v3scale dp t)) pt) 0 (2 * (rx q p pt * jx q p pt 0 (to6 th dp) + ry q p pt * jx q p pt 1 (to6 th dp))).
Proof using Hq.
  intros pt th dp U. destruct (pred_derive pt th dp U) as (C0 & D1 & D2).
  pose proof (square_derive _ _ _ _ (v2x (snd pt)) (v2y (snd pt)) D1 D2) as D. cbv beta in D. rewrite C0 in D.
  replace (rx q p pt) with (v3x (qrot (qconj q) (v3sub (fst pt) p)) / v3z (qrot (qconj q) (v3sub (fst pt) p)) - v2x (snd pt))
    by (unfold rx, pnp_res; rewrite (pc_conj q p Hq); reflexivity).
  replace (ry q p pt) with (v3y (qrot (qconj q) (v3sub (fst pt) p)) / v3z (qrot (qconj q) (v3sub (fst pt) p)) - v2y (snd pt))
    by (unfold ry, pnp_res; rewrite (pc_conj q p Hq); reflexivity).
  exact D.
Qed.
Lemma lin_err : forall pt th dp, off_plane q p pt = true ->
  linear_err q p pt th dp = Rsqr (rx q p pt + jx q p pt 0 (to6 th dp)) + Rsqr (ry q p pt + jx q p pt 1 (to6 th dp)).
Proof using Hq.
  intros pt th dp U. destruct (pred_derive pt th dp U) as (C0 & D1 & D2). unfold linear_err. cbn zeta.
  rewrite (is_derive_unique _ _ _ D1), (is_derive_unique _ _ _ D2), C0. unfold rx, ry, pnp_res. rewrite (pc_conj q p Hq). f_equal; f_equal; cbn [v2sub v2x v2y]; vunf; ring.
Qed.
Lemma jx_to6 : forall pt k x, jx q p pt k (to6 (tail3 x) (head3 x)) = jx q p pt k x.
Proof. intros pt k x. rewrite !jx_row, to6_dp, to6_th. reflexivity. Qed.

Variables (wt : option (R -> R)) (w loss : R -> R) (corner : R -> Prop).
Hypothesis Hw : forall e, 0 <= e -> 0 < w e /\ match wt with None => w e = 1 | Some k => k (R_sqrt.sqrt e) = w e end.
Hypothesis Hloss : forall (f : R -> R) (l : R), is_derive f 0 l -> 0 <= f 0 -> ~ corner (f 0) -> is_derive (fun t => loss (f t)) 0 (w (f 0) * l).
Variable pts : list (v3 R * v2 R).
Lemma one_step : forall f, solves_psd f -> let '(H, b) := pnp_normal wt q p pts in let dx := f H b in
  refine_step loss w corner pts (q, p) (qnormalize (qmul q (delta_q (tail3 dx))), v3add p (head3 dx)).
Proof using Hq Hw Hloss.
  intros f Hf. destruct (normal_solved q p Hq wt w Hw pts f Hf) as (H & b & E & A & B & N). rewrite E. cbv zeta.
  set (dx := f H b) in *. exists (tail3 dx), (head3 dx). set (used := filter (off_plane q p) pts) in *.
  assert (IU : forall pt, In pt used -> off_plane q p pt = true) by (intros pt I; apply filter_In in I; apply I).
  split; [rewrite turned_correct; reflexivity|]. split.
  - intros th' dp'. unfold linear_cost.
    set (z := fun i => to6 th' dp' i + (-1) * dx i).
    assert (Q : forall pt, In pt used -> w (pair_err q p pt) * linear_err q p pt th' dp' =
      w (pair_err q p pt) * linear_err q p pt (tail3 dx) (head3 dx) + (wp q p w pt * (Rsqr (jx q p pt 0 z) + Rsqr (jx q p pt 1 z)) +
       2 * (wp q p w pt * (rx q p pt * jx q p pt 0 z + ry q p pt * jx q p pt 1 z) + wp q p w pt * (jx q p pt 0 z * jx q p pt 0 dx + jx q p pt 1 z * jx q p pt 1 dx)))).
    { intros pt I. rewrite !lin_err by (apply IU; exact I). rewrite !jx_to6. unfold z. rewrite !jx_add. unfold wp, Rsqr. ring. }
    rewrite (lsum_ext_in _ _ _ _ Q), !lsum_plus, lsum_scal, lsum_plus, <- (A z dx), N, B.
    pose proof (lsum_nonneg _ (fun pt => wp q p w pt * (Rsqr (jx q p pt 0 z) + Rsqr (jx q p pt 1 z))) used) as P.
    assert (P' : 0 <= lsum (fun pt => wp q p w pt * (Rsqr (jx q p pt 0 z) + Rsqr (jx q p pt 1 z))) used).
    { apply P. intros pt _. apply Rmult_le_pos; [apply Rlt_le; apply (wp_pos q p Hq wt w Hw)|]. apply Rplus_le_le_0_compat; apply Rle_0_sqr. }
    lra.
  - intros K.
    assert (D : forall th dp, is_derive (pose_along loss used q p th dp) 0 (-2 * bform b (to6 th dp))).
    { intros th dp. eapply derive_eq.
      - unfold pose_along, pose_cost. apply (lsum_derive _ (fun pt t => loss (pair_err (turned_by q (v3scale th t)) (v3add p (v3scale dp t)) pt))
          (fun pt => wp q p w pt * (2 * (rx q p pt * jx q p pt 0 (to6 th dp) + ry q p pt * jx q p pt 1 (to6 th dp))))).
        intros pt I. assert (Z : pair_err (turned_by q (v3scale th 0)) (v3add p (v3scale dp 0)) pt = pair_err q p pt).
        { rewrite turned_correct, q_correct_0, v3_at0 by exact Hq. reflexivity. }
        eapply derive_eq; [apply (Hloss _ _ (err_derive pt th dp (IU pt I))); [exact (eq_ind_r (fun x => 0 <= x) (err_pos q p pt) Z)|exact (eq_ind_r (fun x => ~ corner x) (K pt I) Z)]|].
        exact (f_equal (fun x => w x * (2 * (rx q p pt * jx q p pt 0 (to6 th dp) + ry q p pt * jx q p pt 1 (to6 th dp)))) Z).
      - rewrite B. rewrite (lsum_ext_in _ _ (fun pt => 2 * (wp q p w pt * (rx q p pt * jx q p pt 0 (to6 th dp) + ry q p pt * jx q p pt 1 (to6 th dp))))) by (intros; ring).
        rewrite lsum_scal. req. ring. }
    assert (BD : bform b (to6 (tail3 dx) (head3 dx)) = hform H dx dx).
    { rewrite N, !B. reflexivity. }
    pose proof (A dx dx) as AD.
    assert (NN : forall pt, In pt used -> 0 <= wp q p w pt * (jx q p pt 0 dx * jx q p pt 0 dx + jx q p pt 1 dx * jx q p pt 1 dx)).
    { intros pt _. apply Rmult_le_pos; [apply Rlt_le; apply (wp_pos q p Hq wt w Hw)|]. apply Rplus_le_le_0_compat; apply Rle_0_sqr. }
    destruct (Req_EM_T (hform H dx dx) 0) as [Z|Z].
    + left. intros th dp. eapply derive_eq; [apply D|]. rewrite <- N, A.
      rewrite (lsum_ext_in _ _ (fun _ => 0 * 1)); [rewrite lsum_scal; req; ring|]. intros pt I.
      rewrite AD in Z. pose proof (lsum_zero _ _ _ NN Z pt I) as Q. cbv beta in Q. pose proof (wp_pos q p Hq wt w Hw pt) as W.
      assert (Q' : jx q p pt 0 dx * jx q p pt 0 dx + jx q p pt 1 dx * jx q p pt 1 dx = 0) by (destruct (Rmult_integral _ _ Q); [lra|assumption]).
      assert (Q0 : jx q p pt 0 dx = 0) by nra. assert (Q1 : jx q p pt 1 dx = 0) by nra. rewrite Q0, Q1. ring.
    + right. exists (-2 * bform b (to6 (tail3 dx) (head3 dx))). split; [|apply D]. rewrite BD.
      pose proof (lsum_nonneg _ _ _ NN) as P. rewrite <- AD in P. lra.
Qed.
End Step.

(** ** Whole runs *)
Section Run.
Variables (wt : option (R -> R)) (w loss : R -> R) (corner : R -> Prop).
Hypothesis Hw : forall e, 0 <= e -> 0 < w e /\ match wt with None => w e = 1 | Some k => k (R_sqrt.sqrt e) = w e end.
Hypothesis Hloss : forall (f : R -> R) (l : R), is_derive f 0 l -> 0 <= f 0 -> ~ corner (f 0) -> is_derive (fun t => loss (f t)) 0 (w (f 0) * l).
Variables (pts : list (v3 R * v2 R)) (ldlt : mat R -> mat R -> nat -> R) (eps : R).
Hypothesis Hf : solves_psd ldlt.
Lemma loop_steps : forall iter k q p, qunit q -> let r := pnp_loop ldlt wt eps pts iter k q p in
  exists n, po_calls r = (k + n)%nat /\ po_ok r = true /\ steps (refine_step loss w corner pts) n (q, p) (po_q r, po_p r).
Proof using Hw Hloss Hf.
  induction iter as [|iter IH]; intros k q p Hq; cbn [pnp_loop].
  - exists 0%nat. cbn. split; [lia|]. split; [reflexivity|constructor].
  - pose proof (one_step q p Hq wt w loss corner Hw Hloss pts ldlt Hf) as S.
    destruct (pnp_normal wt q p pts) as [H b]. cbv zeta in S |- *. set (dx := ldlt H b) in *. clearbody dx.
    assert (NN : sisnan (norm6 dx) = false) by reflexivity. rewrite NN. 
    destruct (sltb (norm6 dx) eps).
    + exists 1%nat. cbn [po_calls po_ok po_q po_p]. split; [lia|]. split; [reflexivity|]. eapply steps_S; [exact S|constructor].
    + destruct (IH (Datatypes.S k) (qnormalize (qmul q (delta_q (tail3 dx)))) (v3add p (head3 dx)) (qstep_unit _ _ Hq)) as (n & A & B & C).
      exists (Datatypes.S n). cbv zeta in A, B, C. split; [rewrite A; lia|]. split; [exact B|]. eapply steps_S; [exact S|exact C].
Qed.
End Run.
Lemma plain_w : forall e, 0 <= e -> 0 < one e /\ one e = 1.
Proof. intros e _. unfold one. lra. Qed.
Lemma plain_loss : forall (f : R -> R) (l : R), is_derive f 0 l -> 0 <= f 0 -> ~ never (f 0) -> is_derive (fun t => same (f t)) 0 (one (f 0) * l).
Proof. intros f l H _ _. unfold same, one. eapply derive_eq; [exact H|]. req. ring. Qed.
Theorem estimate_steps : forall cfg ldlt p3 p2 q p, solves_psd ldlt -> qunit q -> length p3 = length p2 -> p3 <> [] ->
  let r := pnp_estimate cfg ldlt p3 p2 q p in
  po_ok r = true /\ steps (refine_step same one never (combine p3 p2)) (po_calls r) (q, p) (po_q r, po_p r).
Proof.
  intros cfg ldlt p3 p2 q p Hf Hq L N. unfold pnp_estimate. rewrite L, Nat.eqb_refl. destruct p2 as [|o p2]; [destruct p3; [contradiction|discriminate]|].
  cbn [length Nat.eqb negb orb]. 
  destruct (loop_steps None one same never plain_w plain_loss (combine p3 (o :: p2)) ldlt (pc_eps cfg) Hf (pc_iter cfg) 0 q p Hq) as (n & A & B & C).
  cbv zeta in A, B, C. rewrite A. split; [exact B|exact C].
Qed.
Lemma cauchy_1 : forall x : R, cauchy s1 x = if Rle_dec x 1 then 1 else ln 2 / x.
Proof.
  intros x. unfold cauchy. cbn [sltb ops_R s1]. unfold Rltb. destruct (Rlt_dec 1 x), (Rle_dec x 1); try lra.
  cbn [smul sdiv sadd slog ops_R]. replace (1 / (1 * 1) + 1) with 2 by field. rewrite !Rmult_1_l. reflexivity.
Qed.
Lemma ln2_pos : 0 < ln 2.
Proof. rewrite <- ln_1. apply ln_increasing; lra. Qed.
Lemma capped_w_pos : forall e, 0 <= e -> 0 < capped_w e /\ cauchy s1 (R_sqrt.sqrt e) = capped_w e.
Proof.
  intros e _. rewrite cauchy_1. unfold capped_w. split; [|reflexivity]. destruct (Rle_dec _ 1); [lra|].
  apply Rdiv_lt_0_compat; [apply ln2_pos|lra].
Qed.
Lemma capped_loss : forall (f : R -> R) (l : R), is_derive f 0 l -> 0 <= f 0 -> ~ at_one (f 0) -> is_derive (fun t => capped (f t)) 0 (capped_w (f 0) * l).
Proof.
  intros f l H H0 Hk. unfold at_one in Hk.
  pose proof (ex_derive_continuous f 0 (ex_intro _ l H)) as C. unfold capped_w.
  destruct (Rle_dec (R_sqrt.sqrt (f 0)) 1) as [L|L].
  - rewrite Rmult_1_l. apply (is_derive_ext_loc f); [|exact H].
    assert (L2 : f 0 < 1).
    { rewrite <- (R_sqrt.sqrt_sqrt (f 0)) in Hk |- * by exact H0. pose proof (R_sqrt.sqrt_pos (f 0)). nra. }
    apply (filter_imp (fun s => f s < 1)); [|exact (C (fun y => y < 1) (open_lt _ (f 0) L2))]. intros s Hs. unfold capped.
    destruct (Rle_dec (R_sqrt.sqrt (f s)) 1) as [|N]; [reflexivity|]. exfalso. apply N.
    rewrite <- R_sqrt.sqrt_1. apply R_sqrt.sqrt_le_1_alt. lra.
  - assert (L2 : 1 < f 0) by (rewrite <- (R_sqrt.sqrt_sqrt (f 0)) by exact H0; nra).
    apply (is_derive_ext_loc (fun s => 1 + 2 * ln 2 * (R_sqrt.sqrt (f s) - 1))).
    + apply (filter_imp (fun s => 1 < f s)); [|exact (C (fun y => 1 < y) (open_gt _ (f 0) L2))]. intros s Hs. unfold capped.
      destruct (Rle_dec (R_sqrt.sqrt (f s)) 1) as [N|]; [|reflexivity]. exfalso.
      rewrite <- (R_sqrt.sqrt_sqrt (f s)) in Hs by lra. pose proof (R_sqrt.sqrt_pos (f s)). nra.
    + assert (P : 0 < f 0) by lra. auto_derive; [split; [eexists; exact H|]; split; [exact P|exact I]|].
      replace (Derive (fun s => f s) 0) with l by (symmetry; exact (is_derive_unique _ _ _ H)). field. lra.
Qed.
Theorem kernel_steps : forall cfg ldlt p3 p2 q p, solves_psd ldlt -> qunit q -> length p3 = length p2 -> p3 <> [] ->
  let r := pnp_kernel cfg ldlt p3 p2 q p in
  po_ok r = true /\ steps (refine_step capped capped_w at_one (combine p3 p2)) (po_calls r) (q, p) (po_q r, po_p r).
Proof.
  intros cfg ldlt p3 p2 q p Hf Hq L N. unfold pnp_kernel. rewrite L, Nat.eqb_refl. destruct p2 as [|o p2]; [destruct p3; [contradiction|discriminate]|].
  cbn [length Nat.eqb negb orb]. 
  destruct (loop_steps (Some (cauchy s1)) capped_w capped at_one capped_w_pos capped_loss (combine p3 (o :: p2)) ldlt (pc_eps cfg) Hf (pc_iter cfg) 0 q p Hq) as (n & A & B & C).
  cbv zeta in A, B, C. rewrite A. split; [exact B|exact C].
Qed.

(** ** Examples *)
Lemma sq_err : forall u pt, In pt (combine sq_pts sq_obs) -> pair_err qid (V3 u 0 0) pt = u * u /\ off_plane qid (V3 u 0 0) pt = true.
Proof.
  intros u pt I. repeat (destruct I as [<-|I]; [split; [unfold pair_err, reproj_err; vunf; cbn [fst snd v2x v2y v3x v3y v3z]; field|
    unfold off_plane; destruct (Rle_dec _ _) as [|N]; [reflexivity|]; exfalso; apply N; vunf; cbn [fst snd v2x v2y v3x v3y v3z];
    rewrite Rabs_pos_eq; lra]|]). destruct I.
Qed.
Lemma step_example : solves_psd pinv6 /\ qunit (qid (T := R)) /\ length sq_pts = length sq_obs /\ sq_pts <> [] /\
  pose_cost same (combine sq_pts sq_obs) qid (V3 1 0 0) = 3 /\ filter (off_plane qid (V3 1 0 0)) (combine sq_pts sq_obs) = combine sq_pts sq_obs.
Proof.
  split; [exact pinv6_psd|]. split; [exact qid_unit|]. split; [reflexivity|]. split; [discriminate|]. split.
  - unfold pose_cost. rewrite (lsum_ext_in _ _ (fun _ => 1)); [cbn; ring|]. intros pt I. unfold same. rewrite (proj1 (sq_err 1 pt I)). ring.
  - assert (F : forall A (g : A -> bool) l, (forall x, In x l -> g x = true) -> filter g l = l).
    { induction l as [|x l IH]; intros H; [reflexivity|]. cbn. rewrite (H x (or_introl eq_refl)), IH; [reflexivity|]. intros y Hy. apply H. right; exact Hy. }
    apply F. intros pt I. apply (sq_err 1 pt I).
Qed.
Lemma kernel_example : solves_psd pinv6 /\ (forall pt, In pt (combine sq_pts sq_obs) -> ~ at_one (pair_err qid (V3 2 0 0) pt)) /\ capped_w 4 = ln 2 / 2.
Proof.
  split; [exact pinv6_psd|]. split.
  - intros pt I. rewrite (proj1 (sq_err 2 pt I)). unfold at_one. lra.
  - unfold capped_w. replace 4 with (2 * 2) by ring. rewrite R_sqrt.sqrt_square by lra. destruct (Rle_dec 2 1); [lra|reflexivity].
Qed.

(** ** When the loop stops *)
Lemma norm6_R : forall x : nat -> R, norm6 x = R_sqrt.sqrt (v3dot (head3 x) (head3 x) + v3dot (tail3 x) (tail3 x)).
Proof. intros x. unfold norm6. cbn [ssqrt ops_R]. f_equal. unfold head3, tail3. cbn [ssum]. vunf. ring. Qed.
Lemma norm6_lt : forall (x : nat -> R) e, 0 <= e -> sltb (norm6 x) e = true <-> v3dot (head3 x) (head3 x) + v3dot (tail3 x) (tail3 x) < e * e.
Proof.
  intros x e He. rewrite norm6_R. set (s := v3dot (head3 x) (head3 x) + v3dot (tail3 x) (tail3 x)).
  assert (D0 : forall v : v3 R, 0 <= v3dot v v) by (intros [a b c]; vunf; nra).
  assert (S0 : 0 <= s) by (apply Rplus_le_le_0_compat; apply D0).
  cbn [sltb ops_R]. unfold Rltb. pose proof (R_sqrt.sqrt_pos s) as P. pose proof (R_sqrt.sqrt_sqrt s S0) as Q.
  destruct (Rlt_dec (R_sqrt.sqrt s) e); split; intros; try reflexivity; try discriminate; nra.
Qed.
Lemma loop_stop : forall ldlt wt eps pts iter k q p, 0 <= eps -> let r := pnp_loop ldlt wt eps pts iter k q p in
  exists m c, steps (long_step eps) m (q, p) c /\
    ((po_calls r = (k + m)%nat /\ m = iter /\ (po_q r, po_p r) = c) \/
     (po_calls r = (k + m + 1)%nat /\ (m < iter)%nat /\ short_step eps c (po_q r, po_p r))).
Proof.
  intros ldlt wt eps pts iter. induction iter as [|iter IH]; intros k q p He; cbn [pnp_loop].
  - exists 0%nat, (q, p). cbv zeta. split; [constructor|]. left. cbn. split; [lia|]. split; reflexivity.
  - destruct (pnp_normal wt q p pts) as [H b]. cbv zeta. set (dx := ldlt H b). clearbody dx.
    assert (NN : sisnan (norm6 dx) = false) by reflexivity. rewrite NN.
    destruct (sltb (norm6 dx) eps) eqn:E.
    + exists 0%nat, (q, p). split; [constructor|]. right. cbn [po_calls po_q po_p]. split; [lia|]. split; [lia|].
      exists (tail3 dx), (head3 dx). cbn [fst snd]. split; [rewrite turned_correct; reflexivity|]. apply norm6_lt; assumption.
    + destruct (IH (Datatypes.S k) (qnormalize (qmul q (delta_q (tail3 dx)))) (v3add p (head3 dx)) He) as (m & c & A & B).
      exists (Datatypes.S m), c. cbv zeta in A, B. split.
      * eapply steps_S; [|exact A]. exists (tail3 dx), (head3 dx). cbn [fst snd]. split; [rewrite turned_correct; reflexivity|].
        apply Rnot_lt_le. intros C. apply (norm6_lt dx eps He) in C. congruence.
      * destruct B as [(B1 & B2 & B3)|(B1 & B2 & B3)]; [left|right]; (split; [lia|]); (split; [lia|exact B3]).
Qed.
Theorem estimate_stop : forall cfg ldlt p3 p2 q p, 0 <= pc_eps cfg -> length p3 = length p2 -> p3 <> [] ->
  let stops r := exists m c, steps (long_step (pc_eps cfg)) m (q, p) c /\
    ((po_calls r = m /\ m = pc_iter cfg /\ (po_q r, po_p r) = c) \/ (po_calls r = Datatypes.S m /\ (m < pc_iter cfg)%nat /\ short_step (pc_eps cfg) c (po_q r, po_p r))) in
  stops (pnp_estimate cfg ldlt p3 p2 q p) /\ stops (pnp_kernel cfg ldlt p3 p2 q p).
Proof.
  intros cfg ldlt p3 p2 q p He L N stops. unfold pnp_estimate, pnp_kernel. rewrite L, Nat.eqb_refl.
  destruct p2 as [|o p2]; [destruct p3; [contradiction|discriminate]|]. cbn [length Nat.eqb negb orb].
  assert (G : forall wt, stops (pnp_loop ldlt wt (pc_eps cfg) (combine p3 (o :: p2)) (pc_iter cfg) 0 q p)).
  { intros wt. destruct (loop_stop ldlt wt (pc_eps cfg) (combine p3 (o :: p2)) (pc_iter cfg) 0 q p He) as (m & c & A & B).
    exists m, c. cbv zeta in B. split; [exact A|]. destruct B as [(B1 & B2 & B3)|(B1 & B2 & B3)]; [left|right]; (split; [lia|]); (split; [exact B2|exact B3]). }
  split; apply G.
Qed.
Lemma default_eps : 0 <= pc_eps (pnp_default (T := R)).
Proof. unfold pnp_default. cbn [pc_eps]. replace (sof32 (f32_lit 0x8637bd (-43))) with (8796093 / 8796093022208); [lra|]. symmetry. bval (f32_lit 0x8637bd (-43)). Qed.
