(** Orders of views and pairs (C109). *)
From Coq Require Import ZArith Reals Lra Lia Arith Bool List Psatz Permutation.
From Flocq Require Import Core BinarySingleNaN.
From Verif Require Import Fp Scalar Base LinAlg MathLib Triangulate Pnp MatFacts QuatFacts UpdSpec AttNumFacts GeoSpec GeoWitness TriFacts InitSpec InitWitness TriAxesSpec TriAxesFacts StepSpec StepFacts PnpAxesSpec PnpAxesFacts.
Import ListNotations.
Local Open Scope R_scope.

Lemma fold_perm : forall A B (f : A -> B -> A) l l', (forall a x y, f (f a x) y = f (f a y) x) -> Permutation l l' -> forall a, fold_left f l a = fold_left f l' a.
Proof.
  intros A B f l l' C P. induction P as [|x l l' P IH|x y l|l1 l2 l3 P1 IH1 P2 IH2]; intros a; cbn [fold_left].
  - reflexivity.
  - apply IH.
  - rewrite C. reflexivity.
  - rewrite IH1. apply IH2.
Qed.
Lemma lsum_perm : forall A (f : A -> R) l l', Permutation l l' -> lsum f l = lsum f l'.
Proof. intros A f l l' P. induction P; cbn [lsum]; lra. Qed.
Lemma filter_perm : forall A (f : A -> bool) l l', Permutation l l' -> Permutation (filter f l) (filter f l').
Proof.
  intros A f l l' P. induction P as [|x l l' P IH|x y l|l1 l2 l3 P1 IH1 P2 IH2]; cbn [filter].
  - constructor.
  - destruct (f x); [constructor|]; exact IH.
  - destruct (f x), (f y); try apply Permutation_refl. constructor.
  - eapply perm_trans; eassumption.
Qed.
Lemma existsb_perm : forall A (f : A -> bool) l l', Permutation l l' -> existsb f l = existsb f l'.
Proof.
  intros A f l l' P. induction P as [|x l l' P IH|x y l|l1 l2 l3 P1 IH1 P2 IH2]; cbn [existsb]; [reflexivity|rewrite IH; reflexivity| |congruence].
  destruct (f x), (f y); reflexivity.
Qed.
Lemma views_len : forall qs ps ns (vs : list (view R)), views qs ps ns = Ok vs -> length vs = length qs.
Proof.
  induction qs as [|q qs IH]; intros [|p ps] [|n ns] vs H; cbn [views] in H; try discriminate H; try (injection H as <-; reflexivity).
  destruct (views qs ps ns) as [r|] eqn:E; [|discriminate H]. cbn [obind] in H. injection H as <-. cbn [length]. rewrite (IH _ _ _ E). reflexivity.
Qed.

(** ** Triangulation *)
Lemma cost_perm : forall cw cw' p, Permutation cw cw' -> tri_cost (T := R) cw p = tri_cost cw' p.
Proof. intros cw cw' p P. unfold tri_cost. apply fold_perm; [|exact P]. intros a [[q1 p1] n1] [[q2 p2] n2]. cbn [sadd ops_R]. ring. Qed.
Lemma m33_swap : forall a b c : m33 R, m33add (m33add a b) c = m33add (m33add a c) b.
Proof. intros [] [] []. unfold m33add. vunf. f_equal; rops; ring. Qed.
Lemma v3_swap : forall a b c : v3 R, v3add (v3add a b) c = v3add (v3add a c) b.
Proof. intros [] [] []. vring. Qed.
Lemma normal_perm : forall cw cw' s, Permutation cw cw' -> tri_normal (T := R) cw s = tri_normal cw' s.
Proof.
  intros cw cw' s P. unfold tri_normal. apply fold_perm; [|exact P]. intros [A b] [[q1 p1] n1] [[q2 p2] n2].
  destruct (tri_jacobian q1 p1 s n1) as [[[a0 a1] ra] wa]. destruct (tri_jacobian q2 p2 s n2) as [[[b0 b1] rb] wb].
  destruct (_ && _)%bool; destruct (_ && _)%bool; cbv zeta; rewrite m33_swap, v3_swap; reflexivity.
Qed.
Lemma body_perm : forall ldlt cw cw' A b s, Permutation cw cw' -> lm_body (T := R) ldlt cw A b s = lm_body ldlt cw' A b s.
Proof. intros ldlt cw cw' A b s P. unfold lm_body. cbv zeta. rewrite (cost_perm cw cw' _ P). reflexivity. Qed.
Lemma inner_perm : forall fuel ldlt cw cw' A b c s, Permutation cw cw' -> lm_inner (T := R) fuel ldlt cw A b c s = lm_inner fuel ldlt cw' A b c s.
Proof.
  induction fuel as [|fuel IH]; intros ldlt cw cw' A b c s P; cbn [lm_inner]; [reflexivity|]. rewrite (body_perm ldlt cw cw' A b s P). cbv zeta.
  destruct (_ && _)%bool; [apply IH; exact P|reflexivity].
Qed.
Lemma outer_perm : forall fuel fi ldlt cw cw' c s, Permutation cw cw' -> lm_outer (T := R) fuel fi ldlt cw c s = lm_outer fuel fi ldlt cw' c s.
Proof.
  induction fuel as [|fuel IH]; intros fi ldlt cw cw' c s P; cbn [lm_outer]; [reflexivity|]. rewrite (normal_perm cw cw' _ P).
  destruct (tri_normal cw' (lm_sol s)) as [A b]. rewrite (inner_perm fi ldlt cw cw' A b 0 s P). destruct (lm_inner _ _ _ _ _ _ _); [|reflexivity].
  destruct (_ && _)%bool; [apply IH; exact P|reflexivity].
Qed.
Theorem iterative_order : forall fuel ldlt qs ps ns qs' ps' ns' vs vs' p0, views qs ps ns = Ok vs -> views qs' ps' ns' = Ok vs' -> Permutation vs vs' ->
  tri_iterative (T := R) fuel ldlt qs' ps' ns' p0 = tri_iterative fuel ldlt qs ps ns p0.
Proof.
  intros fuel ldlt qs ps ns qs' ps' ns' vs vs' p0 V V' P. unfold tri_iterative. rewrite V, V'. cbn [obind]. cbv zeta.
  pose proof (Permutation_map tri_cw P) as Q. rewrite (cost_perm _ _ p0 Q), (outer_perm fuel fuel ldlt _ _ 0 _ Q). reflexivity.
Qed.
Theorem analytic_order : forall svd1 svd2 qs ps ns qs' ps' ns' vs vs' p0, views qs ps ns = Ok vs -> views qs' ps' ns' = Ok vs' -> Permutation vs vs' ->
  smallest_singular (tri_A vs) (svd1 (tri_A vs)) -> smallest_singular (tri_A vs') (svd2 (tri_A vs')) -> one_direction (tri_A vs) ->
  tri_analytic svd2 qs' ps' ns' p0 = tri_analytic svd1 qs ps ns p0.
Proof.
  intros svd1 svd2 qs ps ns qs' ps' ns' vs vs' p0 V V' P S1 S2 One. unfold tri_analytic.
  rewrite <- (views_len _ _ _ _ V), <- (views_len _ _ _ _ V'), <- (Permutation_length P). destruct (Nat.ltb _ 2); [reflexivity|]. rewrite V, V'. cbn [obind]. cbv zeta.
  assert (I : forall x, image_norm (tri_A vs') x = image_norm (tri_A vs) x).
  { intros x. rewrite !image_fold. clear - P. induction P; cbn [fold_right]; lra. }
  set (x := svd1 (tri_A vs)) in *. set (y := svd2 (tri_A vs')) in *.
  assert (Sy : smallest_singular (tri_A vs) y).
  { destruct S2 as [N M]. split; [exact N|]. intros z Nz. rewrite <- !I. apply M. exact Nz. }
  clearbody x y. rewrite (existsb_perm _ _ _ _ (Permutation_sym P)).
  destruct (One x y S1 Sy) as [G|G]; change (mc (tri_A vs)) with 4%nat in G; rewrite !G by lia; [reflexivity|].
  replace (sabs (- x 3%nat)) with (sabs (x 3%nat)) by (cbn [sabs ops_R]; symmetry; apply Rabs_Ropp).
  destruct (slt64 (sabs (x 3%nat)) d1em6) eqn:Es; [reflexivity|].
  assert (X3 : x 3%nat <> 0).
  { intros H0. rewrite H0 in Es. assert (T : slt64 (sabs (0 : R)) d1em6 = true). { apply slt64_R. cbn [sabs ops_R]. rewrite Rabs_R0, d1em6_val. lra. } rewrite T in Es. discriminate. }
  replace (v3div (V3 (- x 0%nat) (- x 1%nat) (- x 2%nat)) (- x 3%nat)) with (v3div (V3 (x 0%nat) (x 1%nat) (x 2%nat)) (x 3%nat)) by (vunf; apply v3_ext; rops; field; exact X3).
  reflexivity.
Qed.

(** ** Pose refinement *)
Lemma turn6_id : forall x i, (i < 6)%nat -> turn6 qid x i = x i.
Proof. intros x. apply ext6; [|reflexivity]. rewrite turn6_head. generalize (head3 x). intros []. vring. Qed.
Lemma bil_ext : forall m x y x' y', (forall i, (i < 6)%nat -> x i = x' i) -> (forall i, (i < 6)%nat -> y i = y' i) -> bil m x y = bil m x' y'.
Proof. intros m x y x' y' H H'. unfold bil. apply rsum_ext. intros i Hi. apply rsum_ext. intros j Hj. rewrite H, H' by assumption. reflexivity. Qed.
Lemma lin_ext : forall m x x', (forall i, (i < 6)%nat -> x i = x' i) -> lin m x = lin m x'.
Proof. intros m x x' H. unfold lin. apply rsum_ext. intros i Hi. rewrite H by assumption. reflexivity. Qed.
Lemma eq_perm : forall wt q p pts pts', PnpAxesFacts.usable wt -> qunit q -> Permutation pts pts' -> same_eq qid (pnp_normal wt q p pts) (pnp_normal wt q p pts').
Proof.
  intros wt q p pts pts' [w Hw] Hq P. destruct (normal_forms q p Hq wt w Hw pts) as (H & b & E & _ & A & B). destruct (normal_forms q p Hq wt w Hw pts') as (H' & b' & E' & _ & A' & B').
  pose proof (filter_perm _ (off_plane q p) _ _ P) as F. rewrite E, E'. split; cbn [fst snd].
  - intros x y. rewrite (bil_ext H' _ _ x y) by (apply turn6_id). rewrite !bil_mvec. change (hform H' x y = hform H x y). rewrite A, A'. symmetry. apply lsum_perm. exact F.
  - intros x. rewrite (lin_ext b' _ x) by (apply turn6_id). change (bform b' x = bform b x). rewrite B, B'. f_equal. symmetry. apply lsum_perm. exact F.
Qed.
Theorem loop_order : forall l1 l2 wt eps pts pts' iter k q p, PnpAxesFacts.usable wt -> solves_psd l1 -> solves_psd l2 -> qunit q -> Permutation pts pts' -> well_posed l1 wt eps pts iter q p ->
  pnp_loop l2 wt eps pts' iter k q p = pnp_loop l1 wt eps pts iter k q p.
Proof.
  intros l1 l2 wt eps pts pts' iter k q p Hw H1 H2 Hq P W. revert k q p Hq W. induction iter as [|iter IH]; intros k q p Hq W; [reflexivity|].
  assert (Rg : regular6 (fst (pnp_normal wt q p pts))) by (exact (W 0%nat (Nat.lt_0_succ _))).
  assert (Ws : forall j, (j < iter)%nat -> let r := pnp_loop l1 wt eps pts (S j) 0 q p in regular6 (fst (pnp_normal wt (po_q r) (po_p r) pts))) by (intros j Hj; apply W; lia). clear W.
  pose proof (eq_perm wt q p pts pts' Hw Hq P) as SE. pose proof (solved wt l1 q p pts Hw H1 Hq) as E1. pose proof (solved wt l2 q p pts' Hw H2 Hq) as E2. cbv zeta in E1, E2.
  pose proof (solution_moved qid qid_unit _ _ _ _ SE Rg E1 E2) as D0.
  assert (D : forall i, (i < 6)%nat -> l2 (fst (pnp_normal wt q p pts')) (snd (pnp_normal wt q p pts')) i = l1 (fst (pnp_normal wt q p pts)) (snd (pnp_normal wt q p pts)) i)
    by (intros i Hi; rewrite D0 by exact Hi; apply turn6_id; exact Hi). clear D0 SE Rg E1 E2. cbn [pnp_loop] in Ws |- *.
  destruct (pnp_normal wt q p pts) as [H b]. destruct (pnp_normal wt q p pts') as [H' b']. cbn [fst snd] in D. cbv zeta in Ws |- *.
  set (x := l1 H b) in *. set (y := l2 H' b') in *. clearbody x y.
  assert (N : norm6 y = norm6 x).
  { change (R_sqrt.sqrt (rsum 6 (fun i => y i * y i)) = R_sqrt.sqrt (rsum 6 (fun i => x i * x i))). f_equal. apply rsum_ext. intros i Hi. rewrite D by exact Hi. reflexivity. }
  assert (Eh : head3 y = head3 x) by (unfold head3; rewrite !D by lia; reflexivity). assert (Et : tail3 y = tail3 x) by (unfold tail3; rewrite !D by lia; reflexivity).
  rewrite N, Eh, Et. change (sisnan (norm6 x)) with false in *. cbv iota in Ws |- *. destruct (sltb (norm6 x) eps); [reflexivity|].
  apply IH; [apply qstep_unit; exact Hq|]. intros j Hj. cbv zeta. specialize (Ws j Hj).
  destruct (loop_counter l1 wt eps pts j 0 1 (qnormalize (qmul q (delta_q (tail3 x)))) (v3add p (head3 x))) as [-> ->]. exact Ws.
Qed.
Lemma pairs_len : forall (p3 p3' : list (v3 R)) (p2 p2' : list (v2 R)), length p3 = length p2 -> length p3' = length p2' -> Permutation (combine p3 p2) (combine p3' p2') -> length p3' = length p3.
Proof. intros p3 p3' p2 p2' L L' P. apply Permutation_length in P. rewrite !combine_length, L, L', !Nat.min_id in P. congruence. Qed.
Theorem estimate_order : forall l1 l2 cfg p3 p2 p3' p2' q p, solves_psd l1 -> solves_psd l2 -> qunit q -> length p3 = length p2 -> length p3' = length p2' ->
  Permutation (combine p3 p2) (combine p3' p2') ->
  (well_posed l1 None (pc_eps cfg) (combine p3 p2) (pc_iter cfg) q p -> pnp_estimate cfg l2 p3' p2' q p = pnp_estimate cfg l1 p3 p2 q p) /\
  (well_posed l1 (Some (cauchy 1)) (pc_eps cfg) (combine p3 p2) (pc_iter cfg) q p -> pnp_kernel cfg l2 p3' p2' q p = pnp_kernel cfg l1 p3 p2 q p).
Proof.
  intros l1 l2 cfg p3 p2 p3' p2' q p H1 H2 Hq L L' P. pose proof (pairs_len _ _ _ _ L L' P) as E.
  split; intros W; [unfold pnp_estimate|unfold pnp_kernel]; rewrite <- L, <- L', E; (destruct (_ || _)%bool; [reflexivity|]);
    apply loop_order; try assumption; [exact usable_none|exact usable_cauchy].
Qed.

(** ** In binary32: three views, a solver by determinants, and the reversed order *)
Definition cramer {T} {S : SOps T} (A : m33 T) (b : v3 T) : v3 T :=
  let det (a b c d e f g h i : T) := sadd (ssub (smul a (ssub (smul e i) (smul f h))) (smul b (ssub (smul d i) (smul f g)))) (smul c (ssub (smul d h) (smul e g))) in
  let dd := det (m00 A) (m01 A) (m02 A) (m10 A) (m11 A) (m12 A) (m20 A) (m21 A) (m22 A) in
  V3 (sdiv (det (v3x b) (m01 A) (m02 A) (v3y b) (m11 A) (m12 A) (v3z b) (m21 A) (m22 A)) dd)
     (sdiv (det (m00 A) (v3x b) (m02 A) (m10 A) (v3y b) (m12 A) (m20 A) (v3z b) (m22 A)) dd)
     (sdiv (det (m00 A) (m01 A) (v3x b) (m10 A) (m11 A) (v3y b) (m20 A) (m21 A) (v3z b)) dd).
Section Rounded.
Context (lm : libm32).
Local Instance o32 : SOps f32 := ops_f32 lm.
Definition r_p : list (v3 f32) := [V3 (f32_lit 0 0) (f32_lit 0 0) (f32_lit 0 0); V3 (f32_lit 8 (-3)) (f32_lit 0 0) (f32_lit 0 0); V3 (f32_lit 0 0) (f32_lit 8 (-3)) (f32_lit 1 (-3))].
Definition r_n : list (v2 f32) := [V2 (f32_lit 13 (-8)) (f32_lit 27 (-8)); V2 (f32_lit (-50) (-8)) (f32_lit 30 (-8)); V2 (f32_lit 11 (-8)) (f32_lit (-41) (-8))].
Definition r_0 : v3 f32 := V3 (f32_lit 1 (-1)) (f32_lit 1 (-1)) (f32_lit 3 0).
Definition r_go (ps : list (v3 f32)) (ns : list (v2 f32)) : out (option (bool * v3 f32 * nat)) := tri_iterative 12 cramer [qid; qid; qid] ps ns r_0.
Definition r_y (r : out (option (bool * v3 f32 * nat))) := match r with Ok (Some (b, p, _)) => if b then Some (B2SF (v3y p)) else None | _ => None end.
Lemma r_1 : r_y (r_go r_p r_n) = Some (SpecFloat.S754_finite false 14063455 (-25)).
Proof. vm_compute. reflexivity. Qed.
Lemma r_2 : r_y (r_go (rev r_p) (rev r_n)) = Some (SpecFloat.S754_finite false 14063454 (-25)).
Proof. vm_compute. reflexivity. Qed.
Lemma r_some : forall ps ns, r_y (r_go ps ns) <> None -> exists p k, r_go ps ns = Ok (Some (true, p, k)).
Proof. intros ps ns H. destruct (r_go ps ns) as [[[[[] p] k]|]|]; cbn in H; try (exfalso; apply H; reflexivity). exists p, k. reflexivity. Qed.
End Rounded.
Theorem rounding_refuted : forall lm, exists fuel ldlt qs ps ns p0 p k p' k', tri_iterative (S := ops_f32 lm) fuel ldlt qs ps ns p0 = Ok (Some (true, p, k)) /\
  tri_iterative (S := ops_f32 lm) fuel ldlt (rev qs) (rev ps) (rev ns) p0 = Ok (Some (true, p', k')) /\ p' <> p.
Proof.
  intros lm. destruct (r_some lm r_p r_n) as (p & k & E); [rewrite r_1; discriminate|]. destruct (r_some lm (rev r_p) (rev r_n)) as (p' & k' & E'); [rewrite r_2; discriminate|].
  exists 12%nat, (cramer (S := ops_f32 lm)), (let q := qid (S := ops_f32 lm) in [q; q; q]), r_p, r_n, r_0, p, k, p', k'. split; [exact E|]. split; [exact E'|].
  intros ->. pose proof (r_1 lm) as A. pose proof (r_2 lm) as B. rewrite E in A. rewrite E' in B. cbn [r_y] in A, B. rewrite A in B. discriminate B.
Qed.

(** ** Examples *)
Lemma views_example : views sh_q sh_p sh_n = Ok (sh_v 0) /\ views (rev sh_q) (rev sh_p) (rev sh_n) = Ok (rev (sh_v 0)) /\ Permutation (sh_v 0) (rev (sh_v 0)) /\ rev (sh_v 0) <> sh_v 0 /\
  smallest_singular (tri_A (sh_v 0)) (i_svd (tri_A (sh_v 0))) /\ smallest_singular (tri_A (rev (sh_v 0))) (i_svd (tri_A (rev (sh_v 0)))) /\ one_direction (tri_A (sh_v 0)).
Proof.
  destruct sh_example as (_ & V & _ & S1 & _ & O & _). split; [exact V|]. split.
  { unfold sh_q, sh_p, sh_n, sh_v. cbn [views obind rev app]. replace (0 - 1) with (-1) by lra. replace (0 + 1) with 1 by lra. reflexivity. }
  split; [apply Permutation_rev|]. split; [|split; [exact S1|split; [apply i_exact; cbn; lia|exact O]]].
  unfold sh_v. cbn [rev app]. intros C. injection C as C _ _ _ _ _ _ _. lra.
Qed.
Lemma pairs_example : solves_psd pinv6 /\ qunit (qid (T := R)) /\ length sq_pts = length sq_obs /\ length (rev sq_pts) = length (rev sq_obs) /\
  Permutation (combine sq_pts sq_obs) (combine (rev sq_pts) (rev sq_obs)) /\
  well_posed pinv6 None (1 / 1000) (combine sq_pts sq_obs) 1 qid half_p /\ well_posed pinv6 (Some (cauchy 1)) (1 / 1000) (combine sq_pts sq_obs) 1 qid half_p.
Proof.
  destruct half_example as (A & _ & B & _ & C & D). split; [exact A|]. split; [exact B|]. split; [reflexivity|]. split; [reflexivity|]. split; [|split; assumption].
  exact (Permutation_rev (combine sq_pts sq_obs)).
Qed.
