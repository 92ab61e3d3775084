(** Triangulation and the world axes (C107). *)
From Coq Require Import ZArith Reals Lra Lia Arith Bool List Psatz.
From Flocq Require Import Core BinarySingleNaN.
From Verif Require Import Fp Scalar Base LinAlg MathLib Triangulate MatFacts QuatFacts GeoSpec TriFacts InitSpec InitWitness TriAxesSpec.
Import ListNotations.
Local Open Scope R_scope.

Lemma rsum_pairs : forall m (g : nat -> R), rsum (m * 2) g = rsum m (fun k => g (2 * k)%nat + g (2 * k + 1)%nat).
Proof.
  induction m as [|m IH]; intros g; [reflexivity|]. replace (S m * 2)%nat with (S (S (m * 2))) by lia. rewrite !rsum_S, IH.
  replace (m * 2)%nat with (2 * m)%nat by lia. replace (S (2 * m)) with (2 * m + 1)%nat by lia. cbn [sadd ops_R]. ring.
Qed.
Definition view_sq (x : nat -> R) (v : view R) : R :=
  rsum 4 (fun j => tri_row_x v j * x j) * rsum 4 (fun j => tri_row_x v j * x j) + rsum 4 (fun j => tri_row_y v j * x j) * rsum 4 (fun j => tri_row_y v j * x j).
Lemma rsum_nth : forall (vs : list (view R)) (g : nat -> R) (f : view R -> R), (forall k v, nth_error vs k = Some v -> g k = f v) -> rsum (length vs) g = fold_right (fun v a => f v + a) 0 vs.
Proof.
  induction vs as [|v vs IH]; intros g f H; [reflexivity|]. cbn [length fold_right]. change (S (length vs)) with (1 + length vs)%nat. rewrite rsum_app.
  rewrite (IH _ f) by (intros k w E; apply (H (S k)); exact E). f_equal. rewrite rsum_S. cbn [ssum]. rewrite (H O v eq_refl). cbn. ring.
Qed.
Lemma image_fold : forall vs x, image_norm (tri_A vs) x = fold_right (fun v a => view_sq x v + a) 0 vs.
Proof.
  intros vs x. unfold image_norm. change (mr (tri_A vs)) with (length vs * 2)%nat. change (mc (tri_A vs)) with 4%nat. rewrite rsum_pairs. apply rsum_nth.
  intros k v E. pose proof (A_row_x vs k v x E) as A. pose proof (A_row_y vs k v x E) as B. unfold view_sq. cbn [smul ops_R] in *. rewrite A, B. reflexivity.
Qed.

(** ** Turned axes *)
Section Turn.
Context (u : quat R) (Hu : qunit u).
Definition turn4 (u : quat R) (x : nat -> R) : nat -> R := fun j => match j with 0 => v3x (qrot u (head x)) | 1 => v3y (qrot u (head x)) | 2 => v3z (qrot u (head x)) | _ => x j end%nat.
Lemma turn4_head : forall x, head (turn4 u x) = qrot u (head x).
Proof. intros x. unfold head at 1, turn4. destruct (qrot u (head x)). reflexivity. Qed.
Lemma cam_turned : forall q a, qunit q -> qrot (qinv (qmul u q)) (qrot u a) = qrot (qinv q) a.
Proof.
  intros q a Hq. rewrite (qinv_unit (qmul u q)) by (apply qmul_unit; assumption). rewrite (qinv_unit q Hq).
  replace (qconj (qmul u q)) with (qmul (qconj q) (qconj u)) by (destruct u, q; vunf; f_equal; rops; ring).
  rewrite qrot_mul by (apply qconj_unit; assumption). f_equal. rewrite <- qinv_unit by exact Hu. apply qrot_inv_l. exact Hu.
Qed.
Lemma view_sq_turned : forall q t n x, qunit q -> view_sq (turn4 u x) (qmul u q, qrot u t, n) = view_sq x (q, t, n).
Proof.
  intros q t n x Hq. unfold view_sq. rewrite !row_x_dot, !row_y_dot. rewrite turn4_head. change (turn4 u x 3%nat) with (x 3%nat).
  replace (v3sub (qrot u (head x)) (v3scale (qrot u t) (x 3%nat))) with (qrot u (v3sub (head x) (v3scale t (x 3%nat)))).
  - rewrite cam_turned by exact Hq. reflexivity.
  - destruct u, (head x), t. vunf. apply v3_ext; rops; ring.
Qed.
Lemma image_turned : forall vs x, Forall unit_view vs -> image_norm (tri_A (map (turned_view u) vs)) (turn4 u x) = image_norm (tri_A vs) x.
Proof.
  intros vs x H. rewrite !image_fold. induction H as [|[[q t] n] vs Hq _ IH]; [reflexivity|]. cbn [map fold_right]. rewrite IH. f_equal.
  apply view_sq_turned. exact Hq.
Qed.
Lemma norm4 : forall x, sq_norm 4 x = v3dot (head x) (head x) + x 3%nat * x 3%nat.
Proof. intros x. unfold sq_norm. rewrite !rsum_S. cbn [ssum]. unfold v3dot, head. cbn. ring. Qed.
Lemma norm_turned : forall x, sq_norm 4 (turn4 u x) = sq_norm 4 x.
Proof. intros x. rewrite !norm4, turn4_head, qrot_dot by exact Hu. reflexivity. Qed.
End Turn.
Lemma views_turned : forall u qs ps ns vs, views qs ps ns = Ok vs -> views (map (qmul u) qs) (map (qrot u) ps) ns = Ok (map (turned_view u) vs).
Proof.
  intros u. induction qs as [|q qs IH]; intros [|p ps] [|n ns] vs H; cbn [views map] in *; try discriminate H; try (injection H as <-; reflexivity).
  destruct (views qs ps ns) as [r|] eqn:E; [|discriminate H]. cbn [obind] in H. injection H as <-. rewrite (IH ps ns r E). reflexivity.
Qed.
Lemma turn4_back : forall u x j, qunit u -> (j < 4)%nat -> turn4 u (turn4 (qconj u) x) j = x j.
Proof.
  intros u x j Hu Hj. assert (E : qrot u (head (turn4 (qconj u) x)) = head x).
  { rewrite turn4_head. rewrite <- qinv_unit by exact Hu. apply qrot_inv_r. exact Hu. }
  destruct j as [|[|[|[|]]]]; try lia; unfold turn4 at 1; rewrite ?E; reflexivity.
Qed.
Lemma image_ext : forall m x y, (forall j, (j < mc m)%nat -> x j = y j) -> image_norm m x = image_norm m y.
Proof.
  intros m x y H. unfold image_norm. apply rsum_ext. intros i _. assert (E : rsum (mc m) (fun j => me m i j * x j) = rsum (mc m) (fun j => me m i j * y j)) by (apply rsum_ext; intros j Hj; rewrite H by exact Hj; reflexivity).
  cbn [smul ops_R] in *. rewrite E. reflexivity.
Qed.
Theorem tri_turned : forall u svd1 svd2 qs ps ns vs p0 b p, qunit u -> views qs ps ns = Ok vs -> Forall unit_view vs ->
  smallest_singular (tri_A vs) (svd1 (tri_A vs)) -> smallest_singular (tri_A (map (turned_view u) vs)) (svd2 (tri_A (map (turned_view u) vs))) ->
  one_direction (tri_A vs) -> tri_analytic svd1 qs ps ns p0 = Ok (b, p) ->
  tri_analytic svd2 (map (qmul u) qs) (map (qrot u) ps) ns (qrot u p0) = Ok (b, qrot u p).
Proof.
  intros u svd1 svd2 qs ps ns vs p0 b p Hu Hv Uv S1 S2 One E. unfold tri_analytic in *. rewrite map_length.
  destruct (Nat.ltb (length qs) 2); [injection E as <- <-; reflexivity|]. rewrite (views_turned u qs ps ns vs Hv). rewrite Hv in E. cbn [obind] in *.
  set (x := svd1 (tri_A vs)) in *. set (y := svd2 (tri_A (map (turned_view u) vs))) in *. pose proof (qconj_unit u Hu) as Hc.
  assert (Sy : smallest_singular (tri_A vs) (turn4 (qconj u) y)).
  { destruct S2 as [Ny My]. change (mc (tri_A (map (turned_view u) vs))) with 4%nat in *. split; change (mc (tri_A vs)) with 4%nat.
    - rewrite norm_turned by exact Hc. exact Ny.
    - intros z Nz. rewrite <- (image_turned u Hu vs) by exact Uv. rewrite <- (image_turned u Hu vs z) by exact Uv.
      rewrite (image_ext _ (turn4 u (turn4 (qconj u) y)) y) by (intros j Hj; apply turn4_back; [exact Hu|exact Hj]). apply My. rewrite norm_turned by exact Hu. exact Nz. }
  assert (Sg : exists e, (e = 1 \/ e = -1) /\ head y = v3scale (qrot u (head x)) e /\ y 3%nat = x 3%nat * e).
  { assert (Hy : head y = qrot u (head (turn4 (qconj u) y))).
    { rewrite turn4_head, <- qinv_unit by exact Hu. symmetry. apply qrot_inv_r. exact Hu. }
    change (y 3%nat) with (turn4 (qconj u) y 3%nat). rewrite Hy. destruct (One x (turn4 (qconj u) y) S1 Sy) as [G|G]; change (mc (tri_A vs)) with 4%nat in G.
    - exists 1. split; [left; reflexivity|]. split; [|rewrite G by lia; ring]. replace (head (turn4 (qconj u) y)) with (head x); [destruct (qrot u (head x)); vring|].
      unfold head. rewrite !G by lia. reflexivity.
    - exists (-1). split; [right; reflexivity|]. split; [|rewrite G by lia; ring]. replace (head (turn4 (qconj u) y)) with (v3scale (head x) (-1)); [apply (qrot_scale u)|].
      unfold head. rewrite !G by lia. vring. }
  destruct Sg as (e & He & Eh & E3).
  assert (Ea : sabs (y 3%nat) = sabs (x 3%nat)).
  { rewrite E3. cbn [sabs ops_R]. destruct He as [-> | ->]; [f_equal; ring|]. replace (x 3%nat * -1) with (- x 3%nat) by ring. apply Rabs_Ropp. }
  rewrite Ea. destruct (slt64 (sabs (x 3%nat)) d1em6) eqn:Es; [injection E as <- <-; reflexivity|].
  assert (X3 : x 3%nat <> 0).
  { intros H0. rewrite H0 in Es. assert (T : slt64 (sabs (0 : R)) d1em6 = true). { apply slt64_R. cbn [sabs ops_R]. rewrite Rabs_R0, d1em6_val. lra. } rewrite T in Es. discriminate. }
  assert (Ep : v3div (V3 (y 0%nat) (y 1%nat) (y 2%nat)) (y 3%nat) = qrot u (v3div (V3 (x 0%nat) (x 1%nat) (x 2%nat)) (x 3%nat))).
  { change (V3 (y 0%nat) (y 1%nat) (y 2%nat)) with (head y). change (V3 (x 0%nat) (x 1%nat) (x 2%nat)) with (head x). rewrite Eh, E3.
    assert (e0 : e <> 0) by (destruct He; lra). generalize (x 3%nat) X3. intros w Hw. destruct u, (head x). vunf. apply v3_ext; rops; field; auto. }
  rewrite Ep. clear Ep. set (pp := v3div _ _) in *. clearbody pp.
  assert (Ee : existsb (fun v => sltb (v3z (tri_pc (qrot u pp) v)) s0) (map (turned_view u) vs) = existsb (fun v => sltb (v3z (tri_pc pp v)) s0) vs).
  { clear - Uv Hu. induction Uv as [|[[q t] n] vs Hq _ IH]; [reflexivity|]. cbn [map existsb]. rewrite IH. f_equal. unfold tri_pc, turned_view.
    replace (v3sub (qrot u pp) (qrot u t)) with (qrot u (v3sub pp t)) by (destruct u, pp, t; vunf; apply v3_ext; rops; ring).
    rewrite cam_turned by assumption. reflexivity. }
  rewrite Ee. destruct (existsb _ vs); injection E as <- <-; reflexivity.
Qed.

(** ** A shift of the origin *)
Definition sh_q : list (quat R) := [qid; qid; qid; qid].
Definition sh_p : list (v3 R) := [V3 (-1) 0 0; V3 (-1) 0 0; V3 1 0 0; V3 1 0 0].
Definition sh_n : list (v2 R) := [V2 (7 / 5) 0; V2 (1 / 5) 0; V2 (-1 / 5) 0; V2 (-7 / 5) 0].
Definition sh_v (t : R) : list (view R) := [(qid, V3 (t - 1) 0 0, V2 (7 / 5) 0); (qid, V3 (t - 1) 0 0, V2 (1 / 5) 0); (qid, V3 (t + 1) 0 0, V2 (-1 / 5) 0); (qid, V3 (t + 1) 0 0, V2 (-7 / 5) 0)].
Lemma sh_sq : forall c a x, view_sq x (qid, V3 c 0 0, V2 a 0) = (a * x 2%nat - (x 0%nat - c * x 3%nat)) ^ 2 + x 1%nat ^ 2.
Proof.
  intros c a x. unfold view_sq. rewrite row_x_dot, row_y_dot, (qinv_unit qid qid_unit). replace (qconj (qid (T := R))) with (qid (T := R)) by (vunf; f_equal; rops; ring).
  rewrite qrot_id. unfold head. vunf. rops. ring.
Qed.
Lemma sh_image : forall t x, image_norm (tri_A (sh_v t)) x = 4 * (x 0%nat - t * x 3%nat) ^ 2 + 4 * x 1%nat ^ 2 + 4 * x 2%nat ^ 2 - 32 / 5 * (x 2%nat * x 3%nat) + 4 * x 3%nat ^ 2.
Proof. intros t x. rewrite image_fold. unfold sh_v. cbn [fold_right]. rewrite !sh_sq. field. Qed.
Lemma sq4 : forall x, sq_norm 4 x = x 0%nat ^ 2 + x 1%nat ^ 2 + x 2%nat ^ 2 + x 3%nat ^ 2.
Proof. intros x. unfold sq_norm. rewrite !rsum_S. cbn [ssum]. cbn. ring. Qed.

(** With unit norm the misfit is least where z = w and x = y = 0. *)
Lemma sh_min : forall x, sq_norm 4 x = 1 -> 4 / 5 <= image_norm (tri_A (sh_v 0)) x.
Proof. intros x H. rewrite sq4 in H. rewrite sh_image. pose proof (pow2_ge_0 (x 2%nat - x 3%nat)). pose proof (pow2_ge_0 (x 0%nat)). pose proof (pow2_ge_0 (x 1%nat)). nra. Qed.
Lemma sh_small : forall x, smallest_singular (tri_A (sh_v 0)) x -> x 0%nat = 0 /\ x 1%nat = 0 /\ x 2%nat = x 3%nat /\ x 3%nat ^ 2 = 1 / 2.
Proof.
  intros x [N M]. change (mc (tri_A (sh_v 0))) with 4%nat in *.
  assert (S2 : sqrt (1 / 2) * sqrt (1 / 2) = 1 / 2) by (apply sqrt_sqrt; lra).
  pose proof (M (fun j => match j with 2%nat | 3%nat => sqrt (1 / 2) | _ => 0 end)) as B. rewrite sq4 in B, N. specialize (B ltac:(cbn [pow]; lra)).
  rewrite !sh_image in B. assert (E : (sqrt (1 / 2)) ^ 2 = 1 / 2) by (cbn [pow]; lra). cbv beta iota in B. rewrite E, S2 in B.
  pose proof (pow2_ge_0 (x 2%nat - x 3%nat)) as Q. pose proof (pow2_ge_0 (x 0%nat)) as Q0. pose proof (pow2_ge_0 (x 1%nat)) as Q1.
  assert (A0 : x 0%nat ^ 2 = 0) by nra. assert (A1 : x 1%nat ^ 2 = 0) by nra. assert (A2 : (x 2%nat - x 3%nat) ^ 2 = 0) by nra.
  assert (Z : forall a, a ^ 2 = 0 -> a = 0) by (intros a Ha; nra). apply Z in A0, A1, A2. repeat split; try assumption; nra.
Qed.
Lemma sh_one : one_direction (tri_A (sh_v 0)).
Proof.
  intros x y Hx Hy. destruct (sh_small x Hx) as (A0 & A1 & A2 & A3). destruct (sh_small y Hy) as (B0 & B1 & B2 & B3). change (mc (tri_A (sh_v 0))) with 4%nat.
  assert (D : (y 3%nat - x 3%nat) * (y 3%nat + x 3%nat) = 0) by nra. apply Rmult_integral in D as [D|D]; [left|right]; intros [|[|[|[|j]]]] Hj; try lia; lra.
Qed.
Lemma sh_answer : forall svd p0, exact_svd svd -> tri_analytic svd sh_q sh_p sh_n p0 = Ok (true, V3 0 0 1).
Proof.
  intros svd p0 Ex. assert (V0 : views sh_q sh_p sh_n = Ok (sh_v 0)).
  { unfold sh_q, sh_p, sh_n, sh_v. cbn [views obind]. replace (0 - 1) with (-1) by lra. replace (0 + 1) with 1 by lra. reflexivity. }
  unfold tri_analytic. change (Nat.ltb (length sh_q) 2) with false. cbv iota. rewrite V0. cbn [obind].
  destruct (sh_small _ (Ex (tri_A (sh_v 0)) eq_refl)) as (A0 & A1 & A2 & A3). set (x := svd (tri_A (sh_v 0))) in *.
  assert (X3 : x 3%nat <> 0) by (intros H0; rewrite H0 in A3; lra).
  destruct (slt64 (sabs (x 3%nat)) d1em6) eqn:Es.
  { exfalso. apply slt64_R in Es. rewrite d1em6_val in Es. cbn [sabs ops_R] in Es. rewrite <- (Rabs_R1) in A3.
    assert (Hb : Rabs (x 3%nat) < 1 / 10) by lra. pose proof (Rabs_pos (x 3%nat)) as Hp. rewrite <- (pow2_abs (x 3%nat)) in A3. rewrite Rabs_R1 in A3. nra. }
  assert (Ep : v3div (V3 (x 0%nat) (x 1%nat) (x 2%nat)) (x 3%nat) = V3 0 0 1) by (rewrite A0, A1, A2; vunf; apply v3_ext; rops; field; exact X3).
  rewrite Ep. replace (existsb _ (sh_v 0)) with false; [reflexivity|]. symmetry. unfold sh_v. cbn [existsb tri_pc].
  assert (G : forall c, sltb (v3z (qrot (qinv qid) (v3sub (V3 0 0 1) (V3 c 0 0)))) s0 = false).
  { intros c. rewrite (qinv_unit qid qid_unit). replace (qconj (qid (T := R))) with (qid (T := R)) by (vunf; f_equal; rops; ring). rewrite qrot_id.
    destruct (sltb _ _) eqn:El; [|reflexivity]. exfalso. apply sltb_R in El. revert El. vunf. rops. lra. }
  rewrite !G. reflexivity.
Qed.
Theorem shift_refuted : exists qs ps ns (o p : v3 R), List.Forall (fun q => qnorm2 q = 1) qs /\ (exists svd, exact_svd svd) /\
  forall svd p0, exact_svd svd -> tri_analytic svd qs ps ns p0 = Ok (true, p) /\ tri_analytic svd qs (map (fun t => v3add t o) ps) ns p0 <> Ok (true, v3add p o).
Proof.
  exists sh_q, sh_p, sh_n, (V3 1 0 0), (V3 0 0 1). split; [repeat constructor; apply qid_unit|]. split; [exists i_svd; intros m Hm; apply i_exact; rewrite Hm; lia|].
  intros svd p0 Ex.   assert (V1 : views sh_q (map (fun t => v3add t (V3 1 0 0)) sh_p) sh_n = Ok (sh_v 1)).
  { unfold sh_q, sh_p, sh_n, sh_v. cbn [views obind map]. vunf. rops. replace (-1 + 1) with (1 - 1) by lra. replace (0 + 0) with 0 by lra. reflexivity. }
  split.
  - apply sh_answer. exact Ex.
  - unfold tri_analytic. change (Nat.ltb (length sh_q) 2) with false. cbv iota. rewrite V1. cbn [obind].
    destruct (Ex (tri_A (sh_v 1)) eq_refl) as [N M]. change (mc (tri_A (sh_v 1))) with 4%nat in *. set (x := svd (tri_A (sh_v 1))) in *.
    destruct (slt64 (sabs (x 3%nat)) d1em6) eqn:Es; [discriminate|].
    assert (X3 : x 3%nat <> 0).
    { intros H0. rewrite H0 in Es. assert (T : slt64 (sabs (0 : R)) d1em6 = true). { apply slt64_R. cbn [sabs ops_R]. rewrite Rabs_R0, d1em6_val. lra. } rewrite T in Es. discriminate. }
    destruct (existsb _ (sh_v 1)); [discriminate|]. intros E. injection E as E0 E1 E2. revert E0 E1 E2. vunf. rops. intros E0 E1 E2.
    assert (F0 : x 0%nat = x 3%nat). { replace (x 0%nat) with (x 0%nat / x 3%nat * x 3%nat) by (field; exact X3). rewrite E0. ring. }
    assert (F1 : x 1%nat = 0). { replace (x 1%nat) with (x 1%nat / x 3%nat * x 3%nat) by (field; exact X3). rewrite E1. ring. }
    assert (F2 : x 2%nat = x 3%nat). { replace (x 2%nat) with (x 2%nat / x 3%nat * x 3%nat) by (field; exact X3). rewrite E2. ring. }
    pose proof (M (fun j => match j with 0%nat => 7 / 11 | 2%nat => 6 / 11 | 3%nat => 6 / 11 | _ => 0 end)) as B. rewrite sq4 in B, N. specialize (B ltac:(cbn [pow]; lra)).
    rewrite !sh_image in B. cbv beta iota in B. rewrite F0, F1, F2 in B, N. nra.
Qed.

Lemma sh_example : qunit (Quat (3 / 5) 0 (4 / 5) 0) /\ views sh_q sh_p sh_n = Ok (sh_v 0) /\ Forall unit_view (sh_v 0) /\
  smallest_singular (tri_A (sh_v 0)) (i_svd (tri_A (sh_v 0))) /\
  smallest_singular (tri_A (map (turned_view (Quat (3 / 5) 0 (4 / 5) 0)) (sh_v 0))) (i_svd (tri_A (map (turned_view (Quat (3 / 5) 0 (4 / 5) 0)) (sh_v 0)))) /\
  one_direction (tri_A (sh_v 0)) /\ tri_analytic i_svd sh_q sh_p sh_n v3zero = Ok (true, V3 0 0 1).
Proof.
  split; [unfold qunit; vunf; rops; lra|]. split.
  { unfold sh_q, sh_p, sh_n, sh_v. cbn [views obind]. replace (0 - 1) with (-1) by lra. replace (0 + 1) with 1 by lra. reflexivity. }
  split; [repeat constructor; apply qid_unit|]. split; [apply i_exact; cbn; lia|]. split; [apply i_exact; cbn; lia|]. split; [exact sh_one|].
  apply sh_answer. intros m Hm. apply i_exact. rewrite Hm. lia.
Qed.

(** ** Another unit of length *)
Definition sc_v : list (view R) := [(qid, V3 (-2) 0 0, V2 (7 / 5) 0); (qid, V3 (-2) 0 0, V2 (1 / 5) 0); (qid, V3 2 0 0, V2 (-1 / 5) 0); (qid, V3 2 0 0, V2 (-7 / 5) 0)].
Lemma sc_image : forall x, image_norm (tri_A sc_v) x = 4 * x 0%nat ^ 2 + 4 * x 1%nat ^ 2 + 4 * x 2%nat ^ 2 - 64 / 5 * (x 2%nat * x 3%nat) + 16 * x 3%nat ^ 2.
Proof. intros x. rewrite image_fold. unfold sc_v. cbn [fold_right]. rewrite !sh_sq. field. Qed.
Theorem scale_refuted : exists qs ps ns k (p : v3 R), 0 < k /\ List.Forall (fun q => qnorm2 q = 1) qs /\ (exists svd, exact_svd svd) /\
  forall svd p0, exact_svd svd -> tri_analytic svd qs ps ns p0 = Ok (true, p) /\ tri_analytic svd qs (map (fun t => v3scale t k) ps) ns p0 <> Ok (true, v3scale p k).
Proof.
  exists sh_q, sh_p, sh_n, 2, (V3 0 0 1). split; [lra|]. split; [repeat constructor; apply qid_unit|]. split; [exists i_svd; intros m Hm; apply i_exact; rewrite Hm; lia|].
  intros svd p0 Ex. assert (V1 : views sh_q (map (fun t => v3scale t 2) sh_p) sh_n = Ok sc_v).
  { unfold sh_q, sh_p, sh_n, sc_v. cbn [views obind map]. vunf. rops. replace (-1 * 2) with (-2) by lra. replace (0 * 2) with 0 by lra. replace (1 * 2) with 2 by lra. reflexivity. }
  split.
  - apply sh_answer. exact Ex.
  - unfold tri_analytic. change (Nat.ltb (length sh_q) 2) with false. cbv iota. rewrite V1. cbn [obind].
    destruct (Ex (tri_A sc_v) eq_refl) as [N M]. change (mc (tri_A sc_v)) with 4%nat in *. set (x := svd (tri_A sc_v)) in *.
    destruct (slt64 (sabs (x 3%nat)) d1em6) eqn:Es; [discriminate|].
    assert (X3 : x 3%nat <> 0).
    { intros H0. rewrite H0 in Es. assert (T : slt64 (sabs (0 : R)) d1em6 = true). { apply slt64_R. cbn [sabs ops_R]. rewrite Rabs_R0, d1em6_val. lra. } rewrite T in Es. discriminate. }
    destruct (existsb _ sc_v); [discriminate|]. intros E. injection E as E0 E1 E2. revert E0 E1 E2. vunf. rops. intros E0 E1 E2.
    assert (F0 : x 0%nat = 0). { replace (x 0%nat) with (x 0%nat / x 3%nat * x 3%nat) by (field; exact X3). rewrite E0. ring. }
    assert (F1 : x 1%nat = 0). { replace (x 1%nat) with (x 1%nat / x 3%nat * x 3%nat) by (field; exact X3). rewrite E1. ring. }
    assert (F2 : x 2%nat = 2 * x 3%nat). { replace (x 2%nat) with (x 2%nat / x 3%nat * x 3%nat) by (field; exact X3). rewrite E2. ring. }
    pose proof (M (fun j => match j with 2%nat => 12 / 13 | 3%nat => 5 / 13 | _ => 0 end)) as B. rewrite sq4 in B, N. specialize (B ltac:(cbn [pow]; lra)).
    rewrite !sc_image in B. cbv beta iota in B. rewrite F0, F1, F2 in B, N. nra.
Qed.
