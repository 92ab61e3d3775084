(** Triangulation: lemmas for C51-C53. *)
From Coq Require Import ZArith Reals Lra Lia Arith Bool List Psatz.
From Flocq Require Import Core BinarySingleNaN.
From Verif Require Import Fp Scalar Base LinAlg MathLib Triangulate MatFacts QuatFacts GeoSpec.
Import ListNotations.
Local Open Scope R_scope.

(** ** The linear system *)
Definition head (x : nat -> R) : v3 R := V3 (x 0%nat) (x 1%nat) (x 2%nat).
Definition hom (P : v3 R) (j : nat) : R := match j with 0%nat => v3x P | 1%nat => v3y P | 2%nat => v3z P | _ => 1 end.

Lemma row_x_dot : forall q t n x, rsum 4 (fun j => tri_row_x (q, t, n) j * x j) =
  v2x n * v3z (qrot (qinv q) (v3sub (head x) (v3scale t (x 3%nat)))) - v3x (qrot (qinv q) (v3sub (head x) (v3scale t (x 3%nat)))).
Proof.
  intros q [a b c] [u v] x. unfold tri_row_x, tri_pose. destruct (qinv q) as [w qx0 qy0 qz0]. unfold head.
  unfold transform_matrix, mat_of_m33, mat_of_v3, set_block, midn. cbn -[Rplus Rmult Rminus Ropp qmat qrot sadd ssub smul sopp s0 s1]. vunf. ring.
Qed.
Lemma row_y_dot : forall q t n x, rsum 4 (fun j => tri_row_y (q, t, n) j * x j) =
  v2y n * v3z (qrot (qinv q) (v3sub (head x) (v3scale t (x 3%nat)))) - v3y (qrot (qinv q) (v3sub (head x) (v3scale t (x 3%nat)))).
Proof.
  intros q [a b c] [u v] x. unfold tri_row_y, tri_pose. destruct (qinv q) as [w qx0 qy0 qz0]. unfold head.
  unfold transform_matrix, mat_of_m33, mat_of_v3, set_block, midn. cbn -[Rplus Rmult Rminus Ropp qmat qrot sadd ssub smul sopp s0 s1]. vunf. ring.
Qed.
Lemma A_row_x : forall vs k v x, nth_error vs k = Some v ->
  rsum 4 (fun j => me (tri_A vs) (2 * k) j * x j) = rsum 4 (fun j => tri_row_x v j * x j).
Proof.
  intros vs k v x H. apply rsum_ext. intros j _. unfold tri_A. cbn [me].
  replace (2 * k / 2)%nat with k by (rewrite Nat.mul_comm; symmetry; apply Nat.div_mul; lia). rewrite H.
  replace (Nat.even (2 * k)) with true; [reflexivity|]. rewrite Nat.even_mul. reflexivity.
Qed.
Lemma A_row_y : forall vs k v x, nth_error vs k = Some v ->
  rsum 4 (fun j => me (tri_A vs) (2 * k + 1) j * x j) = rsum 4 (fun j => tri_row_y v j * x j).
Proof.
  intros vs k v x H. apply rsum_ext. intros j _. unfold tri_A. cbn [me].
  replace ((2 * k + 1) / 2)%nat with k.
  2:{ rewrite Nat.mul_comm, Nat.div_add_l by lia. cbn. lia. }
  rewrite H. replace (Nat.even (2 * k + 1)) with false; [reflexivity|].
  rewrite Nat.even_add, Nat.even_mul. reflexivity.
Qed.
(** The rows of A are exactly these. *)
Lemma A_rows : forall vs i (P : nat -> Prop), (i < mr (tri_A (T := R) vs))%nat ->
  (forall k v, nth_error vs k = Some v -> i = (2 * k)%nat -> P i) ->
  (forall k v, nth_error vs k = Some v -> i = (2 * k + 1)%nat -> P i) -> P i.
Proof.
  intros vs i P Hi He Ho. cbn [mr tri_A] in Hi. pose proof (Nat.div_mod i 2 ltac:(lia)) as D.
  assert (Hk : (i / 2 < length vs)%nat) by (apply Nat.div_lt_upper_bound; lia).
  destruct (nth_error vs (i / 2)) as [v|] eqn:E; [|apply nth_error_None in E; lia].
  pose proof (Nat.mod_upper_bound i 2 ltac:(lia)). destruct (i mod 2)%nat as [|[|]] eqn:M; [| |lia].
  - apply (He _ v E). lia.
  - apply (Ho _ v E). lia.
Qed.

Definition kernel (m : mat R) (x : nat -> R) : Prop :=
  forall i, (i < mr m)%nat -> rsum (mc m) (fun j => me m i j * x j) = 0.

Lemma kernel_iff : forall vs x, kernel (tri_A vs) x <->
  (forall v, In v vs -> rsum 4 (fun j => tri_row_x v j * x j) = 0 /\ rsum 4 (fun j => tri_row_y v j * x j) = 0).
Proof.
  intros vs x. split.
  - intros H v Hv. apply In_nth_error in Hv as [k Hk]. assert (k < length vs)%nat by (apply nth_error_Some; congruence).
    split; [rewrite <- (A_row_x vs k v x Hk)|rewrite <- (A_row_y vs k v x Hk)]; apply (H _); cbn [mr tri_A]; lia.
  - intros H i Hi. cbn [mc tri_A]. revert Hi.
    intros Hi. apply (A_rows vs i (fun i => rsum 4 (fun j => me (tri_A vs) i j * x j) = 0) Hi).
    + intros k v Hk ->. rewrite (A_row_x vs k v x Hk). exact (proj1 (H v (nth_error_In _ _ Hk))).
    + intros k v Hk ->. rewrite (A_row_y vs k v x Hk). exact (proj2 (H v (nth_error_In _ _ Hk))).
Qed.

Lemma v3sub_add_l : forall a b : v3 R, v3sub (v3add a b) a = b.
Proof. intros [] []. vring. Qed.
Lemma v3scale_1 : forall a : v3 R, v3scale a 1 = a.
Proof. intros []. vring. Qed.
Lemma camera_of : forall q t P c, qunit q -> at_camera q t P c -> qrot (qinv q) (v3sub P t) = c.
Proof. intros q t P c Hq ->. rewrite v3sub_add_l. apply qrot_inv_l, Hq. Qed.

(** The true point is in the kernel. *)
Lemma true_point_kernel : forall vs P, Forall unit_view vs -> Forall (sees P) vs -> kernel (tri_A vs) (hom P).
Proof.
  intros vs P Hu Hs. apply kernel_iff. intros [[q t] n] Hv. rewrite Forall_forall in Hu, Hs. pose proof (Hu _ Hv) as Hq.
  destruct (Hs _ Hv) as (c & Hc & Hz & ->). cbn in Hq. rewrite row_x_dot, row_y_dot.
  replace (head (hom P)) with P by (destruct P; reflexivity).
  change (hom P 3%nat) with 1. rewrite v3scale_1, (camera_of _ _ _ _ Hq Hc). cbn [v2x v2y]. split; field; lra.
Qed.

(** A kernel vector with last component w gives, in each view, a point on the viewing ray. *)
Lemma kernel_on_ray : forall q t n x, qunit q ->
  rsum 4 (fun j => tri_row_x (q, t, n) j * x j) = 0 -> rsum 4 (fun j => tri_row_y (q, t, n) j * x j) = 0 ->
  exists z, v3sub (head x) (v3scale t (x 3%nat)) = v3scale (ray (q, t, n)) z.
Proof.
  intros q t n x Hq Hx Hy. rewrite row_x_dot in Hx. rewrite row_y_dot in Hy.
  set (d := v3sub (head x) (v3scale t (x 3%nat))) in *. exists (v3z (qrot (qinv q) d)).
  rewrite <- (qrot_inv_r q d Hq) at 1. unfold ray. rewrite <- qrot_scale. f_equal.
  destruct (qrot (qinv q) d) as [a b c]. destruct n as [u v]. unfold v3scale. cbn [v3x v3y v3z v2x v2y smul ops_R] in *.
  apply v3_ext; cbn [v3x v3y v3z]; lra.
Qed.
Lemma kernel_reprojects : forall vs x, kernel (tri_A vs) x -> x 3%nat <> 0 -> Forall unit_view vs ->
  forall q t n, In (q, t, n) vs -> exists c, at_camera q t (v3div (head x) (x 3%nat)) c /\ v3x c = v2x n * v3z c /\ v3y c = v2y n * v3z c.
Proof.
  intros vs x Hk Hw Hu q t n Hv. rewrite kernel_iff in Hk. destruct (Hk _ Hv) as [Hx Hy].
  rewrite Forall_forall in Hu. pose proof (Hu _ Hv) as Hq. cbn in Hq.
  rewrite row_x_dot in Hx. rewrite row_y_dot in Hy. set (w := x 3%nat) in *.
  exists (qrot (qinv q) (v3sub (v3div (head x) w) t)). split; [|].
  - unfold at_camera. rewrite (qrot_inv_r q _ Hq). destruct (head x), t. vunf. apply v3_ext; rops; ring.
  - replace (v3sub (v3div (head x) w) t) with (v3scale (v3sub (head x) (v3scale t w)) (/ w)).
    2:{ destruct (head x), t. vunf. apply v3_ext; rops; field; exact Hw. }
    rewrite qrot_scale. destruct (qrot (qinv q) _) as [a b c]. unfold v3scale. cbn [v3x v3y v3z v2x v2y smul ops_R] in *.
    split; [replace a with (v2x n * c) by lra|replace b with (v2y n * c) by lra]; ring.
Qed.

(** Two non-parallel rays leave only the true point. *)
Lemma cross_scale_l : forall a b k, v3cross (v3scale a k) b = v3scale (v3cross a b) k.
Proof. intros [] [] k. vring. Qed.
Lemma cross_self : forall a k : R, forall v, v3cross (v3scale v a) (v3scale v k) = v3zero.
Proof. intros a k []. vring. Qed.
Lemma scale_zero_inv : forall (a : v3 R) k, a <> v3zero -> v3scale a k = v3zero -> k = 0.
Proof.
  intros [x y z] k Ha H. unfold v3scale, v3zero in *. cbn [v3x v3y v3z smul s0 ops_R] in *. injection H as H1 H2 H3.
  destruct (Req_dec k 0) as [|Hk]; [assumption|]. exfalso. apply Ha.
  apply Rmult_integral in H1 as [->|]; [|contradiction]. apply Rmult_integral in H2 as [->|]; [|contradiction].
  apply Rmult_integral in H3 as [->|]; [|contradiction]. reflexivity.
Qed.
Lemma sees_on_ray : forall q t n P, qunit q -> sees P (q, t, n) -> exists s, v3sub P t = v3scale (ray (q, t, n)) s.
Proof.
  intros q t n P Hq (c & -> & Hz & ->). exists (v3z c). rewrite v3sub_add_l. unfold ray. rewrite <- qrot_scale. f_equal.
  destruct c as [a b c]. unfold v3scale. cbn [v3x v3y v3z v2x v2y smul ops_R] in *. apply v3_ext; cbn [v3x v3y v3z]; field; lra.
Qed.
Lemma kernel_unique : forall vs P x v1 v2, Forall unit_view vs -> Forall (sees P) vs -> kernel (tri_A vs) x ->
  In v1 vs -> In v2 vs -> v3cross (ray v1) (ray v2) <> v3zero -> head x = v3scale P (x 3%nat).
Proof.
  intros vs P x [[q1 t1] n1] [[q2 t2] n2] Hu Hs Hk H1 H2 Hc. rewrite kernel_iff in Hk.
  rewrite Forall_forall in Hu, Hs. pose proof (Hu _ H1) as U1. pose proof (Hu _ H2) as U2. cbn in U1, U2.
  destruct (sees_on_ray _ _ _ _ U1 (Hs _ H1)) as [s1 E1]. destruct (sees_on_ray _ _ _ _ U2 (Hs _ H2)) as [s2 E2].
  destruct (kernel_on_ray q1 t1 n1 x U1) as [z1 K1]; [apply (Hk _ H1)|apply (Hk _ H1)|].
  destruct (kernel_on_ray q2 t2 n2 x U2) as [z2 K2]; [apply (Hk _ H2)|apply (Hk _ H2)|].
  set (w := x 3%nat) in *. set (d1 := ray (q1, t1, n1)) in *. set (d2 := ray (q2, t2, n2)) in *.
  assert (F1 : v3sub (head x) (v3scale P w) = v3scale d1 (z1 - w * s1)).
  { replace (v3sub (head x) (v3scale P w)) with (v3sub (v3sub (head x) (v3scale t1 w)) (v3scale (v3sub P t1) w)).
    2:{ destruct (head x), P, t1. vring. }
    rewrite K1, E1. destruct d1. vring. }
  assert (F2 : v3sub (head x) (v3scale P w) = v3scale d2 (z2 - w * s2)).
  { replace (v3sub (head x) (v3scale P w)) with (v3sub (v3sub (head x) (v3scale t2 w)) (v3scale (v3sub P t2) w)).
    2:{ destruct (head x), P, t2. vring. }
    rewrite K2, E2. destruct d2. vring. }
  assert (Z : v3scale (v3cross d1 d2) (z1 - w * s1) = v3zero).
  { rewrite <- cross_scale_l, <- F1, F2. rewrite <- (v3scale_1 d2) at 2. apply cross_self. }
  apply scale_zero_inv in Z; [|exact Hc]. rewrite Z in F1.
  destruct (head x), P, d1. vunf. injection F1 as G1 G2 G3. apply v3_ext; rops; lra.
Qed.

(** A smallest right singular vector of a matrix with a kernel is in the kernel. *)
Lemma sq_norm_pos : forall n x, 0 <= sq_norm n x.
Proof. intros. apply rsum_nonneg. intros. cbn. nra. Qed.
Lemma image_norm_pos : forall m x, 0 <= image_norm m x.
Proof. intros. apply rsum_nonneg. intros. cbn. nra. Qed.
Lemma image_norm_kernel : forall m x, image_norm m x = 0 <-> kernel m x.
Proof.
  intros m x. split.
  - intros H i Hi. unfold image_norm in H.
    pose proof (rsum_pos_0 (mr m) _ (fun i _ => Rle_0_sqr (rsum (mc m) (fun j => me m i j * x j))) H i Hi) as E.
    apply Rmult_integral in E as [E|E]; exact E.
  - intros H. apply rsum_0. intros i Hi. unfold kernel in H. rewrite (H i Hi). cbn. ring.
Qed.
Lemma singular_kernel : forall m x y, smallest_singular m x -> kernel m y -> 0 < sq_norm (mc m) y -> kernel m x.
Proof.
  intros m x y [_ Hx] Hy Hn. apply image_norm_kernel. apply Rle_antisym; [|apply image_norm_pos].
  set (N := sqrt (sq_norm (mc m) y)). assert (HN : 0 < N) by (apply sqrt_lt_R0, Hn).
  replace 0 with (image_norm m (fun j => y j / N)).
  - apply Hx. unfold sq_norm. rewrite (rsum_ext _ _ (fun i => / (N * N) * (y i * y i))).
    + rewrite rsum_scal_l. change (rsum (mc m) (fun i => y i * y i)) with (sq_norm (mc m) y).
      unfold N. rewrite sqrt_sqrt by lra. field. lra.
    + intros i _. cbn. field. lra.
  - apply image_norm_kernel. intros i Hi. rewrite (rsum_ext _ _ (fun j => / N * (me m i j * y j))).
    + rewrite rsum_scal_l. unfold kernel in Hy. rewrite (Hy i Hi). ring.
    + intros j _. cbn. field. lra.
Qed.

(** ** TrianglateAnalytic *)
Lemma views_length : forall {T} (qs : list (quat T)) ps ns vs, views qs ps ns = Ok vs -> length vs = length qs.
Proof.
  intros T. induction qs as [|q qs IH]; intros [|p ps] [|n ns] vs H; cbn in H; try discriminate; try (injection H as <-; reflexivity).
  destruct (views qs ps ns) as [r|] eqn:E; cbn in H; [|discriminate]. injection H as <-. cbn. f_equal. eapply IH; eauto.
Qed.
Lemma d1em6_val : B2R d1em6 = 4722366482869645 / 4722366482869645213696.
Proof.
  unfold d1em6. rewrite <- SF2R_B2SF. let y := eval vm_compute in (B2SF f64_1e_6) in
  replace (B2SF f64_1e_6) with y by (vm_compute; reflexivity). unfold SF2R, F2R. cbn. lra.
Qed.
Lemma slt64_R : forall x c, slt64 (x : R) c = true <-> x < B2R c.
Proof. intros x c. cbn. unfold Rltb. destruct (Rlt_dec _ _); intuition discriminate. Qed.
Lemma tri_analytic_exact : forall svd qs ps ns vs P p0 v1 v2, views qs ps ns = Ok vs ->
  Forall unit_view vs -> Forall (sees P) vs -> In v1 vs -> In v2 vs -> v3cross (ray v1) (ray v2) <> v3zero ->
  v3dot P P <= 999999 * 999999 -> smallest_singular (tri_A vs) (svd (tri_A vs)) ->
  tri_analytic svd qs ps ns p0 = Ok (true, P).
Proof.
  intros svd qs ps ns vs P p0 v1 v2 Hv Hu Hs H1 H2 Hc Hb Hsvd. unfold tri_analytic.
  assert (HL : (2 <= length vs)%nat).
  { destruct vs as [|a [|b r]]; [destruct H1| |cbn; lia]. destruct H1 as [<-|[]]. destruct H2 as [<-|[]].
    exfalso. apply Hc. rewrite <- (v3scale_1 (ray a)). apply cross_self. }
  rewrite (views_length _ _ _ _ Hv) in HL. replace (Nat.ltb (length qs) 2) with false by (symmetry; apply Nat.ltb_ge; exact HL).
  rewrite Hv. cbn [obind]. set (x := svd (tri_A vs)) in *.
  assert (Hker : kernel (tri_A vs) x).
  { apply (singular_kernel _ _ (hom P) Hsvd); [apply true_point_kernel; assumption|]. cbn. pose proof (v3dot_nonneg P). clear - H. destruct P. vunf. nra. }
  pose proof (kernel_unique vs P x v1 v2 Hu Hs Hker H1 H2 Hc) as E. destruct Hsvd as [Hn _]. cbn [mc tri_A] in Hn.
  set (w := x 3%nat) in *.
  assert (Hw : w * w * (v3dot P P + 1) = 1).
  { transitivity (sq_norm 4 x); [|exact Hn]. unfold sq_norm, head in *. unfold rsum. cbn [ssum]. destruct P as [a b c]. unfold v3scale in E. cbn [v3x v3y v3z] in E.
    injection E as E1 E2 E3. cbn in E1, E2, E3. rewrite E1, E2, E3. fold w. clearbody w. clear. vunf. ring. }
  pose proof (v3dot_nonneg P) as HP. assert (Hw0 : w <> 0) by (intros E0; rewrite E0 in Hw; lra).
  assert (Hlt : slt64 (sabs w) d1em6 = false).
  { apply not_true_iff_false. intros Hlt. apply slt64_R in Hlt. rewrite d1em6_val in Hlt. cbn [sabs ops_R] in Hlt.
    assert (Ha : Rabs w * Rabs w = w * w) by (rewrite <- Rabs_mult; apply Rabs_pos_eq; nra). pose proof (Rabs_pos w).
    set (r := Rabs w) in *. set (D := v3dot P P) in *. 
    assert (r * r < / 1000000 * / 1000000) by (assert (r < / 1000000) by lra; nra).
    assert (w * w * (D + 1) < 1); [|lra]. rewrite <- Ha. 
    assert (r * r * (D + 1) <= r * r * (999999 * 999999 + 1)) by (apply Rmult_le_compat_l; nra). lra. }
  rewrite Hlt.
  replace (v3div (V3 (x 0%nat) (x 1%nat) (x 2%nat)) w) with P.
  2:{ change (V3 (x 0%nat) (x 1%nat) (x 2%nat)) with (head x). rewrite E. destruct P. vunf. apply v3_ext; rops; field; exact Hw0. }
  replace (existsb _ vs) with false; [reflexivity|]. symmetry. apply not_true_iff_false. intros Hex. apply existsb_exists in Hex as ([[q t] n] & Hin & Hz).
  rewrite Forall_forall in Hu, Hs. pose proof (Hu _ Hin) as Hq. cbn in Hq. destruct (Hs _ Hin) as (c & Hc' & Hzc & _).
  unfold tri_pc in Hz. rewrite (camera_of _ _ _ _ Hq Hc') in Hz. apply sltb_R in Hz. cbn in Hz. lra.
Qed.

(** What success means, for any decomposition. *)
Lemma tri_analytic_success : forall svd qs ps ns p0 p, tri_analytic svd qs ps ns p0 = Ok (true, p) ->
  exists vs, views qs ps ns = Ok vs /\ (2 <= length qs)%nat /\
    let x := svd (tri_A vs) in B2R d1em6 <= Rabs (x 3%nat) /\ v3scale p (x 3%nat) = head x /\
    forall q t n, In (q, t, n) vs -> 0 <= v3z (qrot (qinv q) (v3sub p t)).
Proof.
  intros svd qs ps ns p0 p H. unfold tri_analytic in H. destruct (Nat.ltb (length qs) 2) eqn:L; [discriminate|].
  apply Nat.ltb_ge in L. destruct (views qs ps ns) as [vs|] eqn:V; cbn [obind] in H; [|discriminate]. exists vs. split; [reflexivity|].
  split; [exact L|]. cbn zeta in *. destruct (slt64 _ d1em6) eqn:E; [discriminate|].
  assert (Hx : B2R d1em6 <= Rabs (svd (tri_A vs) 3%nat)).
  { apply Rnot_lt_le. intros C. apply not_true_iff_false in E. apply E. apply slt64_R. exact C. }
  destruct (existsb _ vs) eqn:X; [discriminate|]. injection H as <-. split; [exact Hx|].
  assert (svd (tri_A vs) 3%nat <> 0) by (intros C; rewrite C, Rabs_R0, d1em6_val in Hx; lra). split.
  - unfold head. vunf. apply v3_ext; rops; field; assumption.
  - intros q t n Hin. apply Rnot_lt_le. intros C. apply not_true_iff_false in X. apply X. apply existsb_exists.
    exists (q, t, n). split; [exact Hin|]. apply sltb_R. exact C.
Qed.

(** ** The Levenberg-Marquardt loops *)
Section Lm.
Context {T : Type} {SO : SOps T}.
Variable ldlt : m33 T -> v3 T -> v3 T.

Lemma lm_body_calls : forall cw A b s, lm_calls (lm_body ldlt cw A b s) = S (lm_calls s).
Proof. intros. unfold lm_body. destruct (sltb _ _); reflexivity. Qed.
Lemma lm_inner_terminates : forall cw A b n cntr s, (cntr + n = 10)%nat ->
  exists s', (forall fuel, (S n <= fuel)%nat -> lm_inner fuel ldlt cw A b cntr s = Some s') /\
    (lm_calls s + 1 <= lm_calls s' <= lm_calls s + S n)%nat.
Proof.
  intros cw A b. induction n as [|n IH]; intros cntr s Hn.
  - exists (lm_body ldlt cw A b s). split; [|rewrite lm_body_calls; lia]. intros [|f] Hf; [lia|]. cbn [lm_inner].
    replace (Nat.ltb cntr 10) with false by (symmetry; apply Nat.ltb_ge; lia). reflexivity.
  - destruct (lm_reduced (lm_body ldlt cw A b s)) eqn:R.
    + exists (lm_body ldlt cw A b s). split; [|rewrite lm_body_calls; lia]. intros [|f] Hf; [lia|]. cbn [lm_inner]. rewrite R, andb_false_r. reflexivity.
    + destruct (IH (S cntr) (lm_body ldlt cw A b s) ltac:(lia)) as (s' & H1 & H2). exists s'. rewrite lm_body_calls in H2. split; [|lia].
      intros [|f] Hf; [lia|]. cbn [lm_inner]. rewrite R. replace (Nat.ltb cntr 10) with true by (symmetry; apply Nat.ltb_lt; lia).
      cbn [andb negb]. apply H1. lia.
Qed.
Lemma lm_outer_terminates : forall cw n cntr s, (cntr + n = 10)%nat ->
  exists s', (forall fuel fi, (S n <= fuel)%nat -> (11 <= fi)%nat -> lm_outer fuel fi ldlt cw cntr s = Some s') /\
    (lm_calls s + 1 <= lm_calls s' <= lm_calls s + 11 * S n)%nat.
Proof.
  intros cw. induction n as [|n IH]; intros cntr s Hn; destruct (tri_normal cw (lm_sol s)) as [A b] eqn:N;
    destruct (lm_inner_terminates cw A b 10 0 s ltac:(lia)) as (s1 & E1 & C1).
  - exists s1. split; [|lia]. intros [|f] fi Hf Hi; [lia|]. cbn [lm_outer]. rewrite N, E1 by lia.
    replace (Nat.ltb cntr 10) with false by (symmetry; apply Nat.ltb_ge; lia). reflexivity.
  - destruct (sgt64 (lm_dnorm s1) d5em7) eqn:D.
    + destruct (IH (S cntr) s1 ltac:(lia)) as (s' & H1 & H2). exists s'. split; [|lia].
      intros [|f] fi Hf Hi; [lia|]. cbn [lm_outer]. rewrite N, E1, D by lia.
      replace (Nat.ltb cntr 10) with true by (symmetry; apply Nat.ltb_lt; lia). cbn [andb]. apply H1; lia.
    + exists s1. split; [|lia]. intros [|f] fi Hf Hi; [lia|]. cbn [lm_outer]. rewrite N, E1, D, andb_false_r by lia. reflexivity.
Qed.
Lemma tri_iterative_terminates : forall qs ps ns vs p0, views qs ps ns = Ok vs ->
  exists p calls, (1 <= calls <= 11 * 11)%nat /\
    forall fuel, (11 <= fuel)%nat -> tri_iterative fuel ldlt qs ps ns p0 = Ok (Some (true, p, calls)).
Proof.
  intros qs ps ns vs p0 H. unfold tri_iterative. rewrite H. cbn [obind].
  destruct (lm_outer_terminates (map tri_cw vs) 10 0
    (Lm (inv_depth p0) p0 lambda0 (tri_cost (map tri_cw vs) p0) s0 false 0) ltac:(lia)) as (s' & E & C).
  exists (inv_depth (lm_sol s')), (lm_calls s'). cbn [lm_calls] in C. split; [lia|]. intros fuel Hf. rewrite E by lia. reflexivity.
Qed.

(** Either no step was accepted, or the cost went strictly down. *)
Definition lm_inv (cw : list (view T)) (p0 : v3 T) (s : lm T) : Prop :=
  (lm_sol s = inv_depth p0 /\ lm_cost s = tri_cost cw p0) \/
  (lm_cost s = tri_cost cw (inv_depth (lm_sol s)) /\ sltb (lm_cost s) (tri_cost cw p0) = true).
Variable trans : forall a b c : T, sltb a b = true -> sltb b c = true -> sltb a c = true.
Lemma lm_body_inv : forall cw p0 A b s, lm_inv cw p0 s -> lm_inv cw p0 (lm_body ldlt cw A b s).
Proof using trans.
  intros cw p0 A b s H. unfold lm_body. destruct (sltb (tri_cost cw (inv_depth _)) (lm_cost s)) eqn:E.
  - right. cbn [lm_sol lm_cost]. split; [reflexivity|]. destruct H as [[_ H]|[_ H]]; [rewrite <- H; exact E|eapply trans; eauto].
  - exact H.
Qed.
Lemma lm_inner_inv : forall cw p0 A b fuel cntr s s', lm_inv cw p0 s -> lm_inner fuel ldlt cw A b cntr s = Some s' -> lm_inv cw p0 s'.
Proof using trans.
  intros cw p0 A b. induction fuel as [|f IH]; intros cntr s s' H E; [discriminate|]. cbn [lm_inner] in E.
  destruct (Nat.ltb cntr 10 && _)%bool.
  - eapply IH; [|exact E]. apply lm_body_inv, H.
  - injection E as <-. apply lm_body_inv, H.
Qed.
Lemma lm_outer_inv : forall cw p0 fi fuel cntr s s', lm_inv cw p0 s -> lm_outer fuel fi ldlt cw cntr s = Some s' -> lm_inv cw p0 s'.
Proof using trans.
  intros cw p0 fi. induction fuel as [|f IH]; intros cntr s s' H E; [discriminate|]. cbn [lm_outer] in E.
  destruct (tri_normal cw (lm_sol s)) as [A b]. destruct (lm_inner fi ldlt cw A b 0 s) as [s1|] eqn:E1; [|discriminate].
  pose proof (lm_inner_inv _ _ _ _ _ _ _ _ H E1) as H1. destruct (Nat.ltb cntr 10 && _)%bool.
  - eapply IH; eauto.
  - injection E as <-. exact H1.
Qed.
Lemma tri_iterative_cost : forall qs ps ns vs p0 fuel ok p calls, views qs ps ns = Ok vs ->
  tri_iterative fuel ldlt qs ps ns p0 = Ok (Some (ok, p, calls)) ->
  ok = true /\ (p = inv_depth (inv_depth p0) \/ sltb (tri_cost (map tri_cw vs) p) (tri_cost (map tri_cw vs) p0) = true).
Proof using trans.
  intros qs ps ns vs p0 fuel ok p calls H E. unfold tri_iterative in E. rewrite H in E. cbn [obind] in E.
  destruct (lm_outer _ _ _ _ _ _) as [s|] eqn:L; [|discriminate]. injection E as <- <- <-. split; [reflexivity|].
  apply (lm_outer_inv _ p0) in L; [|left; split; reflexivity]. destruct L as [[L _]|[L1 L2]].
  - left. rewrite L. reflexivity.
  - right. rewrite <- L1. exact L2.
Qed.
End Lm.

Lemma sltb_R_trans : forall a b c : R, sltb a b = true -> sltb b c = true -> sltb a c = true.
Proof. intros a b c. rewrite !sltb_R. lra. Qed.
Lemma inv_depth_twice : forall p : v3 R, v3z p <> 0 -> inv_depth (inv_depth p) = p.
Proof. intros [x y z] H. cbn [v3z] in H. unfold inv_depth. vunf. apply v3_ext; rops; field; lra. Qed.
Lemma qrot_opp : forall (q : quat R) v, qrot q (v3opp v) = v3opp (qrot q v).
Proof. intros [] []. vring. Qed.
Lemma tri_cost_acc : forall (cw : list (view R)) p acc,
  fold_left (fun acc v => let '(q, t, n) := v in sadd acc (tri_residual q t p n)) cw acc =
  acc + fold_right (fun v r => let '(q, t, n) := v in tri_residual q t p n + r) 0 cw.
Proof.
  induction cw as [|[[q t] n] cw IH]; intros p acc; cbn [fold_left fold_right]; [ring|]. rewrite IH. cbn. ring.
Qed.
Lemma tri_cost_spec : forall vs p, Forall unit_view vs -> tri_cost (map tri_cw vs) p = reproj_cost vs p.
Proof.
  intros vs p Hu. unfold tri_cost. rewrite tri_cost_acc. cbn [s0 ops_R]. rewrite Rplus_0_l.
  induction Hu as [|[[q t] n] vs Hq Hu IH]; [reflexivity|]. cbn [map fold_right tri_cw reproj_cost]. rewrite IH. f_equal.
  cbn in Hq. rewrite (qinv_unit q Hq). unfold tri_residual, reproj_err. rewrite qrot_opp.
  replace (v3add (qrot (qconj q) p) (v3opp (qrot (qconj q) t))) with (qrot (qconj q) (v3sub p t)).
  - reflexivity.
  - destruct q, p, t. vring.
Qed.
Lemma tri_iterative_cost_R : forall ldlt qs ps ns vs p0 fuel ok p calls, views qs ps ns = Ok vs -> Forall unit_view vs -> v3z p0 <> 0 ->
  tri_iterative fuel ldlt qs ps ns p0 = Ok (Some (ok, p, calls)) ->
  ok = true /\ (p = p0 \/ reproj_cost vs p < reproj_cost vs p0).
Proof.
  intros ldlt qs ps ns vs p0 fuel ok p calls Hv Hu Hz H.
  destruct (tri_iterative_cost ldlt sltb_R_trans _ _ _ _ _ _ _ _ _ Hv H) as [Hok Hc]. split; [exact Hok|].
  rewrite inv_depth_twice in Hc by exact Hz. destruct Hc as [Hc|Hc]; [left; exact Hc|right].
  rewrite !tri_cost_spec in Hc by exact Hu. apply sltb_R in Hc. exact Hc.
Qed.

(** The same in float arithmetic, for the cost the code computes. *)
Lemma f32_ltb_trans : forall a b c : f32, f32_ltb a b = true -> f32_ltb b c = true -> f32_ltb a c = true.
Proof.
  intros a b c H1 H2. 
  assert (FF : forall x y : f32, is_finite x = true -> is_finite y = true -> f32_ltb x y = true <-> B2R x < B2R y).
  { intros x y Fx Fy. unfold f32_ltb. rewrite Bltb_correct by assumption. apply iff_sym, (reflect_iff _ _ (Rlt_bool_spec _ _)) || idtac.
    destruct (Rlt_bool_spec (B2R x) (B2R y)); split; intros; try discriminate; try reflexivity; lra. }
  destruct (is_finite a) eqn:Fa, (is_finite b) eqn:Fb, (is_finite c) eqn:Fc;
    try (apply FF in H1; [|assumption|assumption]; apply FF in H2; [|assumption|assumption]; apply FF; [assumption|assumption|lra]);
    destruct a as [[]|[]| |[]], b as [[]|[]| |[]], c as [[]|[]| |[]]; try discriminate; reflexivity.
Qed.
