(** Concrete inputs and counterexamples for C51-C58. *)
From Coq Require Import ZArith Reals Lra Lia Arith Bool List Psatz.
From Flocq Require Import Core BinarySingleNaN.
From Verif Require Import Fp Scalar Base LinAlg MathLib Triangulate Pnp MatFacts QuatFacts GeoSpec TriFacts PnpFacts.
Import ListNotations.
Local Open Scope R_scope.

(** ** Triangulation *)
(** A normalized kernel vector is a smallest right singular vector. *)
Lemma kernel_smallest : forall m y, kernel m y -> 0 < sq_norm (mc m) y -> smallest_singular m (fun j => y j / sqrt (sq_norm (mc m) y)).
Proof.
  intros m y Hy Hn. set (N := sqrt (sq_norm (mc m) y)). assert (HN : 0 < N) by (apply sqrt_lt_R0, Hn). split.
  - unfold sq_norm. rewrite (rsum_ext _ _ (fun i => / (N * N) * (y i * y i))) by (intros; cbn; field; lra).
    rewrite rsum_scal_l. change (rsum (mc m) (fun i => y i * y i)) with (sq_norm (mc m) y). unfold N. rewrite sqrt_sqrt by lra. field. lra.
  - intros z _. replace (image_norm m (fun j => y j / N)) with 0; [apply image_norm_pos|]. symmetry. apply image_norm_kernel. intros i Hi.
    rewrite (rsum_ext _ _ (fun j => / N * (me m i j * y j))) by (intros; cbn; field; lra). rewrite rsum_scal_l. unfold kernel in Hy. rewrite (Hy i Hi). ring.
Qed.
Definition two_q : list (quat R) := [qid; qid].
Definition two_p : list (v3 R) := [V3 0 0 0; V3 1 0 0].
Definition front_n : list (v2 R) := [V2 0 0; V2 (- / 2) 0].
Definition front_v : list (view R) := [(qid, V3 0 0 0, V2 0 0); (qid, V3 1 0 0, V2 (- / 2) 0)].
Definition front_P : v3 R := V3 0 0 2.
Lemma front_hyp : views two_q two_p front_n = Ok front_v /\ Forall unit_view front_v /\ Forall (sees front_P) front_v /\
  (exists a b, In a front_v /\ In b front_v /\ v3cross (ray a) (ray b) <> v3zero) /\ v3dot front_P front_P <= 999999 * 999999 /\
  exists x, smallest_singular (tri_A front_v) x.
Proof.
  assert (HU : Forall unit_view front_v) by (repeat constructor; apply qid_unit).
  assert (HS : Forall (sees front_P) front_v).
  { constructor; [|constructor; [|constructor]].
    - exists (V3 0 0 2). unfold at_camera, front_P. split; [rewrite qrot_id; vring|]. cbn [v3z v3x v3y]. split; [lra|]. f_equal; lra.
    - exists (V3 (-1) 0 2). unfold at_camera, front_P. split; [rewrite qrot_id; vring|]. cbn [v3z v3x v3y]. split; [lra|]. f_equal; lra. }
  split; [reflexivity|]. split; [exact HU|]. split; [exact HS|]. split; [|split].
  - exists (qid, V3 0 0 0, V2 0 0), (qid, V3 1 0 0, V2 (- / 2) 0). split; [left; reflexivity|]. split; [right; left; reflexivity|].
    unfold ray. rewrite !qrot_id. unfold v3cross, v3zero. rops. intros E. injection E. intros _ H _. lra.
  - unfold front_P. vunf. lra.
  - eexists. apply (kernel_smallest _ (hom front_P)); [apply true_point_kernel; assumption|]. cbn. lra.
Qed.

(** A point behind the cameras: refused, yet stored. The decomposition used is a correct one. *)
Definition back_n : list (v2 R) := [V2 0 0; V2 1 0].
Definition back_v : list (view R) := [(qid, V3 0 0 0, V2 0 0); (qid, V3 1 0 0, V2 1 0)].
Definition back_P : v3 R := V3 0 0 (-1).
Lemma back_kernel : kernel (tri_A back_v) (hom back_P).
Proof.
  apply kernel_iff. intros v [<-|[<-|[]]]; rewrite row_x_dot, row_y_dot, (qinv_unit qid qid_unit); unfold head, back_P; cbn [hom v3x v3y v3z];
    vunf; split; ring.
Qed.
Lemma back_stored : exists svd, smallest_singular (tri_A back_v) (svd (tri_A back_v)) /\ views two_q two_p back_n = Ok back_v /\
  tri_analytic svd two_q two_p back_n (V3 7 7 7) = Ok (false, back_P).
Proof.
  exists (fun m j => hom back_P j / sqrt (sq_norm 4 (hom back_P))).
  assert (H0 : sq_norm 4 (hom back_P) = 2) by (cbn; lra).
  assert (Hs : 0 < sqrt 2) by (apply sqrt_lt_R0; lra). assert (Hs2 : sqrt 2 * sqrt 2 = 2) by (apply sqrt_sqrt; lra).
  split; [|split; [reflexivity|]].
  - apply (kernel_smallest (tri_A back_v) (hom back_P) back_kernel). change (mc (tri_A back_v)) with 4%nat. lra.
  - unfold tri_analytic. cbn [length two_q Nat.ltb Nat.leb]. change (views two_q two_p back_n) with (Ok back_v). cbn [obind].
    rewrite H0. cbn [hom]. replace (slt64 (sabs (1 / sqrt 2)) d1em6) with false.
    2:{ symmetry. apply not_true_iff_false. intros C. apply slt64_R in C. rewrite d1em6_val in C. cbn [sabs ops_R] in C.
        rewrite Rabs_pos_eq in C by (apply Rlt_le, Rdiv_lt_0_compat; lra). set (r := sqrt 2) in *.
        assert (E : 1 / r * r = 1) by (field; lra). assert (1 / r < 1 / 2) by lra. assert (r < 2) by nra. nra. }
    replace (v3div _ (1 / sqrt 2)) with back_P.
    2:{ unfold back_P. vunf. apply v3_ext; rops; field; lra. }
    replace (existsb _ back_v) with true; [reflexivity|]. symmetry. apply existsb_exists. exists (qid, V3 0 0 0, V2 0 0).
    split; [left; reflexivity|]. unfold tri_pc. rewrite (qinv_unit qid qid_unit). apply sltb_R. unfold back_P. vunf. lra.
Qed.
Lemma tri_false_cases : forall svd qs ps ns p0 p, tri_analytic svd qs ps ns p0 = Ok (false, p) ->
  p = p0 \/ exists vs q t n, views qs ps ns = Ok vs /\ In (q, t, n) vs /\ v3scale p (svd (tri_A vs) 3%nat) = head (svd (tri_A vs)) /\
    v3z (qrot (qinv q) (v3sub p t)) < 0.
Proof.
  intros svd qs ps ns p0 p H. unfold tri_analytic in H. destruct (Nat.ltb _ 2); [left; congruence|].
  destruct (views qs ps ns) as [vs|]; cbn [obind] in H; [|discriminate]. cbn zeta in H. destruct (slt64 _ _) eqn:W; [left; congruence|].
  destruct (existsb _ vs) eqn:E; [|discriminate]. injection H as <-. right. apply existsb_exists in E as ([[q t] n] & Hin & Hz).
  exists vs, q, t, n. split; [reflexivity|]. split; [exact Hin|]. split; [|apply sltb_R in Hz; exact Hz].
  assert (svd (tri_A vs) 3%nat <> 0).
  { intros C. rewrite C in W. apply not_true_iff_false in W. apply W, slt64_R. cbn [sabs ops_R]. rewrite Rabs_R0, d1em6_val. lra. }
  unfold head. vunf. apply v3_ext; rops; field; assumption.
Qed.
(** A decomposition that yields NaN is reported as success. *)
Definition id32 : quat f32 := Quat (f32_of_Z 1) (f32_of_Z 0) (f32_of_Z 0) (f32_of_Z 0).
Definition v32 (x y z : Z) : v3 f32 := V3 (f32_of_Z x) (f32_of_Z y) (f32_of_Z z).
Definition n32 (x y : Z) : v2 f32 := V2 (f32_of_Z x) (f32_of_Z y).
Lemma nan_success : forall lm, exists svd qs ps ns p0 p, @tri_analytic f32 (ops_f32 lm) svd qs ps ns p0 = Ok (true, p) /\
  is_nan (v3x p) = true /\ is_nan (v3y p) = true /\ is_nan (v3z p) = true.
Proof.
  intros lm. exists (fun _ _ => B754_nan), [id32; id32], [v32 0 0 0; v32 1 0 0], [n32 0 0; n32 0 0], (v32 0 0 0), (V3 B754_nan B754_nan B754_nan).
  split; [vm_compute; reflexivity|]. repeat split.
Qed.
Lemma iter_hyp : views two_q two_p front_n = Ok front_v /\ Forall unit_view front_v /\ v3z (V3 0 0 1) <> 0.
Proof. split; [reflexivity|]. split; [apply front_hyp|]. cbn. lra. Qed.
Lemma tri_iterative_float : forall lm ldlt qs ps ns vs p0 fuel ok p calls, views qs ps ns = Ok vs ->
  @tri_iterative f32 (ops_f32 lm) fuel ldlt qs ps ns p0 = Ok (Some (ok, p, calls)) ->
  ok = true /\ (p = @inv_depth f32 (ops_f32 lm) (@inv_depth f32 (ops_f32 lm) p0) \/
    f32_ltb (@tri_cost f32 (ops_f32 lm) (map (@tri_cw f32 (ops_f32 lm)) vs) p) (@tri_cost f32 (ops_f32 lm) (map (@tri_cw f32 (ops_f32 lm)) vs) p0) = true).
Proof. intros lm ldlt. exact (@tri_iterative_cost f32 (ops_f32 lm) ldlt f32_ltb_trans). Qed.

(** ** PnP *)
Definition sq_pts : list (v3 R) := [V3 0 0 1; V3 1 0 1; V3 0 1 1].
Definition sq_obs : list (v2 R) := [V2 0 0; V2 1 0; V2 0 1].
Lemma sq_hyp : zero_solver (fun _ b i => me b i 0%nat) /\ length sq_pts = length sq_obs /\ sq_pts <> [] /\
  forall pt obs, In (pt, obs) (combine sq_pts sq_obs) -> reprojects qid (V3 0 0 0) pt obs.
Proof.
  split; [intros H b Hb i _; apply Hb|]. split; [reflexivity|]. split; [discriminate|].
  intros pt obs H. exists pt. split; [unfold at_camera; rewrite qrot_id; destruct pt; vring|].
  repeat (destruct H as [E|H]; [injection E as <- <-; cbn [v3x v3y v3z]; split; [lra|f_equal; field]|]). destruct H.
Qed.
Lemma fair_id : fair 3 (fun k => k).
Proof.
  intros k. exists (0 + k * 3)%nat, (1 + k * 3)%nat, (2 + k * 3)%nat.
  rewrite !Nat.mod_add by lia. cbn. repeat split; lia.
Qed.

(** The solver of the witnesses: zero for a zero right-hand side, a step of 100 m otherwise. *)
Definition bad_ldlt : mat f32 -> mat f32 -> nat -> f32 := fun _ b =>
  let z := forallb (fun k => (f32_leb (me b k 0%nat) (f32_of_Z 0) && f32_leb (f32_of_Z 0) (me b k 0%nat))%bool) (seq 0 6) in
  fun i => if z then f32_of_Z 0 else match i with O => f32_of_Z 100 | _ => f32_of_Z 0 end.
Definition out_pts : list (v3 f32) := [v32 0 0 1; v32 1 0 1; v32 0 1 1; v32 1 1 1].
Definition out_obs : list (v2 f32) := [n32 0 0; n32 1 0; n32 0 1; n32 5 5].
Definition out_rnd (k : nat) : nat := if Nat.ltb k 3 then k else S (k mod 3).
Section Check.
Variable lm : libm32.
Local Instance ops_here : SOps f32 := ops_f32 lm.
Definition sc (p3 : list (v3 f32)) (p2 : list (v2 f32)) (q : quat f32) (p : v3 f32) : nat := ra_score (ra_thr pnp_default) (combine p3 p2) q p.
Definition check_best ldlt rnd p3 p2 q p : bool :=
  match pnp_ransac 10 pnp_default ldlt rnd 0 p3 p2 q p with
  | Ok (Some o) => match ro_tried o with
                   | m :: _ => (ro_ok o && Nat.eqb (sc p3 p2 (fst m) (snd m)) 3 && Nat.eqb (sc p3 p2 (ro_q o) (ro_p o)) 0)%bool
                   | [] => false
                   end
  | _ => false
  end.
Local Notation below o pt := (f32_ltb (pnp_err (ro_q o) (ro_p o) pt) (ra_thr pnp_default)).
Definition in_pts : list (v3 f32) := [v32 0 0 1; v32 1 0 1; v32 0 1 1].
Definition in_obs : list (v2 f32) := [n32 0 0; n32 1 0; n32 0 1].
Definition check_stale ldlt rnd p3 p2 q p fl : bool :=
  match pnp_ransac_flags 10 pnp_default ldlt rnd 0 p3 p2 q p fl with
  | Ok (Some (o, fl')) => (ro_ok o && forallb negb fl' && Nat.eqb (length fl') 3 && forallb (fun pt => below o pt) (combine p3 p2))%bool
  | _ => false
  end.
Definition z_pts : list (v3 f32) := [v32 0 0 1; v32 1 0 1; v32 0 0 0].
Definition z_obs : list (v2 f32) := [n32 0 0; n32 1 0; n32 0 0].
Definition check_nan ldlt rnd p3 p2 q p pt : bool :=
  match pnp_ransac_flags 10 pnp_default ldlt rnd 0 p3 p2 q p [] with
  | Ok (Some (o, [_; _; f])) => (ro_ok o && f && negb (below o pt))%bool
  | _ => false
  end.
Lemma check_best_ok : check_best bad_ldlt out_rnd out_pts out_obs id32 (v32 0 0 0) = true.
Proof. vm_compute. reflexivity. Qed.
Lemma check_stale_ok : check_stale bad_ldlt out_rnd in_pts in_obs id32 (v32 0 0 0) [false; false; false] = true.
Proof. vm_compute. reflexivity. Qed.
Lemma check_nan_ok : check_nan bad_ldlt out_rnd z_pts z_obs id32 (v32 0 0 0) (v32 0 0 0, n32 0 0) = true.
Proof. vm_compute. reflexivity. Qed.

Lemma best_of : forall ldlt rnd p3 p2 q p, check_best ldlt rnd p3 p2 q p = true -> exists o m,
  pnp_ransac 10 pnp_default ldlt rnd 0 p3 p2 q p = Ok (Some o) /\ ro_ok o = true /\ In m (ro_tried o) /\
  ra_score (ra_thr pnp_default) (combine p3 p2) (fst m) (snd m) = 3%nat /\
  ra_score (ra_thr pnp_default) (combine p3 p2) (ro_q o) (ro_p o) = 0%nat.
Proof.
  intros ldlt rnd p3 p2 q p C. unfold check_best in C.
  destruct (pnp_ransac _ _ _ _ _ _ _ _ _) as [[o|]|]; try discriminate. destruct (ro_tried o) as [|m r] eqn:E; [discriminate|].
  apply andb_true_iff in C as [C C3]. apply andb_true_iff in C as [C1 C2]. apply Nat.eqb_eq in C2, C3.
  exists o, m. split; [reflexivity|]. split; [exact C1|]. split; [rewrite E; left; reflexivity|]. split; assumption.
Qed.
Lemma stale_of : forall ldlt rnd p3 p2 q p fl, check_stale ldlt rnd p3 p2 q p fl = true -> exists o fl',
  pnp_ransac_flags 10 pnp_default ldlt rnd 0 p3 p2 q p fl = Ok (Some (o, fl')) /\ ro_ok o = true /\
  fl' = [false; false; false] /\ forall pt, In pt (combine p3 p2) -> f32_ltb (pnp_err (ro_q o) (ro_p o) pt) (ra_thr pnp_default) = true.
Proof.
  intros ldlt rnd p3 p2 q p fl C. unfold check_stale in C.
  destruct (pnp_ransac_flags _ _ _ _ _ _ _ _ _ _) as [[[o fl']|]|]; try discriminate.
  apply andb_true_iff in C as [C C4]. apply andb_true_iff in C as [C C3]. apply andb_true_iff in C as [C1 C2]. apply Nat.eqb_eq in C3.
  exists o, fl'. split; [reflexivity|]. split; [exact C1|]. split.
  - destruct fl' as [|[] [|[] [|[] [|]]]]; cbn in C2, C3; try discriminate; reflexivity.
  - rewrite forallb_forall in C4.  exact C4.
Qed.
Lemma nan_of : forall ldlt rnd p3 p2 q p pt, check_nan ldlt rnd p3 p2 q p pt = true -> exists o fl',
  pnp_ransac_flags 10 pnp_default ldlt rnd 0 p3 p2 q p [] = Ok (Some (o, fl')) /\ ro_ok o = true /\
  nth_error fl' 2 = Some true /\ f32_ltb (pnp_err (ro_q o) (ro_p o) pt) (ra_thr pnp_default) = false.
Proof.
  intros ldlt rnd p3 p2 q p pt C. unfold check_nan in C.
  destruct (pnp_ransac_flags _ _ _ _ _ _ _ _ _ _) as [[[o fl']|]|]; try discriminate.
  destruct fl' as [|a [|b [|c [|]]]]; try discriminate. apply andb_true_iff in C as [C C3]. apply andb_true_iff in C as [C1 C2].
  apply negb_true_iff in C3. exists o, [a; b; c]. split; [reflexivity|]. split; [exact C1|].
  split; [cbn; rewrite C2; reflexivity|exact C3].
Qed.

Lemma last_not_best : exists ldlt rnd fuel p3 p2 q p o m,
  pnp_ransac fuel pnp_default ldlt rnd 0 p3 p2 q p = Ok (Some o) /\ ro_ok o = true /\ length p3 = length p2 /\ In m (ro_tried o) /\
  ra_score (ra_thr pnp_default) (combine p3 p2) (fst m) (snd m) = 3%nat /\
  ra_score (ra_thr pnp_default) (combine p3 p2) (ro_q o) (ro_p o) = 0%nat.
Proof.
  destruct (best_of _ _ _ _ _ _ check_best_ok) as (o & m & H1 & H2 & H3 & H4 & H5).
  exists bad_ldlt, out_rnd, 10%nat, out_pts, out_obs, id32, (v32 0 0 0), o, m.
  split; [exact H1|]. split; [exact H2|]. split; [reflexivity|]. split; [exact H3|]. split; [exact H4|exact H5].
Qed.
Lemma stale_flags : exists ldlt rnd fuel p3 p2 q p fl o fl',
  pnp_ransac_flags fuel pnp_default ldlt rnd 0 p3 p2 q p fl = Ok (Some (o, fl')) /\ ro_ok o = true /\ length p3 = 3%nat /\
  fl' = [false; false; false] /\ forall pt, In pt (combine p3 p2) -> f32_ltb (pnp_err (ro_q o) (ro_p o) pt) (ra_thr pnp_default) = true.
Proof.
  destruct (stale_of _ _ _ _ _ _ _ check_stale_ok) as (o & fl' & H1 & H2 & H3 & H4).
  exists bad_ldlt, out_rnd, 10%nat, in_pts, in_obs, id32, (v32 0 0 0), [false; false; false], o, fl'.
  split; [exact H1|]. split; [exact H2|]. split; [reflexivity|]. split; [exact H3|exact H4].
Qed.
Lemma nan_flag : exists ldlt rnd fuel p3 p2 q p o fl' pt,
  pnp_ransac_flags fuel pnp_default ldlt rnd 0 p3 p2 q p [] = Ok (Some (o, fl')) /\ ro_ok o = true /\
  nth_error (combine p3 p2) 2 = Some pt /\ nth_error fl' 2 = Some true /\
  f32_ltb (pnp_err (ro_q o) (ro_p o) pt) (ra_thr pnp_default) = false.
Proof.
  destruct (nan_of _ _ _ _ _ _ _ check_nan_ok) as (o & fl' & H1 & H2 & H3 & H4).
  exists bad_ldlt, out_rnd, 10%nat, z_pts, z_obs, id32, (v32 0 0 0), o, fl', (v32 0 0 0, n32 0 0).
  split; [exact H1|]. split; [exact H2|]. split; [reflexivity|]. split; [exact H3|exact H4].
Qed.
End Check.
Lemma ransac_flags_fresh : forall cfg ldlt fuel rnd pos p3 p2 (q : quat R) p o fl', qunit q ->
  pnp_ransac_flags fuel cfg ldlt rnd pos p3 p2 q p [] = Ok (Some (o, fl')) -> ro_ok o = true ->
  length fl' = length p3 /\ forall i pt obs, nth_error p3 i = Some pt -> nth_error p2 i = Some obs ->
    (nth i fl' true = true <-> pair_err (ro_q o) (ro_p o) (pt, obs) < ra_thr cfg).
Proof.
  intros cfg ldlt fuel rnd pos p3 p2 q p o fl' Hq H Hok. destruct (ransac_flags_R _ _ _ _ _ _ _ _ _ _ _ _ Hq H Hok) as [Hl Hf].
  split; [exact Hl|]. intros i pt obs H3 H2. rewrite (Hf i pt obs H3 H2). destruct i; cbn; tauto.
Qed.
(** A run of the flag version in exact arithmetic. *)
Lemma flags_run : exists (o : ra_out R) fl', pnp_ransac_flags 10 pnp_default (fun _ b i => me b i 0%nat) (fun k => k) 0 sq_pts sq_obs qid (V3 0 0 0) [] =
  Ok (Some (o, fl')) /\ ro_ok o = true.
Proof.
  unfold pnp_ransac_flags.
    assert (G : forall iter bq bp bs q p k tried, exists o1 : ra_out R, ro_ok o1 = true /\
      ra_loop 10 pnp_default (fun _ b i => me b i 0%nat) (fun k => k) sq_pts sq_obs iter bq bp bs q p (3 * k) tried = Ok (Some o1)).
    { clear. induction iter as [|it IH]; intros bq bp bs q p k tried; [eexists; split; [|reflexivity]; reflexivity|]. cbn [ra_loop].
      replace (ra_draw 10 (fun k : nat => k) (length sq_pts) (3 * k) []) with (Some ([0; 1; 2]%nat, (3 * S k)%nat)).
      - cbn [pick at_ nth_error sq_pts sq_obs obind]. destruct (sltb _ _); [eexists; split; [|reflexivity]; reflexivity|]. apply IH.
      - assert (M : (forall j, Nat.modulo (3 * k + j) 3 = Nat.modulo j 3)%nat) by (intros j; rewrite (Nat.mul_comm 3 k), Nat.add_comm, Nat.mod_add by lia; reflexivity).
        change (length sq_pts) with 3%nat. replace (3 * S k)%nat with (3 * k + 3)%nat by lia. replace (3 * k)%nat with (3 * k + 0)%nat at 2 by lia.
        assert (St : forall f j s, (length s < 3)%nat -> ra_draw (S f) (fun k : nat => k) 3 (3 * k + j) s =
          ra_draw f (fun k : nat => k) 3 (3 * k + S j) (set_insert (Nat.modulo j 3) s)).
        { intros f j s Hs. cbn [ra_draw]. replace (Nat.ltb (length s) 3) with true by (symmetry; apply Nat.ltb_lt; exact Hs).
          rewrite M. replace (S (3 * k + j)) with (3 * k + S j)%nat by lia. reflexivity. }
        rewrite !St by (cbn; lia). reflexivity. }
    unfold pnp_ransac. cbn [length sq_pts sq_obs Nat.eqb negb orb].
    destruct (G (ra_iter pnp_default) qid (V3 0 0 0) 0%nat qid (V3 0 0 0) 0%nat []) as (o1 & Ho1 & E1).
    change (3 * 0)%nat with 0%nat in E1. rewrite E1. cbn [obind]. rewrite Ho1. eauto.
Qed.
Lemma cauchy_values : cauchy 1 2 = ln 2 / 2 /\ cauchy 1 (1 / 2) = 1.
Proof. rewrite !cauchy_1. destruct (Rlt_dec 1 2); [|lra]. destruct (Rlt_dec 1 (1 / 2)); [lra|]. split; reflexivity. Qed.
Lemma back_unchanged_refuted : exists svd vs qs ps ns p0 p, smallest_singular (tri_A vs) (svd (tri_A vs)) /\ views qs ps ns = Ok vs /\
  tri_analytic svd qs ps ns p0 = Ok (false, p) /\ p <> p0.
Proof.
  destruct back_stored as (svd & H1 & H2 & H3). exists svd, back_v, two_q, two_p, back_n, (V3 7 7 7), back_P.
  split; [exact H1|]. split; [exact H2|]. split; [exact H3|]. intros E. injection E. intros. lra.
Qed.
Lemma tri_refuse : forall T (SO : SOps T) svd (qs : list (quat T)) ps ns p0, (length qs < 2)%nat ->
  tri_analytic svd qs ps ns p0 = Ok (false, p0).
Proof. intros T SO svd qs ps ns p0 H. unfold tri_analytic. rewrite (proj2 (Nat.ltb_lt _ _) H). reflexivity. Qed.
Lemma ransac_never_ends : exists cfg ldlt (p3 : list (v3 R)) (p2 : list (v2 R)) q p, length p2 = length p3 /\ p3 <> [] /\
  forall fuel rnd pos, pnp_ransac fuel cfg ldlt rnd pos p3 p2 q p = Ok None.
Proof.
  exists pnp_default, (fun _ b i => me b i 0%nat), [V3 0 0 1; V3 1 0 1], [V2 0 0; V2 1 0], qid, (V3 0 0 0).
  split; [reflexivity|]. split; [discriminate|]. intros. apply ransac_small; cbn; lia.
Qed.

(** ** EstimatePoseP3P *)
(** Three exactly measured points, seen from the origin; the caller's guess is one unit to the right. *)
Definition p3p_3d : list (v3 R) := [V3 0 0 1; V3 1 0 1; V3 0 1 1].
Definition p3p_2d : list (v2 R) := [V2 0 0; V2 1 0; V2 0 1].
Lemma p3p_stays : (forall pt obs, In (pt, obs) (combine p3p_3d p3p_2d) -> reprojects qid v3zero pt obs) /\
  pnp_p3p p3p_3d p3p_2d qid (V3 1 0 0) = PnpOut true qid (V3 1 0 0) 0 /\
  forall pt obs, In (pt, obs) (combine p3p_3d p3p_2d) -> ~ reprojects qid (V3 1 0 0) pt obs.
Proof.
  split; [|split; [reflexivity|]].
  - intros pt obs H. cbn in H. destruct H as [H|[H|[H|[]]]]; injection H as <- <-;
      match goal with |- reprojects _ _ ?pt _ => exists pt end; (split; [unfold at_camera; rewrite qrot_id; apply v3_ext; vunf; ring|]); vunf;
      (split; [lra|f_equal; field]).
  - intros pt obs H (c & Hc & Hz & Ho). unfold at_camera in Hc. rewrite qrot_id in Hc. destruct c as [x y z]. vunf. cbn in H.
    destruct H as [H|[H|[H|[]]]]; injection H as <- <-; injection Hc as H1 H2 H3; injection Ho as E1 E2;
      assert (z = 1) by lra; subst z; (assert (x = -1) by lra || assert (x = 0) by lra); subst x; lra.
Qed.
Lemma p3p_blind : exists (p3 : list (v3 R)) (p2 : list (v2 R)) (q : quat R) (p : v3 R) (q0 : quat R) (p0 : v3 R), length p3 = 3%nat /\ qnorm2 q = 1 /\ qnorm2 q0 = 1 /\
  (forall pt obs, In (pt, obs) (combine p3 p2) -> reprojects q p pt obs) /\
  (let r := pnp_p3p p3 p2 q0 p0 in po_ok r = true /\ forall pt obs, In (pt, obs) (combine p3 p2) -> ~ reprojects (po_q r) (po_p r) pt obs).
Proof.
  destruct p3p_stays as (A & B & C). exists p3p_3d, p3p_2d, qid, v3zero, qid, (V3 1 0 0). split; [reflexivity|]. split; [apply qid_unit|]. split; [apply qid_unit|].
  split; [exact A|]. rewrite B. split; [reflexivity|exact C].
Qed.
