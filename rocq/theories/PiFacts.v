(** The feedback of the attitude estimator. *)
From Coq Require Import Reals List Lra Lia Arith.
From Flocq Require Import IEEE754.BinarySingleNaN.
From Verif Require Import Fp Scalar Base LinAlg MathLib Attitude QuatFacts NumSpec QueueSpec AttitudeFacts AttNumFacts PiSpec.
Import ListNotations.
Local Open Scope R_scope.

Lemma kp_val : @att_kp R _ = gain_p.
Proof. change (B2R (f32_lit 0x83126f (-33)) = gain_p). unfold gain_p. vm_compute B2R. lra. Qed.
Lemma ki_val : @att_ki R _ = gain_i.
Proof. change (B2R (f32_lit 0xd1b717 (-37)) = gain_i). unfold gain_i. vm_compute B2R. lra. Qed.
Lemma gate_val : B2R f64_0_04 = gate_width.
Proof. unfold gate_width, f64_0_04. vm_compute B2R. lra. Qed.
Theorem first_accepted : forall grav (st : att R) a g t, at_items st = [] ->
  (snd (att_propagate grav st a g t) = true <-> Rabs (v3norm grav - v3norm (v3sub a (at_ba st))) <= gate_width).
Proof.
  intros grav st a g t E. pose proof (att_propagate_rule grav st a g t) as H. rewrite E in H. cbn [rev] in H. cbn [sgt64 sabs ssub ops_R] in H. unfold Rltb in H. rewrite gate_val in H.
  destruct (Rlt_dec gate_width (Rabs (v3norm grav - v3norm (v3sub a (at_ba st))))) as [L|L].
  - rewrite H. cbn [snd]. split; [discriminate|intros; lra].
  - destruct H as [q ->]. cbn [snd]. split; [intros; lra|reflexivity].
Qed.

(** One accepted sample. *)
Lemma pi_one : forall grav (st : att R) pre i0 a g t, at_items st = pre ++ [i0] -> f64_ltb t (ai_ts i0) = false -> qunit (ai_q i0) ->
  let e := tilt grav (ai_q i0) a in
  let E := v3add (at_err st) (v3scale e gain_i) in
  let w := v3scale (v3add (ai_g i0) (v3sub g (at_bg st))) (1 / 2) in
  fst (att_propagate grav st a g t) =
    Att ((pre ++ [i0]) ++ [AttItem (qnormalize (qmul (ai_q i0)
      (delta_q (v3scale (v3add (v3add w (v3scale e gain_p)) E) (- real_step (ai_ts i0) t))))) (v3sub a (at_ba st)) (v3sub g (at_bg st)) t])
      (at_ba st) (at_bg st) E.
Proof.
  intros grav st pre i0 a g t Ei Ht Hu. cbv zeta. rewrite <- kp_val, <- ki_val. unfold att_propagate. rewrite Ei, back_snoc, Ht. cbn [fst].
  assert (Ee : v3cross (v3div a (v3norm a)) (v3div (qrot (qinv (ai_q i0)) grav) (v3norm grav)) = tilt grav (ai_q i0) a).
  { unfold tilt, along_unit. rewrite (qinv_unit _ Hu), qrot_norm by (apply qconj_unit; exact Hu). reflexivity. }
  rewrite Ee. generalize (tilt grav (ai_q i0) a). intros e.
  assert (Es : forall x y : R, x * y = ssub (smul x y) s0) by (intros; cbn; ring).
  f_equal. f_equal. f_equal. f_equal. f_equal. f_equal. f_equal.
  change (sof32 (f64_to_f32 (f64_sub t (ai_ts i0)))) with (real_step (ai_ts i0) t).
  replace (shalf (T := R)) with (1 / 2) by (unfold shalf, s2; rops; lra).
  generalize (real_step (ai_ts i0) t). intros dt. destruct e, (ai_g i0), g, (at_bg st), (at_err st). vring.
Qed.

Lemma follows_cons : forall grav ba bg E0 i0 i1 its a g t l,
  follows grav ba bg E0 (i0 :: i1 :: its) ((a, g, t) :: l) <->
  (follows grav ba bg E0 [i0; i1] [(a, g, t)] /\
   follows grav ba bg (v3add E0 (v3scale (tilt grav (ai_q i0) a) gain_i)) (i1 :: its) l).
Proof.
  intros grav ba bg E0 i0 i1 its a g t l. split.
  - intros [Hl H]. split; split.
    + reflexivity.
    + intros [|k] j0 j1 a' g' t' H0 H1 H2; [exact (H 0%nat j0 j1 a' g' t' H0 H1 H2)|destruct k; discriminate H2].
    + cbn [length] in Hl |- *. lia.
    + intros k j0 j1 a' g' t' H0 H1 H2. destruct (H (Datatypes.S k) j0 j1 a' g' t' H0 H1 H2) as (A1 & A2 & A3 & A4).
      split; [exact A1|]. split; [exact A2|]. split; [exact A3|]. cbv zeta in A4 |- *. rewrite A4.
      f_equal. f_equal. f_equal. f_equal. f_equal. unfold tilts. cbn [combine map firstn vsum fold_right fst snd].
      generalize (tilt grav (ai_q i0) a). intros e. 
      match goal with |- context [v3add e ?X] => generalize X end. intros s. destruct E0, e, s. vring.
  - intros [[_ HA] [Hl HB]]. split; [cbn [length] in Hl |- *; lia|].
    intros [|k] j0 j1 a' g' t' H0 H1 H2; [exact (HA 0%nat j0 j1 a' g' t' H0 H1 H2)|].
    destruct (HB k j0 j1 a' g' t' H0 H1 H2) as (A1 & A2 & A3 & A4).
    split; [exact A1|]. split; [exact A2|]. split; [exact A3|]. cbv zeta in A4 |- *. rewrite A4.
    f_equal. f_equal. f_equal. f_equal. f_equal. unfold tilts. cbn [combine map firstn vsum fold_right fst snd].
    generalize (tilt grav (ai_q i0) a). intros e.
    match goal with |- context [v3add e ?X] => generalize X end. intros s. destruct E0, e, s. vring.
Qed.

Theorem feedback : forall grav (st : att R) pre i0 l, at_items st = pre ++ [i0] -> qunit (ai_q i0) -> in_order (ai_ts i0) l ->
  exists its, let st' := att_feed grav st l in
    at_items st' = pre ++ i0 :: its /\ at_ba st' = at_ba st /\ at_bg st' = at_bg st /\
    follows grav (at_ba st) (at_bg st) (at_err st) (i0 :: its) l /\
    at_err st' = v3add (at_err st) (v3scale (vsum (tilts grav (i0 :: its) l)) gain_i).
Proof.
  intros grav st pre i0 l. revert st pre i0. induction l as [|[[a g] t] l IH]; intros st pre i0 Ei Hu Ho.
  - exists []. cbv zeta. cbn [att_feed]. split; [exact Ei|]. split; [reflexivity|]. split; [reflexivity|]. split.
    + split; [reflexivity|]. intros [|k] ? ? ? ? ? ? ? H; discriminate H.
    + unfold tilts. cbn [combine map vsum fold_right]. destruct (at_err st). vring.
  - destruct Ho as [Ht Ho]. cbn [snd] in Ht, Ho. pose proof (pi_one grav st pre i0 a g t Ei Ht Hu) as E1. cbv zeta in E1.
    cbn [att_feed]. rewrite E1. set (i1 := AttItem _ _ _ t). set (st1 := Att _ _ _ _).
    destruct (IH st1 (pre ++ [i0]) i1 eq_refl) as (its & B1 & B2 & B3 & B4 & B5).
    { apply qstep_unit. exact Hu. }
    { exact Ho. }
    exists (i1 :: its). cbv zeta. rewrite B1, B2, B3, B5. split; [rewrite <- app_assoc; reflexivity|]. split; [reflexivity|]. split; [reflexivity|].
    split.
    + apply follows_cons. split; [|exact B4]. split; [reflexivity|].
      intros [|k] j0 j1 a' g' t' H0 H1 H2; [|destruct k; discriminate H2].
      injection H0 as <-. injection H1 as <-. injection H2 as <- <- <-. split; [reflexivity|]. split; [reflexivity|]. split; [reflexivity|].
      unfold i1. cbn [ai_q]. cbv zeta. f_equal. f_equal. f_equal. f_equal. f_equal.
      unfold tilts. cbn [combine map firstn vsum fold_right fst snd]. generalize (tilt grav (ai_q i0) a). intros e. destruct (at_err st), e. vring.
    + unfold tilts. cbn [combine map vsum fold_right fst snd]. unfold st1. cbn [at_err]. generalize (tilt grav (ai_q i0) a). intros e.
      unfold vsum. cbn [fold_right]. match goal with |- context [v3add e ?X] => generalize X end. intros s. destruct (at_err st), e, s. vring.
Qed.

(** The error is at most one. *)
Lemma unit_or_zero : forall a, v3dot (along_unit a) (along_unit a) = 1 \/ along_unit a = v3zero.
Proof.
  intros a. destruct (Req_dec (v3x a) 0) as [Hx|Hx]; [destruct (Req_dec (v3y a) 0) as [Hy|Hy]; [destruct (Req_dec (v3z a) 0) as [Hz|Hz]|]|].
  1: { right. destruct a as [x y z]. cbn in Hx, Hy, Hz. subst. apply v3div_zero. }
  all: left; apply dir_unit; intros ->; cbn in *; contradiction.
Qed.
Lemma tilt_le : forall grav q a, v3norm (tilt grav q a) <= 1.
Proof.
  intros grav q a. unfold tilt. set (u := along_unit a). set (v := along_unit _).
  assert (H : v3dot (v3cross u v) (v3cross u v) <= 1).
  { rewrite lagrange. pose proof (Rle_0_sqr (v3dot u v)) as Hs. unfold Rsqr in Hs.
    assert (Z : forall x : v3 R, x = v3zero -> v3dot x x = 0) by (intros x ->; vring).
    assert (A : v3dot u u = 1 \/ v3dot u u = 0) by (destruct (unit_or_zero a) as [H1|H1]; [left; exact H1|right; exact (Z u H1)]).
    assert (B : v3dot v v = 1 \/ v3dot v v = 0) by (destruct (unit_or_zero (qrot (qconj q) grav)) as [H1|H1]; [left; exact H1|right; exact (Z v H1)]).
    destruct A as [-> | ->], B as [-> | ->]; lra. }
  change (sqrt (v3dot (v3cross u v) (v3cross u v)) <= 1). rewrite <- sqrt_1. apply sqrt_le_1_alt. exact H.
Qed.
Lemma cauchy3 : forall a b : v3 R, v3dot a b <= v3norm a * v3norm b.
Proof.
  intros a b. assert (H : v3dot a b * v3dot a b <= (v3norm a * v3norm b) * (v3norm a * v3norm b)).
  { replace ((v3norm a * v3norm b) * (v3norm a * v3norm b)) with ((v3norm a * v3norm a) * (v3norm b * v3norm b)) by ring.
    rewrite !norm_sq. pose proof (lagrange a b) as L. pose proof (v3dot_nonneg (v3cross a b)). lra. }
  assert (0 <= v3norm a * v3norm b) by (apply Rmult_le_pos; apply sqrt_pos).
  destruct (Rle_dec (v3dot a b) 0) as [|Hn]; [lra|]. apply Rnot_le_lt in Hn. apply Rsqr_incr_0_var; unfold Rsqr; lra.
Qed.
Lemma norm_add : forall a b : v3 R, v3norm (v3add a b) <= v3norm a + v3norm b.
Proof.
  intros a b. assert (0 <= v3norm a) by apply sqrt_pos. assert (0 <= v3norm b) by apply sqrt_pos.
  assert (0 <= v3norm (v3add a b)) by apply sqrt_pos. apply Rsqr_incr_0_var; [|lra]. unfold Rsqr.
  replace ((v3norm a + v3norm b) * (v3norm a + v3norm b)) with (v3norm a * v3norm a + v3norm b * v3norm b + 2 * (v3norm a * v3norm b)) by ring.
  rewrite !norm_sq. pose proof (cauchy3 a b) as Hc. replace (v3dot (v3add a b) (v3add a b)) with (v3dot a a + v3dot b b + 2 * v3dot a b); [lra|].
  destruct a, b. vring.
Qed.
Lemma norm_scale : forall (a : v3 R) k, 0 <= k -> v3norm (v3scale a k) = v3norm a * k.
Proof.
  intros a k Hk. change (sqrt (v3dot (v3scale a k) (v3scale a k)) = sqrt (v3dot a a) * k).
  replace (v3dot (v3scale a k) (v3scale a k)) with (v3dot a a * (k * k)) by (destruct a; vring).
  rewrite sqrt_mult_alt by apply v3dot_nonneg. rewrite sqrt_square by exact Hk. reflexivity.
Qed.
Lemma vsum_le : forall l, List.Forall (fun x => v3norm x <= 1) l -> v3norm (vsum l) <= INR (length l).
Proof.
  induction l as [|x l IH]; intros H.
  - cbn [vsum fold_right length INR]. change (sqrt (v3dot (v3zero (T := R)) v3zero) <= 0).
    replace (v3dot (v3zero (T := R)) v3zero) with 0 by vring. rewrite sqrt_0. lra.
  - inversion H as [|? ? H1 H2]; subst. cbn [vsum fold_right]. change (fold_right v3add v3zero l) with (vsum l).
    pose proof (norm_add x (vsum l)). specialize (IH H2). cbn [length]. rewrite S_INR. lra.
Qed.
Lemma ki_pos : 0 < gain_i.
Proof. unfold gain_i. lra. Qed.

Theorem feedback_bound : forall grav (st : att R) pre i0 l, at_items st = pre ++ [i0] -> qunit (ai_q i0) -> in_order (ai_ts i0) l ->
  v3norm (v3sub (at_err (att_feed grav st l)) (at_err st)) <= gain_i * INR (length l).
Proof.
  intros grav st pre i0 l Ei Hu Ho. destruct (feedback grav st pre i0 l Ei Hu Ho) as (its & _ & _ & _ & [Hl _] & E). rewrite E.
  set (L := tilts grav (i0 :: its) l). replace (v3sub (v3add (at_err st) (v3scale (vsum L) gain_i)) (at_err st)) with (v3scale (vsum L) gain_i)
    by (generalize (vsum L) (at_err st); intros [] []; vring).
  rewrite norm_scale by (left; exact ki_pos). rewrite Rmult_comm. apply Rmult_le_compat_l; [left; exact ki_pos|].
  replace (length l) with (length L); [apply vsum_le|].
  - apply List.Forall_forall. intros x Hx. unfold L, tilts in Hx. apply in_map_iff in Hx as (y & <- & _). apply tilt_le.
  - unfold L, tilts. rewrite map_length, combine_length. cbn [length] in Hl |- *. lia.
Qed.

Lemma about_y_step : forall q r, about_y q -> about_y (qnormalize (qmul q (delta_q (V3 0 r 0)))).
Proof.
  intros q r (Hx & Hz & Hu). split; [|split; [|apply qstep_unit; exact Hu]].
  all: rewrite qnormalize_pos by (rewrite qnorm2_mul, Hu, Rmult_1_l; apply delta_q_pos);
    set (n := sqrt _); clearbody n; destruct q as [w x y z]; cbn in Hx, Hz; subst x z; vunf; unfold Rdiv; ring.
Qed.
(** An acceleration of the length of gravity at right angles to the expected one. *)
Definition across (grav : R) (q : quat R) : v3 R := v3cross (V3 0 1 0) (qrot (qinv q) (V3 0 0 grav)).
Lemma across_tilt : forall g q, 0 < g -> about_y q ->
  v3norm (across g q) = g /\ v3y (across g q) = 0 /\ tilt (V3 0 0 g) q (across g q) = V3 0 (-1) 0.
Proof.
  intros g q Hg (Hx & Hz & Hu). unfold across, tilt, along_unit. rewrite (qinv_unit _ Hu).
  assert (Hv : v3norm (qrot (qconj q) (V3 0 0 g)) = g).
  { rewrite qrot_norm by (apply qconj_unit; exact Hu). change (sqrt (v3dot (V3 0 0 g) (V3 0 0 g)) = g).
    replace (v3dot (V3 0 0 g) (V3 0 0 g)) with (g * g) by vring. apply sqrt_square. lra. }
  rewrite Hv. assert (Hd : v3dot (qrot (qconj q) (V3 0 0 g)) (qrot (qconj q) (V3 0 0 g)) = g * g) by (rewrite <- norm_sq, Hv; reflexivity).
  assert (Hy : v3y (qrot (qconj q) (V3 0 0 g)) = 0).
  { destruct q as [w x y z]. cbn in Hx, Hz. subst x z. vunf. ring. }
  set (u := qrot _ _) in *. clearbody u. destruct u as [ux uy uz]. cbn [v3y] in Hy. subst uy.
  assert (Hn : v3norm (v3cross (V3 0 1 0) (V3 ux 0 uz)) = g).
  { change (sqrt (v3dot (v3cross (V3 0 1 0) (V3 ux 0 uz)) (v3cross (V3 0 1 0) (V3 ux 0 uz))) = g).
    rewrite <- (sqrt_square g) by lra. f_equal. rewrite <- Hd. vring. }
  split; [exact Hn|]. split; [vunf; ring|]. rewrite Hn. unfold v3dot in Hd. rops.
  vunf. apply v3_ext; rops; [field; lra| |field; lra].
  apply (Rmult_eq_reg_r (g * g)); [|nra]. transitivity (- (ux * ux + (0 * 0 + uz * uz))); [field; lra|rewrite Hd; ring].
Qed.
Theorem windup : forall g (st : att R) pre i0 ts e, 0 < g -> at_items st = pre ++ [i0] -> about_y (ai_q i0) -> ai_g i0 = v3zero ->
  at_err st = V3 0 e 0 -> in_order (ai_ts i0) (map (fun t => (v3zero, v3zero, t)) ts) ->
  exists l : list sample, map snd l = ts /\ List.Forall (fun s : sample => v3norm (fst (fst s)) = g /\ snd (fst s) = at_bg st) l /\
    at_err (att_feed (V3 0 0 g) st l) = V3 0 (e - gain_i * INR (length ts)) 0.
Proof.
  intros g st pre i0 ts. revert st pre i0. induction ts as [|t ts IH]; intros st pre i0 e Hg Ei Hq Hw He Ho.
  - exists []. split; [reflexivity|]. split; [constructor|]. cbn [att_feed length INR]. rewrite He. f_equal. ring.
  - destruct Ho as [Ht Ho]. cbn [snd] in Ht, Ho. destruct (across_tilt g (ai_q i0) Hg Hq) as (N & _ & Tl).
    pose proof (pi_one (V3 0 0 g) st pre i0 (across g (ai_q i0)) (at_bg st) t Ei Ht (proj2 (proj2 Hq))) as E1. cbv zeta in E1. rewrite Tl in E1.
    set (E := v3add (at_err st) _) in E1. set (i1 := AttItem _ _ _ t) in E1. set (st1 := Att _ _ _ E) in E1.
    assert (HE : E = V3 0 (e - gain_i) 0) by (unfold E; rewrite He; vring).
    destruct (IH st1 (pre ++ [i0]) i1 (e - gain_i) Hg eq_refl) as (l & A1 & A2 & A3).
    { unfold i1. cbn [ai_q]. rewrite HE, Hw. match goal with |- context [delta_q ?X] => assert (EX : exists r, X = V3 0 r 0) end.
      { eexists. vunf. apply v3_ext; rops; [ring|reflexivity|ring]. }
      destruct EX as [r ->]. apply about_y_step. exact Hq. }
    { unfold i1. cbn [ai_g]. destruct (at_bg st). vring. }
    { unfold st1. cbn [at_err]. exact HE. }
    { exact Ho. }
    exists ((across g (ai_q i0), at_bg st, t) :: l). split; [cbn [map snd]; rewrite A1; reflexivity|]. split.
    + constructor; [split; [exact N|reflexivity]|]. exact A2.
    + cbn [att_feed]. rewrite E1, A3. f_equal. cbn [length]. rewrite S_INR. ring.
Qed.
