(** The process matrices are the linearisation of the nominal step (C78). *)
From Coq Require Import Reals List Arith Lra Lia.
From Coquelicot Require Import Coquelicot.
From Verif Require Import Fp Scalar Base LinAlg MathLib Propagator QuatFacts DerivSpec DerivFacts ProcSpec LinSpec.
Local Open Scope R_scope.

(** ** Rules for curves *)
Ltac rp := apply (is_derive_plus (K := R_AbsRing) (V := R_NormedModule)).
Ltac rmi := apply (is_derive_minus (K := R_AbsRing) (V := R_NormedModule)).
Lemma d_eq : forall (f : R -> R) t x y, is_derive f t x -> x = y -> is_derive f t y.
Proof. intros f t x y H <-. exact H. Qed.
Lemma d_mult : forall (f g : R -> R) t x y, is_derive f t x -> is_derive g t y ->
  is_derive (fun s => f s * g s) t (x * g t + f t * y).
Proof. intros f g t x y A B. apply (is_derive_mult f g t x y A B). intros; apply Rmult_comm. Qed.
Lemma d_const : forall c t : R, is_derive (fun _ => c) t 0.
Proof. intros. apply (is_derive_const (K := R_AbsRing) (V := R_NormedModule)). Qed.
Lemma d3_eq : forall f t x y, derive3 f t x -> x = y -> derive3 f t y.
Proof. intros f t x y H <-. exact H. Qed.
Lemma d3_const : forall c t, derive3 (fun _ => c) t v3zero.
Proof. intros c t. split; [|split]; apply d_const. Qed.
Lemma d3_add : forall f g t x y, derive3 f t x -> derive3 g t y -> derive3 (fun s => v3add (f s) (g s)) t (v3add x y).
Proof. intros f g t x y (A & B & C) (D & E & F). split; [|split]; rp; assumption. Qed.
Lemma d3_scale : forall f (k : R -> R) t x y, derive3 f t x -> is_derive k t y ->
  derive3 (fun s => v3scale (f s) (k s)) t (v3add (v3scale x (k t)) (v3scale (f t) y)).
Proof. intros f k t x y (A & B & C) D. split; [|split]; vunf; apply d_mult; assumption. Qed.
Lemma d3_scale_c : forall f k t x, derive3 f t x -> derive3 (fun s => v3scale (f s) k) t (v3scale x k).
Proof.
  intros f k t x H. eapply d3_eq; [apply (d3_scale f (fun _ => k) t x 0 H (d_const _ _))|]. destruct x. cbv beta. destruct (f t). vring.
Qed.
Ltac dm := eapply d_eq; [rp; [rp; [rp|]|]|].
Lemma d4_mul : forall f g t x y, derive4 f t x -> derive4 g t y ->
  derive4 (fun s => qmul (f s) (g s)) t
    (let a := qmul x (g t) in let b := qmul (f t) y in Quat (qw a + qw b) (qx a + qx b) (qy a + qy b) (qz a + qz b)).
Proof.
  intros f g t x y (A & B & C & D) (E & F & G & H).
  assert (L : forall (a b c d a' b' c' d' : R -> R) va vb vc vd va' vb' vc' vd' k1 k2 k3,
    is_derive a t va -> is_derive b t vb -> is_derive c t vc -> is_derive d t vd ->
    is_derive a' t va' -> is_derive b' t vb' -> is_derive c' t vc' -> is_derive d' t vd' ->
    is_derive (fun s => a s * a' s + k1 * (b s * b' s) + k2 * (c s * c' s) + k3 * (d s * d' s)) t
      ((va * a' t + a t * va') + k1 * (vb * b' t + b t * vb') + k2 * (vc * c' t + c t * vc') + k3 * (vd * d' t + d t * vd'))).
  { intros. rp; [rp; [rp|]|].
    - apply d_mult; assumption.
    - apply (is_derive_scal (fun s => b s * b' s)). apply d_mult; assumption.
    - apply (is_derive_scal (fun s => c s * c' s)). apply d_mult; assumption.
    - apply (is_derive_scal (fun s => d s * d' s)). apply d_mult; assumption. }
  split; [|split; [|split]].
  - eapply d_eq; [eapply is_derive_ext; [|apply (L _ _ _ _ _ _ _ _ _ _ _ _ _ _ _ _ (-1) (-1) (-1) A B C D E F G H)]|].
    + intros s. cbn beta. destruct (f s), (g s). vunf. req; ring.
    + destruct x, y, (f t), (g t). vunf. req; ring.
  - eapply d_eq; [eapply is_derive_ext; [|apply (L _ _ _ _ _ _ _ _ _ _ _ _ _ _ _ _ 1 1 (-1) A B C D F E H G)]|].
    + intros s. cbn beta. destruct (f s), (g s). vunf. req; ring.
    + destruct x, y, (f t), (g t). vunf. req; ring.
  - eapply d_eq; [eapply is_derive_ext; [|apply (L _ _ _ _ _ _ _ _ _ _ _ _ _ _ _ _ 1 1 (-1) A C D B G E F H)]|].
    + intros s. cbn beta. destruct (f s), (g s). vunf. req; ring.
    + destruct x, y, (f t), (g t). vunf. req; ring.
  - eapply d_eq; [eapply is_derive_ext; [|apply (L _ _ _ _ _ _ _ _ _ _ _ _ _ _ _ _ 1 1 (-1) A D B C H E G F)]|].
    + intros s. cbn beta. destruct (f s), (g s). vunf. req; ring.
    + destruct x, y, (f t), (g t). vunf. req; ring.
Qed.
Lemma d4_ext : forall f g t x, (forall s, f s = g s) -> derive4 f t x -> derive4 g t x.
Proof.
  intros f g t x E (A & B & C & D). split; [|split; [|split]].
  - eapply is_derive_ext; [|exact A]. intros s; cbn. rewrite E. reflexivity.
  - eapply is_derive_ext; [|exact B]. intros s; cbn. rewrite E. reflexivity.
  - eapply is_derive_ext; [|exact C]. intros s; cbn. rewrite E. reflexivity.
  - eapply is_derive_ext; [|exact D]. intros s; cbn. rewrite E. reflexivity.
Qed.
Lemma d4_eq : forall f t x y, derive4 f t x -> x = y -> derive4 f t y.
Proof. intros f t x y H <-. exact H. Qed.

(** ** The attitude *)
Definition qscale (q : quat R) (k : R) : quat R := Quat (qw q * k) (qx q * k) (qy q * k) (qz q * k).
Definition qadd (a b : quat R) : quat R := Quat (qw a + qw b) (qx a + qx b) (qy a + qy b) (qz a + qz b).
Definition qpure (v : v3 R) : quat R := Quat 0 (v3x v / 2) (v3y v / 2) (v3z v / 2).
Lemma d4_scale : forall f (k : R -> R) t x y, derive4 f t x -> is_derive k t y ->
  derive4 (fun s => qscale (f s) (k s)) t (qadd (qscale x (k t)) (qscale (f t) y)).
Proof. intros f k t x y (A & B & C & D) E. split; [|split; [|split]]; cbn; apply d_mult; assumption. Qed.
Lemma d4_delta : forall g t x, derive3 g t x -> derive4 (fun s => delta_q (g s)) t (qpure x).
Proof.
  intros g t x (A & B & C).
  assert (L : forall (f : R -> R) v, is_derive f t v -> is_derive (fun s => f s / 2) t (v / 2)).
  { intros f v H. eapply d_eq; [eapply is_derive_ext; [|apply (is_derive_scal f t (/ 2) v H)]|].
    - intros s. cbn. unfold Rdiv. req; ring.
    - cbn. unfold Rdiv. req; ring. }
  split; [|split; [|split]].
  - cbn. apply d_const.
  - eapply is_derive_ext; [|apply (L _ _ A)]. intros s. cbn beta. destruct (g s). vunf. req; field.
  - eapply is_derive_ext; [|apply (L _ _ B)]. intros s. cbn beta. destruct (g s). vunf. req; field.
  - eapply is_derive_ext; [|apply (L _ _ C)]. intros s. cbn beta. destruct (g s). vunf. req; field.
Qed.
(** The inverse of the length of DeltaQ. *)
Definition dlen (g : v3 R) : R := 1 + v3dot g g / 4.
Definition dinv (g : v3 R) : R := / sqrt (dlen g).
Lemma dlen_pos : forall g, 0 < dlen g.
Proof. intros g. unfold dlen. pose proof (v3dot_nonneg g). lra. Qed.
Lemma dinv_sq : forall g, dinv g * dinv g = / dlen g.
Proof.
  intros g. unfold dinv. pose proof (dlen_pos g). rewrite <- Rinv_mult.
  rewrite sqrt_sqrt by lra. reflexivity.
Qed.
Lemma d_dinv : forall g t x, derive3 g t x ->
  is_derive (fun s => dinv (g s)) t (- (dinv (g t) * (v3dot (g t) x / 4) / dlen (g t))).
Proof.
  intros g t x (A & B & C).
  assert (L : is_derive (fun s => dlen (g s)) t (v3dot (g t) x / 2)).
  { unfold dlen. eapply d_eq; [eapply is_derive_ext; [|rp; [apply (d_const 1)|apply (is_derive_scal (fun s =>
      v3x (g s) * v3x (g s) + v3y (g s) * v3y (g s) + v3z (g s) * v3z (g s)) t (/ 4)); rp; [rp|]; apply d_mult; eassumption]]|].
    - intros s. cbn. destruct (g s). vunf. unfold Rdiv. req; ring.
    - cbn. destruct (g t), x. vunf. req; field. }
  pose proof (dlen_pos (g t)) as Hp.
  assert (S : is_derive (fun y => / sqrt y) (dlen (g t)) (- (/ (sqrt (dlen (g t))) * / (2 * dlen (g t))))).
  { auto_derive; [split; [lra|split; [apply Rgt_not_eq, sqrt_lt_R0; lra|exact I]]|].
    pose proof (sqrt_lt_R0 _ Hp). pose proof (sqrt_sqrt _ (Rlt_le _ _ Hp)) as Q. set (s := sqrt (dlen (g t))) in *. clearbody s. rewrite <- Q. field. lra. }
  eapply d_eq; [apply (is_derive_comp (fun y => / sqrt y) (fun s => dlen (g s)) t _ _ S L)|].
  unfold dinv. cbn. unfold scal. cbn. unfold mult. cbn. field. split; (lra || (apply Rgt_not_eq, sqrt_lt_R0; lra)).
Qed.
Lemma step_q : forall q g, qunit q -> qnormalize (qmul q (delta_q g)) = qscale (qmul q (delta_q g)) (dinv g).
Proof.
  intros q g H. assert (N : qnorm2 (qmul q (delta_q g)) = dlen g) by (rewrite qnorm2_mul, H, delta_q_norm; unfold dlen; ring).
  rewrite qnormalize_pos by (rewrite N; apply dlen_pos). rewrite N. unfold qscale, qdivs, dinv. cbn. reflexivity.
Qed.
(** The rotation error after the step, for the error [th] before and the change [x] of the rotation vector [g]. *)
Definition turned (g th x : v3 R) : v3 R :=
  let u := v3scale g (/ 2) in
  v3div (v3add (v3sub (v3add (v3scale th (1 - v3dot u u)) (v3scale u (2 * v3dot u th))) (v3scale (v3cross u th) 2))
               (v3sub x (v3cross u x))) (dlen g).
Lemma d4_step : forall (q : R -> quat R) g th x, (forall e, qunit (q e)) -> derive4 q 0 (qmul (q 0) (qpure th)) -> derive3 g 0 x ->
  derive4 (fun e => qnormalize (qmul (q e) (delta_q (g e)))) 0
    (qmul (qnormalize (qmul (q 0) (delta_q (g 0)))) (qpure (turned (g 0) th x))).
Proof.
  intros q g th x U Hq Hg.
  eapply d4_ext; [intros s; symmetry; apply step_q; apply U|].
  eapply d4_eq; [apply (d4_scale (fun e => qmul (q e) (delta_q (g e))) (fun e => dinv (g e)));
    [exact (d4_mul q (fun e => delta_q (g e)) 0 _ (qpure x) Hq (d4_delta _ _ _ Hg))|apply d_dinv; exact Hg]|].
  rewrite step_q by apply U. cbv beta. pose proof (dlen_pos (g 0)) as Hp.
  unfold turned. generalize (dinv (g 0)). intros k. revert Hp. unfold dlen.
  generalize (g 0) (q 0). intros g0 q0 Hp. clear - Hp. destruct q0 as [w1 x1 y1 z1], g0 as [g1 g2 g3], th as [t1 t2 t3], x as [e1 e2 e3].
  unfold qadd, qscale, qpure. vunf. apply q_ext; rops; field; lra.
Qed.

Lemma rot_comp : forall (w x y z a b c : R -> R) w' x' y' z' a' b' c',
  is_derive w 0 w' -> is_derive x 0 x' -> is_derive y 0 y' -> is_derive z 0 z' -> is_derive a 0 a' -> is_derive b 0 b' -> is_derive c 0 c' ->
  is_derive (fun t => v3x (qrot (Quat (w t) (x t) (y t) (z t)) (V3 (a t) (b t) (c t)))) 0
    (a' - 2 * (y 0 * (y 0 * a' - x 0 * b') + y' * (y 0 * a 0 - x 0 * b 0) + y 0 * (y' * a 0 - x' * b 0))
        - 2 * (z 0 * (z 0 * a' - x 0 * c') + z' * (z 0 * a 0 - x 0 * c 0) + z 0 * (z' * a 0 - x' * c 0))
        + 2 * (w' * (y 0 * c 0 - z 0 * b 0) + w 0 * (y' * c 0 - z' * b 0) + w 0 * (y 0 * c' - z 0 * b'))).
Proof.
  intros w x y z a b c w' x' y' z' a' b' c' A B C D E F G.
  pose proof (is_derive_unique _ _ _ A) as A'. pose proof (is_derive_unique _ _ _ B) as B'. pose proof (is_derive_unique _ _ _ C) as C'.
  pose proof (is_derive_unique _ _ _ D) as D'. pose proof (is_derive_unique _ _ _ E) as E'. pose proof (is_derive_unique _ _ _ F) as F'.
  pose proof (is_derive_unique _ _ _ G) as G'.
  vunf. auto_derive; [repeat split; eexists; eassumption|].
  change (fun x0 : R => w x0) with w. change (fun x0 : R => x x0) with x. change (fun x0 : R => y x0) with y. change (fun x0 : R => z x0) with z.
  change (fun x0 : R => a x0) with a. change (fun x0 : R => b x0) with b. change (fun x0 : R => c x0) with c.
  rewrite ?A', ?B', ?C', ?D', ?E', ?F', ?G'. req; ring.
Qed.
Lemma d3_rot : forall (q : R -> quat R) f th x, (forall e, qunit (q e)) -> derive4 q 0 (qmul (q 0) (qpure th)) -> derive3 f 0 x ->
  derive3 (fun e => qrot (q e) (f e)) 0 (qrot (q 0) (v3add (v3cross th (f 0)) x)).
Proof.
  intros q f th x U (A & B & C & D) (E & F & G). pose proof (U 0) as U0. unfold qunit in U0.
  d3.
  - eapply d_eq; [eapply is_derive_ext; [|apply (rot_comp _ _ _ _ _ _ _ _ _ _ _ _ _ _ A B C D E F G)]|].
    + intros s. cbn beta. destruct (q s), (f s). reflexivity.
    + revert U0. cbv beta. generalize (q 0) (f 0). intros [w1 x1 y1 z1] [f1 f2 f3] U0. destruct th as [t1 t2 t3], x as [e1 e2 e3]. unfold qpure. vunf.
      assert (Q : w1 * w1 = 1 - x1 * x1 - y1 * y1 - z1 * z1) by lra. clear - Q. req. field [Q].
  - eapply d_eq; [eapply is_derive_ext; [|apply (rot_comp _ _ _ _ _ _ _ _ _ _ _ _ _ _ A C D B F G E)]|].
    + intros s. cbn beta. destruct (q s), (f s). vunf. req; ring.
    + revert U0. cbv beta. generalize (q 0) (f 0). intros [w1 x1 y1 z1] [f1 f2 f3] U0. destruct th as [t1 t2 t3], x as [e1 e2 e3]. unfold qpure. vunf.
      assert (Q : w1 * w1 = 1 - x1 * x1 - y1 * y1 - z1 * z1) by lra. clear - Q. req. field [Q].
  - eapply d_eq; [eapply is_derive_ext; [|apply (rot_comp _ _ _ _ _ _ _ _ _ _ _ _ _ _ A D B C G E F)]|].
    + intros s. cbn beta. destruct (q s), (f s). vunf. req; ring.
    + revert U0. cbv beta. generalize (q 0) (f 0). intros [w1 x1 y1 z1] [f1 f2 f3] U0. destruct th as [t1 t2 t3], x as [e1 e2 e3]. unfold qpure. vunf.
      assert (Q : w1 * w1 = 1 - x1 * x1 - y1 * y1 - z1 * z1) by lra. clear - Q. req. field [Q].
Qed.
Lemma d3_cross_c : forall f c t x, derive3 f t x -> derive3 (fun s => v3cross (f s) c) t (v3cross x c).
Proof.
  intros f c t x (A & B & C).
  assert (L : forall (f g : R -> R) a b vf vg, is_derive f t vf -> is_derive g t vg -> is_derive (fun s => f s * a - g s * b) t (vf * a - vg * b)).
  { intros f' g a b vf vg Hf Hg. rmi.
    - eapply d_eq; [apply (d_mult f' (fun _ => a) t vf 0 Hf (d_const _ _))|]. cbn. req; ring.
    - eapply d_eq; [apply (d_mult g (fun _ => b) t vg 0 Hg (d_const _ _))|]. cbn. req; ring. }
  split; [|split]; cbn; apply L; assumption.
Qed.
Lemma part_stack : forall p v th ba bg, let s := stack p v th ba bg in
  part s 0 = p /\ part s 3 = v /\ part s 6 = th /\ part s 9 = ba /\ part s 12 = bg.
Proof. intros [] [] [] [] [] s. unfold s. repeat split. Qed.

Lemma half_twice : forall n b dt, v3scale (v3sub (v3scale (v3add n n) (1 / 2)) b) dt = v3scale (v3sub n b) dt.
Proof. intros [] [] dt. vunf. apply v3_ext; rops; field. Qed.
Lemma turned_rate : forall w th wd, derive3 (fun dt => turned (v3scale w dt) th (v3scale wd dt)) 0 (v3sub wd (v3cross w th)).
Proof.
  intros [w1 w2 w3] [t1 t2 t3] [e1 e2 e3]. unfold turned, dlen. d3; vunf; auto_derive; try lra; field.
Qed.
Lemma turned_0 : forall w th wd, turned (v3scale w 0) th (v3scale wd 0) = th.
Proof. intros [] [] []. unfold turned, dlen. vunf. apply v3_ext; rops; field. Qed.
Lemma delta_0 : forall w : v3 R, delta_q (v3scale w 0) = qid.
Proof. intros []. vunf. apply q_ext; rops; field. Qed.
Lemma qmul_id_r : forall q : quat R, qmul q qid = q.
Proof. intros []. vring. Qed.
Lemma mid_cross : forall th a0 a1 b n : v3 R,
  v3scale (v3add (v3add (v3cross th (v3sub a0 b)) n) (v3add (v3cross th (v3sub a1 b)) n)) (1 / 2) =
  v3add (v3cross th (v3sub (v3scale (v3add a0 a1) (1 / 2)) b)) n.
Proof. intros [] [] [] [] []. vunf. apply v3_ext; rops; field. Qed.
Lemma line_0 : forall w : v3 R, v3add (v3scale v3zero 0) (v3scale w 1) = w.
Proof. intros []. vring. Qed.
Lemma still : forall q : quat R, qmul q (qpure v3zero) = Quat 0 0 0 0.
Proof. intros []. unfold qpure. vunf. apply q_ext; rops; field. Qed.
Lemma vel_0 : forall r a : v3 R, v3add v3zero (v3add (v3scale r 0) (v3scale a 1)) = a.
Proof. intros [] []. vring. Qed.
Lemma pos_0 : forall r v a : v3 R,
  v3add v3zero (v3add (v3scale r 0) (v3scale (v3scale (v3add v (v3add v (v3scale a 0))) (1 / 2)) 1)) = v.
Proof. intros [] [] []. vunf. apply v3_ext; rops; field. Qed.
Lemma sub_0 : forall a : v3 R, v3sub a v3zero = a.
Proof. intros []. vring. Qed.

Section Step.
  Context (grav : v3 R) (x : R -> nav) (z : R -> meas) (d : nat -> R) (na ng : v3 R).
  Let q0 := mo_q (nv_m (x 0)).
  Let w := v3sub (v3scale (v3add (mg0 (z 0)) (mg1 (z 0))) (1 / 2)) (nv_bg (x 0)).
  Let a := v3sub (v3scale (v3add (ma0 (z 0)) (ma1 (z 0))) (1 / 2)) (nv_ba (x 0)).
  Let b0 := v3sub (ma0 (z 0)) (nv_ba (x 0)).
  Let b1 := v3sub (ma1 (z 0)) (nv_ba (x 0)).
  Let th := part d 6.
  Let ad := v3sub na (part d 9).
  Let wd := v3sub ng (part d 12).
  Let q1 (dt : R) := qnormalize (qmul q0 (delta_q (v3scale w dt))).
  Let th1 (dt : R) := turned (v3scale w dt) th (v3scale wd dt).
  Let acc (dt : R) := v3scale (v3add (qrot q0 (v3add (v3cross th b0) ad)) (qrot (q1 dt) (v3add (v3cross (th1 dt) b1) ad))) (1 / 2).
  Let v1 (dt : R) := v3add (part d 3) (v3scale (acc dt) dt).
  Let p1 (dt : R) := v3add (part d 0) (v3scale (v3scale (v3add (part d 3) (v1 dt)) (1 / 2)) dt).
  (** The error after the step, exactly. *)
  Definition grown (dt : R) : nat -> R := stack (p1 dt) (v1 dt) (th1 dt) (part d 9) (part d 12).

  Lemma step_leaves : leaves x d -> noisy z na ng -> forall dt, leaves (fun e => after grav (x e) (z e) dt) (grown dt).
  Proof.
    intros (U & Hp & Hv & Hq & Hba & Hbg) (Ha0 & Ha1 & Hg0 & Hg1) dt.
    destruct (part_stack (p1 dt) (v1 dt) (th1 dt) (part d 9) (part d 12)) as (E0 & E1 & E2 & E3 & E4).
    fold (grown dt) in E0, E1, E2, E3, E4. unfold leaves. rewrite E0, E1, E2, E3, E4. unfold after, nominal_step. cbn [nv_m nv_ba nv_bg fst mo_p mo_v mo_q].
    change (@shalf R ops_R) with (1 / 2).
    assert (Hg : derive3 (fun e => v3scale (v3sub (v3scale (v3add (mg0 (z e)) (mg1 (z e))) (1 / 2)) (nv_bg (x e))) dt) 0 (v3scale wd dt)).
    { eapply d3_eq; [apply d3_scale_c, derive3_sub; [apply d3_scale_c, d3_add; eassumption|eassumption]|].
      apply half_twice. }
    pose proof (d4_step _ _ th _ U Hq Hg) as Hq1.
    assert (U1 : forall e, qunit (qnormalize (qmul (mo_q (nv_m (x e))) (delta_q
      (v3scale (v3sub (v3scale (v3add (mg0 (z e)) (mg1 (z e))) (1 / 2)) (nv_bg (x e))) dt))))) by (intros e; apply qstep_unit, U).
    assert (Hb0 : derive3 (fun e => v3sub (ma0 (z e)) (nv_ba (x e))) 0 ad) by (apply derive3_sub; assumption).
    assert (Hb1 : derive3 (fun e => v3sub (ma1 (z e)) (nv_ba (x e))) 0 ad) by (apply derive3_sub; assumption).
    pose proof (d3_rot _ _ th _ U Hq Hb0) as R0.
    pose proof (d3_rot _ _ _ _ U1 Hq1 Hb1) as R1.
    assert (Hv1 : derive3 (fun e => v3add (mo_v (nv_m (x e))) (v3scale (v3sub (v3scale (v3add
      (qrot (mo_q (nv_m (x e))) (v3sub (ma0 (z e)) (nv_ba (x e))))
      (qrot (qnormalize (qmul (mo_q (nv_m (x e))) (delta_q
      (v3scale (v3sub (v3scale (v3add (mg0 (z e)) (mg1 (z e))) (1 / 2)) (nv_bg (x e))) dt)))) (v3sub (ma1 (z e)) (nv_ba (x e)))))
      (1 / 2)) grav) dt)) 0 (v1 dt)).
    { unfold v1. apply d3_add; [exact Hv|]. apply d3_scale_c.
      eapply d3_eq; [apply derive3_sub; [|apply d3_const]; apply d3_scale_c, d3_add; [exact R0|exact R1]|].
      rewrite sub_0. reflexivity. }
    split; [exact U1|]. split.
    { unfold p1. apply d3_add; [exact Hp|]. apply d3_scale_c, d3_scale_c, d3_add; [exact Hv|exact Hv1]. }
    split; [exact Hv1|]. split; [exact Hq1|]. split; [exact Hba|exact Hbg].
  Qed.

  Context (U0 : qunit q0).
  Lemma th1_rate : derive3 th1 0 (v3sub wd (v3cross w th)).
  Proof. exact (turned_rate w th wd). Qed.
  Lemma th1_0 : th1 0 = th.
  Proof. exact (turned_0 w th wd). Qed.
  Lemma q1_0 : q1 0 = q0.
  Proof. unfold q1. rewrite delta_0, qmul_id_r. apply qnormalize_of_unit. exact U0. Qed.
  Lemma acc_0 : acc 0 = qrot q0 (v3add (v3cross th a) ad).
  Proof. unfold acc. rewrite q1_0, th1_0. rewrite <- qrot_add, <- qrot_scale. f_equal. unfold a, b0, b1. apply mid_cross. Qed.
  Lemma acc_ex : exists r, derive3 acc 0 r.
  Proof.
    assert (Hg : derive3 (fun dt => v3scale w dt) 0 w).
    { eapply d3_eq; [apply (d3_scale (fun _ => w) (fun s => s) 0 v3zero 1 (d3_const _ _)); apply (is_derive_id (K := R_AbsRing))|].
      apply line_0. }
    assert (Hq : derive4 (fun _ : R => q0) 0 (qmul q0 (qpure v3zero))).
    { rewrite still. split; [|split; [|split]]; apply d_const. }
    pose proof (d4_step (fun _ => q0) (fun dt => v3scale w dt) v3zero w (fun _ => U0) Hq Hg) as Hq1. cbv beta in Hq1.
    eexists. unfold acc. apply d3_scale_c, d3_add; [apply d3_const|].
    apply (d3_rot q1 (fun dt => v3add (v3cross (th1 dt) b1) ad)); [intros e; apply qstep_unit; exact U0|exact Hq1|].
    apply d3_add; [apply d3_cross_c; exact th1_rate|apply d3_const].
  Qed.
  Lemma v1_rate : derive3 v1 0 (qrot q0 (v3add (v3cross th a) ad)).
  Proof.
    destruct acc_ex as [r Hr]. unfold v1.
    eapply d3_eq; [apply d3_add; [apply d3_const|apply (d3_scale acc (fun s => s) 0 r 1); [exact Hr|apply (is_derive_id (K := R_AbsRing))]]|].
    cbv beta. rewrite acc_0. apply vel_0.
  Qed.
  Lemma p1_rate : derive3 p1 0 (part d 3).
  Proof.
    unfold p1.
    eapply d3_eq; [apply d3_add; [apply d3_const|apply (d3_scale (fun dt => v3scale (v3add (part d 3) (v1 dt)) (1 / 2)) (fun s => s) 0
        (v3scale (v3add v3zero (qrot q0 (v3add (v3cross th a) ad))) (1 / 2)) 1);
      [apply d3_scale_c, d3_add; [apply d3_const|exact v1_rate]|apply (is_derive_id (K := R_AbsRing))]]|].
    cbv beta. unfold v1. apply pos_0.
  Qed.
  Lemma grown_0 : forall i, (i < 15)%nat -> grown 0 i = d i.
  Proof.
    assert (E : v1 0 = part d 3) by (unfold v1; generalize (acc 0) (part d 3); intros [] []; vring).
    intros i Hi. unfold grown. rewrite th1_0. 
    assert (E' : p1 0 = part d 0) by (unfold p1; rewrite E; generalize (part d 3) (part d 0); intros [] []; vring).
    rewrite E, E'. unfold stack, th, part. do 15 (destruct i as [|i]; [reflexivity|]). lia.
  Qed.
  (** Against the process matrices. *)
  Lemma flow_rate : forall i, (i < 15)%nat ->
    is_derive (fun dt => grown dt i - (flow q0 a w dt d i + drive q0 dt (stack na ng v3zero v3zero v3zero) i)) 0 0.
  Proof.
    assert (F : derive3 (fun dt => v3add (v3add (part d 0) (v3scale (part d 3) dt)) (v3scale (qrot q0 na) (dt * dt / 2))) 0 (part d 3)).
    { generalize (part d 0) (part d 3) (qrot q0 na). intros [] [] []. d3; vunf; auto_derive; auto; field. }
    assert (G : derive3 (fun dt => v3add (v3sub (part d 3) (v3scale (qrot q0 (v3add (v3cross a th) (part d 9))) dt)) (v3scale (qrot q0 na) dt)) 0
      (qrot q0 (v3add (v3cross th a) ad))).
    { assert (E : qrot q0 (v3add (v3cross th a) ad) = v3sub (qrot q0 na) (qrot q0 (v3add (v3cross a th) (part d 9)))).
      { unfold ad. generalize q0 th a na (part d 9). intros [] [] [] [] []. vring. }
      rewrite E. generalize (part d 3) (qrot q0 na) (qrot q0 (v3add (v3cross a th) (part d 9))). intros [] [] []. d3; vunf; auto_derive; auto; field. }
    assert (H : derive3 (fun dt => v3add (v3sub th (v3scale (v3add (v3cross w th) (part d 12)) dt)) (v3scale ng dt)) 0 (v3sub wd (v3cross w th))).
    { unfold wd. generalize th w ng (part d 12). intros [] [] [] []. d3; vunf; auto_derive; auto; field. }
    pose proof th1_rate as (T1 & T2 & T3). pose proof v1_rate as (V1 & V2 & V3). pose proof p1_rate as (P1 & P2 & P3).
    destruct F as (F1 & F2 & F3), G as (G1 & G2 & G3), H as (H1 & H2 & H3).
    assert (L : forall (f g : R -> R) y, is_derive f 0 y -> is_derive g 0 y -> is_derive (fun s => f s - g s) 0 0).
    { intros f g y A B. eapply d_eq; [rmi; [exact A|exact B]|]. unfold minus, plus, opp; cbn. req; ring. }
    intros i Hi. do 9 (destruct i as [|i]; [first [exact (L _ _ _ P1 F1)|exact (L _ _ _ P2 F2)|exact (L _ _ _ P3 F3)|
      exact (L _ _ _ V1 G1)|exact (L _ _ _ V2 G2)|exact (L _ _ _ V3 G3)|exact (L _ _ _ T1 H1)|exact (L _ _ _ T2 H2)|exact (L _ _ _ T3 H3)]|]).
    do 6 (destruct i as [|i]; [unfold grown, flow, drive, stack; cbn -[Rplus Rminus Rmult]; auto_derive; auto; req; field|]). lia.
  Qed.
  Lemma grown_position : forall dt i, (i < 3)%nat -> grown dt i = d i + (d (3 + i)%nat + grown dt (3 + i)%nat) / 2 * dt.
  Proof.
    intros dt i Hi. unfold grown, p1. generalize (v1 dt) (th1 dt). intros [] [].
    do 3 (destruct i as [|i]; [unfold stack, part; cbn; field|]). lia.
  Qed.
End Step.

(** C78 *)
Theorem step_linearised : forall grav (x : R -> nav) (z : R -> meas) (d : nat -> R) (na ng : v3 R), leaves x d -> noisy z na ng ->
  let q := mo_q (nv_m (x 0)) in
  let a := v3sub (v3scale (v3add (ma0 (z 0)) (ma1 (z 0))) (1 / 2)) (nv_ba (x 0)) in
  let w := v3sub (v3scale (v3add (mg0 (z 0)) (mg1 (z 0))) (1 / 2)) (nv_bg (x 0)) in
  exists D : R -> nat -> R,
    (forall dt, leaves (fun e => after grav (x e) (z e) dt) (D dt)) /\
    (forall i, (i < 15)%nat -> D 0 i = d i) /\
    (forall i, (i < 15)%nat ->
       is_derive (fun dt => D dt i - (flow q a w dt d i + drive q dt (stack na ng v3zero v3zero v3zero) i)) 0 0) /\
    (forall dt i, (i < 3)%nat -> D dt i = d i + (d (3 + i)%nat + D dt (3 + i)%nat) / 2 * dt).
Proof.
  intros grav x z d na ng Hx Hz q a w. exists (grown x z d na ng). split; [intros dt; apply step_leaves; assumption|].
  assert (U0 : qunit q) by apply (proj1 Hx 0).
  split; [apply grown_0|]. split; [apply flow_rate; exact U0|apply grown_position].
Qed.
(** The direction is determined by the curve. *)
Theorem direction_unique : forall x d d', leaves x d -> leaves x d' -> forall i, (i < 15)%nat -> d i = d' i.
Proof.
  intros x d d' (U & A1 & A2 & A3 & A4 & A5) (_ & B1 & B2 & B3 & B4 & B5).
  assert (L : forall f u v, derive3 f 0 u -> derive3 f 0 v -> u = v).
  { intros f u v (X1 & X2 & X3) (Y1 & Y2 & Y3). apply v3_ext.
    - rewrite <- (is_derive_unique _ _ _ X1). exact (is_derive_unique _ _ _ Y1).
    - rewrite <- (is_derive_unique _ _ _ X2). exact (is_derive_unique _ _ _ Y2).
    - rewrite <- (is_derive_unique _ _ _ X3). exact (is_derive_unique _ _ _ Y3). }
  assert (Q : part d 6 = part d' 6).
  { assert (E : qmul (mo_q (nv_m (x 0))) (qpure (part d 6)) = qmul (mo_q (nv_m (x 0))) (qpure (part d' 6))).
    { destruct A3 as (X1 & X2 & X3 & X4), B3 as (Y1 & Y2 & Y3 & Y4). apply q_ext.
      - etransitivity; [symmetry; exact (is_derive_unique _ _ _ X1)|exact (is_derive_unique _ _ _ Y1)].
      - etransitivity; [symmetry; exact (is_derive_unique _ _ _ X2)|exact (is_derive_unique _ _ _ Y2)].
      - etransitivity; [symmetry; exact (is_derive_unique _ _ _ X3)|exact (is_derive_unique _ _ _ Y3)].
      - etransitivity; [symmetry; exact (is_derive_unique _ _ _ X4)|exact (is_derive_unique _ _ _ Y4)]. }
    assert (P : forall q a b, qunit q -> qmul q (qpure a) = qmul q (qpure b) -> a = b).
    { intros q a b Hq H. assert (H' : qmul (qmul (qconj q) q) (qpure a) = qmul (qmul (qconj q) q) (qpure b)).
      { replace (qmul (qmul (qconj q) q) (qpure a)) with (qmul (qconj q) (qmul q (qpure a))) by (destruct q, (qpure a); vring).
        rewrite H. destruct q, (qpure b). vring. }
      rewrite qmul_conj_l in H' by exact Hq. destruct a as [a1 a2 a3], b as [b1 b2 b3]. unfold qpure in H'. vunf. injection H'. intros.
      apply v3_ext; cbn; lra. }
    apply (P _ _ _ (U 0) E). }
  pose proof (L _ _ _ A1 B1) as P1. pose proof (L _ _ _ A2 B2) as P2. pose proof (L _ _ _ A4 B4) as P4. pose proof (L _ _ _ A5 B5) as P5.
  unfold part in *. cbn in *. injection P1. injection P2. injection Q. injection P4. injection P5. intros.
  do 15 (destruct i as [|i]; [assumption|]). lia.
Qed.
(** Correcting a state by [e] times a fixed correction (as the vision update does) leaves it in that direction. *)
Lemma injected_leaves : forall p v q ba bg d, qunit q ->
  leaves (fun e => Nav (Motion (v3add p (v3scale (part d 0) e)) (v3add v (v3scale (part d 3) e))
    (qnormalize (qmul q (delta_q (v3scale (part d 6) e))))) (v3add ba (v3scale (part d 9) e)) (v3add bg (v3scale (part d 12) e))) d.
Proof.
  intros p v q ba bg d U. unfold leaves. cbn [nv_m nv_ba nv_bg mo_p mo_v mo_q].
  split; [intros e; apply qstep_unit; exact U|]. split; [apply derive3_line|]. split; [apply derive3_line|].
  split; [|split; apply derive3_line].
  assert (Hg : derive3 (fun dt => v3scale (part d 6) dt) 0 (part d 6)).
  { eapply d3_eq; [apply (d3_scale (fun _ => part d 6) (fun s => s) 0 v3zero 1 (d3_const _ _)); apply (is_derive_id (K := R_AbsRing))|]. apply line_0. }
  assert (Hq : derive4 (fun _ : R => q) 0 (qmul q (qpure v3zero))).
  { rewrite still. split; [|split; [|split]]; apply d_const. }
  eapply d4_eq; [exact (d4_step (fun _ => q) _ v3zero _ (fun _ => U) Hq Hg)|].
  f_equal. change (Quat 0 (v3x (part d 6) / 2) (v3y (part d 6) / 2) (v3z (part d 6) / 2)) with (qpure (part d 6)). f_equal.
  generalize (part d 6). intros []. unfold turned, dlen. vunf. apply v3_ext; rops; field.
Qed.
Lemma linear_noise : forall a0 g0 a1 g1 na ng, noisy (fun e => Meas (v3add a0 (v3scale na e)) (v3add g0 (v3scale ng e))
  (v3add a1 (v3scale na e)) (v3add g1 (v3scale ng e))) na ng.
Proof. intros. unfold noisy. cbn [ma0 mg0 ma1 mg1]. split; [|split; [|split]]; apply derive3_line. Qed.
