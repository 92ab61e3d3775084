(** Derivatives: measurement Jacobians (C48). *)
From Coq Require Import Reals Lra Lia Arith List.
From Coquelicot Require Import Coquelicot.
From Verif Require Import Fp Scalar Base LinAlg MathLib FrameManager Propagator Triangulate Pnp VisionUpdate QuatFacts DerivSpec.
Local Open Scope R_scope.

(** ** Curves of vectors *)
Lemma derive3_ext : forall f g t x, (forall s, f s = g s) -> derive3 f t x -> derive3 g t x.
Proof.
  intros f g t x E (A & B & C). split; [|split].
  - eapply is_derive_ext; [|exact A]. intros s; cbn. rewrite E. reflexivity.
  - eapply is_derive_ext; [|exact B]. intros s; cbn. rewrite E. reflexivity.
  - eapply is_derive_ext; [|exact C]. intros s; cbn. rewrite E. reflexivity.
Qed.
Ltac d3 := match goal with |- derive3 _ _ _ => split; [|split] end.
Lemma derive3_line : forall a d t, derive3 (fun s => v3add a (v3scale d s)) t d.
Proof. intros [a1 a2 a3] [d1 d2 d3] t. d3; vunf; auto_derive; auto; ring. Qed.
Lemma derive3_sub : forall f g t x y, derive3 f t x -> derive3 g t y -> derive3 (fun s => v3sub (f s) (g s)) t (v3sub x y).
Proof.
  intros f g t [x1 x2 x3] [y1 y2 y3] (A & B & C) (D & E & F).
  d3; [apply (is_derive_minus (K := R_AbsRing) (V := R_NormedModule) _ _ _ _ _ A D)|
       apply (is_derive_minus (K := R_AbsRing) (V := R_NormedModule) _ _ _ _ _ B E)|
       apply (is_derive_minus (K := R_AbsRing) (V := R_NormedModule) _ _ _ _ _ C F)].
Qed.
Lemma derive_lin3 : forall a b c f t x, derive3 f t x ->
  is_derive (fun s => a * v3x (f s) + (b * v3y (f s) + c * v3z (f s))) t (a * v3x x + (b * v3y x + c * v3z x)).
Proof.
  intros a b c f t x (A & B & C).
  apply (is_derive_plus (K := R_AbsRing) (V := R_NormedModule) (fun s => a * v3x (f s))).
  - apply (is_derive_scal (fun s => v3x (f s))). exact A.
  - apply (is_derive_plus (K := R_AbsRing) (V := R_NormedModule) (fun s => b * v3y (f s))).
    + apply (is_derive_scal (fun s => v3y (f s))). exact B.
    + apply (is_derive_scal (fun s => v3z (f s))). exact C.
Qed.
Lemma derive3_mulv : forall m f t x, derive3 f t x -> derive3 (fun s => m33mulv m (f s)) t (m33mulv m x).
Proof.
  intros m f t x H. d3; [exact (derive_lin3 (m00 m) (m01 m) (m02 m) f t x H)|
    exact (derive_lin3 (m10 m) (m11 m) (m12 m) f t x H)|exact (derive_lin3 (m20 m) (m21 m) (m22 m) f t x H)].
Qed.

(** The rotation by a normalized DeltaQ, inverted, is rational. *)
Definition cayley (th : v3 R) (t : R) (v : v3 R) : v3 R :=
  let a := v3scale th (/ 2) in
  v3div (v3sub (v3add (v3scale v (1 - t * t * v3dot a a)) (v3scale a (2 * t * t * v3dot a v))) (v3scale (v3cross a v) (2 * t)))
    (1 + t * t * v3dot a a).
Lemma dot_ge : forall a : v3 R, 0 <= v3dot a a.
Proof. exact v3dot_nonneg. Qed.
Lemma qrot_correct : forall q th t v, qunit q ->
  qrot (qconj (q_correct q (v3scale th t))) v = cayley th t (qrot (qconj q) v).
Proof.
  intros q th t v Hq. unfold q_correct. set (d := delta_q (v3scale th t)).
  assert (Hd : 0 < qnorm2 d) by apply delta_q_pos.
  assert (Hn : qnorm2 (qmul q d) = qnorm2 d) by (rewrite qnorm2_mul; unfold qunit in Hq; rewrite Hq; ring).
  rewrite qnormalize_pos by (rewrite Hn; exact Hd). rewrite Hn.
  set (n := sqrt (qnorm2 d)). assert (Hn0 : 0 < n) by (apply sqrt_lt_R0; exact Hd).
  assert (Hnn : n * n = qnorm2 d) by (apply sqrt_sqrt; lra).
  assert (E1 : qdivs (qmul q d) n = qmul q (qdivs d n)) by (clear - Hn0; destruct q, d; vunf; apply q_ext; rops; field; lra).
  assert (Ud : qunit (qdivs d n)).
  { unfold qunit. assert (E : qnorm2 (qdivs d n) = qnorm2 d / (n * n)) by (clear - Hn0; destruct d; vunf; field; lra).
    rewrite E, Hnn. field. lra. }
  assert (E2 : qconj (qmul q (qdivs d n)) = qmul (qconj (qdivs d n)) (qconj q)) by (clear; destruct q; vunf; apply q_ext; rops; ring).
  rewrite E1, E2. rewrite qrot_mul by (apply qconj_unit; assumption).
  set (w := qrot (qconj q) v). clearbody w.
  assert (N : n * n = 1 + t * t * v3dot (v3scale th (/ 2)) (v3scale th (/ 2))).
  { rewrite Hnn. unfold d. rewrite delta_q_norm. clear. destruct th. vunf. field. }
  assert (Hden : 0 < 1 + t * t * v3dot (v3scale th (/ 2)) (v3scale th (/ 2))) by (rewrite <- N; nra).
  assert (E3 : qrot (qconj (qdivs d n)) w = let a := v3scale th (/ 2) in
    v3add w (v3div (v3sub (v3scale (v3cross a (v3cross a w)) (2 * t * t)) (v3scale (v3cross a w) (2 * t))) (n * n))).
  { clear - Hn0. destruct th as [t1 t2 t3], w as [w1 w2 w3]. unfold d. vunf. apply v3_ext; rops; field; lra. }
  rewrite E3. cbv zeta. rewrite N. unfold cayley. clear - Hden. set (a := v3scale th (/ 2)) in *. clearbody a. destruct a, w. vunf.
  apply v3_ext; rops; field; lra.
Qed.
Lemma cayley_comp : forall (f g h : R -> R) a b c d f' g' h', 0 <= d -> is_derive f 0 f' -> is_derive g 0 g' -> is_derive h 0 h' ->
  is_derive (fun t => (f t * (1 - t * t * d) + a * (2 * t * t * (a * f t + (b * g t + c * h t))) - (b * h t - c * g t) * (2 * t))
    / (1 + t * t * d)) 0 (f' - 2 * (b * h 0 - c * g 0)).
Proof.
  intros f g h a b c d f' g' h' Hd Hf Hg Hh.
  auto_derive; [repeat split; try (eexists; eassumption); lra|]. 
  assert (Df : Derive (fun x : R => f x) 0 = f') by (apply is_derive_unique; exact Hf).
  assert (Dg : Derive (fun x : R => g x) 0 = g') by (apply is_derive_unique; exact Hg).
  assert (Dh : Derive (fun x : R => h x) 0 = h') by (apply is_derive_unique; exact Hh).
  rewrite Df, Dg, Dh.
  field; lra.
Qed.
Ltac req := match goal with |- ?a = ?b => change (@eq R a b) end.
Ltac rdiv := match goal with |- ?a / ?k = ?b / ?k => let E := fresh in assert (E : @eq R a b) by ring; exact (f_equal (fun x => x / k) E) end.
Lemma derive_eq : forall (f : R -> R) t x y, is_derive f t x -> x = y -> is_derive f t y.
Proof. intros f t x y H <-. exact H. Qed.
Lemma derive3_cayley : forall th f x, derive3 f 0 x -> derive3 (fun t => cayley th t (f t)) 0 (v3sub x (v3cross th (f 0))).
Proof.
  intros th f x (A & B & C). destruct th as [t1 t2 t3].
  set (d := v3dot (v3scale (V3 t1 t2 t3) (/ 2)) (v3scale (V3 t1 t2 t3) (/ 2))).
  assert (Hd : 0 <= d) by apply v3dot_nonneg. d3.
  - eapply derive_eq; [eapply is_derive_ext; [|apply (cayley_comp _ _ _ (t1 * / 2) (t2 * / 2) (t3 * / 2) d _ _ _ Hd A B C)]|].
    + intros s. unfold cayley. fold d. generalize (f s). intros []. clear. clearbody d. vunf. rdiv.
    + cbn. field.
  - eapply derive_eq; [eapply is_derive_ext; [|apply (cayley_comp _ _ _ (t2 * / 2) (t3 * / 2) (t1 * / 2) d _ _ _ Hd B C A)]|].
    + intros s. unfold cayley. fold d. generalize (f s). intros []. clear. clearbody d. vunf. rdiv.
    + cbn. field.
  - eapply derive_eq; [eapply is_derive_ext; [|apply (cayley_comp _ _ _ (t3 * / 2) (t1 * / 2) (t2 * / 2) d _ _ _ Hd C A B)]|].
    + intros s. unfold cayley. fold d. generalize (f s). intros []. clear. clearbody d. vunf. rdiv.
    + cbn. field.
Qed.
Lemma cayley_0 : forall th v, cayley th 0 v = v.
Proof. intros [] []. unfold cayley. vunf. apply v3_ext; rops; field. Qed.
Lemma derive3_qrot : forall q f x, derive3 f 0 x -> derive3 (fun t => qrot q (f t)) 0 (qrot q x).
Proof.
  intros q f x H. eapply derive3_ext; [intros s; symmetry; apply qrot_mat|]. rewrite qrot_mat. apply derive3_mulv. exact H.
Qed.
(** Rotating back by a corrected attitude. *)
Lemma derive3_unrot : forall q th f x, qunit q -> derive3 f 0 x ->
  derive3 (fun t => qrot (qconj (q_correct q (v3scale th t))) (f t)) 0
    (v3sub (qrot (qconj q) x) (v3cross th (qrot (qconj q) (f 0)))).
Proof.
  intros q th f x Hq H. eapply derive3_ext; [intros s; symmetry; apply qrot_correct; exact Hq|].
  apply (derive3_cayley th (fun t => qrot (qconj q) (f t))). apply derive3_qrot. exact H.
Qed.
Lemma derive_proj : forall f x, derive3 f 0 x -> v3z (f 0) <> 0 ->
  is_derive (fun t => v3x (f t) / v3z (f t)) 0 (v3x x / v3z (f 0) - v3x (f 0) * v3z x / (v3z (f 0) * v3z (f 0))) /\
  is_derive (fun t => v3y (f t) / v3z (f t)) 0 (v3y x / v3z (f 0) - v3y (f 0) * v3z x / (v3z (f 0) * v3z (f 0))).
Proof.
  intros f x (A & B & C) Hz. split.
  - eapply derive_eq; [apply (is_derive_div _ _ _ _ _ A C Hz)|]. req. field. exact Hz.
  - eapply derive_eq; [apply (is_derive_div _ _ _ _ _ B C Hz)|]. req. field. exact Hz.
Qed.
Lemma v3_at0 : forall a d : v3 R, v3add a (v3scale d 0) = a.
Proof. intros [] []. vring. Qed.
Lemma q_correct_0 : forall q th, qunit q -> q_correct q (v3scale th 0) = q.
Proof.
  intros q th Hq. unfold q_correct. assert (E : qmul q (delta_q (v3scale th 0)) = q) by (destruct q, th; vunf; apply q_ext; rops; field).
  rewrite E. apply qnormalize_of_unit. exact Hq.
Qed.

Lemma cam_curve : forall qb pb qe pe pw th dp the dpe dw, qunit qb -> qunit qe ->
  derive3 (fun t => cam_point (q_correct qb (v3scale th t)) (v3add pb (v3scale dp t))
      (q_correct qe (v3scale the t)) (v3add pe (v3scale dpe t)) (v3add pw (v3scale dw t))) 0
    (let u := qrot (qconj qb) (v3sub pw pb) in let c := cam_point qb pb qe pe pw in
     v3sub (qrot (qconj qe) (v3sub (v3sub (qrot (qconj qb) (v3sub dw dp)) (v3cross th u)) dpe)) (v3cross the c)).
Proof.
  intros qb pb qe pe pw th dp the dpe dw Hb He. cbv zeta. unfold cam_point.
  pose proof (derive3_sub _ _ 0 _ _ (derive3_line pw dw 0) (derive3_line pb dp 0)) as H1.
  pose proof (derive3_unrot qb th _ _ Hb H1) as H2. cbv beta in H2.
  pose proof (derive3_sub _ _ 0 _ _ H2 (derive3_line pe dpe 0)) as H3.
  pose proof (derive3_unrot qe the _ _ He H3) as H4. cbv beta in H4.
  rewrite !v3_at0, q_correct_0 in H4 by exact Hb. exact H4.
Qed.

(** C48, measurement blocks *)
Theorem measurement_jacobian : forall (e : extrinsic R) (f : frame R) pw th dp the dpe dw,
  qunit (fr_q f) -> qunit (ex_q e) -> v3z (cam_point (fr_q f) (fr_p f) (ex_q e) (ex_p e) pw) <> 0 ->
  let pred t := cam_point (q_correct (fr_q f) (v3scale th t)) (v3add (fr_p f) (v3scale dp t))
      (q_correct (ex_q e) (v3scale the t)) (v3add (ex_p e) (v3scale dpe t)) (v3add pw (v3scale dw t)) in
  let jac i := row3 (jac_pw e f pw) i 0 dw + row3 (jac_pwb e f pw) i 0 dp + row3 (jac_Rwb e f pw) i 0 th +
    row3 (jac_pbc e f pw) i 0 dpe + row3 (jac_Rbc e f pw) i 0 the in
  is_derive (fun t => v3x (pred t) / v3z (pred t)) 0 (jac 0%nat) /\ is_derive (fun t => v3y (pred t) / v3z (pred t)) 0 (jac 1%nat).
Proof.
  intros e f pw th dp the dpe dw Hb He Hz pred jac.
  pose proof (cam_curve (fr_q f) (fr_p f) (ex_q e) (ex_p e) pw th dp the dpe dw Hb He) as H. cbv zeta in H.
  assert (P0 : pred 0 = cam_point (fr_q f) (fr_p f) (ex_q e) (ex_p e) pw).
  { unfold pred. rewrite !q_correct_0, !v3_at0 by assumption. reflexivity. }
  assert (Hz' : v3z (pred 0) <> 0) by (rewrite P0; exact Hz).
  destruct (derive_proj _ _ H Hz') as [A B]. fold pred in A, B. fold (pred 0) in A, B. rewrite P0 in A, B.
  set (u := qrot (qconj (fr_q f)) (v3sub pw (fr_p f))) in *. set (c := cam_point (fr_q f) (fr_p f) (ex_q e) (ex_p e) pw) in *.
  assert (Eb : meas_pb f pw = u) by (unfold meas_pb, meas_Rbw, u; rewrite qinv_unit by exact Hb; symmetry; apply qrot_mat).
  assert (Ec : meas_pc e f pw = c) by (unfold meas_pc, meas_Rcb; rewrite Eb, qinv_unit by exact He; symmetry; apply qrot_mat).
  rewrite !qrot_mat in A, B.
  assert (Q : forall i, jac i = let r := match i with O => meas_j0 c | _ => meas_j1 c end in
    v3dot r (v3sub (m33mulv (qmat (qconj (ex_q e))) (v3sub (v3sub (m33mulv (qmat (qconj (fr_q f))) (v3sub dw dp)) (v3cross th u)) dpe)) (v3cross the c))).
  { intros i. unfold jac, jac_pw, jac_pwb, jac_Rwb, jac_pbc, jac_Rbc. rewrite Eb, Ec. unfold meas_Rcb, meas_Rbw. rewrite !qinv_unit by assumption.
    generalize (qmat (qconj (ex_q e))) (qmat (qconj (fr_q f))). clear. intros M N. unfold row3, meas_jmm, meas_jm, m23, row_mul. cbn [me].
    generalize (meas_j0 c) (meas_j1 c). intros j0 j1.
    destruct i as [|i]; clearbody u c; destruct M, N, j0, j1, u, c, th, dp, the, dpe, dw; vunf; ring. }
  split.
  - eapply derive_eq; [exact A|]. rewrite Q. cbv zeta. generalize (v3sub (m33mulv (qmat (qconj (ex_q e))) (v3sub (v3sub (m33mulv (qmat (qconj (fr_q f))) (v3sub dw dp)) (v3cross th u)) dpe)) (v3cross the c)).
    intros x. clear - Hz. clearbody c. destruct c, x. unfold meas_j0. vunf. req. field. exact Hz.
  - eapply derive_eq; [exact B|]. rewrite Q. cbv zeta. generalize (v3sub (m33mulv (qmat (qconj (ex_q e))) (v3sub (v3sub (m33mulv (qmat (qconj (fr_q f))) (v3sub dw dp)) (v3cross th u)) dpe)) (v3cross the c)).
    intros x. clear - Hz. clearbody c. destruct c, x. unfold meas_j1. vunf. req. field. exact Hz.
Qed.

(** C48, PnP *)
Theorem pnp_jacobian : forall q p pt th dp, qunit q -> v3z (qrot (qconj q) (v3sub pt p)) <> 0 ->
  let pred t := qrot (qconj (q_correct q (v3scale th t))) (v3sub pt (v3add p (v3scale dp t))) in
  let jac i := row3 (pnp_jac q p pt) i 0 dp + row3 (pnp_jac q p pt) i 3 th in
  is_derive (fun t => v3x (pred t) / v3z (pred t)) 0 (jac 0%nat) /\ is_derive (fun t => v3y (pred t) / v3z (pred t)) 0 (jac 1%nat).
Proof.
  intros q p pt th dp Hq Hz pred jac.
  assert (H : derive3 pred 0 (v3sub (qrot (qconj q) (v3opp dp)) (v3cross th (qrot (qconj q) (v3sub pt p))))).
  { pose proof (derive3_sub _ _ 0 _ _ (derive3_line pt v3zero 0) (derive3_line p dp 0)) as H1.
    pose proof (derive3_unrot q th _ _ Hq H1) as H2. cbv beta in H2. rewrite !v3_at0 in H2.
    assert (E : v3sub v3zero dp = v3opp dp) by (destruct dp; vring). rewrite E in H2.
    eapply derive3_ext; [|exact H2]. intros s. cbv beta. unfold pred. f_equal. f_equal. destruct pt; vring. }
  assert (P0 : pred 0 = qrot (qconj q) (v3sub pt p)) by (unfold pred; rewrite q_correct_0, v3_at0 by assumption; reflexivity).
  destruct (derive_proj pred _ H ltac:(rewrite P0; exact Hz)) as [A B]. rewrite P0 in A, B.
  set (c := qrot (qconj q) (v3sub pt p)) in *.
  assert (Ec : pnp_pc q p pt = c) by (unfold pnp_pc, c; rewrite qinv_unit by exact Hq; reflexivity).
  rewrite !qrot_mat in A, B.
  split; [eapply derive_eq; [exact A|]|eapply derive_eq; [exact B|]]; unfold jac, row3, pnp_jac; rewrite Ec, qinv_unit by exact Hq; cbn [me Nat.ltb Nat.leb Nat.sub];
    unfold row_mul; generalize (qmat (qconj q)); intros M; clear - Hz; clearbody c; destruct M, c, th, dp; vunf; req; field; exact Hz.
Qed.

(** C48, iterative triangulation: derivative with respect to the inverse depth parameters. *)
Theorem tri_jacobian_derivative : forall q t x z d j0 j1 r w, tri_jacobian q t x z = (j0, j1, r, w) ->
  let h (x : v3 R) := v3add (qrot q (V3 (v3x x) (v3y x) 1)) (v3scale t (v3z x)) in
  v3z (h x) <> 0 ->
  let line s := h (v3add x (v3scale d s)) in
  is_derive (fun s => v3x (line s) / v3z (line s)) 0 (v3dot j0 d) /\ is_derive (fun s => v3y (line s) / v3z (line s)) 0 (v3dot j1 d) /\
  r = V2 (v3x (h x) / v3z (h x) - v2x z) (v3y (h x) / v3z (h x) - v2y z).
Proof.
  intros q t x z d j0 j1 r w E h Hz line.
  assert (Ej0 : j0 = fst (fst (fst (tri_jacobian q t x z)))) by (rewrite E; reflexivity).
  assert (Ej1 : j1 = snd (fst (fst (tri_jacobian q t x z)))) by (rewrite E; reflexivity).
  assert (Er : r = snd (fst (tri_jacobian q t x z))) by (rewrite E; reflexivity). clear E.
  cbv beta zeta delta [tri_jacobian] in Ej0, Ej1, Er. cbn [fst snd] in Ej0, Ej1, Er.
  assert (Eh : h x = v3add (m33mulv (qmat q) (V3 (v3x x) (v3y x) 1)) (V3 (v3z x * v3x t) (v3z x * v3y t) (v3z x * v3z t))).
  { unfold h. rewrite qrot_mat. f_equal. destruct t, x; vring. }
  assert (H : derive3 line 0 (v3add (m33mulv (qmat q) (V3 (v3x d) (v3y d) 0)) (v3scale t (v3z d)))).
  { unfold line, h. clear.
    apply (derive3_ext (fun s => v3add (m33mulv (qmat q) (V3 (v3x (v3add x (v3scale d s))) (v3y (v3add x (v3scale d s))) 1))
      (v3scale t (v3z (v3add x (v3scale d s)))))); [intros s; rewrite qrot_mat; reflexivity|].
    generalize (qmat q). intros M. destruct M, x as [x1 x2 x3], d as [d1 d2 d3], t as [t1 t2 t3]. d3; vunf; auto_derive; auto; ring. }
  assert (P0 : line 0 = h x) by (unfold line; rewrite v3_at0; reflexivity).
  destruct (derive_proj line _ H ltac:(rewrite P0; exact Hz)) as [A B]. rewrite P0 in A, B.
  rewrite Eh in *. clearbody line. clear Eh P0 H h. revert A B Hz Ej0 Ej1 Er. generalize (qmat q). intros M A B Hz Ej0 Ej1 Er.
  split; [|split].
  - eapply derive_eq; [exact A|]. subst j0. clear - Hz. destruct M, t, x, d. vunf. req. field. intros E; apply Hz; rewrite <- E; ring.
  - eapply derive_eq; [exact B|]. subst j1. clear - Hz. destruct M, t, x, d. vunf. req. field. intros E; apply Hz; rewrite <- E; ring.
  - subst r. reflexivity.
Qed.
