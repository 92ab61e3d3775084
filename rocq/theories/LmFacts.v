(** C82: the steps of the iterative triangulation. *)
From Coq Require Import ZArith Reals Lra Lia List Bool Psatz.
From Coquelicot Require Import Coquelicot.
From Flocq Require Import Core IEEE754.BinarySingleNaN.
From Verif Require Import Fp Scalar Base LinAlg MathLib FrameManager Propagator Triangulate QuatFacts DerivSpec DerivFacts GeoSpec TriFacts LmSpec.
Import ListNotations.
Local Open Scope R_scope.

(** ** The constants *)
Ltac bval c := cbn [sof32 ops_R]; rewrite <- SF2R_B2SF; let y := eval vm_compute in (B2SF c) in
  replace (B2SF c) with y by (vm_compute; reflexivity); unfold SF2R, F2R; cbn; repeat match goal with |- context [IZR ?z] => let z' := eval vm_compute in z in progress change (IZR z) with (IZR z') end; try lra.
Lemma huber_val : @huber_eps R _ = huber.
Proof. unfold huber_eps, huber. bval (f32_lit 0xa3d70a (-30)). Qed.
Lemma sten_val : @sten R _ = 10.
Proof. unfold sten. bval (f32_lit 10 0). Qed.
Lemma lambda0_pos : 0 < @lambda0 R _.
Proof. replace (@lambda0 R _) with (8589935 / 8589934592); [lra|]. unfold lambda0. symmetry. bval (f32_lit 0x83126f (-33)). Qed.
Lemma s1em10_val : @s1em10 R _ = 14411519 / 144115188075855872.
Proof. unfold s1em10. bval (f32_lit 0xdbe6ff (-57)). Qed.
Lemma s1e12_val : @s1e12 R _ = 999999995904.
Proof. unfold s1e12. bval (f32_lit 0xe8d4a5 16). Qed.
Lemma d1em10_val : B2R d1em10 = 7737125245533627 / 77371252455336267181195264.
Proof. unfold d1em10. bval (f64_lit 7737125245533627 (-86)). Qed.
Lemma d1e12_val : B2R d1e12 = 1000000000000.
Proof. unfold d1e12. bval (f64_lit 1000000000000 0). Qed.
Lemma accept_lambda : forall l : R, (if sgt64 (sdiv l sten) d1em10 then sdiv l sten else s1em10) = lowered l.
Proof.
  intros l. rewrite sten_val, s1em10_val. cbn [sgt64 sdiv ops_R]. rewrite d1em10_val. unfold lowered, Rltb. destruct (Rlt_dec _ (l / 10)); reflexivity.
Qed.
Lemma reject_lambda : forall l : R, (if slt64 (smul l sten) d1e12 then smul l sten else s1e12) = raised l 1.
Proof.
  intros l. rewrite sten_val, s1e12_val. cbn [slt64 smul ops_R]. rewrite d1e12_val. unfold raised, Rltb. cbn [pow]. rewrite Rmult_1_r.
  destruct (Rlt_dec (l * 10) _); reflexivity.
Qed.
Lemma raised_pos : forall l k, 0 < l -> 0 < raised l k.
Proof.
  intros l k H. destruct k; [exact H|]. unfold raised. destruct (Rlt_dec _ _); [|lra]. apply Rmult_lt_0_compat; [exact H|]. apply pow_lt. lra.
Qed.
Lemma lowered_pos : forall l, 0 < lowered l.
Proof. intros l. unfold lowered. destruct (Rlt_dec _ _); lra. Qed.
Lemma raised_raised : forall l k, 0 < l -> raised (raised l 1) k = raised l (S k).
Proof.
  intros l k H. destruct k as [|k]; [reflexivity|]. unfold raised. cbn [pow]. rewrite Rmult_1_r.
  assert (P : 1 <= 10 ^ k) by (apply pow_R1_Rle; lra). set (p := 10 ^ k) in *.
  destruct (Rlt_dec (l * 10) 1000000000000) as [A|A].
  - replace (l * 10 * (10 * p)) with (l * (10 * (10 * p))) by ring. reflexivity.
  - destruct (Rlt_dec (999999995904 * (10 * p)) 1000000000000) as [B|B]; [exfalso; nra|].
    destruct (Rlt_dec (l * (10 * (10 * p))) 1000000000000) as [C|C]; [exfalso; nra|reflexivity].
Qed.

(** ** The damping *)
Section Damping.
Variable ldlt : m33 R -> v3 R -> v3 R.
Lemma lm_body_cases : forall cw A b (s : lm R), let s' := lm_body ldlt cw A b s in
  lm_calls s' = S (lm_calls s) /\
  if lm_reduced s' then lm_lambda s' = lowered (lm_lambda s) /\ lm_cost s' < lm_cost s
  else lm_lambda s' = raised (lm_lambda s) 1 /\ lm_sol s' = lm_sol s /\ lm_cost s' = lm_cost s.
Proof.
  intros cw A b s s'. unfold s', lm_body. destruct (sltb _ (lm_cost s)) eqn:E; cbn [lm_calls lm_reduced lm_lambda lm_sol lm_cost].
  - split; [reflexivity|]. split; [apply accept_lambda|]. apply sltb_R. exact E.
  - split; [reflexivity|]. split; [apply reject_lambda|]. split; reflexivity.
Qed.
Lemma lm_inner_damping : forall cw A b fuel cntr (s s' : lm R), (cntr <= 10)%nat -> 0 < lm_lambda s -> lm_inner fuel ldlt cw A b cntr s = Some s' ->
  exists k, (k <= 10 - cntr)%nat /\ lm_calls s' = (lm_calls s + k + 1)%nat /\
    if lm_reduced s' then lm_lambda s' = lowered (raised (lm_lambda s) k) /\ lm_cost s' < lm_cost s
    else (k = 10 - cntr)%nat /\ lm_lambda s' = raised (lm_lambda s) (k + 1) /\ lm_sol s' = lm_sol s /\ lm_cost s' = lm_cost s.
Proof.
  intros cw A b. induction fuel as [|f IH]; intros cntr s s' Hc Hl E; [discriminate|]. cbn [lm_inner] in E.
  destruct (lm_body_cases cw A b s) as [C K]. cbv zeta in C, K. set (s1 := lm_body ldlt cw A b s) in *. clearbody s1.
  destruct (lm_reduced s1) eqn:R.
  - rewrite andb_false_r in E. injection E as <-. exists 0%nat. rewrite R. split; [lia|]. split; [lia|]. exact K.
  - cbn [negb] in E. rewrite andb_true_r in E. destruct K as (K1 & K2 & K3). destruct (Nat.ltb cntr 10) eqn:N.
    + apply Nat.ltb_lt in N. destruct (IH (S cntr) s1 s' ltac:(lia)) as (k & Hk & Ck & D); [rewrite K1; apply raised_pos; exact Hl|exact E|].
      exists (S k). split; [lia|]. split; [lia|]. rewrite K1, K2, K3 in D. rewrite !raised_raised in D by exact Hl.
      destruct (lm_reduced s'); [exact D|]. destruct D as (D1 & D2 & D3 & D4). split; [lia|]. split; [exact D2|]. split; assumption.
    + apply Nat.ltb_ge in N. injection E as <-. exists 0%nat. rewrite R. split; [lia|]. split; [lia|]. split; [lia|]. cbn [plus]. repeat split; assumption.
Qed.
End Damping.

(** ** The systems *)
Definition psd3 (m : m33 R) : Prop :=
  (forall u v, v3dot u (m33mulv m v) = v3dot (m33mulv m u) v) /\ forall v, 0 <= v3dot v (m33mulv m v).
Lemma psd3_0 : psd3 (M33 0 0 0 0 0 0 0 0 0).
Proof. split; [intros [] []; vunf; ring|]. intros []. vunf. lra. Qed.
Lemma psd3_add : forall a b, psd3 a -> psd3 b -> psd3 (m33add a b).
Proof.
  intros a b [S1 P1] [S2 P2].
  assert (L : forall v, m33mulv (m33add a b) v = v3add (m33mulv a v) (m33mulv b v)) by (intros []; destruct a, b; vring).
  assert (D1 : forall u v w : v3 R, v3dot u (v3add v w) = v3dot u v + v3dot u w) by (intros [] [] []; vunf; ring).
  assert (D2 : forall u v w : v3 R, v3dot (v3add v w) u = v3dot v u + v3dot w u) by (intros [] [] []; vunf; ring).
  split.
  - intros u v. rewrite !L, D1, D2, S1, S2. reflexivity.
  - intros v. rewrite L, D1. specialize (P1 v). specialize (P2 v). lra.
Qed.
Lemma psd3_jtj : forall c a b, 0 <= c -> psd3 (jtj (fun x => c * x) a b).
Proof.
  intros c [a1 a2 a3] [b1 b2 b3] H. split.
  - intros [] []. unfold jtj. vunf. ring.
  - intros [x y z]. replace (v3dot _ _) with (c * ((a1 * x + a2 * y + a3 * z) * (a1 * x + a2 * y + a3 * z) + (b1 * x + b2 * y + b3 * z) * (b1 * x + b2 * y + b3 * z))).
    + apply Rmult_le_pos; [exact H|]. pose proof (Rle_0_sqr (a1 * x + a2 * y + a3 * z)). pose proof (Rle_0_sqr (b1 * x + b2 * y + b3 * z)). unfold Rsqr in *. lra.
    + unfold jtj. vunf. ring.
Qed.
Lemma psd3_jtj1 : forall a b, psd3 (jtj (fun x => x) a b).
Proof.
  intros a b. replace (jtj (fun x => x) a b) with (jtj (fun x => 1 * x) a b); [apply psd3_jtj; lra|].
  unfold jtj. destruct a, b. vring.
Qed.
Definition nstep (sol : v3 R) (acc : m33 R * v3 R) (v : view R) : m33 R * v3 R :=
  let '(q, t, n) := v in
  let '(A, b) := acc in
  let '(j0, j1, r, w) := tri_jacobian q t sol n in
  if (sleb w s1 && sleb s1 w)%bool
  then (m33add A (jtj (fun x => x) j0 j1), v3add b (jtr (fun x => x) j0 j1 r))
  else let w2 := smul w w in (m33add A (jtj (fun x => smul w2 x) j0 j1), v3add b (jtr (fun x => smul w2 x) j0 j1 r)).
Lemma tri_normal_fold : forall cw sol, tri_normal cw sol = fold_left (nstep sol) cw (M33 0 0 0 0 0 0 0 0 0, V3 0 0 0).
Proof. reflexivity. Qed.
Lemma nstep_psd : forall sol v acc, psd3 (fst acc) -> psd3 (fst (nstep sol acc v)).
Proof.
  intros sol [[q t] n] [A b] H. unfold nstep. destruct (tri_jacobian q t sol n) as [[[j0 j1] r] w]. cbn [fst] in H.
  destruct (_ && _)%bool; cbn [fst]; apply psd3_add; try exact H; [apply psd3_jtj1|]. cbn [smul ops_R]. apply psd3_jtj. nra.
Qed.
Lemma normal_psd : forall cw sol, psd3 (fst (tri_normal cw sol)).
Proof.
  intros cw sol. rewrite tri_normal_fold.
  assert (G : forall acc, psd3 (fst acc) -> psd3 (fst (fold_left (nstep sol) cw acc))).
  { induction cw as [|v cw IH]; intros acc H; [exact H|]. cbn [fold_left]. apply IH, nstep_psd, H. }
  apply G. exact psd3_0.
Qed.
Lemma dot_self_pos : forall v : v3 R, v <> V3 0 0 0 -> 0 < v3dot v v.
Proof.
  intros [x y z] H. vunf. destruct (Rle_lt_dec (x * x + (y * y + z * z)) 0) as [L|L]; [|exact L].
  exfalso. apply H. f_equal; nra.
Qed.
Lemma damped_spd : forall A l, psd3 A -> 0 < l -> spd3 (m33add A (m33scale l m33id)).
Proof.
  intros A l [Sy P] Hl.
  assert (L : forall v, m33mulv (m33add A (m33scale l m33id)) v = v3add (m33mulv A v) (v3scale v l)) by (intros []; destruct A; vring).
  assert (D1 : forall u v w : v3 R, v3dot u (v3add v w) = v3dot u v + v3dot u w) by (intros [] [] []; vunf; ring).
  assert (D2 : forall u v w : v3 R, v3dot (v3add v w) u = v3dot v u + v3dot w u) by (intros [] [] []; vunf; ring).
  assert (E1 : forall (u v : v3 R) c, v3dot u (v3scale v c) = v3dot u v * c) by (intros [] [] ?; vunf; ring).
  assert (E2 : forall (u v : v3 R) c, v3dot (v3scale v c) u = v3dot v u * c) by (intros [] [] ?; vunf; ring).
  split.
  - intros u v. rewrite !L, D1, D2, E1, E2, Sy. reflexivity.
  - intros v Hv. rewrite L, D1, E1. pose proof (dot_self_pos v Hv). specialize (P v). nra.
Qed.

(** ** The solver is only used on positive definite systems *)
Section Agree.
Variables f g : m33 R -> v3 R -> v3 R.
Hypothesis Hfg : agree_spd f g.
Lemma body_agree : forall cw A b (s : lm R), psd3 A -> 0 < lm_lambda s -> lm_body f cw A b s = lm_body g cw A b s.
Proof using Hfg. intros cw A b s HA Hl. unfold lm_body. rewrite (Hfg _ b (damped_spd A _ HA Hl)). reflexivity. Qed.
Lemma body_lambda : forall ldlt cw A b (s : lm R), 0 < lm_lambda s -> 0 < lm_lambda (lm_body ldlt cw A b s).
Proof.
  intros ldlt cw A b s H. destruct (lm_body_cases ldlt cw A b s) as [_ K]. cbv zeta in K. destruct (lm_reduced _); destruct K as [-> _].
  - apply lowered_pos.
  - apply raised_pos, H.
Qed.
Lemma inner_agree : forall cw A b fuel cntr (s : lm R), psd3 A -> 0 < lm_lambda s ->
  lm_inner fuel f cw A b cntr s = lm_inner fuel g cw A b cntr s /\ forall s', lm_inner fuel g cw A b cntr s = Some s' -> 0 < lm_lambda s'.
Proof using Hfg.
  intros cw A b. induction fuel as [|n IH]; intros cntr s HA Hl; [split; [reflexivity|discriminate]|]. cbn [lm_inner].
  rewrite (body_agree cw A b s HA Hl). pose proof (body_lambda g cw A b s Hl) as Hl'. set (s1 := lm_body g cw A b s) in *. clearbody s1.
  destruct (_ && _)%bool; [apply IH; assumption|]. split; [reflexivity|]. intros s' [= <-]. exact Hl'.
Qed.
Lemma outer_agree : forall cw fi fuel cntr (s : lm R), 0 < lm_lambda s -> lm_outer fuel fi f cw cntr s = lm_outer fuel fi g cw cntr s.
Proof using Hfg.
  intros cw fi. induction fuel as [|n IH]; intros cntr s Hl; [reflexivity|]. cbn [lm_outer]. pose proof (normal_psd cw (lm_sol s)) as HA.
  destruct (tri_normal cw (lm_sol s)) as [A b]. cbn [fst] in HA. destruct (inner_agree cw A b fi 0 s HA Hl) as [-> K].
  destruct (lm_inner fi g cw A b 0 s) as [s1|]; [|reflexivity]. destruct (_ && _)%bool; [|reflexivity]. apply IH, K. reflexivity.
Qed.
Lemma iterative_agree : forall fuel qs ps ns p0, tri_iterative fuel f qs ps ns p0 = tri_iterative fuel g qs ps ns p0.
Proof using Hfg.
  intros fuel qs ps ns p0. unfold tri_iterative. destruct (views qs ps ns) as [vs|]; [|reflexivity]. cbn [obind]. rewrite outer_agree; [reflexivity|exact lambda0_pos].
Qed.
End Agree.

(** ** The step is a descent direction when all residuals are small *)
Lemma from_inverse_inv : forall x : v3 R, inv_depth x = from_inverse x.
Proof. reflexivity. Qed.
Lemma seen_scaled : forall q t (x : v3 R), qunit q -> v3z x <> 0 ->
  let h := v3add (qrot (qinv q) (V3 (v3x x) (v3y x) 1)) (v3scale (qrot (qinv q) (v3opp t)) (v3z x)) in
  h = v3scale (qrot (qconj q) (v3sub (from_inverse x) t)) (v3z x).
Proof.
  intros q t [x y z] U Hz h. unfold h. rewrite qinv_unit by exact U. cbn [v3x v3y v3z] in *. clear h U. unfold from_inverse. destruct q, t. vfield; exact Hz.
Qed.
Lemma scaled_quot : forall (c : v3 R) z, z <> 0 -> v3z c <> 0 -> v3x (v3scale c z) / v3z (v3scale c z) = v3x c / v3z c /\
  v3y (v3scale c z) / v3z (v3scale c z) = v3y c / v3z c.
Proof. intros [x y w] z Hz Hw. cbn in Hw. vunf. split; field; auto. Qed.

Lemma jacobian_weight : forall (q : quat R) t x z j0 j1 r w, tri_jacobian q t x z = (j0, j1, r, w) ->
  w = if sleb (v2norm r) huber_eps then 1 else R_sqrt.sqrt ((1 + 1) * huber_eps / v2norm r).
Proof.
  intros q t x z j0 j1 r w E. replace w with (snd (tri_jacobian q t x z)) by (rewrite E; reflexivity).
  replace r with (snd (fst (tri_jacobian q t x z))) by (rewrite E; reflexivity). reflexivity.
Qed.
Lemma square_derive : forall (a c : R -> R) a' c' m k, is_derive a 0 a' -> is_derive c 0 c' ->
  is_derive (fun s => (a s - m) * (a s - m) + (c s - k) * (c s - k)) 0 (2 * ((a 0 - m) * a' + (c 0 - k) * c')).
Proof.
  intros a c a' c' m k Ha Hc. auto_derive; [repeat split; eexists; eassumption|].
  replace (Derive (fun s => a s) 0) with a' by (symmetry; exact (is_derive_unique _ _ _ Ha)).
  replace (Derive (fun s => c s) 0) with c' by (symmetry; exact (is_derive_unique _ _ _ Hc)). ring.
Qed.
Lemma nonzero_near : forall (f : R -> R) l, is_derive f 0 l -> f 0 <> 0 -> locally 0 (fun s => f s <> 0).
Proof.
  intros f l H H0. pose proof (ex_derive_continuous f 0 (ex_intro _ l H)) as C. exact (C (fun y => y <> 0) (open_neq 0 (f 0) H0)).
Qed.
Lemma view_err : forall q t n (x : v3 R) j0 j1 r w, qunit q -> v3z x <> 0 -> v3z (qrot (qconj q) (v3sub (from_inverse x) t)) <> 0 ->
  tri_jacobian (qinv q) (qrot (qinv q) (v3opp t)) x n = (j0, j1, r, w) ->
  v2norm r = R_sqrt.sqrt (reproj_err n (qrot (qconj q) (v3sub (from_inverse x) t))) /\
  forall d, is_derive (fun s => reproj_err n (qrot (qconj q) (v3sub (from_inverse (v3add x (v3scale d s))) t))) 0 (2 * v3dot (jtr (fun y => y) j0 j1 r) d).
Proof.
  intros q t n x j0 j1 r w U Hz Hc J.
  pose proof (seen_scaled q t x U Hz) as Hh. cbv zeta in Hh.
  assert (Hhz : v3z (v3add (qrot (qinv q) (V3 (v3x x) (v3y x) 1)) (v3scale (qrot (qinv q) (v3opp t)) (v3z x))) <> 0).
  { rewrite Hh. destruct (qrot (qconj q) _) as [c1 c2 c3]. cbn in *. intros E. apply Rmult_integral in E. destruct E; auto. }
  destruct (scaled_quot _ _ Hz Hc) as [Q1 Q2].
  assert (Hr : r = V2 (v3x (qrot (qconj q) (v3sub (from_inverse x) t)) / v3z (qrot (qconj q) (v3sub (from_inverse x) t)) - v2x n)
                      (v3y (qrot (qconj q) (v3sub (from_inverse x) t)) / v3z (qrot (qconj q) (v3sub (from_inverse x) t)) - v2y n)).
  { destruct (tri_jacobian_derivative _ _ _ _ (V3 0 0 0) _ _ _ _ J Hhz) as (_ & _ & ->). rewrite Hh, Q1, Q2. reflexivity. }
  split; [rewrite Hr; reflexivity|]. intros d.
  destruct (tri_jacobian_derivative _ _ _ _ d _ _ _ _ J Hhz) as (D1 & D2 & _).
  set (hx := fun s => v3add (qrot (qinv q) (V3 (v3x (v3add x (v3scale d s))) (v3y (v3add x (v3scale d s))) 1)) (v3scale (qrot (qinv q) (v3opp t)) (v3z (v3add x (v3scale d s))))) in *.
  cbv zeta in D1, D2. change (is_derive (fun s => v3x (hx s) / v3z (hx s)) 0 (v3dot j0 d)) in D1. change (is_derive (fun s => v3y (hx s) / v3z (hx s)) 0 (v3dot j1 d)) in D2.
  set (F := fun s => (v3x (hx s) / v3z (hx s) - v2x n) * (v3x (hx s) / v3z (hx s) - v2x n) + (v3y (hx s) / v3z (hx s) - v2y n) * (v3y (hx s) / v3z (hx s) - v2y n)).
  assert (X0 : v3add x (v3scale d 0) = x) by (destruct x, d; vring).
  assert (DF : is_derive F 0 (2 * v3dot (jtr (fun y => y) j0 j1 r) d)).
  { unfold F. set (a := fun s => v3x (hx s) / v3z (hx s)) in *. set (c := fun s => v3y (hx s) / v3z (hx s)) in *.
    assert (a0 : a 0 - v2x n = v2x r) by (unfold a, hx; rewrite X0, Hh, Q1, Hr; reflexivity).
    assert (c0 : c 0 - v2y n = v2y r) by (unfold c, hx; rewrite X0, Hh, Q2, Hr; reflexivity).
    eapply derive_eq; [exact (square_derive a c _ _ (v2x n) (v2y n) D1 D2)|]. rewrite a0, c0. clear. destruct j0, j1, r, d. unfold jtr. vunf. req. ring. }
  apply (is_derive_ext_loc F); [|exact DF].
  assert (NZ : locally 0 (fun s => v3z (v3add x (v3scale d s)) <> 0)).
  { apply (nonzero_near _ (v3z d)); [|rewrite X0; exact Hz]. clear. destruct x, d. vunf. auto_derive; auto; ring. }
  assert (NC : locally 0 (fun s => v3z (hx s) <> 0)).
  { assert (E : exists l, is_derive (fun s => v3z (hx s)) 0 l).
    { unfold hx. clear. generalize (qinv q). intros [a1 a2 a3 a4]. destruct x, d, t. vunf. eexists. auto_derive; auto. }
    destruct E as [l E]. apply (nonzero_near _ l E). unfold hx. rewrite X0. exact Hhz. }
  generalize (filter_and _ _ NZ NC). apply filter_imp. intros s [Hs1 Hs2].
  pose proof (seen_scaled q t (v3add x (v3scale d s)) U Hs1) as Hs. cbv zeta in Hs.
  assert (Hs' : hx s = v3scale (qrot (qconj q) (v3sub (from_inverse (v3add x (v3scale d s))) t)) (v3z (v3add x (v3scale d s)))) by exact Hs.
  unfold F, reproj_err. rewrite Hs' in *. clear Hs Hs'. clearbody hx. clear - Hs1 Hs2.
  set (c := qrot (qconj q) _) in *. set (z := v3z (v3add x (v3scale d s))) in *. clearbody c z.
  assert (Hcz : v3z c <> 0). { intros E. apply Hs2. change (v3z c * z = 0). rewrite E. ring. }
  destruct (scaled_quot c z Hs1 Hcz) as [-> ->]. reflexivity.
Qed.
Lemma unit_weight : (sleb 1 s1 && sleb s1 1)%bool = true.
Proof. cbn [sleb s1 ops_R]. unfold Rleb. destruct (Rle_dec 1 1); [reflexivity|lra]. Qed.
Lemma view_grad : forall q t n (x : v3 R) acc, qunit q -> v3z x <> 0 -> near huber (from_inverse x) (q, t, n) -> exists g,
  snd (nstep x acc (tri_cw (q, t, n))) = v3add (snd acc) g /\
  forall d, is_derive (fun s => reproj_err n (qrot (qconj q) (v3sub (from_inverse (v3add x (v3scale d s))) t))) 0 (2 * v3dot g d).
Proof.
  intros q t n x [A b] U Hz [Hc He]. cbn [tri_cw]. unfold nstep.
  destruct (tri_jacobian (qinv q) (qrot (qinv q) (v3opp t)) x n) as [[[j0 j1] r] w] eqn:J.
  destruct (view_err q t n x j0 j1 r w U Hz Hc J) as [Hr Hd].
  assert (Hw : w = 1).
  { rewrite (jacobian_weight _ _ _ _ _ _ _ _ J), Hr, huber_val.
    assert (L : R_sqrt.sqrt (reproj_err n (qrot (qconj q) (v3sub (from_inverse x) t))) <= huber).
    { rewrite <- (R_sqrt.sqrt_square huber) by (unfold huber; lra). apply R_sqrt.sqrt_le_1_alt. exact He. }
    cbn [sleb ops_R]. unfold Rleb. destruct (Rle_dec _ huber); [reflexivity|contradiction]. }
  rewrite Hw, unit_weight. cbn [snd]. eexists. split; [reflexivity|exact Hd].
Qed.
(** The same with the weights and the corresponding cost. *)
Lemma err_nonneg : forall n c, 0 <= reproj_err n c.
Proof. intros n c. unfold reproj_err. apply Rplus_le_le_0_compat; apply Rle_0_sqr. Qed.
Lemma soft_derive : forall (f : R -> R) l, is_derive f 0 l -> 0 <= f 0 -> R_sqrt.sqrt (f 0) <> huber ->
  is_derive (fun s => soft (f s)) 0 ((if Rle_dec (R_sqrt.sqrt (f 0)) huber then 1 else 2 * huber / R_sqrt.sqrt (f 0)) * l).
Proof.
  intros f l H H0 Hk. assert (HP : 0 < huber) by (unfold huber; lra).
  pose proof (ex_derive_continuous f 0 (ex_intro _ l H)) as C.
  destruct (Rle_dec (R_sqrt.sqrt (f 0)) huber) as [L|L].
  - rewrite Rmult_1_l. apply (is_derive_ext_loc f); [|exact H].
    assert (L2 : f 0 < huber * huber).
    { assert (S : R_sqrt.sqrt (f 0) < huber) by lra. rewrite <- (R_sqrt.sqrt_sqrt (f 0)) by exact H0. pose proof (R_sqrt.sqrt_pos (f 0)). nra. }
    apply (filter_imp (fun s => f s < huber * huber)); [|exact (C (fun y => y < huber * huber) (open_lt _ (f 0) L2))]. intros s Hs. unfold soft.
    destruct (Rle_dec (R_sqrt.sqrt (f s)) huber) as [|N]; [reflexivity|]. exfalso. apply N.
    rewrite <- (R_sqrt.sqrt_square huber) by lra. apply R_sqrt.sqrt_le_1_alt. lra.
  - assert (S : huber < R_sqrt.sqrt (f 0)) by lra.
    assert (L2 : huber * huber < f 0) by (rewrite <- (R_sqrt.sqrt_sqrt (f 0)) by exact H0; nra).
    apply (is_derive_ext_loc (fun s => 4 * huber * R_sqrt.sqrt (f s) - 3 * (huber * huber))).
    + apply (filter_imp (fun s => huber * huber < f s)); [|exact (C (fun y => huber * huber < y) (open_gt _ (f 0) L2))]. intros s Hs. unfold soft.
      destruct (Rle_dec (R_sqrt.sqrt (f s)) huber) as [N|]; [|reflexivity]. exfalso.
      assert (0 <= f s) by nra. rewrite <- (R_sqrt.sqrt_sqrt (f s)) in Hs by assumption. pose proof (R_sqrt.sqrt_pos (f s)). nra.
    + assert (P : 0 < f 0) by nra. auto_derive; [split; [eexists; exact H|]; split; [exact P|exact I]|].
      replace (Derive (fun s => f s) 0) with l by (symmetry; exact (is_derive_unique _ _ _ H)). field. lra.
Qed.
Lemma view_soft : forall q t n (x : v3 R) acc, qunit q -> v3z x <> 0 -> clear_of huber (from_inverse x) (q, t, n) -> exists g,
  snd (nstep x acc (tri_cw (q, t, n))) = v3add (snd acc) g /\
  forall d, is_derive (fun s => soft (reproj_err n (qrot (qconj q) (v3sub (from_inverse (v3add x (v3scale d s))) t)))) 0 (2 * v3dot g d).
Proof.
  intros q t n x [A b] U Hz [Hc He]. cbn [tri_cw]. unfold nstep.
  destruct (tri_jacobian (qinv q) (qrot (qinv q) (v3opp t)) x n) as [[[j0 j1] r] w] eqn:J.
  destruct (view_err q t n x j0 j1 r w U Hz Hc J) as [Hr Hd].
  pose proof (jacobian_weight _ _ _ _ _ _ _ _ J) as Hw. rewrite Hr, huber_val in Hw.
  assert (X0 : forall d, v3add x (v3scale d 0) = x) by (intros d; destruct x, d; vring).
  pose proof (err_nonneg n (qrot (qconj q) (v3sub (from_inverse x) t))) as E0.
  assert (K : R_sqrt.sqrt (reproj_err n (qrot (qconj q) (v3sub (from_inverse x) t))) <> huber).
  { intros K. apply He. rewrite <- K. symmetry. apply R_sqrt.sqrt_sqrt. exact E0. }
  assert (D : forall d, is_derive (fun s => soft (reproj_err n (qrot (qconj q) (v3sub (from_inverse (v3add x (v3scale d s))) t)))) 0
    ((w * w) * (2 * v3dot (jtr (fun y => y) j0 j1 r) d))).
  { intros d. eapply derive_eq; [apply (soft_derive _ _ (Hd d))|]; cbv beta; rewrite X0; try assumption. f_equal. rewrite Hw.
    cbn [sleb ops_R]. unfold Rleb. destruct (Rle_dec _ huber) as [L|L]; [req; ring|].
    rewrite R_sqrt.sqrt_sqrt; [reflexivity|]. apply Rdiv_le_0_compat; [unfold huber; lra|]. unfold huber in *; lra. }
  clear Hd Hw. destruct (sleb w s1 && sleb s1 w)%bool eqn:W; cbn [snd]; eexists; (split; [reflexivity|]); intros d; (eapply derive_eq; [apply D|]).
  - apply andb_true_iff in W. destruct W as [W1 W2]. cbn [sleb s1 ops_R] in W1, W2. unfold Rleb in W1, W2.
    destruct (Rle_dec w 1); [|discriminate]. destruct (Rle_dec 1 w); [|discriminate]. replace w with 1 by lra. req. ring.
  - clear. destruct j0, j1, r, d. unfold jtr. vunf. req. ring.
Qed.

Lemma normal_grad : forall x vs acc, v3z x <> 0 -> List.Forall unit_view vs -> List.Forall (near huber (from_inverse x)) vs -> exists g,
  snd (fold_left (nstep x) (map tri_cw vs) acc) = v3add (snd acc) g /\ forall d, is_derive (cost_along vs x d) 0 (2 * v3dot g d).
Proof.
  intros x vs acc Hz. revert acc. induction vs as [|[[q t] n] vs IH]; intros acc Hu Hn.
  - exists (V3 0 0 0). split; [cbn [map fold_left]; destruct (snd acc); vring|]. intros d. unfold cost_along. cbn [reproj_cost].
    eapply derive_eq; [apply is_derive_const|]. destruct d. vunf. cbn. ring.
  - inversion Hu; inversion Hn; subst. destruct (view_grad q t n x acc) as (g1 & E1 & D1); try assumption.
    cbn [map fold_left]. destruct (IH (nstep x acc (tri_cw (q, t, n)))) as (g2 & E2 & D2); try assumption.
    exists (v3add g1 g2). split.
    + rewrite E2, E1. destruct (snd acc), g1, g2. vring.
    + intros d. unfold cost_along. cbn [reproj_cost].
      eapply derive_eq; [apply (is_derive_plus (K := R_AbsRing) (V := R_NormedModule) _ _ _ _ _ (D1 d) (D2 d))|].
      clear. destruct g1, g2, d. unfold plus. cbn -[v3dot v3add]. vunf. ring.
Qed.
Lemma v3_eq_dec0 : forall v : v3 R, v = V3 0 0 0 \/ v <> V3 0 0 0.
Proof.
  intros [x y z]. destruct (Req_dec x 0) as [->|]; [|right; congruence]. destruct (Req_dec y 0) as [->|]; [|right; congruence].
  destruct (Req_dec z 0) as [->|]; [left; reflexivity|right; congruence].
Qed.
Theorem descent : forall ldlt vs p l, solves_spd ldlt -> 0 < l -> v3z p <> 0 -> List.Forall unit_view vs -> List.Forall (near huber p) vs ->
  let x := inv_depth p in let '(A, b) := tri_normal (map tri_cw vs) x in let d := ldlt (m33add A (m33scale l m33id)) b in
  (d = V3 0 0 0 /\ forall e, is_derive (cost_along vs x e) 0 0) \/ exists D, D < 0 /\ is_derive (cost_along vs x (v3opp d)) 0 D.
Proof.
  intros ldlt vs p l HS Hl Hz Hu Hn x. pose proof (normal_psd (map tri_cw vs) x) as HA.
  assert (Hx : v3z x <> 0). { unfold x, inv_depth. cbn. intros E. unfold Rdiv in E. rewrite Rmult_1_l in E. exact (Rinv_neq_0_compat _ Hz E). }
  assert (Hp : from_inverse x = p) by (rewrite <- from_inverse_inv; apply inv_depth_twice; exact Hz).
  rewrite <- Hp in Hn. destruct (normal_grad x vs (M33 0 0 0 0 0 0 0 0 0, V3 0 0 0) Hx Hu Hn) as (g & Eg & Dg).
  rewrite <- tri_normal_fold in Eg. destruct (tri_normal (map tri_cw vs) x) as [A b]. cbn [fst snd] in *. cbv zeta. set (d := ldlt (m33add A (m33scale l m33id)) b).
  assert (b = g) by (rewrite Eg; destruct g; vring). subst g. clear Eg.
  pose proof (damped_spd A l HA Hl) as Hs. pose proof (HS _ b Hs) as E. fold d in E.
  destruct (v3_eq_dec0 d) as [Z|NZ].
  - left. split; [exact Z|]. intros e. eapply derive_eq; [apply Dg|].
    assert (B : b = V3 0 0 0) by (rewrite <- E, Z; clear; destruct (m33add _ _); vring). rewrite B. clear. destruct e. vunf. req. ring.
  - right. exists (2 * v3dot b (v3opp d)). split; [|apply Dg].
    destruct Hs as [_ Hs]. specialize (Hs d NZ). rewrite E in Hs. clearbody d. clear - Hs. destruct b, d. vunf. lra.
Qed.

Lemma normal_soft : forall x vs acc, v3z x <> 0 -> List.Forall unit_view vs -> List.Forall (clear_of huber (from_inverse x)) vs -> exists g,
  snd (fold_left (nstep x) (map tri_cw vs) acc) = v3add (snd acc) g /\ forall d, is_derive (soft_along vs x d) 0 (2 * v3dot g d).
Proof.
  intros x vs acc Hz. revert acc. induction vs as [|[[q t] n] vs IH]; intros acc Hu Hn.
  - exists (V3 0 0 0). split; [cbn [map fold_left]; destruct (snd acc); vring|]. intros d. unfold soft_along. cbn [soft_cost].
    eapply derive_eq; [apply is_derive_const|]. destruct d. vunf. cbn. ring.
  - inversion Hu; inversion Hn; subst. destruct (view_soft q t n x acc) as (g1 & E1 & D1); try assumption.
    cbn [map fold_left]. destruct (IH (nstep x acc (tri_cw (q, t, n)))) as (g2 & E2 & D2); try assumption.
    exists (v3add g1 g2). split.
    + rewrite E2, E1. destruct (snd acc), g1, g2. vring.
    + intros d. unfold soft_along. cbn [soft_cost].
      eapply derive_eq; [apply (is_derive_plus (K := R_AbsRing) (V := R_NormedModule) _ _ _ _ _ (D1 d) (D2 d))|].
      clear. destruct g1, g2, d. unfold plus. cbn -[v3dot v3add]. vunf. ring.
Qed.
Theorem soft_descent : forall ldlt vs p l, solves_spd ldlt -> 0 < l -> v3z p <> 0 -> List.Forall unit_view vs -> List.Forall (clear_of huber p) vs ->
  let x := inv_depth p in let '(A, b) := tri_normal (map tri_cw vs) x in let d := ldlt (m33add A (m33scale l m33id)) b in
  (d = V3 0 0 0 /\ forall e, is_derive (soft_along vs x e) 0 0) \/ exists D, D < 0 /\ is_derive (soft_along vs x (v3opp d)) 0 D.
Proof.
  intros ldlt vs p l HS Hl Hz Hu Hn x. pose proof (normal_psd (map tri_cw vs) x) as HA.
  assert (Hx : v3z x <> 0). { unfold x, inv_depth. cbn. intros E. unfold Rdiv in E. rewrite Rmult_1_l in E. exact (Rinv_neq_0_compat _ Hz E). }
  assert (Hp : from_inverse x = p) by (rewrite <- from_inverse_inv; apply inv_depth_twice; exact Hz).
  rewrite <- Hp in Hn. destruct (normal_soft x vs (M33 0 0 0 0 0 0 0 0 0, V3 0 0 0) Hx Hu Hn) as (g & Eg & Dg).
  rewrite <- tri_normal_fold in Eg. destruct (tri_normal (map tri_cw vs) x) as [A b]. cbn [fst snd] in *. cbv zeta. set (d := ldlt (m33add A (m33scale l m33id)) b).
  assert (b = g) by (rewrite Eg; destruct g; vring). subst g. clear Eg.
  pose proof (damped_spd A l HA Hl) as Hs. pose proof (HS _ b Hs) as E. fold d in E.
  destruct (v3_eq_dec0 d) as [Z|NZ].
  - left. split; [exact Z|]. intros e. eapply derive_eq; [apply Dg|].
    assert (B : b = V3 0 0 0) by (rewrite <- E, Z; clear; destruct (m33add _ _); vring). rewrite B. clear. destruct e. vunf. req. ring.
  - right. exists (2 * v3dot b (v3opp d)). split; [|apply Dg].
    destruct Hs as [_ Hs]. specialize (Hs d NZ). rewrite E in Hs. clearbody d. clear - Hs. destruct b, d. vunf. lra.
Qed.

(** ** A large residual turns the step around *)
(** Four views from the origin; three residuals huber and one -5 huber at the point (0, 0, 1). *)
Definition t_qs : list (quat R) := [qid; qid; qid; qid].
Definition t_ps : list (v3 R) := [v3zero; v3zero; v3zero; v3zero].
Definition t_ns : list (v2 R) := [V2 (- huber) 0; V2 (- huber) 0; V2 (- huber) 0; V2 (5 * huber) 0].
Definition t_vs : list (quat R * v3 R * v2 R) := combine (combine t_qs t_ps) t_ns.
Definition t_p : v3 R := V3 0 0 1.
Lemma t_cost : forall u, reproj_cost t_vs (V3 u 0 1) = 3 * ((u + huber) * (u + huber)) + (u - 5 * huber) * (u - 5 * huber).
Proof. intros u. unfold t_vs, t_qs, t_ps, t_ns. cbn [combine reproj_cost]. unfold reproj_err. vunf. field. Qed.
Lemma t_jacobian : forall m, exists w, tri_jacobian (qinv qid) (qrot (qinv qid) (v3opp v3zero)) (V3 0 0 1) (V2 m 0) = (V3 1 0 0, V3 0 1 0, V2 (- m) 0, w) /\
  w = if Rle_dec (Rabs m) huber then 1 else R_sqrt.sqrt ((1 + 1) * huber / Rabs m).
Proof.
  intros m. assert (U : qunit qid) by (unfold qunit; vunf; ring). rewrite (qinv_unit qid U).
  replace (qrot (qconj qid) (v3opp v3zero)) with (V3 0 0 0) by vring. replace (qconj qid) with (@qid R _) by vring.
  destruct (tri_jacobian qid (V3 0 0 0) (V3 0 0 1) (V2 m 0)) as [[[j0 j1] r] w] eqn:J. exists w.
  pose proof (jacobian_weight _ _ _ _ _ _ _ _ J) as W. pose proof J as J'.
  assert (E0 : j0 = fst (fst (fst (tri_jacobian qid (V3 0 0 0) (V3 0 0 1) (V2 m 0))))) by (rewrite J; reflexivity).
  assert (E1 : j1 = snd (fst (fst (tri_jacobian qid (V3 0 0 0) (V3 0 0 1) (V2 m 0))))) by (rewrite J; reflexivity).
  assert (E2 : r = snd (fst (tri_jacobian qid (V3 0 0 0) (V3 0 0 1) (V2 m 0)))) by (rewrite J; reflexivity).
  clear J J'. cbv beta zeta delta [tri_jacobian] in E0, E1, E2. cbn [fst snd] in E0, E1, E2.
  assert (j0 = V3 1 0 0) by (rewrite E0; vfield). assert (j1 = V3 0 1 0) by (rewrite E1; vfield).
  assert (Er : r = V2 (- m) 0) by (rewrite E2; vunf; f_equal; field). subst j0 j1. rewrite Er in *. split; [congruence|].
  rewrite W, huber_val. unfold v2norm, v2dot. cbn [v2x v2y sadd smul ssqrt ops_R sleb].
  replace (- m * - m + 0 * 0) with (Rsqr m) by (unfold Rsqr; ring). rewrite R_sqrt.sqrt_Rsqr_abs. unfold Rleb. destruct (Rle_dec (Rabs m) huber); reflexivity.
Qed.
Lemma t_normal : tri_normal (map tri_cw t_vs) (V3 0 0 1) = (M33 (17 / 5) 0 0 0 (17 / 5) 0 0 0 0, V3 huber 0 0).
Proof.
  rewrite tri_normal_fold.
  assert (HP : 0 < huber) by (unfold huber; lra).
  assert (V1 : forall acc, nstep (V3 0 0 1) acc (tri_cw (qid, v3zero, V2 (- huber) 0)) =
    (m33add (fst acc) (M33 1 0 0 0 1 0 0 0 0), v3add (snd acc) (V3 huber 0 0))).
  { intros [A b]. cbn [tri_cw fst snd]. unfold nstep. destruct (t_jacobian (- huber)) as (w & -> & Hw).
    rewrite Rabs_Ropp, Rabs_pos_eq in Hw by lra. destruct (Rle_dec huber huber); [|lra]. rewrite Hw.
    replace (sleb 1 s1 && sleb s1 1)%bool with true by (cbn [sleb s1 ops_R]; unfold Rleb; destruct (Rle_dec 1 1); [reflexivity|lra]).
    clear. f_equal; [f_equal|]; unfold jtj, jtr; destruct b; vring. }
  assert (V2 : forall acc, nstep (V3 0 0 1) acc (tri_cw (qid, v3zero, V2 (5 * huber) 0)) =
    (m33add (fst acc) (M33 (2 / 5) 0 0 0 (2 / 5) 0 0 0 0), v3add (snd acc) (V3 (- 2 * huber) 0 0))).
  { intros [A b]. cbn [tri_cw fst snd]. unfold nstep. destruct (t_jacobian (5 * huber)) as (w & -> & Hw).
    rewrite Rabs_pos_eq in Hw by lra. destruct (Rle_dec (5 * huber) huber); [lra|].
    replace ((1 + 1) * huber / (5 * huber)) with (2 / 5) in Hw by (field; lra).
    assert (W2 : w * w = 2 / 5) by (rewrite Hw; apply R_sqrt.sqrt_sqrt; lra).
    assert (W0 : 0 <= w) by (rewrite Hw; apply R_sqrt.sqrt_pos).
    replace (sleb w s1 && sleb s1 w)%bool with false.
    2:{ symmetry. apply andb_false_iff. right. cbn [sleb s1 ops_R]. unfold Rleb. destruct (Rle_dec 1 w); [nra|reflexivity]. }
    cbv zeta. cbn [smul ops_R]. rewrite W2. clear. f_equal; [f_equal|]; unfold jtj, jtr; destruct b; vfield. }
  unfold t_vs, t_qs, t_ps, t_ns. cbn [combine map fold_left]. rewrite !V1, V2. cbn [fst snd]. f_equal; vfield.
Qed.
Lemma diag_solve : forall ldlt a c l b, solves_spd ldlt -> 0 < l -> 0 <= a -> 0 <= c ->
  ldlt (m33add (M33 a 0 0 0 c 0 0 0 0) (m33scale l m33id)) (V3 b 0 0) = V3 (b / (a + l)) 0 0.
Proof.
  intros ldlt a c l b H Hl Ha Hc.
  assert (P : psd3 (M33 a 0 0 0 c 0 0 0 0)).
  { split; [intros [] []; vunf; ring|]. intros [x y z]. vunf. nra. }
  pose proof (H _ (V3 b 0 0) (damped_spd _ l P Hl)) as E. set (x := ldlt _ _) in *. clearbody x. destruct x as [x y z].
  vunf. injection E as E1 E2 E3. apply v3_ext; cbn [v3x v3y v3z].
  - apply (Rmult_eq_reg_r (a + l)); [|lra]. field_simplify; [|lra]. lra.
  - apply (Rmult_eq_reg_r (c + l)); [|lra]. lra.
  - apply (Rmult_eq_reg_r l); [|lra]. lra.
Qed.
Section Turned.
Variable ldlt : m33 R -> v3 R -> v3 R.
Hypothesis HS : solves_spd ldlt.
Definition t_at (s : lm R) : Prop := lm_sol s = V3 0 0 1 /\ lm_cost s = reproj_cost t_vs (V3 0 0 1) /\ 0 < lm_lambda s.
Lemma t_units : List.Forall unit_view t_vs.
Proof. unfold t_vs. cbn. repeat constructor; unfold unit_view; vunf; ring. Qed.
Lemma t_body : forall s, t_at s -> t_at (lm_body ldlt (map tri_cw t_vs) (M33 (17 / 5) 0 0 0 (17 / 5) 0 0 0 0) (V3 huber 0 0) s).
Proof using HS.
  intros s (E1 & E2 & Hl). assert (HP : 0 < huber) by (unfold huber; lra).
  unfold lm_body. rewrite diag_solve by (try assumption; lra). rewrite E1, E2.
  set (dl := huber / (17 / 5 + lm_lambda s)). assert (0 < dl) by (apply Rdiv_lt_0_compat; lra).
  replace (inv_depth (v3sub (V3 0 0 1) (V3 dl 0 0))) with (V3 (- dl) 0 1) by (unfold inv_depth; clearbody dl; vfield).
  rewrite tri_cost_spec by exact t_units. rewrite !t_cost.
  destruct (sltb _ _) eqn:E.
  - apply sltb_R in E. nra.
  - split; [reflexivity|]. split; [cbn [lm_cost]; rewrite t_cost; reflexivity|]. cbn [lm_lambda]. rewrite reject_lambda. apply raised_pos, Hl.
Qed.
Lemma t_inner : forall fuel cntr s s', t_at s -> lm_inner fuel ldlt (map tri_cw t_vs) (M33 (17 / 5) 0 0 0 (17 / 5) 0 0 0 0) (V3 huber 0 0) cntr s = Some s' -> t_at s'.
Proof using HS.
  induction fuel as [|f IH]; intros cntr s s' H E; [discriminate|]. cbn [lm_inner] in E. pose proof (t_body s H) as H1.
  destruct (_ && _)%bool; [exact (IH _ _ _ H1 E)|]. injection E as <-. exact H1.
Qed.
Lemma t_outer : forall fi fuel cntr s s', t_at s -> lm_outer fuel fi ldlt (map tri_cw t_vs) cntr s = Some s' -> t_at s'.
Proof using HS.
  intros fi. induction fuel as [|f IH]; intros cntr s s' H E; [discriminate|]. cbn [lm_outer] in E. pose proof H as (E1 & _). rewrite E1, t_normal in E.
  destruct (lm_inner fi ldlt _ _ _ 0 s) as [s1|] eqn:EI; [|discriminate]. pose proof (t_inner _ _ _ _ H EI) as H1.
  destruct (_ && _)%bool; [exact (IH _ _ _ H1 E)|]. injection E as <-. exact H1.
Qed.
Lemma turned : forall fuel ok p calls, tri_iterative fuel ldlt t_qs t_ps t_ns t_p = Ok (Some (ok, p, calls)) -> p = t_p.
Proof using HS.
  intros fuel ok p calls E. unfold tri_iterative in E. replace (views t_qs t_ps t_ns) with (Ok t_vs) in E by reflexivity. cbn [obind] in E.
  destruct (lm_outer _ _ _ _ _ _) as [s|] eqn:L; [|discriminate]. injection E as _ <- _. apply t_outer in L.
  - destruct L as (-> & _). unfold inv_depth, t_p. vfield.
  - split; [unfold inv_depth, t_p; cbn [lm_sol]; vfield|]. cbn [lm_cost lm_lambda]. split; [|exact lambda0_pos]. rewrite tri_cost_spec by exact t_units. reflexivity.
Qed.
End Turned.
Lemma t_lower : forall e, 0 < e < 1 / 2 * huber -> reproj_cost t_vs (V3 e 0 1) < reproj_cost t_vs t_p.
Proof. intros e H. unfold t_p. rewrite !t_cost. nra. Qed.

(** ** A solver: Cramer's rule *)
Definition cramer (m : m33 R) (b : v3 R) : v3 R :=
  let '(M33 a b0 c d e f g h i) := m in
  let D := a * (e * i - f * h) - b0 * (d * i - f * g) + c * (d * h - e * g) in
  let '(V3 x y z) := b in
  V3 (((e * i - f * h) * x + (c * h - b0 * i) * y + (b0 * f - c * e) * z) / D)
     (((f * g - d * i) * x + (a * i - c * g) * y + (c * d - a * f) * z) / D)
     (((d * h - e * g) * x + (b0 * g - a * h) * y + (a * e - b0 * d) * z) / D).
Lemma cramer_solves : solves_spd cramer.
Proof.
  intros [a b0 c d e f g h i] [x y z] [Sy P].
  set (D := a * (e * i - f * h) - b0 * (d * i - f * g) + c * (d * h - e * g)).
  assert (HD : D <> 0).
  { intros HD. assert (a0 : 0 < a). { specialize (P (V3 1 0 0) ltac:(intros E; injection E; lra)). clear - P. vunf. lra. }
    assert (Eb : b0 = d). { specialize (Sy (V3 1 0 0) (V3 0 1 0)). clear - Sy. vunf. lra. }
    assert (Hz : (a * e - b0 * d) = 0).
    { destruct (Req_dec (a * e - b0 * d) 0) as [E|E]; [exact E|exfalso].
      specialize (P (V3 (b0 * f - c * e) (c * d - a * f) (a * e - b0 * d)) ltac:(intros H; injection H; intros; contradiction)).
      replace (v3dot _ _) with ((a * e - b0 * d) * D) in P by (unfold D; clear; vunf; ring). rewrite HD in P. lra. }
    specialize (P (V3 (- b0) a 0) ltac:(intros H; injection H; intros; lra)).
    replace (v3dot _ _) with (a * (a * e - b0 * d)) in P by (rewrite Eb; clear; vunf; ring). rewrite Hz in P. lra. }
  unfold cramer. fold D. apply v3_ext; unfold m33mulv, m33row0, m33row1, m33row2, v3dot; cbn; apply (Rmult_eq_reg_r D); try exact HD; field_simplify; try exact HD; unfold D; ring.
Qed.
(** The three small residuals alone. *)
Lemma t_near : List.Forall (near huber t_p) (firstn 3 t_vs) /\ List.Forall unit_view (firstn 3 t_vs).
Proof.
  assert (HP : 0 < huber) by (unfold huber; lra).
  split; [|repeat constructor; unfold unit_view; vunf; ring]. unfold t_vs, t_qs, t_ps, t_ns. cbn [combine firstn].
  assert (N : near huber t_p (qid, v3zero, V2 (- huber) 0)) by (unfold near, t_p; split; [vunf; lra|unfold reproj_err; vunf; apply Req_le; field]).
  do 3 (apply List.Forall_cons; [exact N|]). apply List.Forall_nil.
Qed.
Theorem lm_round : forall ldlt cw A b fuel (s s' : lm R), 0 < lm_lambda s -> lm_inner fuel ldlt cw A b 0 s = Some s' ->
  exists k, (k <= 10)%nat /\ lm_calls s' = (lm_calls s + k + 1)%nat /\
    if lm_reduced s' then lm_lambda s' = lowered (raised (lm_lambda s) k) /\ lm_cost s' < lm_cost s
    else k = 10%nat /\ lm_lambda s' = raised (lm_lambda s) 11 /\ lm_sol s' = lm_sol s /\ lm_cost s' = lm_cost s.
Proof.
  intros ldlt cw A b fuel s s' Hl E. destruct (lm_inner_damping ldlt cw A b fuel 0 s s' (Nat.le_0_l 10) Hl E) as (k & Hk & Ck & D).
  exists k. split; [lia|]. split; [exact Ck|]. destruct (lm_reduced s'); [exact D|]. destruct D as (-> & D). split; [reflexivity|exact D].
Qed.
Lemma t_round : exists s', lm_inner 11 cramer (map tri_cw t_vs) (M33 (17 / 5) 0 0 0 (17 / 5) 0 0 0 0) (V3 huber 0 0) 0
  (Lm (V3 0 0 1) t_p lambda0 (reproj_cost t_vs (V3 0 0 1)) 0 false 0) = Some s' /\ lm_sol s' = V3 0 0 1.
Proof.
  match goal with |- context [lm_inner 11 ?l ?c ?A ?b 0 ?s] => destruct (lm_inner_terminates l c A b 10 0 s eq_refl) as (s' & E & _) end.
  exists s'. specialize (E 11%nat (Nat.le_refl 11)). split; [exact E|].
  refine (proj1 (t_inner cramer cramer_solves _ _ _ _ _ E)). split; [reflexivity|]. split; [reflexivity|exact lambda0_pos].
Qed.
Lemma t_turned : views t_qs t_ps t_ns = Ok t_vs /\ List.Forall unit_view t_vs /\
  (exists r, 0 < r /\ forall e, 0 < e < r -> reproj_cost t_vs (v3add t_p (V3 e 0 0)) < reproj_cost t_vs t_p) /\
  (exists ldlt, solves_spd ldlt) /\
  forall ldlt fuel ok p calls, solves_spd ldlt -> tri_iterative fuel ldlt t_qs t_ps t_ns t_p = Ok (Some (ok, p, calls)) -> p = t_p.
Proof.
  split; [reflexivity|]. split; [exact t_units|]. split; [|split; [exact (ex_intro _ _ cramer_solves)|]].
  - exists (1 / 2 * huber). split; [unfold huber; lra|]. intros e He. replace (v3add t_p (V3 e 0 0)) with (V3 e 0 1) by (unfold t_p; vring). apply t_lower, He.
  - intros ldlt fuel ok p calls H. exact (turned ldlt H fuel ok p calls).
Qed.

(** One small and one large residual. *)
Definition u_vs : list (quat R * v3 R * v2 R) := [(qid, v3zero, V2 (- huber / 2) 0); (qid, v3zero, V2 (5 * huber) 0)].
Lemma u_clear : List.Forall (clear_of huber t_p) u_vs /\ List.Forall unit_view u_vs.
Proof.
  assert (HP : 0 < huber) by (unfold huber; lra).
  split; [|repeat constructor; unfold unit_view; vunf; ring]. unfold u_vs.
  assert (E : forall m, reproj_err (V2 m 0) (qrot (qconj qid) (v3sub t_p v3zero)) = m * m) by (intros m; unfold reproj_err, t_p; vunf; field).
  repeat (apply List.Forall_cons; [unfold clear_of; rewrite E; split; [unfold t_p; vunf; lra|nra]|]). apply List.Forall_nil.
Qed.
