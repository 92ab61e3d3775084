(** C82: the iterative triangulation from a stationary point. *)
From Coq Require Import ZArith Reals Lra Lia List Bool Psatz.
From Coquelicot Require Import Coquelicot.
From Verif Require Import Fp Scalar Base LinAlg MathLib Triangulate QuatFacts DerivSpec DerivFacts GeoSpec StepSpec TriFacts LmSpec LmFacts LmRoundSpec.
Import ListNotations.
Local Open Scope R_scope.

Section Still.
Variables (ldlt : m33 R -> v3 R -> v3 R) (cw : list (view R)) (A : m33 R) (b x : v3 R).
Hypothesis Z : forall l, 0 < l -> ldlt (m33add A (m33scale l m33id)) b = V3 0 0 0.
Lemma body_still : forall s, 0 < lm_lambda s -> lm_sol s = x -> lm_cost s = tri_cost cw (inv_depth x) -> let s' := lm_body ldlt cw A b s in
  0 < lm_lambda s' /\ lm_sol s' = x /\ lm_cost s' = tri_cost cw (inv_depth x) /\ lm_dnorm s' = 0 /\ lm_reduced s' = false /\ lm_calls s' = S (lm_calls s).
Proof using Z.
  intros s Hl Ex Ec s'. pose proof (body_lambda ldlt cw A b s Hl) as L. fold s' in L. split; [exact L|]. clear L. unfold s', lm_body. rewrite Z by exact Hl. rewrite Ex, Ec.
  replace (v3sub x (V3 0 0 0)) with x by (clear; destruct x; vring).
  destruct (sltb (tri_cost cw (inv_depth x)) (tri_cost cw (inv_depth x))) eqn:E; [apply sltb_R in E; exfalso; exact (Rlt_irrefl _ E)|].
  cbn [lm_sol lm_cost lm_dnorm lm_reduced lm_calls]. repeat split. unfold v3norm. replace (v3dot (V3 0 0 0) (V3 0 0 0)) with 0 by (clear; vunf; ring). apply sqrt_0.
Qed.
Lemma inner_still : forall n cntr fuel s, (cntr + n = 10)%nat -> (S n <= fuel)%nat -> 0 < lm_lambda s -> lm_sol s = x -> lm_cost s = tri_cost cw (inv_depth x) ->
  exists s', lm_inner fuel ldlt cw A b cntr s = Some s' /\ lm_sol s' = x /\ lm_dnorm s' = 0 /\ lm_calls s' = (lm_calls s + n + 1)%nat.
Proof using Z.
  induction n as [|n IH]; intros cntr [|f] s Hc Hf Hl Ex Ec; try lia; cbn [lm_inner];
    destruct (body_still s Hl Ex Ec) as (L & X & C & D & R & K); cbv zeta in *; set (s1 := lm_body ldlt cw A b s) in *; clearbody s1; rewrite R.
  - replace (Nat.ltb cntr 10) with false by (symmetry; apply Nat.ltb_ge; lia). exists s1. repeat split; try assumption. lia.
  - replace (Nat.ltb cntr 10) with true by (symmetry; apply Nat.ltb_lt; lia). cbn [andb negb].
    destruct (IH (S cntr) f s1 ltac:(lia) ltac:(lia) L X C) as (s' & E & X' & D' & K'). exists s'. repeat split; try assumption. lia.
Qed.
End Still.
Lemma zero_step : forall ldlt vs p, solves_spd ldlt -> v3z p <> 0 -> List.Forall unit_view vs -> List.Forall (clear_of huber p) vs ->
  (forall d, is_derive (soft_along vs (inv_depth p) d) 0 0) ->
  let '(A, b) := tri_normal (map tri_cw vs) (inv_depth p) in forall l, 0 < l -> ldlt (m33add A (m33scale l m33id)) b = V3 0 0 0.
Proof.
  intros ldlt vs p HS Hz Hu Hc St. pose proof (fun l Hl => soft_descent ldlt vs p l HS Hl Hz Hu Hc) as D. cbv zeta in D.
  destruct (tri_normal (map tri_cw vs) (inv_depth p)) as [A b]. intros l Hl. destruct (D l Hl) as [[E _]|(d & N & E)]; [exact E|exfalso].
  pose proof (is_derive_unique _ _ _ E) as U. rewrite (is_derive_unique _ _ _ (St _)) in U. lra.
Qed.
Theorem iterative_still : forall ldlt qs ps ns vs p fuel, solves_spd ldlt -> views qs ps ns = Ok vs -> v3z p <> 0 -> List.Forall unit_view vs ->
  List.Forall (clear_of huber p) vs -> (forall d, is_derive (soft_along vs (inv_depth p) d) 0 0) -> (11 <= fuel)%nat ->
  tri_iterative fuel ldlt qs ps ns p = Ok (Some (true, p, 11%nat)).
Proof.
  intros ldlt qs ps ns vs p fuel HS V Hz Hu Hc St Hf. unfold tri_iterative. rewrite V. cbn [obind]. pose proof (zero_step ldlt vs p HS Hz Hu Hc St) as Z.
  set (fi := fuel) at 2. assert (Hi : (11 <= fi)%nat) by exact Hf. clearbody fi. destruct fuel as [|fuel]; [lia|]. cbn [lm_outer lm_sol].
  destruct (tri_normal (map tri_cw vs) (inv_depth p)) as [A b].
  destruct (inner_still ldlt (map tri_cw vs) A b (inv_depth p) Z 10 0 fi (Lm (inv_depth p) p lambda0 (tri_cost (map tri_cw vs) p) s0 false 0) eq_refl Hi lambda0_pos eq_refl) as (s' & E & X & D & K).
  { cbn [lm_cost]. rewrite inv_depth_twice by exact Hz. reflexivity. }
  rewrite E, D. replace (sgt64 0 d5em7) with false.
  2:{ symmetry. cbn [sgt64 ops_R]. unfold Rltb. destruct (Rlt_dec _ 0) as [L|]; [|reflexivity]. exfalso. revert L. apply Rle_not_lt. unfold d5em7, f64_lit. 
      apply Rlt_le. assert (P : Flocq.IEEE754.BinarySingleNaN.B2R d5em7 = 4722366482869645 / 9444732965739290427392) by (bval d5em7). revert P. unfold d5em7, f64_lit. intros ->. lra. }
  cbn [Nat.ltb Nat.leb andb]. rewrite X, K, inv_depth_twice by exact Hz. reflexivity.
Qed.

(** ** Example: four small residuals balance a large one, whose weight is less than one *)
Definition bal_ns : list (v2 R) := [V2 (- huber / 2) 0; V2 (- huber / 2) 0; V2 (- huber / 2) 0; V2 (- huber / 2) 0; V2 (5 * huber) 0].
Definition bal_qs : list (quat R) := [qid; qid; qid; qid; qid].
Definition bal_ps : list (v3 R) := [v3zero; v3zero; v3zero; v3zero; v3zero].
Definition bal_vs : list (quat R * v3 R * v2 R) := combine (combine bal_qs bal_ps) bal_ns.
Lemma bal_clear : List.Forall (clear_of huber t_p) bal_vs /\ List.Forall unit_view bal_vs.
Proof.
  assert (HP : 0 < huber) by (unfold huber; lra).
  split; [|unfold bal_vs; cbn; repeat constructor; unfold unit_view; vunf; ring]. unfold bal_vs, bal_qs, bal_ps, bal_ns. cbn [combine].
  assert (E : forall m, reproj_err (V2 m 0) (qrot (qconj qid) (v3sub t_p v3zero)) = m * m) by (intros m; unfold reproj_err, t_p; vunf; field).
  repeat (apply List.Forall_cons; [unfold clear_of; rewrite E; split; [unfold t_p; vunf; lra|nra]|]). apply List.Forall_nil.
Qed.
Lemma bal_normal : tri_normal (map tri_cw bal_vs) (V3 0 0 1) = (M33 (22 / 5) 0 0 0 (22 / 5) 0 0 0 0, V3 0 0 0).
Proof.
  rewrite tri_normal_fold. assert (HP : 0 < huber) by (unfold huber; lra).
  assert (V1 : forall acc, nstep (V3 0 0 1) acc (tri_cw (qid, v3zero, V2 (- huber / 2) 0)) =
    (m33add (fst acc) (M33 1 0 0 0 1 0 0 0 0), v3add (snd acc) (V3 (huber / 2) 0 0))).
  { intros [A b]. cbn [tri_cw fst snd]. unfold nstep. destruct (t_jacobian (- huber / 2)) as (w & -> & Hw).
    replace (Rabs (- huber / 2)) with (huber / 2) in Hw by (rewrite Rabs_left by lra; field). destruct (Rle_dec (huber / 2) huber); [|lra]. rewrite Hw.
    replace (sleb 1 s1 && sleb s1 1)%bool with true by (cbn [sleb s1 ops_R]; unfold Rleb; destruct (Rle_dec 1 1); [reflexivity|lra]).
    clear. f_equal; [f_equal|]; unfold jtj, jtr; destruct b; vfield. }
  assert (V2 : forall acc, nstep (V3 0 0 1) acc (tri_cw (qid, v3zero, V2 (5 * huber) 0)) =
    (m33add (fst acc) (M33 (2 / 5) 0 0 0 (2 / 5) 0 0 0 0), v3add (snd acc) (V3 (- 2 * huber) 0 0))).
  { intros [A b]. cbn [tri_cw fst snd]. unfold nstep. destruct (t_jacobian (5 * huber)) as (w & -> & Hw).
    rewrite Rabs_pos_eq in Hw by lra. destruct (Rle_dec (5 * huber) huber); [lra|].
    replace ((1 + 1) * huber / (5 * huber)) with (2 / 5) in Hw by (field; lra).
    assert (W2 : w * w = 2 / 5) by (rewrite Hw; apply R_sqrt.sqrt_sqrt; lra).
    assert (W0 : 0 <= w) by (rewrite Hw; apply R_sqrt.sqrt_pos).
    replace (sleb w s1 && sleb s1 w)%bool with false.
    2:{ symmetry. apply andb_false_iff. right. cbn [sleb s1 ops_R]. unfold Rleb. destruct (Rle_dec 1 w); [nra|reflexivity]. }
    cbv zeta. cbn [smul ops_R]. rewrite W2. clear. f_equal; [f_equal|]; unfold jtj, jtr; destruct b; vfield. }
  unfold bal_vs, bal_qs, bal_ps, bal_ns. cbn [combine map fold_left]. rewrite !V1, V2. cbn [fst snd]. f_equal; vfield.
Qed.
Lemma bal_example : solves_spd cramer /\ views bal_qs bal_ps bal_ns = Ok bal_vs /\ v3z t_p <> 0 /\ List.Forall unit_view bal_vs /\ List.Forall (clear_of huber t_p) bal_vs /\
  forall d, is_derive (soft_along bal_vs (inv_depth t_p) d) 0 0.
Proof.
  destruct bal_clear as [Hc Hu]. split; [exact cramer_solves|]. split; [reflexivity|]. split; [exact R1_neq_R0|]. split; [exact Hu|]. split; [exact Hc|].
  replace (inv_depth t_p) with (V3 0 0 1 : v3 R) by (unfold inv_depth, t_p; vfield).
  assert (F : from_inverse (V3 0 0 1) = t_p) by (rewrite <- from_inverse_inv; unfold inv_depth, t_p; vfield). rewrite <- F in Hc.
  destruct (normal_soft (V3 0 0 1) bal_vs (M33 0 0 0 0 0 0 0 0 0, V3 0 0 0) R1_neq_R0 Hu Hc) as (g & Eg & Dg). rewrite <- tri_normal_fold, bal_normal in Eg. cbn [snd] in Eg.
  intros d. eapply derive_eq; [apply Dg|]. replace g with (V3 0 0 0 : v3 R) by (rewrite Eg; clear; destruct g; vring). clear. destruct d. vunf. req. ring.
Qed.

(** ** When the rounds end *)
Lemma lambda0_val : @lambda0 R _ = 8589935 / 8589934592.
Proof. unfold lambda0. bval (f32_lit 0x83126f (-33)). Qed.
Lemma d5em7_val : Flocq.IEEE754.BinarySingleNaN.B2R d5em7 = 4722366482869645 / 9444732965739290427392.
Proof. bval d5em7. Qed.
Lemma outer_rounds : forall ldlt cw fi fuel cntr s s', (cntr <= 10)%nat -> lm_outer fuel fi ldlt cw cntr s = Some s' -> exists n a,
  (cntr + n <= 10)%nat /\ steps (fun x y => round fi ldlt cw x y /\ tiny < lm_dnorm y) n s a /\ round fi ldlt cw a s' /\ ((cntr + n = 10)%nat \/ lm_dnorm s' <= tiny).
Proof.
  intros ldlt cw fi. induction fuel as [|f IH]; intros cntr s s' Hc E; [discriminate|]. cbn [lm_outer] in E. 
  assert (Q : round fi ldlt cw s = fun y => let '(A, b) := tri_normal cw (lm_sol s) in lm_inner fi ldlt cw A b 0 s = Some y) by reflexivity.
  destruct (tri_normal cw (lm_sol s)) as [A b]. destruct (lm_inner fi ldlt cw A b 0 s) as [s1|] eqn:E1; [|discriminate].
  assert (Q1 : round fi ldlt cw s s1) by (rewrite Q; reflexivity). clear Q.
  destruct (Nat.ltb cntr 10) eqn:N; cbn [andb] in E.
  - apply Nat.ltb_lt in N. destruct (sgt64 (lm_dnorm s1) d5em7) eqn:D; cbn [sgt64 ops_R] in D; unfold Rltb in D; rewrite d5em7_val in D; fold tiny in D; destruct (Rlt_dec tiny (lm_dnorm s1)) as [L|L]; try discriminate.
    + destruct (IH (S cntr) s1 s' ltac:(lia) E) as (n & a & Hn & St & Rd & F). exists (S n), a. split; [lia|]. split; [eapply steps_S; [split; [exact Q1|exact L]|exact St]|]. split; [exact Rd|].
      destruct F as [F|F]; [left; lia|right; exact F].
    + injection E as <-. exists 0%nat, s. split; [lia|]. split; [constructor|]. split; [exact Q1|]. right. lra.
  - apply Nat.ltb_ge in N. injection E as <-. exists 0%nat, s. split; [lia|]. split; [constructor|]. split; [exact Q1|]. left. lia.
Qed.
Theorem iterative_stop : forall ldlt qs ps ns vs p0 fuel ok p calls, views qs ps ns = Ok vs -> tri_iterative fuel ldlt qs ps ns p0 = Ok (Some (ok, p, calls)) ->
  exists n a z, (n <= 10)%nat /\
    steps (fun x y => round fuel ldlt (map tri_cw vs) x y /\ tiny < lm_dnorm y) n (Lm (from_inverse p0) p0 (8589935 / 8589934592) (tri_cost (map tri_cw vs) p0) 0 false 0) a /\
    round fuel ldlt (map tri_cw vs) a z /\ (n = 10%nat \/ lm_dnorm z <= tiny) /\ p = from_inverse (lm_sol z) /\ calls = lm_calls z.
Proof.
  intros ldlt qs ps ns vs p0 fuel ok p calls V E. unfold tri_iterative in E. rewrite V in E. cbn [obind] in E.
  destruct (lm_outer _ _ _ _ _ _) as [z|] eqn:L; [|discriminate]. injection E as _ <- <-. apply outer_rounds in L; [|lia]. destruct L as (n & a & Hn & St & Rd & F).
  exists n, a, z. rewrite lambda0_val in St. rewrite <- !from_inverse_inv. split; [exact Hn|]. split; [exact St|]. split; [exact Rd|]. split; [exact F|]. split; reflexivity.
Qed.
Lemma stop_example : views t_qs t_ps t_ns = Ok t_vs /\ exists calls, tri_iterative 11 cramer t_qs t_ps t_ns t_p = Ok (Some (true, t_p, calls)).
Proof.
  split; [reflexivity|]. destruct (tri_iterative_terminates cramer t_qs t_ps t_ns t_vs t_p eq_refl) as (p & calls & _ & E). specialize (E 11%nat (Nat.le_refl 11)).
  exists calls. rewrite E. rewrite (turned cramer cramer_solves 11 true p calls E). reflexivity.
Qed.
