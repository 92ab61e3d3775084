(** Pose refinement does not depend on the world axes (C108). *)
From Coq Require Import ZArith Reals Lra Lia Arith Bool List Psatz.
From Verif Require Import Fp Scalar Base LinAlg MathLib Triangulate Pnp MatFacts QuatFacts UpdSpec AttNumFacts GeoSpec GeoWitness StepSpec StepFacts PnpAxesSpec.
Import ListNotations.
Local Open Scope R_scope.

(** ** Forms of the normal equations *)
Definition bil (m : mat R) (x y : nat -> R) : R := rsum 6 (fun i => rsum 6 (fun j => x i * me m i j * y j)).
Definition lin (b : mat R) (x : nat -> R) : R := rsum 6 (fun i => x i * me b i 0%nat).
Definition row (J : mat R) (l : nat) (x : nat -> R) : R := rsum 6 (fun j => me J l j * x j).
Lemma bil_mvec : forall m x y, bil m x y = rsum 6 (fun i => x i * mvec 6 (me m) y i).
Proof. intros m x y. unfold bil. apply rsum_ext. intros i _. unfold mvec. rewrite <- rsum_scal_l. apply rsum_ext. intros j _. ring. Qed.
Lemma bil_add : forall a b x y, bil (madd a b) x y = bil a x y + bil b x y.
Proof. intros a b x y. unfold bil. rewrite <- rsum_plus. apply rsum_ext. intros i _. rewrite <- rsum_plus. apply rsum_ext. intros j _. unfold madd. cbn. ring. Qed.
Lemma lin_add : forall a b x, lin (madd a b) x = lin a x + lin b x.
Proof. intros a b x. unfold lin. rewrite <- rsum_plus. apply rsum_ext. intros i _. unfold madd. cbn. ring. Qed.
Lemma bil_jj : forall J k x y, mr J = 2%nat -> bil (Mat 6 6 (fun i j => me (mmul (mtr J) J) i j * k)) x y = (row J 0 x * row J 0 y + row J 1 x * row J 1 y) * k.
Proof.
  intros J k x y HJ. unfold bil, mmul. cbn [me mtr mc]. rewrite HJ. unfold row. rewrite !rsum_S. cbn [ssum]. cbn. ring.
Qed.
Lemma lin_jr : forall J k r0 r1 x, mr J = 2%nat ->
  lin (Mat 6 1 (fun i j => me (mmul (mopp (mtr J)) (Mat 2 1 (fun i _ => match i with O => r0 | _ => r1 end))) i j * k)) x = - (row J 0 x * r0 + row J 1 x * r1) * k.
Proof. intros J k r0 r1 x HJ. unfold lin, mmul. cbn [me mtr mc mopp]. rewrite HJ. unfold row. rewrite !rsum_S. cbn [ssum]. cbn. ring. Qed.

(** ** Turned errors *)
Definition turn6 (u : quat R) (x : nat -> R) : nat -> R := fun j => if Nat.ltb j 3 then v3get (qrot u (head3 x)) j else x j.
Lemma turn6_head : forall u x, head3 (turn6 u x) = qrot u (head3 x).
Proof. intros u x. unfold turn6. generalize (qrot u (head3 x)). intros []. reflexivity. Qed.
Lemma turn6_tail : forall u x, tail3 (turn6 u x) = tail3 x.
Proof. reflexivity. Qed.
Lemma sum6 : forall x y : nat -> R, rsum 6 (fun i => x i * y i) = v3dot (head3 x) (head3 y) + v3dot (tail3 x) (tail3 y).
Proof. intros x y. rewrite !rsum_S. cbn [ssum]. unfold head3, tail3, v3dot. cbn. ring. Qed.
Lemma ext6 : forall x y : nat -> R, head3 x = head3 y -> tail3 x = tail3 y -> forall i, (i < 6)%nat -> x i = y i.
Proof. intros x y H1 H2 i Hi. unfold head3, tail3 in *. injection H1 as A0 A1 A2. injection H2 as A3 A4 A5. destruct i as [|[|[|[|[|[|]]]]]]; try lia; assumption. Qed.
Lemma jac_row : forall q p pt l x, (l < 2)%nat -> row (pnp_jac q p pt) l x =
  let c := pnp_pc q p pt in let d := 1 / v3z c in
  let r := match l with O => V3 d 0 (- v3x c * (d * d)) | _ => V3 0 d (- v3y c * (d * d)) end in
  v3dot r (v3opp (qrot (qinv q) (head3 x))) + v3dot r (m33mulv (skew c) (tail3 x)).
Proof.
  intros q p pt l x Hl. cbv zeta. rewrite qrot_mat. unfold row, pnp_jac. cbn [me]. generalize (pnp_pc q p pt) (qmat (qinv q)). intros [c1 c2 c3] [].
  rewrite !rsum_S. cbn [ssum]. unfold head3, tail3. destruct l as [|[|]]; [| |lia]; unfold row_mul; cbn [Nat.ltb Nat.leb Nat.sub v3get]; vunf; cbn; rops; ring.
Qed.
Section Moved.
Context (u : quat R) (o : v3 R) (Hu : qunit u).
Lemma cam_moved : forall q a, qunit q -> qrot (qinv (qmul u q)) (qrot u a) = qrot (qinv q) a.
Proof.
  intros q a Hq. rewrite (qinv_unit (qmul u q)) by (apply qmul_unit; assumption). rewrite (qinv_unit q Hq).
  replace (qconj (qmul u q)) with (qmul (qconj q) (qconj u)) by (destruct u, q; vunf; f_equal; rops; ring).
  rewrite qrot_mul by (apply qconj_unit; assumption). f_equal. rewrite <- qinv_unit by exact Hu. apply qrot_inv_l. exact Hu.
Qed.
Lemma pc_moved : forall q p pt, qunit q -> pnp_pc (qmul u q) (moved_point u o p) (moved_point u o pt) = pnp_pc q p pt.
Proof.
  intros q p pt Hq. unfold pnp_pc, moved_point. rewrite <- (cam_moved q (v3sub pt p) Hq). f_equal. destruct u, pt, p, o. vunf. apply v3_ext; rops; ring.
Qed.
Lemma row_moved : forall q p pt l x, qunit q -> (l < 2)%nat -> row (pnp_jac (qmul u q) (moved_point u o p) (moved_point u o pt)) l (turn6 u x) = row (pnp_jac q p pt) l x.
Proof. intros q p pt l x Hq Hl. rewrite !jac_row by exact Hl. rewrite pc_moved by exact Hq. rewrite turn6_head, turn6_tail, cam_moved by exact Hq. reflexivity. Qed.
Definition mpt (pt : v3 R * v2 R) : v3 R * v2 R := (moved_point u o (fst pt), snd pt).
Definition same_eq (a a' : mat R * mat R) : Prop :=
  (forall x y, bil (fst a') (turn6 u x) (turn6 u y) = bil (fst a) x y) /\ (forall x, lin (snd a') (turn6 u x) = lin (snd a) x).
Lemma scale1 : forall (m : mat R) x y, bil m x y = bil (Mat 6 6 (fun i j => me m i j * 1)) x y.
Proof. intros m x y. unfold bil. apply rsum_ext. intros i _. apply rsum_ext. intros j _. cbn [me]. ring. Qed.
Lemma scale1l : forall (m : mat R) x, lin m x = lin (Mat 6 1 (fun i j => me m i j * 1)) x.
Proof. intros m x. unfold lin. apply rsum_ext. intros i _. cbn [me]. ring. Qed.
Lemma accum_moved : forall w q p a a' pt, qunit q -> same_eq a a' -> same_eq (pnp_accum w q p a pt) (pnp_accum w (qmul u q) (moved_point u o p) a' (mpt pt)).
Proof.
  intros w q p [H b] [H' b'] pt Hq [SH Sb]. cbn [fst snd] in SH, Sb. unfold pnp_accum. cbn [mpt fst snd]. rewrite pc_moved by exact Hq.
  destruct (slt64 _ _); [split; assumption|]. unfold pnp_res. rewrite pc_moved by exact Hq. cbv zeta. set (r := v2sub _ _). set (J := pnp_jac q p (fst pt)). set (J' := pnp_jac (qmul u q) _ _).
  assert (RJ : forall l x, (l < 2)%nat -> row J' l (turn6 u x) = row J l x) by (intros; apply row_moved; assumption).
  destruct w as [w|]; split; cbn [fst snd].
  - intros x y. rewrite !bil_add, SH. rewrite (bil_jj J'), (bil_jj J), !RJ by (try reflexivity; lia). reflexivity.
  - intros x. rewrite !lin_add, Sb. rewrite (lin_jr J'), (lin_jr J), !RJ by (try reflexivity; lia). reflexivity.
  - intros x y. rewrite !bil_add, SH. rewrite (scale1 (mmul (mtr J') J')), (scale1 (mmul (mtr J) J)). rewrite (bil_jj J'), (bil_jj J), !RJ by (try reflexivity; lia). reflexivity.
  - intros x. rewrite !lin_add, Sb. rewrite (scale1l (mmul (mopp (mtr J')) _)), (scale1l (mmul (mopp (mtr J)) _)). rewrite (lin_jr J'), (lin_jr J), !RJ by (try reflexivity; lia). reflexivity.
Qed.
Lemma normal_moved : forall w q p pts, qunit q -> same_eq (pnp_normal w q p pts) (pnp_normal w (qmul u q) (moved_point u o p) (map mpt pts)).
Proof.
  intros w q p pts Hq. unfold pnp_normal.
  assert (G : forall a a', same_eq a a' -> same_eq (fold_left (pnp_accum w q p) pts a) (fold_left (pnp_accum w (qmul u q) (moved_point u o p)) (map mpt pts) a')).
  { induction pts as [|pt pts IH]; intros a a' S; [exact S|]. cbn [map fold_left]. apply IH. apply accum_moved; assumption. }
  apply G. split; cbn [fst snd].
  - intros x y. unfold bil. rewrite !rsum_0; [reflexivity| |]; intros i _; apply rsum_0; intros j _; cbn; ring.
  - intros x. unfold lin. rewrite !rsum_0; [reflexivity| |]; intros i _; cbn; ring.
Qed.
Lemma turn6_onto : forall z, exists x, forall i, (i < 6)%nat -> turn6 u x i = z i.
Proof.
  intros z. exists (turn6 (qconj u) z). apply ext6; [|reflexivity]. rewrite !turn6_head. rewrite <- (qinv_unit u Hu). apply qrot_inv_r. exact Hu.
Qed.
Lemma turn6_dot : forall x y, rsum 6 (fun i => turn6 u x i * turn6 u y i) = rsum 6 (fun i => x i * y i).
Proof. intros x y. rewrite !sum6, !turn6_head, !turn6_tail, qrot_dot by exact Hu. reflexivity. Qed.
(** Tested by all vectors. *)
Lemma all_dots : forall a b : nat -> R, (forall x, rsum 6 (fun i => turn6 u x i * a i) = rsum 6 (fun i => turn6 u x i * b i)) -> forall i, (i < 6)%nat -> a i = b i.
Proof.
  intros a b H i Hi. destruct (turn6_onto (fun k => if Nat.eqb k i then 1 else 0)) as [x Hx]. specialize (H x).
  rewrite (rsum_ext 6 _ (fun k => if Nat.eqb k i then a k else 0)) in H by (intros k Hk; rewrite Hx by exact Hk; destruct (Nat.eqb k i); ring).
  rewrite (rsum_ext 6 (fun i0 => turn6 u x i0 * b i0) (fun k => if Nat.eqb k i then b k else 0)) in H by (intros k Hk; rewrite Hx by exact Hk; destruct (Nat.eqb k i); ring).
  rewrite !rsum_delta in H by exact Hi. exact H.
Qed.
Lemma turn6_zero : forall x, (forall i, (i < 6)%nat -> turn6 u x i = 0) -> forall i, (i < 6)%nat -> x i = 0.
Proof.
  intros x H i Hi. assert (N : rsum 6 (fun i => x i * x i) = 0) by (rewrite <- turn6_dot; apply rsum_0; intros k Hk; rewrite H by exact Hk; ring).
  assert (E : x i * x i = 0) by (apply (rsum_pos_0 6 (fun i => x i * x i)); [intros k _; nra|exact N|exact Hi]). nra.
Qed.
Lemma regular_moved : forall a a', same_eq a a' -> regular6 (fst a) -> regular6 (fst a').
Proof.
  intros a a' [SH _] Rg z Hz. destruct (turn6_onto z) as [x Hx].
  assert (X0 : forall i, (i < 6)%nat -> x i = 0).
  { apply Rg. assert (Rid : forall y, rsum 6 (fun i => y i * mvec 6 (me (fst a)) x i) = 0).
    { intros y. rewrite <- bil_mvec, <- SH, bil_mvec. apply rsum_0. intros i Hi.
      unfold mvec. rewrite (rsum_ext 6 _ (fun k => me (fst a') i k * z k)) by (intros k Hk; rewrite Hx by exact Hk; reflexivity). specialize (Hz i Hi). unfold mvec in Hz. rewrite Hz. ring. }
    intros i Hi. pose proof (Rid (fun k => if Nat.eqb k i then 1 else 0)) as E.
    rewrite (rsum_ext 6 _ (fun k => if Nat.eqb k i then mvec 6 (me (fst a)) x k else 0)) in E by (intros k _; destruct (Nat.eqb k i); ring).
    rewrite rsum_delta in E by exact Hi. exact E. }
  intros i Hi. rewrite <- Hx by exact Hi. unfold turn6. assert (Hh : head3 x = v3zero) by (unfold head3; rewrite !X0 by lia; reflexivity). rewrite Hh.
  destruct (Nat.ltb i 3); [|apply X0; exact Hi]. destruct u. destruct i as [|[|[|]]]; vunf; cbn; rops; ring.
Qed.
Lemma solution_moved : forall a a' x y, same_eq a a' -> regular6 (fst a) -> (forall z, bil (fst a) z x = lin (snd a) z) -> (forall z, bil (fst a') z y = lin (snd a') z) ->
  forall i, (i < 6)%nat -> y i = turn6 u x i.
Proof.
  intros a a' x y SE Rg Ex Ey. pose proof (regular_moved _ _ SE Rg) as Rg'. destruct SE as [SH Sb].
  assert (D : forall i, (i < 6)%nat -> y i - turn6 u x i = 0).
  { apply (Rg' (fun i => y i - turn6 u x i)). intros i Hi. unfold mvec.
    rewrite (rsum_ext 6 _ (fun k => me (fst a') i k * y k - me (fst a') i k * turn6 u x k)) by (intros; ring). rewrite rsum_minus.
    change (mvec 6 (me (fst a')) y i - mvec 6 (me (fst a')) (turn6 u x) i = 0). apply Rminus_diag_eq. revert i Hi. apply all_dots. intros z.
    rewrite <- !bil_mvec, Ey, SH, Ex, Sb. reflexivity. }
  intros i Hi. specialize (D i Hi). lra.
Qed.
End Moved.

(** ** Passes *)
Lemma qassoc : forall a b c : quat R, qmul (qmul a b) c = qmul a (qmul b c).
Proof. intros [] [] []. vring. Qed.
Definition usable (wt : option (R -> R)) : Prop := exists w, forall e, 0 <= e -> 0 < w e /\ match wt with None => w e = 1 | Some k => k (R_sqrt.sqrt e) = w e end.
Lemma usable_none : usable None.
Proof. exists one. exact plain_w. Qed.
Lemma usable_cauchy : usable (Some (cauchy s1)).
Proof. exists capped_w. exact capped_w_pos. Qed.
Lemma solved : forall wt f q p pts, usable wt -> solves_psd f -> qunit q ->
  let a := pnp_normal wt q p pts in forall z, bil (fst a) z (f (fst a) (snd a)) = lin (snd a) z.
Proof.
  intros wt f q p pts [w Hw] Hf Hq a z. destruct (normal_solved q p Hq wt w Hw pts f Hf) as (H & b & E & _ & _ & K). unfold a. rewrite E. cbn [fst snd].
  rewrite bil_mvec. exact (K z).
Qed.
Lemma loop_counter : forall ldlt wt eps pts iter k1 k2 q p, 
  po_q (pnp_loop ldlt wt eps pts iter k1 q p) = po_q (pnp_loop (T := R) ldlt wt eps pts iter k2 q p) /\
  po_p (pnp_loop ldlt wt eps pts iter k1 q p) = po_p (pnp_loop ldlt wt eps pts iter k2 q p).
Proof.
  induction iter as [|iter IH]; intros k1 k2 q p; cbn [pnp_loop]; [split; reflexivity|]. destruct (pnp_normal wt q p pts) as [H b]. cbv zeta.
  destruct (sisnan _); [split; reflexivity|]. destruct (sltb _ _); [split; reflexivity|]. apply IH.
Qed.
Theorem loop_moved : forall u o l1 l2 wt eps pts iter k q p, qunit u -> usable wt -> solves_psd l1 -> solves_psd l2 -> qunit q -> well_posed l1 wt eps pts iter q p ->
  pnp_loop l2 wt eps (map (mpt u o) pts) iter k (qmul u q) (moved_point u o p) = moved_pose u o (pnp_loop l1 wt eps pts iter k q p).
Proof.
  intros u o l1 l2 wt eps pts iter k q p Hu Hw H1 H2 Hq W. revert k q p Hq W. induction iter as [|iter IH]; intros k q p Hq W; [reflexivity|].
  assert (Rg : regular6 (fst (pnp_normal wt q p pts))) by (exact (W 0%nat (Nat.lt_0_succ _))).
  assert (Ws : forall j, (j < iter)%nat -> let r := pnp_loop l1 wt eps pts (S j) 0 q p in regular6 (fst (pnp_normal wt (po_q r) (po_p r) pts))) by (intros j Hj; apply W; lia). clear W.
  pose proof (normal_moved u o Hu wt q p pts Hq) as SE. pose proof (solved wt l1 q p pts Hw H1 Hq) as E1.
  pose proof (solved wt l2 (qmul u q) (moved_point u o p) (map (mpt u o) pts) Hw H2 (qmul_unit _ _ Hu Hq)) as E2. cbv zeta in E1, E2.
  pose proof (solution_moved u Hu _ _ _ _ SE Rg E1 E2) as D. clear SE Rg E1 E2. cbn [pnp_loop] in Ws |- *.
  destruct (pnp_normal wt q p pts) as [H b]. destruct (pnp_normal wt (qmul u q) _ _) as [H' b']. cbn [fst snd] in D. cbv zeta in Ws |- *.
  set (x := l1 H b) in *. set (y := l2 H' b') in *. clearbody x y.
  assert (N : norm6 y = norm6 x).
  { change (R_sqrt.sqrt (rsum 6 (fun i => y i * y i)) = R_sqrt.sqrt (rsum 6 (fun i => x i * x i))). f_equal. rewrite <- (turn6_dot u Hu x x). apply rsum_ext. intros i Hi. rewrite D by exact Hi. reflexivity. }
  assert (Ph : v3add (moved_point u o p) (head3 y) = moved_point u o (v3add p (head3 x))).
  { replace (head3 y) with (qrot u (head3 x)) by (rewrite <- turn6_head; unfold head3; rewrite !D by lia; reflexivity).
    unfold moved_point. generalize (head3 x). intros []. destruct u, p, o. vunf. apply v3_ext; rops; ring. }
  assert (Qt : qnormalize (qmul (qmul u q) (delta_q (tail3 y))) = qmul u (qnormalize (qmul q (delta_q (tail3 x))))).
  { replace (tail3 y) with (tail3 x) by (unfold tail3; rewrite !D by lia; reflexivity).
    rewrite !qnormalize_mul_unit by (try apply qmul_unit; try apply delta_q_pos; assumption). apply qassoc. }
  rewrite N, Ph, Qt. change (sisnan (norm6 x)) with false in *. cbv iota in Ws |- *. destruct (sltb (norm6 x) eps); [reflexivity|].
  apply IH; [apply qstep_unit; exact Hq|]. intros j Hj. cbv zeta. specialize (Ws j Hj).
  destruct (loop_counter l1 wt eps pts j 0 1 (qnormalize (qmul q (delta_q (tail3 x)))) (v3add p (head3 x))) as [-> ->]. exact Ws.
Qed.
Lemma combine_moved : forall u o p3 (p2 : list (v2 R)), combine (map (moved_point u o) p3) p2 = map (mpt u o) (combine p3 p2).
Proof. intros u o. induction p3 as [|a p3 IH]; intros [|b p2]; [reflexivity..|]. cbn [combine map]. rewrite IH. reflexivity. Qed.
Theorem estimate_moved : forall u o l1 l2 cfg p3 p2 q p, qunit u -> solves_psd l1 -> solves_psd l2 -> qunit q ->
  well_posed l1 None (pc_eps cfg) (combine p3 p2) (pc_iter cfg) q p ->
  pnp_estimate cfg l2 (map (moved_point u o) p3) p2 (qmul u q) (moved_point u o p) = moved_pose u o (pnp_estimate cfg l1 p3 p2 q p).
Proof.
  intros u o l1 l2 cfg p3 p2 q p Hu H1 H2 Hq W. unfold pnp_estimate. rewrite map_length, combine_moved. destruct (_ || _)%bool; [reflexivity|].
  apply loop_moved; try assumption. exact usable_none.
Qed.
Theorem kernel_moved : forall u o l1 l2 cfg p3 p2 q p, qunit u -> solves_psd l1 -> solves_psd l2 -> qunit q ->
  well_posed l1 (Some (cauchy 1)) (pc_eps cfg) (combine p3 p2) (pc_iter cfg) q p ->
  pnp_kernel cfg l2 (map (moved_point u o) p3) p2 (qmul u q) (moved_point u o p) = moved_pose u o (pnp_kernel cfg l1 p3 p2 q p).
Proof.
  intros u o l1 l2 cfg p3 p2 q p Hu H1 H2 Hq W. unfold pnp_kernel. rewrite map_length, combine_moved. destruct (_ || _)%bool; [reflexivity|].
  apply loop_moved; try assumption. exact usable_cauchy.
Qed.

(** ** Example: the three pairs of C83 from a pose that is off by half in two directions *)
Definition half_p : v3 R := V3 (1 / 2) (1 / 2) 0.
Lemma half_pt : forall pt, In pt (combine sq_pts sq_obs) -> pair_err qid half_p pt = 1 / 2 /\ off_plane qid half_p pt = true.
Proof.
  intros pt I. unfold half_p. repeat (destruct I as [<-|I]; [split; [unfold pair_err, reproj_err; vunf; cbn [fst snd v2x v2y v3x v3y v3z]; field|
    unfold off_plane; destruct (Rle_dec _ _) as [|N]; [reflexivity|]; exfalso; apply N; vunf; cbn [fst snd v2x v2y v3x v3y v3z];
    rewrite Rabs_pos_eq; lra]|]). destruct I.
Qed.
Lemma half_regular : forall wt, usable wt -> regular6 (fst (pnp_normal wt qid half_p (combine sq_pts sq_obs))).
Proof.
  intros wt [w Hw] x Hx. destruct (normal_forms qid half_p qid_unit wt w Hw (combine sq_pts sq_obs)) as (H & b & E & _ & A & _). rewrite E in Hx. cbn [fst] in Hx.
  assert (Z : hform H x x = 0) by (unfold hform; apply rsum_0; intros i Hi; specialize (Hx i Hi); unfold mvec in Hx; unfold fvec; rewrite Hx; ring). rewrite A in Z.
  assert (N : forall pt, In pt (filter (off_plane qid half_p) (combine sq_pts sq_obs)) -> wp qid half_p w pt * (jx qid half_p pt 0 x * jx qid half_p pt 0 x + jx qid half_p pt 1 x * jx qid half_p pt 1 x) = 0).
  { apply lsum_zero; [|exact Z]. intros pt _. pose proof (wp_pos qid half_p qid_unit wt w Hw pt). apply Rmult_le_pos; [lra|]. apply Rplus_le_le_0_compat; apply Rle_0_sqr. }
  assert (J : forall pt, In pt (combine sq_pts sq_obs) -> jx qid half_p pt 0 x = 0 /\ jx qid half_p pt 1 x = 0).
  { intros pt I. specialize (N pt (proj2 (filter_In _ _ _) (conj I (proj2 (half_pt pt I))))). pose proof (wp_pos qid half_p qid_unit wt w Hw pt).
    destruct (Rmult_integral _ _ N) as [C|C]; [lra|]. split; nra. }
  clear - J.
  assert (G : forall a b o, jx qid half_p (V3 a b 1, o) 0 x = (let a := a - 1 / 2 in let b := b - 1 / 2 in - (x 0%nat - a * x 2%nat) + (b * x 5%nat - x 4%nat - a * a * x 4%nat + a * b * x 3%nat)) /\
    jx qid half_p (V3 a b 1, o) 1 x = (let a := a - 1 / 2 in let b := b - 1 / 2 in - (x 1%nat - b * x 2%nat) + (x 3%nat - a * x 5%nat - a * b * x 4%nat + b * b * x 3%nat))).
  { intros a b o. unfold jx. cbn [fst]. change (rsum 6 (fun j => me (pnp_jac qid half_p (V3 a b 1)) 0 j * x j)) with (row (pnp_jac qid half_p (V3 a b 1)) 0 x).
    change (rsum 6 (fun j => me (pnp_jac qid half_p (V3 a b 1)) 1 j * x j)) with (row (pnp_jac qid half_p (V3 a b 1)) 1 x). rewrite !jac_row by lia. cbv zeta.
    assert (C : pnp_pc qid half_p (V3 a b 1) = V3 (a - 1 / 2) (b - 1 / 2) 1) by (unfold pnp_pc; rewrite (qinv_unit _ qid_unit); unfold half_p; vunf; apply v3_ext; rops; field).
    rewrite C, (qinv_unit _ qid_unit). unfold head3, tail3. split; vunf; cbn; rops; field. }
  pose proof (J _ (or_introl eq_refl)) as J1. pose proof (J _ (or_intror (or_introl eq_refl))) as J2. pose proof (J _ (or_intror (or_intror (or_introl eq_refl)))) as J3.
  rewrite (proj1 (G 0 0 _)), (proj2 (G 0 0 _)) in J1. rewrite (proj1 (G 1 0 _)), (proj2 (G 1 0 _)) in J2. rewrite (proj1 (G 0 1 _)), (proj2 (G 0 1 _)) in J3. cbv zeta in J1, J2, J3.
  destruct J1 as [A0 A1], J2 as [B0 B1], J3 as [C0 C1]. intros i Hi. destruct i as [|[|[|[|[|[|]]]]]]; try lia; lra.
Qed.
Lemma half_example : solves_psd pinv6 /\ qunit (Quat (3 / 5) 0 (4 / 5) 0) /\ qunit (qid (T := R)) /\
  (forall pt, In pt (combine sq_pts sq_obs) -> pair_err qid half_p pt = 1 / 2) /\
  well_posed pinv6 None (1 / 1000) (combine sq_pts sq_obs) 1 qid half_p /\ well_posed pinv6 (Some (cauchy 1)) (1 / 1000) (combine sq_pts sq_obs) 1 qid half_p.
Proof.
  split; [exact pinv6_psd|]. split; [unfold qunit; vunf; field|]. split; [exact qid_unit|]. split; [intros pt I; apply half_pt; exact I|].
  split; intros k Hk; assert (k = 0%nat) as -> by lia; apply half_regular; [exact usable_none|exact usable_cauchy].
Qed.
