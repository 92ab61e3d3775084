(** Poses that the refinement leaves unchanged (C110). *)
From Coq Require Import ZArith Reals Lra Lia Arith Bool List Psatz.
From Coquelicot Require Import Coquelicot.
From Verif Require Import Fp Scalar Base LinAlg MathLib Triangulate Pnp MatFacts QuatFacts UpdSpec DerivFacts AttNumFacts GeoSpec GeoWitness StepSpec StepFacts PnpAxesSpec PnpAxesFacts StillSpec.
Import ListNotations.
Local Open Scope R_scope.

Section Pass.
Variables (q : quat R) (p : v3 R).
Hypothesis Hq : qunit q.
Variables (wt : option (R -> R)) (w loss : R -> R) (corner : R -> Prop).
Hypothesis Hw : forall e, 0 <= e -> 0 < w e /\ match wt with None => w e = 1 | Some k => k (R_sqrt.sqrt e) = w e end.
Hypothesis Hloss : forall (f : R -> R) (l : R), is_derive f 0 l -> 0 <= f 0 -> ~ corner (f 0) -> is_derive (fun t => loss (f t)) 0 (w (f 0) * l).
Variable pts : list (v3 R * v2 R).
Hypothesis K : forall pt, In pt (filter (off_plane q p) pts) -> ~ corner (pair_err q p pt).
Lemma slope : forall th dp, is_derive (pose_along loss (filter (off_plane q p) pts) q p th dp) 0 (-2 * bform (snd (pnp_normal wt q p pts)) (to6 th dp)).
Proof using Hq Hw Hloss K.
  intros th dp. destruct (normal_forms q p Hq wt w Hw pts) as (H & b & E & _ & _ & B). rewrite E. cbn [snd]. set (used := filter (off_plane q p) pts) in *.
  assert (IU : forall pt, In pt used -> off_plane q p pt = true) by (intros pt I; apply filter_In in I; apply I).
  eapply derive_eq.
  - unfold pose_along, pose_cost. apply (lsum_derive _ (fun pt t => loss (pair_err (turned_by q (v3scale th t)) (v3add p (v3scale dp t)) pt))
      (fun pt => wp q p w pt * (2 * (rx q p pt * jx q p pt 0 (to6 th dp) + ry q p pt * jx q p pt 1 (to6 th dp))))).
    intros pt I. assert (Z : pair_err (turned_by q (v3scale th 0)) (v3add p (v3scale dp 0)) pt = pair_err q p pt).
    { rewrite turned_correct, q_correct_0, v3_at0 by exact Hq. reflexivity. }
    eapply derive_eq; [apply (Hloss _ _ (err_derive q p Hq pt th dp (IU pt I))); [exact (eq_ind_r (fun x => 0 <= x) (err_pos q p pt) Z)|exact (eq_ind_r (fun x => ~ corner x) (K pt I) Z)]|].
    exact (f_equal (fun x => w x * (2 * (rx q p pt * jx q p pt 0 (to6 th dp) + ry q p pt * jx q p pt 1 (to6 th dp)))) Z).
  - rewrite B. rewrite (lsum_ext_in _ _ (fun pt => 2 * (wp q p w pt * (rx q p pt * jx q p pt 0 (to6 th dp) + ry q p pt * jx q p pt 1 (to6 th dp))))) by (intros; ring).
    rewrite lsum_scal. req. ring.
Qed.
Lemma flat : stationary loss pts q p -> forall x, bform (snd (pnp_normal wt q p pts)) x = 0.
Proof using Hq Hw Hloss K.
  intros S x. pose proof (slope (tail3 x) (head3 x)) as D. pose proof (is_derive_unique _ _ _ D) as D1. pose proof (is_derive_unique _ _ _ (S (tail3 x) (head3 x))) as D2.
  rewrite D2 in D1. replace (bform (snd (pnp_normal wt q p pts)) x) with (bform (snd (pnp_normal wt q p pts)) (to6 (tail3 x) (head3 x))); [lra|].
  apply rsum_ext. intros i Hi. f_equal. destruct i as [|[|[|[|[|[|]]]]]]; try lia; reflexivity.
Qed.
Lemma flat_back : (forall x, bform (snd (pnp_normal wt q p pts)) x = 0) -> stationary loss pts q p.
Proof using Hq Hw Hloss K. intros Z th dp. eapply derive_eq; [apply slope|]. rewrite Z. req. ring. Qed.

Variable f : mat R -> mat R -> nat -> R.
Hypothesis Hf : solves_psd f.
Let dx := f (fst (pnp_normal wt q p pts)) (snd (pnp_normal wt q p pts)).
Lemma still_dx : stationary loss pts q p -> regular6 (fst (pnp_normal wt q p pts)) -> forall i, (i < 6)%nat -> dx i = 0.
Proof using Hq Hw Hloss K Hf.
  intros S Rg. apply Rg. intros i Hi. pose proof (solved wt f q p pts (ex_intro _ w Hw) Hf Hq (fun k => if Nat.eqb k i then 1 else 0)) as E. cbv zeta in E. fold dx in E.
  rewrite bil_mvec in E. rewrite (rsum_ext 6 _ (fun k => if Nat.eqb k i then mvec 6 (me (fst (pnp_normal wt q p pts))) dx k else 0)) in E by (intros k _; destruct (Nat.eqb k i); ring).
  rewrite rsum_delta in E by exact Hi. rewrite E. exact (flat S _).
Qed.
Lemma dx_still : (forall i, (i < 6)%nat -> dx i = 0) -> stationary loss pts q p.
Proof using Hq Hw Hloss K Hf.
  intros Z. apply flat_back. intros x. pose proof (solved wt f q p pts (ex_intro _ w Hw) Hf Hq x) as E. cbv zeta in E. fold dx in E.
  change (lin (snd (pnp_normal wt q p pts)) x = 0). rewrite <- E. unfold bil. apply rsum_0. intros i _. apply rsum_0. intros j Hj. rewrite Z by exact Hj. ring.
Qed.
(** A turn that changes nothing is no turn. *)
Lemma no_turn : forall th, qnormalize (qmul q (delta_q th)) = q -> th = v3zero.
Proof using Hq.
  intros th E. rewrite qnormalize_mul_unit in E by (try exact Hq; apply delta_q_pos). 
  assert (I : qnormalize (delta_q th) = qid).
  { transitivity (qmul (qmul (qconj q) q) (qnormalize (delta_q th))); [|rewrite qassoc, E]; rewrite (qmul_conj_l q Hq); [|reflexivity].
    generalize (qnormalize (delta_q th)). intros []. vring. }
  pose proof (delta_q_pos th) as P. rewrite (qnormalize_pos _ P) in I. pose proof (sqrt_lt_R0 _ P) as Sp. revert I. generalize (sqrt (qnorm2 (delta_q th))) Sp. intros s Hs I.
  destruct th as [x y z]. revert I. vunf. rops. intros I. injection I as _ I1 I2 I3.
  assert (G : forall a, a / s = 0 -> a = 0) by (intros a Ha; replace a with (a / s * s) by (field; lra); rewrite Ha; ring).
  apply G in I1, I2, I3. apply v3_ext; cbn; lra.
Qed.
Theorem still : forall eps iter k, 0 < eps -> (1 <= iter)%nat -> stationary loss pts q p -> regular6 (fst (pnp_normal wt q p pts)) ->
  pnp_loop f wt eps pts iter k q p = PnpOut true q p (S k).
Proof using Hq Hw Hloss K Hf.
  intros eps iter k He Hi S Rg. pose proof (still_dx S Rg) as Z. destruct iter as [|iter]; [lia|]. cbn [pnp_loop]. unfold dx in Z. destruct (pnp_normal wt q p pts) as [H b].
  cbn [fst snd] in Z. cbv zeta. set (x := f H b) in *. clearbody x. change (sisnan (norm6 x)) with false. cbv iota.
  replace (norm6 x) with 0. 2:{ change (0 = R_sqrt.sqrt (rsum 6 (fun i => x i * x i))). rewrite rsum_0 by (intros i Hi'; rewrite Z by exact Hi'; ring). symmetry. apply sqrt_0. }
  assert (L : sltb 0 eps = true) by (apply sltb_R; exact He). rewrite L.
  replace (head3 x) with (v3zero (T := R)) by (unfold head3; rewrite !Z by lia; reflexivity). replace (tail3 x) with (v3zero (T := R)) by (unfold tail3; rewrite !Z by lia; reflexivity).
  f_equal.
  - rewrite qnormalize_mul_unit by (try exact Hq; apply delta_q_pos). replace (delta_q (v3zero (T := R))) with (qid (T := R)) by (vunf; f_equal; rops; field).
    rewrite qnormalize_of_unit by exact qid_unit. destruct q. vring.
  - destruct p. vring.
Qed.
Theorem unmoved : forall eps iter k, (1 <= iter)%nat -> let r := pnp_loop f wt eps pts iter k q p in po_calls r = S k -> po_q r = q -> po_p r = p -> stationary loss pts q p.
Proof using Hq Hw Hloss K Hf.
  intros eps iter k Hi r C Eq Ep. apply dx_still. unfold r in *. clear r. destruct iter as [|iter]; [lia|]. cbn [pnp_loop] in C, Eq, Ep. unfold dx. destruct (pnp_normal wt q p pts) as [H b].
  cbn [fst snd]. cbv zeta in C, Eq, Ep. set (x := f H b) in *. clearbody x. change (sisnan (norm6 x)) with false in *. cbv iota in C, Eq, Ep.
  assert (G : forall it k' a c, (k' <= po_calls (pnp_loop (T := R) f wt eps pts it k' a c))%nat /\ (po_calls (pnp_loop f wt eps pts it k' a c) = k' -> pnp_loop f wt eps pts it k' a c = PnpOut true a c k')).
  { clear. induction it as [|it IH]; intros k' a c; cbn [pnp_loop]; [split; [cbn; lia|reflexivity]|]. destruct (pnp_normal wt a c pts) as [H b]. cbv zeta.
    destruct (sisnan _); [cbn [po_calls]; split; [lia|lia]|]. destruct (sltb _ _); [cbn [po_calls]; split; lia|].
    destruct (IH (S k') (qnormalize (qmul a (delta_q (tail3 (f H b))))) (v3add c (head3 (f H b)))) as [L _]. split; [lia|]. intros E. lia. }
  assert (E : qnormalize (qmul q (delta_q (tail3 x))) = q /\ v3add p (head3 x) = p).
  { destruct (sltb (norm6 x) eps); [split; assumption|]. rewrite (proj2 (G _ _ _ _) C) in Eq, Ep. split; assumption. }
  destruct E as [E1 E2]. apply no_turn in E1. assert (E3 : head3 x = v3zero).
  { revert E2. generalize (head3 x). intros [a b' c]. destruct p. vunf. rops. intros E2. injection E2 as X1 X2 X3. f_equal; lra. }
  intros i Hi'. apply (ext6 x (fun _ => 0)); [exact E3|exact E1|exact Hi'].
Qed.
End Pass.

Theorem estimate_still : forall cfg ldlt p3 p2 q p, solves_psd ldlt -> qunit q -> length p3 = length p2 -> p3 <> [] -> (1 <= pc_iter cfg)%nat ->
  (0 < pc_eps cfg -> regular6 (fst (pnp_normal None q p (combine p3 p2))) -> stationary same (combine p3 p2) q p -> pnp_estimate cfg ldlt p3 p2 q p = PnpOut true q p 1) /\
  (let r := pnp_estimate cfg ldlt p3 p2 q p in po_calls r = 1%nat -> po_q r = q -> po_p r = p -> stationary same (combine p3 p2) q p).
Proof.
  intros cfg ldlt p3 p2 q p Hf Hq L N Hi. unfold pnp_estimate. rewrite L, Nat.eqb_refl. destruct p2 as [|o p2]; [destruct p3; [contradiction|discriminate]|]. cbn [length Nat.eqb negb orb].
  assert (K : forall pt, In pt (filter (off_plane q p) (combine p3 (o :: p2))) -> ~ never (pair_err q p pt)) by (intros pt _ C; exact C). split.
  - intros He Rg S. exact (still q p Hq None one same never plain_w plain_loss _ K ldlt Hf _ _ 0 He Hi S Rg).
  - exact (unmoved q p Hq None one same never plain_w plain_loss _ K ldlt Hf _ _ 0 Hi).
Qed.
Theorem kernel_still : forall cfg ldlt p3 p2 q p, solves_psd ldlt -> qunit q -> length p3 = length p2 -> p3 <> [] -> (1 <= pc_iter cfg)%nat ->
  (forall pt, In pt (filter (off_plane q p) (combine p3 p2)) -> ~ at_one (pair_err q p pt)) ->
  (0 < pc_eps cfg -> regular6 (fst (pnp_normal (Some (cauchy 1)) q p (combine p3 p2))) -> stationary capped (combine p3 p2) q p -> pnp_kernel cfg ldlt p3 p2 q p = PnpOut true q p 1) /\
  (let r := pnp_kernel cfg ldlt p3 p2 q p in po_calls r = 1%nat -> po_q r = q -> po_p r = p -> stationary capped (combine p3 p2) q p).
Proof.
  intros cfg ldlt p3 p2 q p Hf Hq L N Hi K. unfold pnp_kernel. rewrite L, Nat.eqb_refl. destruct p2 as [|o p2]; [destruct p3; [contradiction|discriminate]|]. cbn [length Nat.eqb negb orb]. split.
  - intros He Rg S. exact (still q p Hq (Some (cauchy s1)) capped_w capped at_one capped_w_pos capped_loss _ K ldlt Hf _ _ 0 He Hi S Rg).
  - exact (unmoved q p Hq (Some (cauchy s1)) capped_w capped at_one capped_w_pos capped_loss _ K ldlt Hf _ _ 0 Hi).
Qed.

(** ** Example: a unit square seen from above its centre, with every image point off by a tenth in both directions *)
Definition cell : list (v3 R) := [V3 0 0 1; V3 1 0 1; V3 0 1 1; V3 1 1 1].
Definition cell_obs : list (v2 R) := [V2 (- (2 / 5)) (- (3 / 5)); V2 (2 / 5) (- (3 / 5)); V2 (- (2 / 5)) (3 / 5); V2 (2 / 5) (3 / 5)].
Lemma cell_pt : forall pt, In pt (combine cell cell_obs) -> pair_err qid half_p pt = 1 / 50 /\ off_plane qid half_p pt = true.
Proof.
  intros pt I. unfold half_p. repeat (destruct I as [<-|I]; [split; [unfold pair_err, reproj_err; vunf; cbn [fst snd v2x v2y v3x v3y v3z]; field|
    unfold off_plane; destruct (Rle_dec _ _) as [|N]; [reflexivity|]; exfalso; apply N; vunf; cbn [fst snd v2x v2y v3x v3y v3z];
    rewrite Rabs_pos_eq; lra]|]). destruct I.
Qed.
Lemma cell_pc : forall a b, pnp_pc qid half_p (V3 a b 1) = V3 (a - 1 / 2) (b - 1 / 2) 1.
Proof. intros a b. unfold pnp_pc. rewrite (qinv_unit _ qid_unit). unfold half_p. vunf. apply v3_ext; rops; field. Qed.
Lemma cell_jx : forall x a b o, jx qid half_p (V3 a b 1, o) 0 x = (let a := a - 1 / 2 in let b := b - 1 / 2 in - (x 0%nat - a * x 2%nat) + (b * x 5%nat - x 4%nat - a * a * x 4%nat + a * b * x 3%nat)) /\
    jx qid half_p (V3 a b 1, o) 1 x = (let a := a - 1 / 2 in let b := b - 1 / 2 in - (x 1%nat - b * x 2%nat) + (x 3%nat - a * x 5%nat - a * b * x 4%nat + b * b * x 3%nat)).
Proof.
  intros x a b o. unfold jx. cbn [fst]. change (rsum 6 (fun j => me (pnp_jac qid half_p (V3 a b 1)) 0 j * x j)) with (row (pnp_jac qid half_p (V3 a b 1)) 0 x).
  change (rsum 6 (fun j => me (pnp_jac qid half_p (V3 a b 1)) 1 j * x j)) with (row (pnp_jac qid half_p (V3 a b 1)) 1 x). rewrite !jac_row by lia. cbv zeta.
  rewrite cell_pc, (qinv_unit _ qid_unit). unfold head3, tail3. split; vunf; cbn; rops; field.
Qed.
Lemma cell_r : forall a b o, rx qid half_p (V3 a b 1, o) = a - 1 / 2 - v2x o /\ ry qid half_p (V3 a b 1, o) = b - 1 / 2 - v2y o.
Proof. intros a b o. unfold rx, ry, pnp_res. cbn [fst snd]. rewrite cell_pc. destruct o. split; vunf; cbn; rops; field. Qed.
Lemma cell_all : filter (off_plane qid half_p) (combine cell cell_obs) = combine cell cell_obs.
Proof. cbn [combine cell cell_obs filter]. rewrite !(fun pt I => proj2 (cell_pt pt I)) by (cbn; tauto). reflexivity. Qed.
Lemma cell_regular : forall wt, usable wt -> regular6 (fst (pnp_normal wt qid half_p (combine cell cell_obs))).
Proof.
  intros wt [w Hw] x Hx. destruct (normal_forms qid half_p qid_unit wt w Hw (combine cell cell_obs)) as (H & b & E & _ & A & _). rewrite E in Hx. cbn [fst] in Hx.
  assert (Z : hform H x x = 0) by (unfold hform; apply rsum_0; intros i Hi; specialize (Hx i Hi); unfold mvec in Hx; unfold fvec; rewrite Hx; ring). rewrite A, cell_all in Z.
  assert (N : forall pt, In pt (combine cell cell_obs) -> wp qid half_p w pt * (jx qid half_p pt 0 x * jx qid half_p pt 0 x + jx qid half_p pt 1 x * jx qid half_p pt 1 x) = 0).
  { apply lsum_zero; [|exact Z]. intros pt _. pose proof (wp_pos qid half_p qid_unit wt w Hw pt). apply Rmult_le_pos; [lra|]. apply Rplus_le_le_0_compat; apply Rle_0_sqr. }
  assert (J : forall pt, In pt (combine cell cell_obs) -> jx qid half_p pt 0 x = 0 /\ jx qid half_p pt 1 x = 0).
  { intros pt I. specialize (N pt I). pose proof (wp_pos qid half_p qid_unit wt w Hw pt). destruct (Rmult_integral _ _ N) as [C|C]; [lra|]. split; nra. }
  clear - J.
  pose proof (J _ (or_introl eq_refl)) as J1. pose proof (J _ (or_intror (or_introl eq_refl))) as J2. pose proof (J _ (or_intror (or_intror (or_introl eq_refl)))) as J3.
  rewrite (proj1 (cell_jx x 0 0 _)), (proj2 (cell_jx x 0 0 _)) in J1. rewrite (proj1 (cell_jx x 1 0 _)), (proj2 (cell_jx x 1 0 _)) in J2.
  rewrite (proj1 (cell_jx x 0 1 _)), (proj2 (cell_jx x 0 1 _)) in J3. cbv zeta in J1, J2, J3.
  destruct J1 as [A0 A1], J2 as [B0 B1], J3 as [C0 C1]. intros i Hi. destruct i as [|[|[|[|[|[|]]]]]]; try lia; lra.
Qed.
Lemma cell_flat : forall wt w, (forall e, 0 <= e -> 0 < w e /\ match wt with None => w e = 1 | Some k => k (R_sqrt.sqrt e) = w e end) ->
  forall x, bform (snd (pnp_normal wt qid half_p (combine cell cell_obs))) x = 0.
Proof.
  intros wt w Hw x. destruct (normal_forms qid half_p qid_unit wt w Hw (combine cell cell_obs)) as (H & b & E & _ & _ & B). rewrite E. cbn [snd]. rewrite B, cell_all.
  rewrite (lsum_ext_in _ _ (fun pt => w (1 / 50) * (rx qid half_p pt * jx qid half_p pt 0 x + ry qid half_p pt * jx qid half_p pt 1 x))).
  2:{ intros pt I. unfold wp. rewrite (proj1 (cell_pt pt I)). reflexivity. }
  cbn [combine cell cell_obs lsum]. rewrite !(fun a b o => proj1 (cell_jx x a b o)), !(fun a b o => proj2 (cell_jx x a b o)), !(fun a b o => proj1 (cell_r a b o)), !(fun a b o => proj2 (cell_r a b o)).
  cbv zeta. cbn [v2x v2y]. field.
Qed.
Lemma cell_corner : forall pt, In pt (filter (off_plane qid half_p) (combine cell cell_obs)) -> ~ at_one (pair_err qid half_p pt).
Proof. rewrite cell_all. intros pt I. rewrite (proj1 (cell_pt pt I)). unfold at_one. lra. Qed.
Lemma cell_example : solves_psd pinv6 /\ qunit (qid (T := R)) /\ length cell = length cell_obs /\ cell <> [] /\
  (forall pt, In pt (combine cell cell_obs) -> pair_err qid half_p pt = 1 / 50) /\
  (forall pt, In pt (filter (off_plane qid half_p) (combine cell cell_obs)) -> ~ at_one (pair_err qid half_p pt)) /\
  regular6 (fst (pnp_normal None qid half_p (combine cell cell_obs))) /\ stationary same (combine cell cell_obs) qid half_p /\
  regular6 (fst (pnp_normal (Some (cauchy 1)) qid half_p (combine cell cell_obs))) /\ stationary capped (combine cell cell_obs) qid half_p.
Proof.
  split; [exact pinv6_psd|]. split; [exact qid_unit|]. split; [reflexivity|]. split; [discriminate|]. split; [intros pt I; apply cell_pt; exact I|]. split; [exact cell_corner|].
  split; [exact (cell_regular _ usable_none)|]. split.
  { apply (flat_back qid half_p qid_unit None one same never plain_w plain_loss); [intros pt _ C; exact C|]. exact (cell_flat None one plain_w). }
  split; [exact (cell_regular _ usable_cauchy)|].
  apply (flat_back qid half_p qid_unit (Some (cauchy s1)) capped_w capped at_one capped_w_pos capped_loss); [exact cell_corner|]. exact (cell_flat (Some (cauchy s1)) capped_w capped_w_pos).
Qed.

(** ** One pair: the camera can move along the ray, and a solver may do so *)
Definition e2 (i : nat) : R := if Nat.eqb i 2 then 1 else 0.
Definition is0 (x : R) : bool := if Req_EM_T x 0 then true else false.
Definition slides (H b : mat R) (i : nat) : R :=
  if forallb (fun k => is0 (me H k 2%nat) && is0 (me b k 0%nat))%bool (seq 0 6) then e2 i else pinv6 H b i.
Lemma slides_psd : solves_psd slides.
Proof.
  intros H b P X i Hi. unfold slides. destruct (forallb _ _) eqn:F; [|exact (pinv6_psd H b P X i Hi)].
  rewrite forallb_forall in F. specialize (F i (proj2 (in_seq 6 0 i) (conj (Nat.le_0_l i) Hi))). apply andb_true_iff in F as [F1 F2]. unfold is0 in F1, F2.
  destruct (Req_EM_T (me H i 2%nat) 0) as [E1|]; [|discriminate]. destruct (Req_EM_T (me b i 0%nat) 0) as [E2|]; [|discriminate]. rewrite E2.
  unfold fvec, e2. rewrite (rsum_ext 6 _ (fun j => if Nat.eqb j 2 then me H i j else 0)) by (intros j _; destruct (Nat.eqb j 2); ring).
  rewrite rsum_delta by lia. exact E1.
Qed.
Definition ray_pts : list (v3 R) := [V3 0 0 1].
Definition ray_obs : list (v2 R) := [V2 0 0].
Lemma ray_normal : let N := pnp_normal None qid (V3 0 0 0) (combine ray_pts ray_obs) in (forall x, bform (snd N) x = 0) /\ forall i, (i < 6)%nat -> me (fst N) i 2%nat = 0 /\ me (snd N) i 0%nat = 0.
Proof.
  destruct (normal_forms qid (V3 0 0 0) qid_unit None one plain_w (combine ray_pts ray_obs)) as (H & b & E & _ & A & B). cbv zeta. rewrite E. cbn [fst snd].
  assert (C : pnp_pc qid (V3 0 0 0) (V3 0 0 1) = V3 0 0 1 :> v3 R) by (unfold pnp_pc; rewrite (qinv_unit _ qid_unit); vunf; apply v3_ext; rops; field).
  assert (U : forall pt, In pt (filter (off_plane qid (V3 0 0 0)) (combine ray_pts ray_obs)) -> pt = (V3 0 0 1, V2 0 0)) by (intros pt I; apply filter_In in I as [[<-|[]] _]; reflexivity).
  assert (Rx : rx qid (V3 0 0 0) (V3 0 0 1, V2 0 0) = 0 /\ ry qid (V3 0 0 0) (V3 0 0 1, V2 0 0) = 0) by (unfold rx, ry, pnp_res; cbn [fst snd]; rewrite C; split; vunf; cbn; rops; field).
  assert (J : forall r, (r < 2)%nat -> jx qid (V3 0 0 0) (V3 0 0 1, V2 0 0) r e2 = 0).
  { intros r Hr. unfold jx. cbn [fst]. change (rsum 6 (fun j => me (pnp_jac qid (V3 0 0 0) (V3 0 0 1)) r j * e2 j)) with (row (pnp_jac qid (V3 0 0 0) (V3 0 0 1)) r e2).
    rewrite jac_row by lia. cbv zeta. rewrite C, (qinv_unit _ qid_unit). unfold head3, tail3, e2. cbn [Nat.eqb]. destruct r as [|[|]]; [| |lia]; vunf; cbn; rops; field. }
  assert (Bz : forall x, bform b x = 0).
  { intros x. rewrite B, (lsum_ext_in _ _ (fun _ => 0 * 1)); [rewrite lsum_scal; ring|]. intros pt I. rewrite (U pt I), (proj1 Rx), (proj2 Rx). ring. }
  split; [exact Bz|]. intros i Hi. set (ei := fun k => if Nat.eqb k i then 1 else 0). split.
  - transitivity (hform H ei e2).
    + unfold hform, ei. rewrite (rsum_ext 6 _ (fun k => if Nat.eqb k i then fvec 6 (me H) e2 k else 0)) by (intros k _; destruct (Nat.eqb k i); ring). rewrite rsum_delta by exact Hi.
      unfold fvec, e2. rewrite (rsum_ext 6 _ (fun j => if Nat.eqb j 2 then me H i j else 0)) by (intros j _; destruct (Nat.eqb j 2); ring). rewrite rsum_delta by lia. reflexivity.
    + rewrite A, (lsum_ext_in _ _ (fun _ => 0 * 1)); [rewrite lsum_scal; ring|]. intros pt I. rewrite (U pt I), !J by lia. ring.
  - rewrite <- (Bz ei). unfold bform, ei. rewrite (rsum_ext 6 _ (fun k => if Nat.eqb k i then me b k 0%nat else 0)) by (intros k _; destruct (Nat.eqb k i); ring). rewrite rsum_delta by exact Hi. reflexivity.
Qed.
Theorem ray_moves : exists cfg ldlt p3 p2 q p, solves_psd ldlt /\ qunit q /\ length p3 = length p2 /\ p3 <> [] /\ (1 <= pc_iter cfg)%nat /\ 0 < pc_eps cfg /\
  stationary same (combine p3 p2) q p /\ po_p (pnp_estimate cfg ldlt p3 p2 q p) <> p.
Proof.
  exists (PnpCfg 1 (1 / 1000) 1 1 1), slides, ray_pts, ray_obs, qid, (V3 0 0 0). split; [exact slides_psd|]. split; [exact qid_unit|]. split; [reflexivity|]. split; [discriminate|].
  split; [cbn; lia|]. split; [cbn; lra|]. destruct ray_normal as [Bz Z]. split.
  - apply (flat_back qid (V3 0 0 0) qid_unit None one same never plain_w plain_loss); [intros pt _ C; exact C|exact Bz].
  - unfold pnp_estimate. cbn [length ray_pts ray_obs Nat.eqb negb orb pc_iter pc_eps]. fold ray_pts ray_obs. cbn [pnp_loop]. destruct (pnp_normal None qid (V3 0 0 0) (combine ray_pts ray_obs)) as [H b].
    cbn [fst snd] in Z. cbv zeta. assert (F : forall i, slides H b i = e2 i).
    { intros i. unfold slides. replace (forallb _ _) with true; [reflexivity|]. symmetry. apply forallb_forall. intros k I. apply in_seq in I. destruct (Z k ltac:(lia)) as [Z1 Z2].
      unfold is0. rewrite Z1, Z2. destruct (Req_EM_T 0 0) as [|N]; [reflexivity|exfalso; apply N; reflexivity]. }
    assert (P : v3add (V3 0 0 0) (head3 (slides H b)) = V3 0 0 1 :> v3 R) by (unfold head3; rewrite !F; unfold e2; cbn [Nat.eqb]; vring).
    change (sisnan (norm6 (slides H b))) with false. cbv iota. destruct (sltb _ _); cbn [po_p]; rewrite P; intros E; injection E; lra.
Qed.
