(** Proofs for C105. *)
From Coq Require Import Reals Lra Lia Arith Bool List Morphisms.
From Verif Require Import Fp Scalar Base LinAlg MathLib Attitude Propagator QueueSpec MatFacts NumSpec ProcSpec QuatFacts AttNumFacts PropagatorFacts AttitudeFacts
  ProcFacts YawSpec.
Import ListNotations.
Local Open Scope R_scope.

Lemma y_assoc : forall a b c : quat R, qmul a (qmul b c) = qmul (qmul a b) c.
Proof. intros [] [] []. vring. Qed.
Lemma y_sub : forall (q : quat R) a b, qrot q (v3sub a b) = v3sub (qrot q a) (qrot q b).
Proof. intros [] [] []. vring. Qed.

Lemma nominal_moved : forall u o grav ba bg m a0 g0 a1 g1 dt, qunit u -> qunit (mo_q m) -> qrot u grav = grav ->
  let r := nominal_step grav ba bg m a0 g0 a1 g1 dt in
  nominal_step grav ba bg (moved_motion u o m) a0 g0 a1 g1 dt = (moved_motion u o (fst (fst r)), snd (fst r), snd r) /\ qunit (mo_q (fst (fst r))).
Proof.
  intros u o grav ba bg m a0 g0 a1 g1 dt Hu Hm Hg. cbv zeta. unfold nominal_step. cbn [fst snd mo_q mo_p mo_v moved_motion].
  set (d := delta_q _). assert (Hd : 0 < qnorm2 d) by apply delta_q_pos.
  assert (Hq : qunit (qnormalize (qmul (mo_q m) d))) by apply (qstep_unit _ _ Hm).
  split; [|exact Hq]. rewrite <- (y_assoc u (mo_q m) d).
  assert (E : qnormalize (qmul u (qmul (mo_q m) d)) = qmul u (qnormalize (qmul (mo_q m) d))).
  { apply qnormalize_mul_unit; [exact Hu|]. rewrite qnorm2_mul, Hm. lra. }
  rewrite E. rewrite !(qrot_mul u) by assumption. set (q1 := qnormalize (qmul (mo_q m) d)) in *.
  unfold moved_motion. cbn [mo_p mo_v mo_q].
  set (x := qrot (mo_q m) (v3sub a0 ba)). set (y := qrot q1 (v3sub a1 ba)).
  assert (Ev : v3add (qrot u (mo_v m)) (v3scale (v3sub (v3scale (v3add (qrot u x) (qrot u y)) shalf) grav) dt) =
    qrot u (v3add (mo_v m) (v3scale (v3sub (v3scale (v3add x y) shalf) grav) dt))).
  { rewrite qrot_add, qrot_scale, y_sub, Hg, qrot_scale, qrot_add. reflexivity. }
  rewrite Ev. set (v1 := v3add (mo_v m) _).
  assert (Ep : v3add (v3add (qrot u (mo_p m)) o) (v3scale (v3scale (v3add (qrot u (mo_v m)) (qrot u v1)) shalf) dt) =
    v3add (qrot u (v3add (mo_p m) (v3scale (v3scale (v3add (mo_v m) v1) shalf) dt))) o).
  { rewrite qrot_add, !qrot_scale, qrot_add. generalize (qrot u (mo_p m)) (qrot u (mo_v m)) (qrot u v1). intros [] [] []. destruct o. vring. }
  rewrite Ep. reflexivity.
Qed.

(** ** Errors *)
Lemma turn_linear : forall u x i, (i < 15)%nat -> fvec 15 (matrix_of (turn u)) x i = turn u x i.
Proof. intros [uw ux uy uz] x i Hi. each i 15%nat ltac:(idtac); clear Hi; cbv -[Rplus Rmult Rminus Ropp Rdiv Rinv IZR]; ring. Qed.
Lemma part_stack : forall p v t a g, part (stack p v t a g) 0 = p /\ part (stack p v t a g) 3 = v /\ part (stack p v t a g) 6 = t /\
  part (stack p v t a g) 9 = a /\ part (stack p v t a g) 12 = g.
Proof. intros [] [] [] [] []. repeat split. Qed.
Lemma flow_turn : forall u q a w dt x, qunit u -> qunit q -> forall i, flow (qmul u q) a w dt (turn u x) i = turn u (flow q a w dt x) i.
Proof.
  intros u q a w dt x Hu Hq i. unfold flow at 1. cbv zeta.
  destruct (part_stack (qrot u (part x 0)) (qrot u (part x 3)) (part x 6) (part x 9) (part x 12)) as (E1 & E2 & E3 & E4 & E5). fold (turn u x) in *.
  rewrite E1, E2, E3, E4, E5. clear E1 E2 E3 E4 E5. unfold flow. cbv zeta. unfold turn.
  match goal with |- _ = stack (qrot u (part (stack ?p ?v ?t ?b ?c) 0)) _ _ _ _ _ => destruct (part_stack p v t b c) as (-> & -> & -> & -> & ->) end.
  rewrite (qrot_mul u q) by assumption. rewrite (qrot_add u (part x 0)), y_sub, !qrot_scale. reflexivity.
Qed.
Lemma drive_turn : forall u q dt x, qunit u -> qunit q -> forall i, drive (qmul u q) dt x i = turn u (drive q dt x) i.
Proof.
  intros u q dt x Hu Hq i. unfold drive. cbv zeta.
  unfold turn. match goal with |- _ = stack (qrot u (part (stack ?p ?v ?t ?b ?c) 0)) _ _ _ _ _ => destruct (part_stack p v t b c) as (-> & -> & -> & -> & ->) end.
  rewrite !(qrot_mul u q) by assumption. rewrite !qrot_scale. reflexivity.
Qed.
(** Products of matrices of linear maps. *)
Lemma mat_comp : forall (f g : (nat -> R) -> nat -> R) n m, (forall x i, (i < 15)%nat -> fvec n (matrix_of f) x i = f x i) ->
  feq 15 m (fmul n (matrix_of f) (matrix_of g)) (fun i j => f (g (fun k => if Nat.eqb k j then 1 else 0)) i).
Proof. intros f g n m H. split. intros i j Hi _. exact (H (g (fun k => if Nat.eqb k j then 1 else 0)) i Hi). Qed.
Lemma flow_turn_mat : forall u q a w dt, qunit u -> qunit q ->
  feq 15 15 (fmul 15 (matrix_of (flow (qmul u q) a w dt)) (matrix_of (turn u))) (fmul 15 (matrix_of (turn u)) (matrix_of (flow q a w dt))).
Proof.
  intros u q a w dt Hu Hq. rewrite (mat_comp _ _ 15 15 (flow_linear (qmul u q) a w dt)), (mat_comp _ _ 15 15 (turn_linear u)).
  split. intros i j _ _. apply flow_turn; assumption.
Qed.
Lemma drive_turn_mat : forall u q dt, qunit u -> qunit q ->
  feq 15 12 (matrix_of (drive (qmul u q) dt)) (fmul 15 (matrix_of (turn u)) (matrix_of (drive q dt))).
Proof. intros u q dt Hu Hq. rewrite (mat_comp _ _ 15 12 (turn_linear u)). split. intros i j _ _. apply drive_turn; assumption. Qed.

(** ** One step *)
Lemma carried_moved : forall noise ba bg u o it0 it1 it0' it1', qunit u -> qunit (mo_q (pi_mo it0)) -> moved_item u o it0 it0' ->
  pi_mo it1' = moved_motion u o (pi_mo it1) -> meas it1' = meas it1 -> mc (pi_ecov it1) = mc (pi_ecov it0) -> mc (pi_ecov it1') = mc (pi_ecov it0') ->
  carried noise ba bg (mc (pi_ecov it0)) it0 it1 -> carried noise ba bg (mc (pi_ecov it0)) it0' it1' -> moved_item u o it1 it1'.
Proof.
  intros noise ba bg u o it0 it1 it0' it1' Hu Hq (Hm & Ha & Hg & Ht & Hc & Hn & He) Hm1 Hme Hn1 Hn1' C C'.
  unfold meas in Hme. injection Hme as Ha1 Hg1 Ht1. unfold carried in C, C'. cbv zeta in C, C'.
  rewrite Ha, Hg, Ht, Ha1, Hg1, Ht1, Hm in C'. cbn [moved_motion mo_q] in C'.
  set (dt := real_step _ _) in *. set (a := v3sub _ ba) in *. set (w := v3sub _ bg) in *. set (q := mo_q (pi_mo it0)) in *.
  set (U := matrix_of (turn u)) in *. set (F := matrix_of (flow q a w dt)) in *. set (G := matrix_of (drive q dt)) in *.
  pose proof (flow_turn_mat u q a w dt Hu Hq) as EF. pose proof (drive_turn_mat u q dt Hu Hq) as EG. fold U F in EF. fold U G in EG.
  set (F' := matrix_of (flow (qmul u q) a w dt)) in *. set (G' := matrix_of (drive (qmul u q) dt)) in *.
  destruct C as [C1 C2], C' as [C1' C2']. unfold moved_item. cbv zeta. fold U.
  split; [exact Hm1|]. split; [exact Ha1|]. split; [exact Hg1|]. split; [exact Ht1|]. split; [|split; [congruence|]].
  - rewrite C1', C1, Hc, EG. set (P := me (pi_cov it0)).
    rewrite fmul_add_r, fmul_add_l.
    assert (E1 : feq 15 15 (fmul 15 (fmul 15 F' (fmul 15 (fmul 15 U P) (ftr U))) (ftr F')) (fmul 15 (fmul 15 U (fmul 15 (fmul 15 F P) (ftr F))) (ftr U))).
    { rewrite <- (fmul_assoc 15 15 15 15 F' (fmul 15 U P) (ftr U)), <- (fmul_assoc 15 15 15 15 F' U P), EF.
      rewrite (fmul_assoc 15 15 15 15 (fmul 15 (fmul 15 U F) P) (ftr U) (ftr F')), <- (ftr_mul 15 15 15 F' U), EF, (ftr_mul 15 15 15 U F).
      rewrite <- (fmul_assoc 15 15 15 15 (fmul 15 (fmul 15 U F) P) (ftr F) (ftr U)).
      rewrite (fmul_assoc 15 15 15 15 U F P), (fmul_assoc 15 15 15 15 U (fmul 15 F P) (ftr F)). reflexivity. }
    assert (E2 : feq 15 15 (fmul 12 (fmul 12 (fmul 15 U G) noise) (ftr (fmul 15 U G))) (fmul 15 (fmul 15 U (fmul 12 (fmul 12 G noise) (ftr G))) (ftr U))).
    { rewrite (ftr_mul 12 15 15 U G), <- (fmul_assoc 15 15 12 15 (fmul 12 (fmul 15 U G) noise) (ftr G) (ftr U)).
      rewrite (fmul_assoc 15 12 15 12 U G noise), (fmul_assoc 15 15 15 12 U (fmul 12 G noise) (ftr G)). reflexivity. }
    rewrite E1, E2. reflexivity.
  - rewrite Hn1, C2', C2, He.
    rewrite <- (fmul_assoc 15 _ 15 15 F' U), EF, (fmul_assoc 15 _ 15 15 U F). reflexivity.
Qed.

Lemma prop_item_moved : forall u o grav ba bg F G F' G' Q na ng nwa nwg it0 it0' a1 g1 t1, qunit u -> qrot u grav = grav -> qunit (mo_q (pi_mo it0)) ->
  ready F G -> ready F' G' -> Q = noise_Q na ng nwa nwg -> mc (pi_cov it0) = 15%nat -> mc (pi_cov it0') = 15%nat -> moved_item u o it0 it0' ->
  let '(it1, F1, G1) := prop_item grav ba bg F G Q it0 a1 g1 t1 in let '(it1', F1', G1') := prop_item grav ba bg F' G' Q it0' a1 g1 t1 in
  ready F1 G1 /\ ready F1' G1' /\ mc (pi_cov it1) = 15%nat /\ mc (pi_cov it1') = 15%nat /\ qunit (mo_q (pi_mo it1)) /\ moved_item u o it1 it1'.
Proof.
  intros u o grav ba bg F G F' G' Q na ng nwa nwg it0 it0' a1 g1 t1 Hu Hgr Hq Rd Rd' HQ Hc Hc' M.
  pose proof (prop_item_carried grav ba bg F G Q it0 a1 g1 t1 na ng nwa nwg (mc (pi_ecov it0)) Rd HQ Hc) as C.
  pose proof (prop_item_carried grav ba bg F' G' Q it0' a1 g1 t1 na ng nwa nwg (mc (pi_ecov it0)) Rd' HQ Hc') as C'.
  destruct (prop_item grav ba bg F G Q it0 a1 g1 t1) as [[it1 F1] G1] eqn:E. destruct (prop_item grav ba bg F' G' Q it0' a1 g1 t1) as [[it1' F1'] G1'] eqn:E'.
  destruct C as (C1 & C2 & C3 & C4), C' as (C1' & C2' & C3' & C4').
  pose proof M as (Hm & Ha & Hg & Ht & _).
  pose proof (nominal_moved u o grav ba bg (pi_mo it0) (pi_a it0) (pi_g it0) a1 g1 (step_dt (pi_ts it0) t1) Hu Hq Hgr) as [N1 N2].
  unfold prop_item in E, E'. rewrite Hm, Ha, Hg, Ht, N1 in E'.
  destruct (nominal_step grav ba bg (pi_mo it0) (pi_a it0) (pi_g it0) a1 g1 (step_dt (pi_ts it0) t1)) as [[m1 ma] mg]. cbn [fst snd] in *.
  assert (P1 : pi_mo it1 = m1) by (injection E as <- _ _; reflexivity).
  assert (P1' : pi_mo it1' = moved_motion u o m1) by (injection E' as <- _ _; reflexivity).
  assert (P2 : mc (pi_ecov it1) = mc (pi_ecov it0)) by (injection E as <- _ _; reflexivity).
  assert (P2' : mc (pi_ecov it1') = mc (pi_ecov it0')) by (injection E' as <- _ _; reflexivity).
  split; [exact C1|]. split; [exact C1'|]. split; [exact C2|]. split; [exact C2'|]. rewrite P1. split; [exact N2|].
  apply (carried_moved (noise_cov na ng nwa nwg) ba bg u o it0 it1 it0' it1'); try assumption.
  - rewrite P1, P1'. reflexivity.
  - congruence.
Qed.

Definition okq (it : pitem R) : Prop := mc (pi_cov it) = 15%nat /\ qunit (mo_q (pi_mo it)).
Lemma reprop_moved : forall u o grav ba bg Q na ng nwa nwg l l' F G F' G' it0 it0', qunit u -> qrot u grav = grav -> Q = noise_Q na ng nwa nwg ->
  List.Forall2 (moved_item u o) l l' -> ready F G -> ready F' G' -> okq it0 -> mc (pi_cov it0') = 15%nat -> moved_item u o it0 it0' ->
  let '(r, F1, G1) := reprop_loop grav ba bg Q F G it0 l in let '(r', F1', G1') := reprop_loop grav ba bg Q F' G' it0' l' in
  ready F1 G1 /\ ready F1' G1' /\ List.Forall okq r /\ List.Forall (fun it => mc (pi_cov it) = 15%nat) r' /\ List.Forall2 (moved_item u o) r r'.
Proof.
  intros u o grav ba bg Q na ng nwa nwg l l' F G F' G' it0 it0' Hu Hg HQ H. revert F G F' G' it0 it0'.
  induction H as [|i i' l l' Hi Hl IH]; intros F G F' G' it0 it0' Rd Rd' [Hc Hq] Hc' M; cbn [reprop_loop].
  - repeat split; try apply Rd; try apply Rd'; constructor.
  - destruct Hi as (Hm & Ha & Hgy & Ht & _). rewrite Ha, Hgy, Ht.
    pose proof (prop_item_moved u o grav ba bg F G F' G' Q na ng nwa nwg it0 it0' (pi_a i) (pi_g i) (pi_ts i) Hu Hg Hq Rd Rd' HQ Hc Hc' M) as P.
    destruct (prop_item grav ba bg F G Q it0 _ _ _) as [[it1 F1] G1]. destruct (prop_item grav ba bg F' G' Q it0' _ _ _) as [[it1' F1'] G1'].
    destruct P as (P1 & P2 & P3 & P4 & P5 & P6). specialize (IH F1 G1 F1' G1' it1 it1' P1 P2 (conj P3 P5) P4 P6).
    destruct (reprop_loop grav ba bg Q F1 G1 it1 l) as [[r F2] G2]. destruct (reprop_loop grav ba bg Q F1' G1' it1' l') as [[r' F2'] G2'].
    destruct IH as (I1 & I2 & I3 & I4 & I5). split; [exact I1|]. split; [exact I2|]. split; [constructor; [split; assumption|exact I3]|].
    split; constructor; assumption.
Qed.

(** ** Queues *)
Lemma f2_length : forall (A B : Type) (P : A -> B -> Prop) l l', List.Forall2 P l l' -> length l = length l'.
Proof. intros A B P l l' H. induction H; cbn [length]; congruence. Qed.
Record both (u : quat R) (o : v3 R) (noise : mat R) (q q' : pqueue R) : Prop := Both {
  bt_moved : moved_queue u o q q'; bt_Q : pq_Q q = noise; bt_Q' : pq_Q q' = noise;
  bt_r : pq_items q <> [] -> ready (pq_F q) (pq_G q); bt_r' : pq_items q' <> [] -> ready (pq_F q') (pq_G q');
  bt_sq : square_items q; bt_sq' : square_items q'; bt_unit : unit_queue q }.
Lemma feq_zero_turn : forall n m U, feq n m fzero (fmul 15 U fzero).
Proof. intros. symmetry. apply fmul_zero_r. Qed.
Lemma both_do : forall u o grav na ng nwa nwg q q' op, qunit u -> qrot u grav = grav -> both u o (noise_Q na ng nwa nwg) q q' ->
  both u o (noise_Q na ng nwa nwg) (queue_do grav q op) (queue_do grav q' op).
Proof.
  intros u o grav na ng nwa nwg q q' op Hu Hg [(Mi & Mc & Ma & Mg & Mn) Q Q' Rr Rr' Sq Sq' [Un Ui]].
  destruct op as [n a g t| |ts thr]; cbn [queue_do].
  - unfold pq_propagate. destruct (back_cases _ (pq_items q)) as [[E Eb]|(l & b & E & Eb)]; destruct (back_cases _ (pq_items q')) as [[E' Eb']|(l' & b' & E' & Eb')];
      try (exfalso; apply f2_length in Mi; rewrite E, E' in Mi; rewrite ?app_length in Mi; cbn in Mi; lia); rewrite Eb, Eb'.
    + split; cbn [pq_items pq_ecc pq_ba pq_bg pq_init pq_Q pq_F pq_G]; try assumption; try (intros _; apply ready_reset).
      * split; [|repeat split; assumption]. cbn [pq_items]. rewrite E, E'. cbn [app]. constructor; [|constructor]. unfold moved_item. cbn [pi_mo pi_a pi_g pi_ts pi_cov pi_ecov].
        split; [exact Mn|]. do 3 (split; [reflexivity|]). split; [|split; [reflexivity|]].
        -- split. intros i j Hi Hj. unfold fmul. cbn [me mzero]. symmetry. apply rsum_0. intros k Hk. rewrite rsum_0 by (intros; rops; ring). ring.
        -- split. intros i j Hi Hj. unfold fmul. cbn [me mzero]. symmetry. apply rsum_0. intros k Hk. rops. ring.
      * unfold square_items. cbn [pq_items]. rewrite E. constructor; [reflexivity|constructor].
      * unfold square_items. cbn [pq_items]. rewrite E'. constructor; [reflexivity|constructor].
      * split; cbn [pq_init pq_items]; [exact Un|]. rewrite E. constructor; [exact Un|constructor].
    + assert (N : pq_items q <> []) by (rewrite E; destruct l; discriminate). assert (N' : pq_items q' <> []) by (rewrite E'; destruct l'; discriminate).
      specialize (Rr N). specialize (Rr' N'). rewrite Ma, Mg, Q'.
      unfold square_items in Sq, Sq'. rewrite E in Mi, Sq, Ui. rewrite E' in Mi, Sq'.
      apply List.Forall2_app_inv_l in Mi as (k & k' & Mi & Mb & Ek). inversion Mb as [|? b2 ? ? Mb1 Mb2]; subst. inversion Mb2; subst.
      apply app_inj_tail in Ek as [-> ->].
      apply Forall_app in Sq as Sq2. destruct Sq2 as [_ Sb]. inversion Sb; subst. apply Forall_app in Sq' as Sq2'. destruct Sq2' as [_ Sb']. inversion Sb'; subst.
      apply Forall_app in Ui as Ui2. destruct Ui2 as [_ Ub]. inversion Ub; subst.
      pose proof (prop_item_moved u o grav (pq_ba q) (pq_bg q) (pq_F q) (pq_G q) (pq_F q') (pq_G q') _ na ng nwa nwg b b2 a g t Hu Hg ltac:(assumption) Rr Rr' Q ltac:(assumption) ltac:(assumption) Mb1) as P.
      rewrite Q in P. rewrite Q.
      destruct (prop_item _ _ _ (pq_F q) _ _ b _ _ _) as [[it1 F1] G1]. destruct (prop_item _ _ _ (pq_F q') _ _ b2 _ _ _) as [[it1' F1'] G1'].
      destruct P as (P1 & P2 & P3 & P4 & P5 & P6).
      split; cbn [pq_items pq_ecc pq_ba pq_bg pq_init pq_Q pq_F pq_G]; try assumption; try (intros _; assumption); try reflexivity.
      * split; [|repeat split; assumption]. cbn [pq_items]. rewrite E, E'. apply List.Forall2_app; [apply List.Forall2_app; [exact Mi|constructor; [exact Mb1|constructor]]|constructor; [exact P6|constructor]].
      * unfold square_items. cbn [pq_items]. rewrite E. apply Forall_app. split; [exact Sq|constructor; [exact P3|constructor]].
      * unfold square_items. cbn [pq_items]. rewrite E'. apply Forall_app. split; [exact Sq'|constructor; [exact P4|constructor]].
      * split; cbn [pq_init pq_items]; [exact Un|]. rewrite E. apply Forall_app. split; [exact Ui|constructor; [exact P5|constructor]].
  - unfold pq_repropagate. unfold square_items in Sq, Sq'. destruct (pq_items q) as [|i l] eqn:E; destruct (pq_items q') as [|i' l'] eqn:E'; try (apply f2_length in Mi; discriminate Mi).
    + split; try assumption; try (rewrite E; assumption); try (rewrite E'; assumption).
      * split; [rewrite E, E'; constructor|repeat split; assumption].
      * unfold square_items. rewrite E. constructor.
      * unfold square_items. rewrite E'. constructor.
      * split; [exact Un|rewrite E; constructor].
    + specialize (Rr ltac:(discriminate)). specialize (Rr' ltac:(discriminate)). inversion Mi as [|? ? ? ? M1 M2]; subst. inversion Sq; subst. inversion Sq'; subst. inversion Ui; subst.
      pose proof (reprop_moved u o grav (pq_ba q) (pq_bg q) _ na ng nwa nwg l l' (pq_F q) (pq_G q) (pq_F q') (pq_G q') i i' Hu Hg Q M2 Rr Rr' (conj H1 H5) ltac:(assumption) M1) as P.
      rewrite Ma, Mg, Q', <- Q.
      destruct (reprop_loop _ _ _ _ (pq_F q) _ _ _) as [[r F1] G1]. destruct (reprop_loop _ _ _ _ (pq_F q') _ _ _) as [[r' F1'] G1'].
      destruct P as (P1 & P2 & P3 & P4 & P5).
      split; cbn [pq_items pq_ecc pq_ba pq_bg pq_init pq_Q pq_F pq_G]; try assumption; try (intros _; assumption); try reflexivity.
      * split; [|repeat split; assumption]. cbn [pq_items]. constructor; assumption.
      * constructor; [assumption|]. eapply List.Forall_impl; [|exact P3]. intros ? [? _]. assumption.
      * constructor; assumption.
      * split; cbn [pq_init pq_items]; [exact Un|]. constructor; [assumption|]. eapply List.Forall_impl; [|exact P3]. intros ? [_ ?]. assumption.
  - assert (O : forall l l', List.Forall2 (moved_item u o) l l' -> match origin_loop ts thr l, origin_loop ts thr l' with
        | None, None => True | Some r, Some r' => r <> [] /\ r' <> [] /\ List.Forall2 (moved_item u o) r r' /\ (exists k, l = k ++ r) /\ exists k', l' = k' ++ r' | _, _ => False end).
    { intros l l' H. induction H as [|i i' l l' Hi Hl IH]; cbn [origin_loop]; [exact I|]. destruct Hi as (X1 & X2 & X3 & X4 & X5). rewrite X4.
      destruct (f64_ltb _ _).
      - destruct (origin_loop ts thr l), (origin_loop ts thr l'); try exact IH. destruct IH as (I1 & I2 & I3 & (k & ->) & (k' & ->)).
        split; [exact I1|]. split; [exact I2|]. split; [exact I3|]. split; [exists (i :: k); reflexivity|exists (i' :: k'); reflexivity].
      - split; [discriminate|]. split; [discriminate|]. split; [constructor; [exact (conj X1 (conj X2 (conj X3 (conj X4 X5))))|exact Hl]|]. split; [exists []; reflexivity|exists []; reflexivity]. }
    specialize (O _ _ Mi). unfold pq_reset_origin. unfold square_items in Sq, Sq'.
    destruct (origin_loop ts thr (pq_items q)) as [r|], (origin_loop ts thr (pq_items q')) as [r'|]; try contradiction; cbn [fst with_items].
    + destruct O as (O1 & O2 & O3 & (k & Ek) & (k' & Ek')).
      assert (N : pq_items q <> []) by (rewrite Ek; destruct k, r; try discriminate; contradiction).
      assert (N' : pq_items q' <> []) by (rewrite Ek'; destruct k', r'; try discriminate; contradiction).
      rewrite Ek in Sq, Ui. rewrite Ek' in Sq'. apply Forall_app in Sq as [_ Sq]. apply Forall_app in Sq' as [_ Sq']. apply Forall_app in Ui as [_ Ui].
      split; cbn [pq_items pq_ecc pq_ba pq_bg pq_init pq_Q pq_F pq_G]; auto.
      * split; [exact O3|repeat split; assumption].
      * split; assumption.
    + split; cbn [pq_items pq_ecc pq_ba pq_bg pq_init pq_Q pq_F pq_G]; auto; try (intros C; contradiction).
      * split; [constructor|repeat split; assumption].
      * constructor.
      * constructor.
      * split; [exact Un|constructor].
Qed.

Lemma forall2_last : forall (A B : Type) (P : A -> B -> Prop) l l' x x', List.Forall2 P (l ++ [x]) (l' ++ [x']) -> P x x'.
Proof. intros A B P l l' x x' H. apply List.Forall2_app_inv_l in H as (k & k' & _ & H2 & E). inversion H2 as [|? y ? ? H3 H4]; subst. inversion H4; subst. apply app_inj_tail in E as [_ ->]. exact H3. Qed.

(** C105 *)
Theorem queue_moved : forall u o grav na ng nwa nwg (q q' : pqueue R) ops, qnorm2 u = 1 -> qrot u grav = grav ->
  queue_history grav (noise_Q na ng nwa nwg) q -> queue_history grav (noise_Q na ng nwa nwg) q' -> square_items q -> square_items q' -> unit_queue q ->
  moved_queue u o q q' ->
  let r := fold_left (queue_do grav) ops q in let r' := fold_left (queue_do grav) ops q' in
  moved_queue u o r r' /\
  match pq_publish_newest r, pq_publish_newest r' with
  | Some (m, ba, bg, t), Some (m', ba', bg', t') => m' = moved_motion u o m /\ ba' = ba /\ bg' = bg /\ t' = t
  | None, None => True
  | _, _ => False
  end.
Proof.
  intros u o grav na ng nwa nwg q q' ops Hu Hg H H' S S' U M. cbv zeta.
  assert (B : both u o (noise_Q na ng nwa nwg) (fold_left (queue_do grav) ops q) (fold_left (queue_do grav) ops q')).
  { assert (B : both u o (noise_Q na ng nwa nwg) q q').
    { destruct (history_ready _ _ _ H), (history_ready _ _ _ H'). split; assumption. }
    clear H H' S S' U M. revert q q' B. induction ops as [|op ops IH]; intros q q' B; cbn [fold_left]; [exact B|]. apply IH. apply both_do; assumption. }
  destruct B as [(Mi & Mc & Ma & Mg & Mn) _ _ _ _ _ _ _]. split; [repeat split; assumption|].
  unfold pq_publish_newest, pq_publish.
  destruct (back_cases _ (pq_items (fold_left (queue_do grav) ops q))) as [[E Eb]|(l & b & E & Eb)]; destruct (back_cases _ (pq_items (fold_left (queue_do grav) ops q'))) as [[E' Eb']|(l' & b' & E' & Eb')];
    try (exfalso; apply f2_length in Mi; rewrite E, E' in Mi; rewrite ?app_length in Mi; cbn in Mi; lia); rewrite Eb, Eb'; [exact I|].
  rewrite E, E' in Mi. apply forall2_last in Mi as (X1 & _ & _ & X4 & _). repeat split; assumption.
Qed.

(** The attitude estimator. *)
Lemma back_map : forall (A B : Type) (f : A -> B) l, back (map f l) = match back l with Ok x => Ok (f x) | Ub k => Ub k end.
Proof.
  intros A B f l. destruct (back_cases _ l) as [[-> Eb]|(k & b & -> & Eb)]; rewrite Eb; [reflexivity|].
  rewrite map_app. cbn [map]. destruct (back_cases _ (map f k ++ [f b])) as [[E _]|(k' & b' & E & ->)]; [destruct (map f k); discriminate E|].
  apply app_inj_tail in E as [_ ->]. reflexivity.
Qed.
Theorem att_moved : forall u grav (s : att R) a g t, qnorm2 u = 1 -> qrot u grav = grav -> at_items s <> [] ->
  List.Forall (fun it => qnorm2 (ai_q it) = 1) (at_items s) ->
  att_propagate grav (moved_att u s) a g t = (moved_att u (fst (att_propagate grav s a g t)), snd (att_propagate grav s a g t)).
Proof.
  intros u grav s a g t Hu Hg Hn HU. unfold att_propagate, moved_att at 1. cbn [at_items]. rewrite back_map.
  destruct (back_cases _ (at_items s)) as [[E _]|(l & b & E & Eb)]; [contradiction|]. rewrite Eb. cbn [ai_ts].
  destruct (f64_ltb t (ai_ts b)); [reflexivity|]. cbv zeta. cbn [fst snd moved_att at_ba at_bg at_err at_items ai_q ai_g].
  assert (Hb : qunit (ai_q b)) by (rewrite E in HU; apply Forall_app in HU as [_ HU]; inversion HU; assumption).
  assert (Eg : qrot (qinv (qmul u (ai_q b))) grav = qrot (qinv (ai_q b)) grav).
  { rewrite <- (qrot_inv_r (ai_q b) grav Hb) at 1. rewrite <- Hg at 1.
    assert (X : forall w, qrot u (qrot (ai_q b) w) = qrot (qmul u (ai_q b)) w) by (intros; symmetry; apply qrot_mul; assumption).
    assert (Y : grav = qrot (qmul u (ai_q b)) (qrot (qinv (ai_q b)) grav)) by (rewrite <- X, qrot_inv_r by exact Hb; symmetry; exact Hg).
    rewrite qrot_inv_r by exact Hb. rewrite Hg. rewrite Y at 1. apply qrot_inv_l. apply qmul_unit; assumption. }
  rewrite Eg. set (d := delta_q _). rewrite <- y_assoc.
  rewrite (qnormalize_mul_unit u) by (exact Hu || (rewrite qnorm2_mul, Hb; pose proof (delta_q_pos (v3scale (v3opp
    (v3add (v3add (v3scale (v3add (ai_g b) (v3sub g (at_bg s))) shalf) (v3scale (v3cross (v3div a (v3norm a)) (v3div (qrot (qinv (ai_q b)) grav) (v3norm grav))) att_kp))
      (v3add (at_err s) (v3scale (v3cross (v3div a (v3norm a)) (v3div (qrot (qinv (ai_q b)) grav) (v3norm grav))) att_ki)))) (sof32 (f64_to_f32 (f64_sub t (ai_ts b)))))); fold d in H; lra)).
  unfold moved_att. cbn [at_items at_ba at_bg at_err]. rewrite map_app. reflexivity.
Qed.
