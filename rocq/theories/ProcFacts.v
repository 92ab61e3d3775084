(** The propagator's matrices are those of the process model (C68). *)
From Coq Require Import Reals Lra Lia Arith Bool List Morphisms.
From Verif Require Import Fp Scalar Base LinAlg MathLib Propagator QueueSpec MatFacts NumSpec ProcSpec QuatFacts PropagatorFacts AttitudeFacts.
Import ListNotations.
Local Open Scope R_scope.

(** Where the propagator writes. *)
Definition F_mask (i j : nat) : bool :=
  match (i / 3)%nat, (j / 3)%nat with 0, 1 | 1, 2 | 1, 3 | 2, 2 | 2, 4 => true | _, _ => false end%nat.
Definition G_mask (i j : nat) : bool :=
  match (i / 3)%nat, (j / 3)%nat with 0, 0 | 1, 0 | 2, 1 | 3, 2 | 4, 3 => true | _, _ => false end%nat.
Record ready (F G : mat R) : Prop := Ready {
  rd_Fr : mr F = 15%nat; rd_Fc : mc F = 15%nat; rd_Gr : mr G = 15%nat; rd_Gc : mc G = 12%nat;
  rd_F : forall i j, (i < 15)%nat -> (j < 15)%nat -> F_mask i j = false -> me F i j = fid i j;
  rd_G : forall i j, (i < 15)%nat -> (j < 12)%nat -> G_mask i j = false -> me G i j = 0 }.

Ltac each i n tac := lazymatch n with O => exfalso; lia | S ?m => destruct i as [|i]; [tac|each i m tac] end.

Lemma write_F_flow : forall F q a w dt,
  (forall i j, (i < 15)%nat -> (j < 15)%nat -> F_mask i j = false -> me F i j = fid i j) ->
  feq 15 15 (me (write_F F q a w dt)) (matrix_of (flow q a w dt)).
Proof.
  intros F [qw qx qy qz] [a1 a2 a3] [w1 w2 w3] dt H. split. intros i j Hi Hj.
  assert (HF : F_mask i j = false -> me F i j = fid i j) by (intros; apply H; assumption). clear H.
  each i 15%nat ltac:(idtac); each j 15%nat ltac:(idtac); clear Hi Hj.
  all: try (specialize (HF eq_refl)).
  all: cbv -[Rplus Rmult Rminus Ropp Rdiv Rinv IZR] in *.
  all: try rewrite HF.
  all: field.
Qed.
Lemma write_G_drive : forall G q dt,
  (forall i j, (i < 15)%nat -> (j < 12)%nat -> G_mask i j = false -> me G i j = 0) ->
  feq 15 12 (me (write_G G q dt)) (matrix_of (drive q dt)).
Proof.
  intros G [qw qx qy qz] dt H. split. intros i j Hi Hj.
  assert (HG : G_mask i j = false -> me G i j = 0) by (intros; apply H; assumption). clear H.
  each i 15%nat ltac:(idtac); each j 12%nat ltac:(idtac); clear Hi Hj.
  all: try (specialize (HG eq_refl)).
  all: cbv -[Rplus Rmult Rminus Ropp Rdiv Rinv IZR] in *.
  all: try rewrite HG.
  all: field.
Qed.
Lemma ready_write : forall F G q a w dt, ready F G -> ready (write_F F q a w dt) (write_G G q dt).
Proof.
  intros F G q a w dt [H1 H2 H3 H4 HF HG]. split; try assumption.
  - intros i j Hi Hj Hm. assert (HF' : me F i j = fid i j) by (apply HF; assumption). clear HF HG.
    each i 15%nat ltac:(idtac); each j 15%nat ltac:(idtac); clear Hi Hj; try discriminate Hm; exact HF'.
  - intros i j Hi Hj Hm. assert (HG' : me G i j = 0) by (apply HG; assumption). clear HF HG.
    each i 15%nat ltac:(idtac); each j 12%nat ltac:(idtac); clear Hi Hj; try discriminate Hm; exact HG'.
Qed.
Lemma ready_reset : ready F_reset G_reset.
Proof. split; try reflexivity; intros; reflexivity. Qed.

Lemma noise_Q_cov : forall na ng nwa nwg, feq 12 12 (me (noise_Q na ng nwa nwg)) (noise_cov na ng nwa nwg).
Proof.
  intros. split. intros i j Hi Hj. unfold noise_Q, noise_cov. cbn [me s0 s1 smul ops_R].
  destruct (Nat.eqb i j); [|reflexivity]. clear Hj. each i 12%nat ltac:(cbn; ring).
Qed.

(** One step. *)
Lemma prop_item_carried : forall grav ba bg F G Q it0 a1 g1 t1 na ng nwa nwg n, ready F G -> Q = noise_Q na ng nwa nwg ->
  mc (pi_cov it0) = 15%nat ->
  let '(it1, F', G') := prop_item grav ba bg F G Q it0 a1 g1 t1 in
  ready F' G' /\ mc (pi_cov it1) = 15%nat /\ meas it1 = (a1, g1, t1) /\ carried (noise_cov na ng nwa nwg) ba bg n it0 it1.
Proof.
  intros grav ba bg F G Q it0 a1 g1 t1 na ng nwa nwg n Hr HQ Hc. unfold prop_item.
  destruct (nominal_step _ _ _ _ _ _ _ _ _) as [[m1 ma] mg] eqn:En.
  unfold nominal_step in En. injection En as _ Ea Eg.
  set (dt := step_dt (pi_ts it0) t1) in *. set (F' := write_F F _ ma mg dt). set (G' := write_G G _ dt).
  destruct Hr as [H1 H2 H3 H4 HF HG].
  assert (Hr' : ready F' G') by (apply ready_write; split; assumption).
  split; [exact Hr'|]. split; [cbn [pi_cov cov_step madd mmul mtr mc]; exact H1|]. split; [reflexivity|].
  unfold carried. cbn [pi_cov pi_ecov pi_a pi_g pi_ts pi_mo].
  change (real_step (pi_ts it0) t1) with dt.
  replace (v3sub (v3scale (v3add (pi_a it0) a1) (1 / 2)) ba) with ma by (rewrite <- Ea; reflexivity).
  replace (v3sub (v3scale (v3add (pi_g it0) g1) (1 / 2)) bg) with mg by (rewrite <- Eg; reflexivity).
  pose proof (write_F_flow F (mo_q (pi_mo it0)) ma mg dt HF) as EF. fold F' in EF.
  pose proof (write_G_drive G (mo_q (pi_mo it0)) dt HG) as EG. fold G' in EG.
  rewrite <- EF, <- EG, <- (noise_Q_cov na ng nwa nwg), <- HQ.
  split; split; intros i j Hi Hj.
  - unfold cov_step, madd, mmul, mtr, fadd, fmul, ftr. cbn [me mr mc sadd smul ops_R].
    change (mc F') with (mc F). change (mc G') with (mc G). rewrite HQ at 1. cbn [mc noise_Q]. rewrite H2, H4, Hc. reflexivity.
  - unfold ecov_step, mmul, fmul. cbn [me mr mc sadd smul ops_R]. change (mc F') with (mc F). rewrite H2. reflexivity.
Qed.

(** The loop of Repropagate. *)
Lemma reprop_carried : forall grav ba bg Q na ng nwa nwg n l F G it0, ready F G -> Q = noise_Q na ng nwa nwg -> mc (pi_cov it0) = 15%nat ->
  let '(l', F', G') := reprop_loop grav ba bg Q F G it0 l in
  (ready F' G') /\ forall pre x y post, it0 :: l' = pre ++ x :: y :: post -> carried (noise_cov na ng nwa nwg) ba bg n x y.
Proof.
  intros grav ba bg Q na ng nwa nwg n l. induction l as [|it1 l IH]; intros F G it0 Hr HQ Hc; cbn [reprop_loop].
  - split; [exact Hr|]. intros [|? [|? pre]] x y post E; discriminate E.
  - pose proof (prop_item_carried grav ba bg F G Q it0 (pi_a it1) (pi_g it1) (pi_ts it1) na ng nwa nwg n Hr HQ Hc) as H.
    destruct (prop_item _ _ _ _ _ _ _ _ _ _) as [[it1' F'] G'] eqn:Ep. destruct H as (Hr' & Hc' & _ & Hl).
    specialize (IH F' G' it1' Hr' HQ Hc'). destruct (reprop_loop _ _ _ _ _ _ _ _) as [[r' F''] G'']. destruct IH as [IH1 IH2].
    split; [exact IH1|]. intros [|z pre] x y post E.
    + cbn in E. injection E as <- <- _. exact Hl.
    + cbn in E. injection E as _ E. exact (IH2 _ _ _ _ E).
Qed.

Lemma reprop_matrices : forall grav ba bg (Q : mat R) l F G it0, ready F G ->
  let '(_, F', G') := reprop_loop grav ba bg Q F G it0 l in ready F' G'.
Proof.
  intros grav ba bg Q l. induction l as [|it1 l IH]; intros F G it0 Hr; cbn [reprop_loop]; [exact Hr|].
  unfold prop_item. destruct (nominal_step _ _ _ _ _ _ _ _ _) as [[m1 ma] mg].
  match goal with |- context [reprop_loop _ _ _ _ ?F' ?G' ?it _] => specialize (IH F' G' it (ready_write _ _ _ _ _ _ Hr));
    destruct (reprop_loop grav ba bg Q F' G' it l) as [[r' F''] G''] end. exact IH.
Qed.
Lemma origin_loop_nil : forall ts thr (l l' : list (pitem R)), origin_loop ts thr l = Some l' -> l = [] -> False.
Proof. intros ts thr l l' H ->. discriminate H. Qed.

Lemma history_ready : forall grav noise q, queue_history grav noise q ->
  pq_Q q = noise /\ (pq_items q <> [] -> ready (pq_F q) (pq_G q)).
Proof.
  intros grav noise q H. induction H as [q H HQ|q n_ext a g t _ [HQ IH]|q _ [HQ IH]|q ts thr _ [HQ IH]|q items ecc ba bg m _ [HQ IH] Hi].
  - split; [exact HQ|]. intros C. contradiction.
  - unfold pq_propagate. destruct (back_cases _ (pq_items q)) as [[E Eb]|(l & b & E & Eb)]; rewrite Eb.
    + split; [exact HQ|]. intros _. apply ready_reset.
    + assert (Hne : pq_items q <> []) by (rewrite E; destruct l; discriminate). specialize (IH Hne).
      unfold prop_item. destruct (nominal_step _ _ _ _ _ _ _ _ _) as [[m1 ma] mg]. split; [exact HQ|]. intros _. cbn [pq_F pq_G].
      apply ready_write. exact IH.
  - unfold pq_repropagate. destruct (pq_items q) as [|it0 r] eqn:E; [split; [exact HQ|]; rewrite E; intros C; contradiction|].
    assert (Hr : ready (pq_F q) (pq_G q)) by (apply IH; discriminate).
    pose proof (reprop_matrices grav (pq_ba q) (pq_bg q) (pq_Q q) r _ _ it0 Hr) as H.
    destruct (reprop_loop _ _ _ _ _ _ _ _) as [[r' F'] G']. split; [exact HQ|]. intros _. exact H.
  - unfold pq_reset_origin. destruct (origin_loop ts thr (pq_items q)) as [l|] eqn:E; cbn [fst with_items pq_Q pq_items pq_F pq_G].
    + split; [exact HQ|]. intros _. apply IH. intros C. exact (origin_loop_nil _ _ _ _ E C).
    + split; [exact HQ|]. intros C. contradiction.
  - cbn [pq_Q pq_items pq_F pq_G]. split; [exact HQ|]. intros Hne. apply IH. intros C. exact (Hne (Hi C)).
Qed.

(** C68 *)
Theorem new_item_carried : forall grav na ng nwa nwg (q : pqueue R) pre it0 n_ext a g t n,
  queue_history grav (noise_Q na ng nwa nwg) q -> square_items q -> pq_items q = pre ++ [it0] ->
  exists it1, pq_items (pq_propagate grav n_ext q a g t) = pre ++ [it0; it1] /\ meas it1 = (a, g, t) /\
    carried (noise_cov na ng nwa nwg) (pq_ba q) (pq_bg q) n it0 it1.
Proof.
  intros grav na ng nwa nwg q pre it0 n_ext a g t n Hh Hs E.
  destruct (history_ready _ _ _ Hh) as [HQ Hr]. assert (Hr' : ready (pq_F q) (pq_G q)) by (apply Hr; rewrite E; destruct pre; discriminate).
  unfold square_items in Hs. rewrite E in Hs. apply Forall_app in Hs as [_ Hs]. inversion Hs as [|? ? Hc _]; subst.
  unfold pq_propagate. destruct (back_cases _ (pq_items q)) as [[E0 _]|(l & b & E0 & Eb)]; [rewrite E in E0; destruct pre; discriminate E0|].
  rewrite Eb. rewrite E in E0. apply app_inj_tail in E0 as [_ <-].
  pose proof (prop_item_carried grav (pq_ba q) (pq_bg q) (pq_F q) (pq_G q) (pq_Q q) it0 a g t na ng nwa nwg n Hr' HQ Hc) as H.
  destruct (prop_item _ _ _ _ _ _ _ _ _ _) as [[it1 F'] G']. destruct H as (_ & _ & Hm & H). exists it1. cbn [pq_items].
  rewrite E, <- app_assoc. split; [reflexivity|]. split; [exact Hm|exact H].
Qed.
Theorem repropagated_carried : forall grav na ng nwa nwg (q : pqueue R) pre it0 it1 post n,
  queue_history grav (noise_Q na ng nwa nwg) q -> square_items q -> pq_items (pq_repropagate grav q) = pre ++ it0 :: it1 :: post ->
  carried (noise_cov na ng nwa nwg) (pq_ba q) (pq_bg q) n it0 it1.
Proof.
  intros grav na ng nwa nwg q pre it0 it1 post n Hh Hs E.
  destruct (history_ready _ _ _ Hh) as [HQ Hr]. unfold pq_repropagate in E. unfold square_items in Hs.
  destruct (pq_items q) as [|h r] eqn:Ei; [rewrite Ei in E; destruct pre; discriminate E|].
  assert (Hr' : ready (pq_F q) (pq_G q)) by (apply Hr; discriminate).
  inversion Hs as [|? ? Hc _]; subst.
  pose proof (reprop_carried grav (pq_ba q) (pq_bg q) (pq_Q q) na ng nwa nwg n r _ _ h Hr' HQ Hc) as H.
  destruct (reprop_loop _ _ _ _ _ _ _ _) as [[r' F'] G']. destruct H as [_ H]. exact (H _ _ _ _ E).
Qed.
Theorem flow_linear : forall q a w dt x i, (i < 15)%nat -> fvec 15 (matrix_of (flow q a w dt)) x i = flow q a w dt x i.
Proof.
  intros [qw qx qy qz] [a1 a2 a3] [w1 w2 w3] dt x i Hi.
  each i 15%nat ltac:(idtac); clear Hi; cbv -[Rplus Rmult Rminus Ropp Rdiv Rinv IZR]; ring.
Qed.
Theorem drive_linear : forall q dt x i, (i < 15)%nat -> fvec 12 (matrix_of (drive q dt)) x i = drive q dt x i.
Proof.
  intros [qw qx qy qz] dt x i Hi.
  each i 15%nat ltac:(idtac); clear Hi; cbv -[Rplus Rmult Rminus Ropp Rdiv Rinv IZR]; field.
Qed.
