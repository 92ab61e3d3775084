(** Propagation of the covariance keeps it symmetric positive semidefinite (C42). *)
From Coq Require Import Reals Lra Lia Arith Bool List Morphisms.
From Verif Require Import Fp Scalar Base LinAlg MathLib Propagator QueueSpec MatFacts NumSpec PropagatorFacts AttitudeFacts.
Import ListNotations.
Local Open Scope R_scope.

Lemma write_F_size : forall (F : mat R) q a g dt, mr (write_F F q a g dt) = mr F /\ mc (write_F F q a g dt) = mc F.
Proof. intros. split; reflexivity. Qed.
Lemma write_G_size : forall (G : mat R) q dt, mr (write_G G q dt) = mr G /\ mc (write_G G q dt) = mc G.
Proof. intros. split; reflexivity. Qed.

(** The transition matrix of the full state: F on the IMU states, identity elsewhere. *)
Definition full_F (F : mat R) : fmat := fun i j =>
  if Nat.ltb i 15 then (if Nat.ltb j 15 then me F i j else 0) else if Nat.eqb i j then 1 else 0.
Definition full_G (G : mat R) : fmat := fun i j => if Nat.ltb i 15 then me G i j else 0.

Lemma full_F_mul : forall F n (a : fmat) i j, (i < 15 + n)%nat ->
  fmul (15 + n) (full_F F) a i j = if Nat.ltb i 15 then rsum 15 (fun k => me F i k * a k j) else a i j.
Proof.
  intros F n a i j Hi. unfold fmul, full_F. destruct (Nat.ltb_spec i 15) as [H|H].
  - rewrite rsum_app. rewrite (rsum_0 n); [rewrite Rplus_0_r; apply rsum_ext; intros k Hk; destruct (Nat.ltb_spec k 15); [reflexivity|lia]|].
    intros k Hk. destruct (Nat.ltb_spec (15 + k) 15); [lia|ring].
  - rewrite <- (rsum_delta2 (15 + n) i (fun k => a k j) Hi). apply rsum_ext. intros k _. destruct (Nat.eqb i k); ring.
Qed.
Lemma mul_full_F : forall F n (a : fmat) i j, (j < 15 + n)%nat ->
  fmul (15 + n) a (ftr (full_F F)) i j = if Nat.ltb j 15 then rsum 15 (fun k => a i k * me F j k) else a i j.
Proof.
  intros F n a i j Hj.
  replace (fmul (15 + n) a (ftr (full_F F)) i j) with (fmul (15 + n) (full_F F) (ftr a) j i)
    by (unfold fmul, ftr; apply rsum_ext; intros; ring).
  rewrite full_F_mul by exact Hj. unfold ftr. destruct (Nat.ltb j 15); [|reflexivity]. apply rsum_ext. intros; ring.
Qed.

Lemma full_step : forall n F G Q cov ecov ecc, mr F = 15%nat -> mc F = 15%nat -> mr G = 15%nat -> mc G = 12%nat ->
  mr Q = 12%nat -> mc Q = 12%nat -> mc cov = 15%nat ->
  feq (15 + n) (15 + n)
    (fadd (fmul (15 + n) (fmul (15 + n) (full_F F) (full_cov cov ecov ecc)) (ftr (full_F F)))
          (fmul 12 (fmul 12 (full_G G) (me Q)) (ftr (full_G G))))
    (full_cov (cov_step F G Q cov) (ecov_step F ecov) ecc).
Proof.
  intros n F G Q cov ecov ecc Fr Fc Gr Gc Qr Qc Cc. split. intros i j Hi Hj. unfold fadd.
  set (P := full_cov cov ecov ecc).
  rewrite mul_full_F by exact Hj.
  assert (E1 : forall k, fmul (15 + n) (full_F F) P i k =
    if Nat.ltb i 15 then rsum 15 (fun l => me F i l * P l k) else P i k)
    by (intros k; apply full_F_mul; exact Hi).
  unfold full_cov, cov_step, ecov_step, madd, mmul, mtr; cbn [me mr mc sadd smul ops_R]. rewrite Fc, Gc, Qc, Cc.
  destruct (Nat.ltb_spec i 15) as [Hi'|Hi']; destruct (Nat.ltb_spec j 15) as [Hj'|Hj'].
  - apply f_equal2.
    + apply rsum_ext. intros k Hk. rewrite E1. cbn [sadd smul ops_R]. f_equal. apply rsum_ext. intros l Hl.
      unfold P, full_cov. destruct (Nat.ltb_spec l 15); [|lia]. destruct (Nat.ltb_spec k 15); [reflexivity|lia].
    + apply rsum_ext. intros k Hk. unfold fmul, ftr, full_G. destruct (Nat.ltb_spec j 15); [|lia]. cbn [smul ops_R]. f_equal.
      apply rsum_ext. intros l Hl. destruct (Nat.ltb_spec i 15); [reflexivity|lia].
  - rewrite E1. replace (fmul 12 (fmul 12 (full_G G) (me Q)) (ftr (full_G G)) i j) with 0.
    + rewrite Rplus_0_r. apply rsum_ext. intros k Hk. unfold P, full_cov. destruct (Nat.ltb_spec k 15); [|lia].
      destruct (Nat.ltb_spec j 15); [lia|reflexivity].
    + symmetry. apply rsum_0. intros k _. unfold ftr, full_G. destruct (Nat.ltb_spec j 15); [lia|ring].
  - replace (fmul 12 (fmul 12 (full_G G) (me Q)) (ftr (full_G G)) i j) with 0.
    + rewrite Rplus_0_r. apply rsum_ext. intros k Hk. rewrite E1. unfold P, full_cov. destruct (Nat.ltb_spec i 15); [lia|].
      destruct (Nat.ltb_spec k 15); [cbn [smul ops_R]; ring|lia].
    + symmetry. apply rsum_0. intros k _. replace (fmul 12 (full_G G) (me Q) i k) with 0; [ring|]. symmetry. apply rsum_0.
      intros l _. unfold full_G. destruct (Nat.ltb_spec i 15); [lia|ring].
  - rewrite E1. replace (fmul 12 (fmul 12 (full_G G) (me Q)) (ftr (full_G G)) i j) with 0.
    + rewrite Rplus_0_r. unfold P, full_cov. destruct (Nat.ltb_spec i 15); [lia|]. destruct (Nat.ltb_spec j 15); [lia|reflexivity].
    + symmetry. apply rsum_0. intros k _. unfold ftr, full_G. destruct (Nat.ltb_spec j 15); [lia|ring].
Qed.

Lemma full_step_psd : forall n F G Q cov ecov ecc, mr F = 15%nat -> mc F = 15%nat -> mr G = 15%nat -> mc G = 12%nat ->
  mr Q = 12%nat -> mc Q = 12%nat -> mc cov = 15%nat -> fpsd 12 (me Q) -> fpsd (15 + n) (full_cov cov ecov ecc) ->
  fpsd (15 + n) (full_cov (cov_step F G Q cov) (ecov_step F ecov) ecc).
Proof.
  intros n F G Q cov ecov ecc Fr Fc Gr Gc Qr Qc Cc HQ H.
  apply (fpsd_ext _ _ _ (full_step n F G Q cov ecov ecc Fr Fc Gr Gc Qr Qc Cc)).
  apply fpsd_add; apply fpsd_congr; assumption.
Qed.

Lemma psd_zero_full : forall n, fpsd (15 + n) (full_cov (mzero 15 15) (mzero 15 n) (mzero n n)).
Proof.
  intros n. apply (fpsd_ext _ (fun i j => if Nat.eqb i j then 0 else 0)).
  - split. intros i j _ _. unfold full_cov, mzero. cbn [me s0 ops_R]. destruct (Nat.eqb i j), (Nat.ltb i 15), (Nat.ltb j 15); reflexivity.
  - apply (fpsd_diag _ (fun _ => 0)). intros; lra.
Qed.

(** The number of extrinsic and camera states after a propagation: an empty queue starts again. *)
Definition next_size (n_ext n : nat) (q : pqueue R) : nat := match pq_items q with [] => n_ext * 6 + 6 | _ => n end.

Theorem propagate_psd : forall grav n_ext n (q : pqueue R) a g t,
  process_sizes q -> fpsd 12 (me (pq_Q q)) -> psd_queue n q ->
  let q' := pq_propagate grav n_ext q a g t in
  process_sizes q' /\ fpsd 12 (me (pq_Q q')) /\ psd_queue (next_size n_ext n q) q'.
Proof.
  intros grav n_ext n q a g t Hp HQ (Er & Ec & Hf). unfold pq_propagate, next_size.
  destruct (back_cases _ (pq_items q)) as [[E Eb]|(l & b & E & Eb)]; rewrite Eb.
  - rewrite E. cbn [pq_items pq_ecc pq_F pq_G pq_Q]. split; [|split; [exact HQ|]].
    + destruct Hp as (_ & _ & _ & _ & H1 & H2). repeat split; assumption.
    + split; [reflexivity|]. split; [reflexivity|]. constructor; [|constructor]. split; [repeat split|]. apply psd_zero_full.
  - destruct Hp as (Fr & Fc & Gr & Gc & Qr & Qc).
    replace (match pq_items q with [] => (n_ext * 6 + 6)%nat | _ :: _ => n end) with n by (rewrite E; destruct l; reflexivity).
    unfold prop_item. destruct (nominal_step _ _ _ _ _ _ _ _ _) as [[m1 ma] mg].
    set (F' := write_F _ _ _ _ _). set (G' := write_G _ _ _). cbn [pq_items pq_ecc pq_F pq_G pq_Q].
    split; [unfold process_sizes; cbn [pq_F pq_G pq_Q]; repeat split; assumption|]. split; [exact HQ|].
    split; [exact Er|]. split; [exact Ec|]. cbn [pq_items pq_ecc]. apply Forall_app. split; [exact Hf|]. constructor; [|constructor].
    rewrite E in Hf. apply Forall_app in Hf as [_ Hf]. inversion Hf as [|? ? [(Cr & Cc & Xr & Xc) Hb] _]; subst.
    cbn [pi_cov pi_ecov]. split.
    + unfold cov_sizes. cbn [pi_cov pi_ecov]. repeat split; assumption.
    + apply full_step_psd; assumption.
Qed.

Definition feed_size (n_ext n : nat) (q : pqueue R) (k : nat) : nat := match k with O => n | S _ => next_size n_ext n q end.

Lemma propagate_nonempty : forall grav n_ext (q : pqueue R) a g t, pq_items (pq_propagate grav n_ext q a g t) <> [].
Proof.
  intros grav n_ext q a g t. unfold pq_propagate. destruct (back (pq_items q)).
  - destruct (prop_item _ _ _ _ _ _ _ _ _ _) as [[? ?] ?]. cbn. intros H. apply app_eq_nil in H as [_ H]. discriminate.
  - cbn. intros H. apply app_eq_nil in H as [_ H]. discriminate.
Qed.
Theorem feed_psd : forall grav n_ext l n (q : pqueue R), process_sizes q -> fpsd 12 (me (pq_Q q)) -> psd_queue n q ->
  let q' := pq_feed grav n_ext q l in
  process_sizes q' /\ fpsd 12 (me (pq_Q q')) /\ psd_queue (feed_size n_ext n q (length l)) q'.
Proof.
  intros grav n_ext l. induction l as [|[[a g] t] l IH]; intros n q Hp HQ H; [split; [exact Hp|split; [exact HQ|exact H]]|].
  cbn [pq_feed]. destruct (propagate_psd grav n_ext n q a g t Hp HQ H) as (Hp' & HQ' & H').
  specialize (IH _ _ Hp' HQ' H'). cbn [length feed_size].
  replace (feed_size n_ext (next_size n_ext n q) (pq_propagate grav n_ext q a g t) (length l)) with (next_size n_ext n q) in IH; [exact IH|].
  destruct l; [reflexivity|]. cbn [length feed_size]. unfold next_size at 2.
  pose proof (propagate_nonempty grav n_ext q a g t). destruct (pq_items (pq_propagate grav n_ext q a g t)); [congruence|reflexivity].
Qed.
Theorem repropagate_psd : forall grav n (q : pqueue R), process_sizes q -> fpsd 12 (me (pq_Q q)) -> psd_queue n q ->
  psd_queue n (pq_repropagate grav q).
Proof.
  intros grav n q Hp HQ H. destruct (repropagate_replays grav 0 q) as [_ Hr]. destruct (pq_items q) as [|h r] eqn:E; [rewrite Hr; exact H|].
  rewrite Hr. assert (H1 : psd_queue n (with_items q [h])).
  { destruct H as (H1 & H2 & H3). split; [exact H1|]. split; [exact H2|]. rewrite E in H3. inversion H3; subst. constructor; [assumption|constructor]. }
  pose proof (feed_psd grav 0 (map meas r) n (with_items q [h]) Hp HQ H1) as (_ & _ & H2).
  destruct (length (map meas r)); exact H2.
Qed.

Lemma noise_Q_psd : forall na ng nwa nwg, 0 <= na -> 0 <= ng -> 0 <= nwa -> 0 <= nwg -> fpsd 12 (me (noise_Q na ng nwa nwg)).
Proof.
  intros na ng nwa nwg H1 H2 H3 H4.
  apply (fpsd_ext _ (fun i j => if Nat.eqb i j then (if Nat.ltb i 3 then na else if Nat.ltb i 6 then ng else if Nat.ltb i 9 then nwa else nwg) else 0)).
  - split. intros i j _ _. unfold noise_Q. cbn [me s0 s1 smul ops_R].
    destruct (Nat.eqb i j), (Nat.ltb i 3), (Nat.ltb i 6), (Nat.ltb i 9); ring.
  - apply fpsd_diag. intros i _. destruct (Nat.ltb i 3), (Nat.ltb i 6), (Nat.ltb i 9); assumption.
Qed.

(** C42 *)
Theorem covariance_psd : forall grav n_ext n (q : pqueue R) na ng nwa nwg l,
  0 <= na -> 0 <= ng -> 0 <= nwa -> 0 <= nwg -> pq_Q q = noise_Q na ng nwa nwg -> process_sizes q -> psd_queue n q ->
  psd_queue (match l, pq_items q with _ :: _, [] => n_ext * 6 + 6 | _, _ => n end) (pq_feed grav n_ext q l) /\
  psd_queue (match l, pq_items q with _ :: _, [] => n_ext * 6 + 6 | _, _ => n end) (pq_repropagate grav (pq_feed grav n_ext q l)).
Proof.
  intros grav n_ext n q na ng nwa nwg l H1 H2 H3 H4 EQ Hp H.
  assert (HQ : fpsd 12 (me (pq_Q q))) by (rewrite EQ; apply noise_Q_psd; assumption).
  destruct (feed_psd grav n_ext l n q Hp HQ H) as (Hp' & HQ' & H').
  replace (match l, pq_items q with _ :: _, [] => (n_ext * 6 + 6)%nat | _, _ => n end) with (feed_size n_ext n q (length l))
    by (destruct l; [reflexivity|]; cbn [length feed_size]; unfold next_size; destruct (pq_items q); reflexivity).
  split; [exact H'|]. apply repropagate_psd; assumption.
Qed.
