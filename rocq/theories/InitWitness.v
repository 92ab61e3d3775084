(** An exact singular value decomposition and a sensor at rest, for the examples of C81. *)
From Coq Require Import ZArith Reals List Bool Lia Lra Arith.
From stdpp Require Import gmap list.
From Verif Require Import Fp Scalar Base LinAlg Msg DataLoader FeatureManager FrameManager Window MathLib Attitude Propagator
  Triangulate Pnp VisionUpdate Backend WindowSpec QueueSpec UpdSpec GeoSpec MatFacts QuatFacts PnpFacts JacobiFacts BackSafeFacts InitSpec InitFacts.
Import ListNotations.
Local Open Scope nat_scope.

(** ** The decomposition: an eigenvector of the smallest eigenvalue of m^t m *)
Definition gram (m : mat R) : fmat := fmul (mr m) (ftr (me m)) (me m).
Lemma gram_sym : forall m, fsym (mc m) (gram m).
Proof. intros m. split. intros i j _ _. unfold ftr, gram, fmul. apply rsum_ext. intros k _. unfold ftr. ring. Qed.
(** Position of a smallest value. *)
Fixpoint argmin (d : nat -> R) (n : nat) : nat :=
  match n with O => O | Datatypes.S k => let b := argmin d k in if Rlt_dec (d (Datatypes.S k)) (d b) then Datatypes.S k else b end.
Lemma argmin_spec : forall d n, argmin d n <= n /\ forall k, k <= n -> (d (argmin d n) <= d k)%R.
Proof.
  intros d. induction n as [|n (I1 & I2)]; cbn [argmin].
  - split; [lia|]. intros k Hk. replace k with 0 by lia. lra.
  - destruct (Rlt_dec (d (Datatypes.S n)) (d (argmin d n))) as [L|L].
    + split; [lia|]. intros k Hk. destruct (Nat.eq_dec k (Datatypes.S n)) as [->|N]; [lra|]. specialize (I2 k ltac:(lia)). lra.
    + split; [lia|]. intros k Hk. destruct (Nat.eq_dec k (Datatypes.S n)) as [->|N]; [lra|]. apply I2. lia.
Qed.
Definition i_svd (m : mat R) : nat -> R :=
  let x := spectral (mc m) (gram m) (gram_sym m) in fun i => projT1 x i (argmin (proj1_sig (projT2 x)) (mc m - 1)).

Lemma image_gram : forall m x, image_norm m x = qform (mc m) (gram m) x.
Proof.
  intros m x. rewrite (qform_ext (mc m) (gram m) (fmul (mr m) (fmul (mr m) (ftr (me m)) fid) (ftr (ftr (me m)))) x x); [|unfold gram; rewrite (fmul_id_r (mc m) (mr m)); reflexivity|reflexivity].
  rewrite qform_congr. unfold fid. rewrite (qform_diag (mr m) (fun _ => 1%R)). apply rsum_ext. intros i _. rewrite Rmult_1_l. reflexivity.
Qed.
Lemma i_exact : forall m, 0 < mc m -> smallest_singular m (i_svd m).
Proof.
  intros m Hn. unfold i_svd. destruct (spectral (mc m) (gram m) (gram_sym m)) as (v & d & (O1 & O2) & E). cbn [projT1 projT2 proj1_sig].
  destruct (argmin_spec d (mc m - 1)) as (K1 & K2). set (k := argmin d (mc m - 1)) in *. assert (Hk : k < mc m) by lia.
  assert (N : forall x, rsum (mc m) (fun i => (fvec (mc m) (ftr v) x i * fvec (mc m) (ftr v) x i)%R) = sq_norm (mc m) x).
  { intros x. rewrite <- (rsum_ext (mc m) (fun i => (1 * (fvec (mc m) (ftr v) x i * fvec (mc m) (ftr v) x i))%R)) by (intros; ring).
    rewrite <- (qform_diag (mc m) (fun _ => 1%R)). change (fun i j => if i =? j then 1%R else 0%R) with fid. rewrite <- qform_congr.
    rewrite (qform_ext (mc m) _ fid x x); [|rewrite (fmul_id_r (mc m) (mc m)); exact O2|reflexivity].
    unfold fid. rewrite (qform_diag (mc m) (fun _ => 1%R)). apply rsum_ext. intros; ring. }
  assert (Q : forall x, image_norm m x = rsum (mc m) (fun i => (d i * (fvec (mc m) (ftr v) x i * fvec (mc m) (ftr v) x i))%R)).
  { intros x. rewrite image_gram, (qform_ext _ _ _ x x E ltac:(reflexivity)), qform_congr. unfold fdiag. apply qform_diag. }
  assert (C : forall i, i < mc m -> fvec (mc m) (ftr v) (fun j => v j k) i = if i =? k then 1%R else 0%R).
  { intros i Hi. exact (feq_at O1 i k Hi Hk). }
  split.
  - rewrite <- N. rewrite (rsum_ext (mc m) _ (fun i => if i =? k then 1%R else 0%R)); [apply (rsum_delta (mc m) k (fun _ => 1%R)); exact Hk|].
    intros i Hi. rewrite (C i Hi). destruct (i =? k); ring.
  - intros y Hy. rewrite (Q (fun i => v i k)), (Q y).
    rewrite (rsum_ext (mc m) _ (fun i => if i =? k then d i else 0%R)) by (intros i Hi; rewrite (C i Hi); destruct (i =? k); ring).
    rewrite (rsum_delta (mc m) k d Hk). rewrite <- N in Hy.
    apply Rle_trans with (rsum (mc m) (fun i => (d k * (fvec (mc m) (ftr v) y i * fvec (mc m) (ftr v) y i))%R)).
    { rewrite rsum_scal_l, Hy. lra. }
    match goal with |- (rsum _ ?f <= rsum _ ?g)%R => assert (G : (0 <= rsum (mc m) (fun i => g i - f i))%R) end.
    { apply rsum_nonneg. intros i Hi. specialize (K2 i ltac:(lia)). set (a := fvec _ _ _ i). assert (0 <= a * a)%R by nra. nra. }
    rewrite rsum_minus in G. lra.
Qed.
Lemma i_svd_exact : exact_svd i_svd.
Proof. intros m Hm. apply i_exact. lia. Qed.

(** ** Two frames at rest: ten points in a row, seen by two cameras one metre apart; the body is tilted *)
Definition i_q : quat R := Quat (3 / 5)%R 0%R (4 / 5)%R 0%R.
Definition i_exts : list (extrinsic R) := [Extrinsic qid v3zero; Extrinsic qid (V3 1%R 0%R 0%R)].
Definition i_P (k : nat) : v3 R := qrot i_q (V3 (INR k) 1%R 4%R).
Definition i_ob (k : nat) : observe R := <[0%Z := V2 (INR k / 4)%R (1 / 4)%R]> {[1%Z := V2 ((INR k - 1) / 4)%R (1 / 4)%R]}.
Definition i_ft (k : nat) : feature R := Feature (Z.of_nat k) 5 [i_ob k; i_ob k] 4 v3zero FUnsolved.
Definition i_heap : heap R := Heap 10 (list_to_map (map (fun k => (k, i_ft k)) (seq 0 10))).
Definition i_links : gmap Z nat := list_to_map (map (fun k => (Z.of_nat k, k)) (seq 0 10)).
Definition i_fi : frame R := Frame i_links qid v3zero v3zero 5 (f64_of_Z 1).
Definition i_fj : frame R := Frame i_links qid v3zero v3zero 6 (f64_of_Z 2).
Definition i_s : bstate R :=
  BState (DlStatics None None) (Loader [] [] (dl_offset (dl_new (T := R))) (f64_of_Z 1)) (Window i_heap i_links [i_fi; i_fj]) i_exts
    (Att [AttItem i_q v3zero v3zero (f64_of_Z 1)] v3zero v3zero v3zero)
    (PQueue [] (mzero 0 0) v3zero v3zero (Motion v3zero v3zero qid) F_reset G_reset (noise_Q 1%R 1%R 1%R 1%R)) NeedInit.
Definition i_o : boracle R :=
  let v := VOracle map_to_list (fun o => map_to_list o) i_svd (fun _ _ _ => 0%R) (fun _ => EigenDec (fun _ => 0%R) (Mat 0 0 (fun _ _ => 0%R))) (fun _ _ => 0%R) (fun _ => 0%Z) in
  BOracle v v map_to_list (fun _ b i => me b i 0) (fun _ => map_to_list).

Lemma i_cell : forall p ft, hp_cells i_heap !! p = Some ft <-> p < 10 /\ ft = i_ft p.
Proof.
  intros p ft. unfold i_heap. cbn [hp_cells]. rewrite <- elem_of_list_to_map.
  - rewrite elem_of_list_In, in_map_iff. split.
    + intros (k & E & H). apply in_seq in H. injection E as -> <-. split; [lia|reflexivity].
    + intros (H & ->). exists p. split; [reflexivity|]. apply in_seq. lia.
  - rewrite map_map. cbn [fst]. apply NoDup_ListNoDup. repeat constructor; cbn; lia.
Qed.
Lemma i_link : forall id p, i_links !! id = Some p <-> p < 10 /\ id = Z.of_nat p.
Proof.
  intros id p. unfold i_links. rewrite <- elem_of_list_to_map.
  - rewrite elem_of_list_In, in_map_iff. split.
    + intros (k & E & H). apply in_seq in H. injection E as <- ->. split; [lia|reflexivity].
    + intros (H & ->). exists p. split; [reflexivity|]. apply in_seq. lia.
  - rewrite map_map. cbn [fst]. apply NoDup_ListNoDup. repeat constructor; cbn; lia.
Qed.
Lemma i_qunit : qnorm2 i_q = 1%R.
Proof. unfold i_q. vunf. field. Qed.
Lemma i_ob_0 : forall k, i_ob k !! 0%Z = Some (V2 (INR k / 4)%R (1 / 4)%R).
Proof. intros k. unfold i_ob, observe. apply lookup_insert. Qed.
Lemma i_ob_1 : forall k, i_ob k !! 1%Z = Some (V2 ((INR k - 1) / 4)%R (1 / 4)%R).
Proof. intros k. unfold i_ob, observe. rewrite lookup_insert_ne by lia. apply lookup_singleton. Qed.
Lemma i_ob_in : forall k c z, i_ob k !! c = Some z -> c = 0%Z /\ z = V2 (INR k / 4)%R (1 / 4)%R \/ c = 1%Z /\ z = V2 ((INR k - 1) / 4)%R (1 / 4)%R.
Proof.
  intros k c z H. unfold i_ob, observe in H. apply lookup_insert_Some in H as [[<- <-]|[_ H]]; [auto|]. apply lookup_singleton_Some in H as [<- <-]. auto.
Qed.
Lemma i_seen0 : forall k, seen_from i_q v3zero (Extrinsic qid v3zero) (i_P k) (V2 (INR k / 4)%R (1 / 4)%R).
Proof. intros k. exists (V3 (INR k) 1%R 4%R). cbn [ex_q ex_p]. rewrite qrot_id. split; [|split; [cbn; lra|reflexivity]]. unfold i_P. generalize (INR k) as x. intros x. unfold i_q. vunf. apply v3_ext; rops; field. Qed.
Lemma i_seen1 : forall k, seen_from i_q v3zero (Extrinsic qid (V3 1%R 0%R 0%R)) (i_P k) (V2 ((INR k - 1) / 4)%R (1 / 4)%R).
Proof. intros k. exists (V3 (INR k - 1)%R 1%R 4%R). cbn [ex_q ex_p]. rewrite qrot_id. split; [|split; [cbn; lra|reflexivity]]. unfold i_P. generalize (INR k) as x. intros x. unfold i_q. vunf. apply v3_ext; rops; field. Qed.
Lemma i_linked : forall p, linked i_fi p <-> p < 10.
Proof. intros p. split; [intros (id & E); apply i_link in E; lia|]. intros H. exists (Z.of_nat p). apply i_link. auto. Qed.
Lemma i_good : forall p, good_track (i_ft p).
Proof. intros p. split; [discriminate|]. cbn. lia. Qed.
Lemma i_pair : exact_pair i_exts i_heap i_fi i_fj i_P i_q i_q v3zero.
Proof.
  split.
  - exact i_qunit.
  - assert (Q : qnorm2 (qid (T := R)) = 1%R) by (vunf; ring). constructor; [exact Q|constructor; [exact Q|constructor]].
  - split; cbn; lia.
  - intros p Hp. apply i_linked in Hp. exists (i_ft p), (i_ob p). split; [apply i_cell; auto|]. split; [apply i_good|]. split; [reflexivity|]. split; [|split].
    + intros c z H. apply i_ob_in in H as [[-> ->]|[-> ->]]; eexists; (split; [reflexivity|]); [apply i_seen0|apply i_seen1].
    + exists 0%Z, (V2 (INR p / 4)%R (1 / 4)%R), (Extrinsic qid v3zero), 1%Z, (V2 ((INR p - 1) / 4)%R (1 / 4)%R), (Extrinsic qid (V3 1%R 0%R 0%R)).
      split; [apply i_ob_0|]. split; [apply i_ob_1|]. split; [reflexivity|]. split; [reflexivity|]. cbn [ex_q v2x v2y]. rewrite !qrot_id. unfold v3cross, v3zero. cbn [v3x v3y v3z].
      intros E. injection E as _ E _. rops. cbn in E. lra.
    + unfold i_P. rewrite (qrot_dot i_q _ _ i_qunit). unfold v3dot. cbn [v3x v3y v3z]. rops.
      assert (B : (0 <= INR p <= INR 10)%R) by (split; [apply pos_INR|apply le_INR; lia]). replace (INR 10) with 10%R in B by (cbn; lra). cbn. nra.
  - intros p (id & E). cbn [i_fj fr_feats] in E. apply i_link in E as (Hp & ->). exists (i_ft p). split; [apply i_cell; auto|]. split; [apply i_good|]. split; [|discriminate].
    intros ob z Ho Hz. injection Ho as <-. apply i_ob_in in Hz as [[_ ->]|[E _]]; [|discriminate]. eexists. split; [reflexivity|]. apply i_seen0.
Qed.
Lemma i_ids : List.NoDup (map Z.of_nat (seq 0 10)) /\ (forall id, In id (map Z.of_nat (seq 0 10)) <-> usable i_heap i_fi i_fj id) /\ 10 <= length (map Z.of_nat (seq 0 10)).
Proof.
  split; [repeat constructor; cbn; lia|]. split; [|cbn; lia]. intros id. rewrite in_map_iff. split.
  - intros (k & <- & H). apply in_seq in H. assert (Hk : k < 10) by lia. exists k, (i_ft k), (i_ob k). split; [apply i_link; auto|]. split; [apply i_cell; auto|].
    split; [left; apply i_linked; exact Hk|]. split; [reflexivity|]. rewrite i_ob_0. eauto.
  - intros (p & ft & ob & E & _). apply i_link in E as (Hp & ->). exists p. split; [reflexivity|]. apply in_seq. lia.
Qed.
Lemma i_hyp : wn_frames (b_win i_s) = [i_fi; i_fj] /\ f64_ltb (f64_abs (f64_sub (fr_ts i_fj) (fr_ts i_fi))) f64_zero_thr = false /\
  att_get (b_att i_s) (fr_ts i_fi) (f64_mul (dl_period (b_dl i_s)) f64_0_55) = Ok (Some i_q) /\
  valid_order (vo_ord (bo_init i_o)) /\ valid_norder (vo_nord (bo_init i_o)) /\ valid_order (bo_pord i_o) /\ exact_svd (vo_svd (bo_init i_o)) /\ zero_solver (bo_ldlt i_o).
Proof.
  split; [reflexivity|]. split; [vm_compute; reflexivity|]. split.
  { change (att_get (b_att i_s) (fr_ts i_fi) (f64_mul (dl_period (b_dl i_s)) f64_0_55)) with
      (if f64_leb (f64_of_Z 1) (f64_of_Z 1) then
         Ok (if f64_ltb (f64_sub (f64_of_Z 1) (f64_of_Z 1)) (f64_mul (f64_of_Z 1) f64_0_55) then Some i_q else None)
       else att_get (b_att i_s) (fr_ts i_fi) (f64_mul (dl_period (b_dl i_s)) f64_0_55)).
    replace (f64_leb (f64_of_Z 1) (f64_of_Z 1)) with true by (vm_compute; reflexivity).
    replace (f64_ltb (f64_sub (f64_of_Z 1) (f64_of_Z 1)) (f64_mul (f64_of_Z 1) f64_0_55)) with true by (vm_compute; reflexivity). reflexivity. }
  split; [intros m; reflexivity|]. split; [intros m; reflexivity|]. split; [intros m; reflexivity|]. split; [exact i_svd_exact|].
  intros H b Hb i _. apply Hb.
Qed.
