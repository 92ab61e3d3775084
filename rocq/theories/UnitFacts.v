(** C40: attitudes stay unit quaternions through propagation and vision updates. *)
From Coq Require Import Reals Lra Lia Arith Bool List ZArith.
From stdpp Require Import gmap.
From Verif Require Import Fp Scalar Base LinAlg Msg FeatureManager FrameManager Window MathLib Propagator Triangulate Pnp
  VisionUpdate QuatFacts MotionFacts UpdSpec.
Import ListNotations.
Local Open Scope nat_scope.

Lemma q_correct_unit : forall q th, qunit q -> qunit (q_correct q th).
Proof. intros q th H. apply qstep_unit. exact H. Qed.

Lemma correct_ext_unit : forall dx l i l', correct_ext dx i l = Ok l' -> Forall (fun e : extrinsic R => qunit (ex_q e)) l ->
  Forall (fun e : extrinsic R => qunit (ex_q e)) l'.
Proof.
  intros dx. induction l as [|e l IH]; intros i l' H Hu; cbn [correct_ext] in H.
  - injection H as <-. constructor.
  - inversion Hu as [|? ? H1 H2]; subst. destruct (seg3c dx (imu_size + i * 6)) as [dp|]; [|discriminate]. cbn [obind] in H.
    destruct (seg3c dx (imu_size + i * 6 + 3)) as [dq|]; [|discriminate]. cbn [obind] in H.
    destruct (correct_ext dx (Datatypes.S i) l) as [r|] eqn:E; [|discriminate]. cbn [obind] in H. injection H as <-.
    constructor; [apply q_correct_unit; exact H1|eapply IH; eassumption].
Qed.
Lemma correct_frames_unit : forall dx off nid m l i l', correct_frames dx off i nid m l = Ok l' -> qunit (mo_q m) ->
  Forall (fun f : frame R => qunit (fr_q f)) l -> Forall (fun f : frame R => qunit (fr_q f)) l'.
Proof.
  intros dx off nid m. induction l as [|f l IH]; intros i l' H Hm Hu; cbn [correct_frames] in H.
  - injection H as <-. constructor.
  - inversion Hu as [|? ? H1 H2]; subst. destruct (fr_id f =? nid)%Z.
    + injection H as <-. constructor; [exact Hm|exact H2].
    + destruct (seg3c dx (off + i * 6)) as [dp|]; [|discriminate]. cbn [obind] in H.
      destruct (seg3c dx (off + i * 6 + 3)) as [dq|]; [|discriminate]. cbn [obind] in H.
      destruct (correct_frames dx off (Datatypes.S i) nid m l) as [r|] eqn:E; [|discriminate]. cbn [obind] in H. injection H as <-.
      constructor; [apply q_correct_unit; exact H1|eapply IH; eassumption].
Qed.
Lemma correct_motion_unit : forall dx m m', correct_motion dx m = Ok m' -> qunit (mo_q m) -> qunit (mo_q m').
Proof.
  intros dx m m' H Hm. unfold correct_motion in H. destruct (seg3c dx ix_p); [|discriminate]. destruct (seg3c dx ix_v); [|discriminate].
  destruct (seg3c dx ix_r); [|discriminate]. cbn [obind] in H. injection H as <-. apply q_correct_unit. exact Hm.
Qed.
Lemma apply_delta_unit : forall dx s s', apply_delta dx s = Ok s' -> all_unit s -> all_unit s'.
Proof.
  intros dx s s' H (He & Hf & Hi & Hq). unfold apply_delta in H.
  destruct (pq_items (vs_pq s)) as [|it r] eqn:Eq; [discriminate|]. cbn [front obind] in H.
  destruct (correct_motion dx (pi_mo it)) as [m|] eqn:Em; [|discriminate]. cbn [obind] in H.
  unfold with_head in H. rewrite Eq in H. cbn [obind] in H.
  destruct (seg3c dx ix_ba) as [dba|]; [|discriminate]. destruct (seg3c dx ix_bg) as [dbg|]; [|discriminate]. cbn [obind] in H.
  destruct (correct_ext dx 0 (vs_ext s)) as [ex|] eqn:Ee; [|discriminate]. cbn [obind] in H.
  inversion Hq as [|? ? H1 H2]; subst.
  assert (Hm : qunit (mo_q m)) by (eapply correct_motion_unit; eassumption).
  destruct (wn_frames (vs_win s)) as [|f0 fs] eqn:Ef.
  - cbn [obind] in H. injection H as <-. split; [eapply correct_ext_unit; eassumption|]. split; [constructor|].
    split; [exact Hi|]. cbn. constructor; [exact Hm|exact H2].
  - destruct (back (f0 :: fs)) as [b|]; [|discriminate]. cbn [obind] in H.
    destruct (correct_frames _ _ _ _ _ _) as [fs'|] eqn:Ec; [|discriminate]. cbn [obind] in H. injection H as <-.
    split; [eapply correct_ext_unit; eassumption|]. split; [cbn; eapply correct_frames_unit; eassumption|].
    split; [exact Hi|]. cbn. constructor; [exact Hm|exact H2].
Qed.
Lemma set_last_unit : forall l (f : frame R), Forall (fun f : frame R => qunit (fr_q f)) l -> qunit (fr_q f) ->
  Forall (fun f : frame R => qunit (fr_q f)) (set_last l f).
Proof.
  intros l f H Hf. unfold set_last. apply List.Forall_app. split; [|constructor; [exact Hf|constructor]].
  destruct l as [|a l]; [constructor|]. rewrite (app_removelast_last a (l := a :: l)) in H by discriminate.
  apply List.Forall_app in H as [H _]. exact H.
Qed.
Lemma origin_sub : forall ts thr l l', origin_loop (T := R) ts thr l = Some l' -> exists p, l = p ++ l'.
Proof.
  intros ts thr. induction l as [|it l IH]; intros l' H; cbn [origin_loop] in H; [discriminate|].
  destruct (f64_ltb thr (f64_sub ts (pi_ts it))); [|injection H as <-; exists []; reflexivity].
  destruct (IH l' H) as [p ->]. exists (it :: p). reflexivity.
Qed.
Lemma reset_origin_unit : forall q ts thr, unit_queue q -> unit_queue (fst (pq_reset_origin q ts thr)).
Proof.
  intros q ts thr [Hi H]. unfold pq_reset_origin. destruct (origin_loop ts thr (pq_items q)) as [l|] eqn:E.
  - destruct (origin_sub _ _ _ _ E) as [p Ep]. split; [exact Hi|]. cbn. rewrite Ep in H. apply List.Forall_app in H as [_ H]. exact H.
  - split; [exact Hi|]. constructor.
Qed.
Lemma update_cov_unit : forall P q q', update_cov P q = Ok q' -> unit_queue q -> unit_queue q'.
Proof.
  intros P q q' H [Hi Hq]. unfold update_cov in H. destruct (Nat.ltb (mc P) imu_size); [discriminate|].
  destruct (pq_items q) as [|it r] eqn:E; [discriminate|]. cbn [front obind] in H.
  destruct (block P 0 0 imu_size imu_size); [|discriminate]. destruct (block P 0 imu_size imu_size (mc P - imu_size)); [|discriminate].
  destruct (block P imu_size imu_size (mc P - imu_size) (mc P - imu_size)); [|discriminate]. cbn [obind] in H.
  unfold with_head in H. rewrite E in H. cbn [obind] in H. injection H as <-. inversion Hq; subst. split; [exact Hi|]. cbn. constructor; assumption.
Qed.
Lemma finish_unit : forall o c pol P s s', finish_update o c pol P s = Ok s' -> all_unit s -> all_unit s'.
Proof.
  intros o c pol P s s' H (He & Hf & Hq). unfold finish_update in H.
  destruct (expand_cov _ _ _ _) as [P1|]; [|discriminate]. cbn [obind] in H.
  destruct (reduce_cov _ _ _ _ _) as [P2|]; [|discriminate]. cbn [obind] in H.
  destruct (update_cov P2 (vs_pq s)) as [q|] eqn:E; [|discriminate]. cbn [obind] in H. injection H as <-.
  split; [exact He|]. split; [exact Hf|]. cbn. destruct (update_cov_unit _ _ _ E Hq) as [H1 H2].
  apply repropagate_unit; [exact H1|]. intros h r Eh. rewrite Eh in H2. inversion H2; assumption.
Qed.

(** The whole vision update. *)
Theorem vision_update_unit : forall o c s ts thr s' b pol, vision_update o c s ts thr = Ok (s', b, pol) -> all_unit s -> all_unit s'.
Proof.
  intros o c s ts thr s' b pol H (He & Hf & Hq). unfold vision_update in H.
  pose proof (reset_origin_unit (vs_pq s) ts thr Hq) as Hq'. destruct (pq_reset_origin (vs_pq s) ts thr) as [q found]. cbn [fst] in Hq'.
  destruct found; cbn [negb] in H; [|injection H as <- <- <-; split; [exact He|split; assumption]].
  destruct (decide_policy _ _ _ _) as [po|]; [|discriminate]. cbn [obind] in H.
  destruct (construct_cov _ _ _) as [[P|]|]; [| |discriminate]; cbn [obind] in H; [|injection H as <- <- <-; split; [exact He|split; assumption]].
  destruct (update_newest _ _) as [[fs|]|] eqn:En; [| |discriminate]; cbn [obind] in H; [|injection H as <- <- <-; split; [exact He|split; assumption]].
  assert (Hfs : Forall (fun f : frame R => qunit (fr_q f)) fs).
  { unfold update_newest in En. destruct (wn_frames (vs_win s)) as [|f0 l] eqn:Ef; [discriminate|].
    destruct (back (f0 :: l)) as [f|]; [|discriminate]. cbn [obind] in En. destruct Hq' as [_ Hi].
    destruct (pq_items q) as [|it r]; [discriminate|]. cbn [front obind] in En. injection En as <-.
    inversion Hi; subst. apply set_last_unit; assumption. }
  destruct (select_good _ _ _ _ _) as [[h' l]|]; [|discriminate]. cbn [obind fst snd] in H.
  assert (H1 : forall h, all_unit (VState (Window h (wn_mgr (vs_win s)) fs) (vs_ext s) q)) by (intros h; split; [exact He|split; assumption]).
  destruct l as [|p l].
  - destruct (finish_update _ _ _ _ _) as [s2|] eqn:E; [|discriminate]. cbn [obind] in H. injection H as <- <- <-. eapply finish_unit; [exact E|apply H1].
  - destruct (measurement _ _ _ _ _) as [[Hr|]|]; [| |discriminate]; cbn [obind] in H; [|injection H as <- <- <-; apply H1].
    destruct (update_state _ _ _ _ _) as [[P' s1]|] eqn:Eu; [|discriminate]. cbn [obind fst snd] in H.
    destruct (finish_update _ _ _ _ _) as [s2|] eqn:E; [|discriminate]. cbn [obind] in H. injection H as <- <- <-. eapply finish_unit; [exact E|].
    unfold update_state in Eu. destruct (kalman _ _ _ _) as [[[K dx] P'']|]; [|discriminate]. cbn [obind] in Eu.
    destruct (apply_delta dx _) as [s3|] eqn:Ea; [|discriminate]. cbn [obind] in Eu. injection Eu as <- <-. eapply apply_delta_unit; [exact Ea|apply H1].
Qed.
