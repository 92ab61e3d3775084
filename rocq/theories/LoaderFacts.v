(** Proofs about DataLoader histories. *)
From Coq Require Import ZArith List Bool Sorting.Sorted Lia Reals Lra.
From Flocq Require Import Core BinarySingleNaN.
From Verif Require Import Fp FpFacts Scalar Base LinAlg Msg DataLoader LoaderSpec.
Import ListNotations.

Local Open Scope nat_scope.
#[local] Arguments dl_push_imu : simpl never.
#[local] Arguments dl_push_feat : simpl never.
#[local] Arguments dl_pop_one : simpl never.
#[local] Arguments dl_pop_packed : simpl never.
#[local] Arguments accepts : simpl never.

Lemma m1_not_nan : f64_isnan (f64_of_Z (-1)) = false.
Proof. vm_compute. reflexivity. Qed.

Section Facts.
Context {T : Type} {S : SOps T}.
Implicit Types (l : loader T) (w : dl_world T) (ops : list (dl_op T)) (op : dl_op T).

Definition off_ok l : Prop := dl_offset l = f64_of_Z (-1).
Definition w_off w : Prop := forall k, off_ok (w_ld w k).

Lemma push_imu_eq st l (m : imu_msg T) : off_ok l ->
  dl_push_imu st l m =
  (DlStatics (st_feat st) (Some (shift (im_ts m))),
   Loader (dl_feat l)
     (if f64_ltb (match st_imu st with Some t => t | None => f64_sub (shift (im_ts m)) (f64_of_Z 1) end)
                 (shift (im_ts m))
      then dl_imu l ++ [imu_shifted m] else dl_imu l)
     (f64_of_Z (-1)) (dl_period l), imu_shifted m, true).
Proof.
  intros H. unfold dl_push_imu. unfold off_ok in H. rewrite H, m1_not_nan, f64_sub_m1. reflexivity.
Qed.

Lemma push_feat_eq st l (m : feat_msg T) : off_ok l ->
  dl_push_feat st l m =
  if well_sized m then
  (DlStatics (Some (shift (fm_ts m))) (st_imu st),
   Loader (if f64_ltb (match st_feat st with Some t => t | None => f64_sub (shift (fm_ts m)) (f64_of_Z 1) end)
                 (shift (fm_ts m))
      then dl_feat l ++ [feat_shifted m] else dl_feat l)
     (dl_imu l) (f64_of_Z (-1)) (dl_period l), feat_shifted m, true)
  else (st, l, m, false).
Proof.
  intros H. unfold dl_push_feat, well_sized. unfold off_ok in H. rewrite H, m1_not_nan, f64_sub_m1.
  destruct (Nat.eqb _ _); reflexivity.
Qed.

Lemma pop_one_off l : off_ok l -> off_ok (fst (fst (fst (dl_pop_one l)))).
Proof.
  unfold off_ok, dl_pop_one. intros H.
  destruct (dl_imu l), (dl_feat l); simpl; auto.
  destruct (f64_leb _ _); [destruct (f64_ltb _ _)|]; simpl; auto.
Qed.

Lemma pop_packed_off l p : dl_pop_packed l = Ok p -> off_ok l -> off_ok (fst (fst p)).
Proof.
  unfold off_ok, dl_pop_packed. intros H Ho.
  destruct (dl_imu l) eqn:Ei; [injection H as <-; auto|].
  destruct (dl_feat l) eqn:Ef; [injection H as <-; auto|].
  destruct (back _); cbn [obind] in H; [|discriminate].
  destruct (f64_leb _ _); [injection H as <-; auto|].
  destruct (f64_leb _ _); [injection H as <-; auto|].
  destruct (take_until _ _ _); cbn [obind] in H; [|discriminate].
  destruct (back _); cbn [obind] in H; [|discriminate].
  destruct (f64_ltb _ _); [|injection H as <-; auto].
  destruct (front _); cbn [obind] in H; [|discriminate]. injection H as <-; auto.
Qed.

Lemma upd_same (f : nat -> loader T) k l : upd f k l k = l.
Proof. unfold upd. rewrite Nat.eqb_refl. reflexivity. Qed.
Lemma upd_other (f : nat -> loader T) k j l : j <> k -> upd f k l j = f j.
Proof. intros H. unfold upd. apply Nat.eqb_neq in H. rewrite H. reflexivity. Qed.
Lemma upd_cases (f : nat -> loader T) k j l : (j = k /\ upd f k l j = l) \/ (j <> k /\ upd f k l j = f j).
Proof. destruct (Nat.eq_dec j k) as [->|n]; [left|right]; split; auto using upd_same, upd_other. Qed.

Lemma step_off w op w' o : w_off w -> dl_step w op = Ok (w', o) -> w_off w'.
Proof.
  intros Hw Hs j. pose proof (Hw j) as Hj.
  destruct op; cbn [dl_step] in Hs.
  - rewrite push_feat_eq in Hs by apply Hw. destruct (well_sized m); injection Hs as <- <-; simpl;
    destruct (upd_cases (w_ld w) k j (w_ld w k)) as [[-> _]|[n _]];
    rewrite ?upd_same, ?upd_other by assumption; auto. reflexivity.
  - rewrite push_imu_eq in Hs by apply Hw. injection Hs as <- <-; simpl.
    destruct (upd_cases (w_ld w) k j (w_ld w k)) as [[-> _]|[n _]];
    rewrite ?upd_same, ?upd_other by assumption; auto. reflexivity.
  - pose proof (pop_one_off (w_ld w k) (Hw k)) as Hp.
    destruct (dl_pop_one _) as [[[l' c] r] st]. injection Hs as <- <-. simpl in *.
    destruct (upd_cases (w_ld w) k j l') as [[-> ->]|[n ->]]; auto.
  - destruct (dl_pop_packed (w_ld w k)) as [[[l' c] r]|] eqn:E; cbn [obind] in Hs; [|discriminate].
    apply pop_packed_off in E; auto. injection Hs as <- <-. simpl in *.
    destruct (upd_cases (w_ld w) k j l') as [[-> ->]|[n ->]]; auto.
  - injection Hs as <- <-. simpl.
    destruct (upd_cases (w_ld w) k j (dl_clear (w_ld w k))) as [[-> ->]|[n ->]]; auto. reflexivity.
Qed.

Lemma run_cons w op ops w' obs : dl_run w (op :: ops) = Ok (w', obs) ->
  exists w1 o obs', dl_step w op = Ok (w1, o) /\ dl_run w1 ops = Ok (w', obs') /\ obs = o :: obs'.
Proof.
  simpl. destruct (dl_step w op) as [[w1 o]|] eqn:E; simpl; [|discriminate].
  destruct (dl_run w1 ops) as [[w2 o2]|] eqn:E2; simpl; [|discriminate].
  intros [= <- <-]. eauto 8.
Qed.

Lemma run_off ops : forall w w' obs, w_off w -> dl_run w ops = Ok (w', obs) -> w_off w'.
Proof.
  induction ops as [|op ops IH]; intros w w' obs Hw H.
  - injection H as <- _. auto.
  - apply run_cons in H as (w1 & o & obs' & Hs & Hr & _). eauto using step_off.
Qed.

Lemma world0_off per : w_off (world0 (T := T) per).
Proof. intros k. reflexivity. Qed.

(** C01 *)
Lemma time_shift per ops w obs k : dl_run (world0 per) ops = Ok (w, obs) ->
  (forall m : imu_msg T, let '(_, l', m', r) := dl_push_imu (w_st w) (w_ld w k) m in
     r = true /\ m' = imu_shifted m /\
     (dl_imu l' = dl_imu (w_ld w k) ++ [imu_shifted m] \/ dl_imu l' = dl_imu (w_ld w k)) /\
     dl_feat l' = dl_feat (w_ld w k)) /\
  (forall m : feat_msg T, well_sized m = true ->
     let '(_, l', m', r) := dl_push_feat (w_st w) (w_ld w k) m in
     r = true /\ m' = feat_shifted m /\
     (dl_feat l' = dl_feat (w_ld w k) ++ [feat_shifted m] \/ dl_feat l' = dl_feat (w_ld w k)) /\
     dl_imu l' = dl_imu (w_ld w k)).
Proof.
  intros H. apply run_off in H; [|apply world0_off]. split; intros m.
  - rewrite push_imu_eq by apply H. simpl. destruct (f64_ltb _ _); auto.
  - intros Hm. rewrite push_feat_eq by apply H. rewrite Hm. simpl. destruct (f64_ltb _ _); auto.
Qed.

(** Statics track the last pushed times. *)
Definition orelse {A} (a b : option A) : option A := match a with Some _ => a | None => b end.

Lemma last_opt_cons {A} (x : A) (l : list A) : last_opt (x :: l) = orelse (last_opt l) (Some x).
Proof. revert x. induction l as [|y l IH]; intros x; [reflexivity|].
  change (last_opt (x :: y :: l)) with (last_opt (y :: l)). rewrite (IH y). destruct (last_opt l); reflexivity. Qed.

Lemma step_statics w op w' o pi pf : w_off w -> dl_step w op = Ok (w', o) ->
  st_imu (w_st w) = option_map shift pi -> st_feat (w_st w) = option_map shift pf ->
  st_imu (w_st w') = option_map shift (orelse (last_opt (imu_inputs [op])) pi) /\
  st_feat (w_st w') = option_map shift (orelse (last_opt (feat_inputs [op])) pf).
Proof.
  intros Hw Hs Hi Hf. destruct op; cbn [dl_step] in Hs.
  - rewrite push_feat_eq in Hs by apply Hw. simpl.
    destruct (well_sized m); injection Hs as <- <-; simpl; auto.
  - rewrite push_imu_eq in Hs by apply Hw. injection Hs as <- <-; simpl; auto.
  - destruct (dl_pop_one _) as [[[l' c] r] st]. injection Hs as <- <-. auto.
  - destruct (dl_pop_packed _) as [[[l' c] r]|]; cbn [obind] in Hs; [|discriminate]. injection Hs as <- <-. auto.
  - injection Hs as <- <-. auto.
Qed.

Lemma imu_inputs_cons op ops : imu_inputs (op :: ops) = imu_inputs [op] ++ imu_inputs ops.
Proof. destruct op; reflexivity. Qed.
Lemma feat_inputs_cons op ops : feat_inputs (op :: ops) = feat_inputs [op] ++ feat_inputs ops.
Proof. destruct op; simpl; try reflexivity. destruct (well_sized m); reflexivity. Qed.
Lemma imu_inputs_one op : (exists t, imu_inputs [op] = [t]) \/ imu_inputs [op] = [].
Proof. destruct op; simpl; eauto. Qed.
Lemma feat_inputs_one op : (exists t, feat_inputs [op] = [t]) \/ feat_inputs [op] = [].
Proof. destruct op; simpl; eauto. destruct (well_sized m); eauto. Qed.

Lemma orelse_imu op ops p :
  orelse (last_opt (imu_inputs (op :: ops))) p =
  orelse (last_opt (imu_inputs ops)) (orelse (last_opt (imu_inputs [op])) p).
Proof.
  rewrite imu_inputs_cons. destruct (imu_inputs_one op) as [[t ->]| ->]; [|reflexivity].
  change ([t] ++ imu_inputs ops) with (t :: imu_inputs ops). rewrite last_opt_cons.
  destruct (last_opt (imu_inputs ops)); reflexivity.
Qed.
Lemma orelse_feat op ops p :
  orelse (last_opt (feat_inputs (op :: ops))) p =
  orelse (last_opt (feat_inputs ops)) (orelse (last_opt (feat_inputs [op])) p).
Proof.
  rewrite feat_inputs_cons. destruct (feat_inputs_one op) as [[t ->]| ->]; [|reflexivity].
  change ([t] ++ feat_inputs ops) with (t :: feat_inputs ops). rewrite last_opt_cons.
  destruct (last_opt (feat_inputs ops)); reflexivity.
Qed.

Lemma run_statics ops : forall w w' obs pi pf, w_off w -> dl_run w ops = Ok (w', obs) ->
  st_imu (w_st w) = option_map shift pi -> st_feat (w_st w) = option_map shift pf ->
  st_imu (w_st w') = option_map shift (orelse (last_opt (imu_inputs ops)) pi) /\
  st_feat (w_st w') = option_map shift (orelse (last_opt (feat_inputs ops)) pf).
Proof.
  induction ops as [|op ops IH]; intros w w' obs pi pf Hw H Hi Hf.
  - injection H as <- _. auto.
  - apply run_cons in H as (w1 & o & obs' & Hs & Hr & _).
    rewrite orelse_imu, orelse_feat.
    destruct (step_statics _ _ _ _ _ _ Hw Hs Hi Hf) as [Hi1 Hf1].
    exact (IH _ _ _ _ _ (step_off _ _ _ _ Hw Hs) Hr Hi1 Hf1).
Qed.

Lemma orelse_none {A} (a : option A) : orelse a None = a.
Proof. destruct a; reflexivity. Qed.

(** C02 *)
Lemma acceptance per ops w obs k : dl_run (world0 per) ops = Ok (w, obs) ->
  (forall m : imu_msg T, let '(_, l', _, r) := dl_push_imu (w_st w) (w_ld w k) m in
     r = true /\
     dl_imu l' = dl_imu (w_ld w k) ++
       (if accepts (last_opt (imu_inputs ops)) (im_ts m) then [imu_shifted m] else [])) /\
  (forall m : feat_msg T, well_sized m = true ->
     let '(_, l', _, r) := dl_push_feat (w_st w) (w_ld w k) m in
     r = true /\
     dl_feat l' = dl_feat (w_ld w k) ++
       (if accepts (last_opt (feat_inputs ops)) (fm_ts m) then [feat_shifted m] else [])) /\
  (forall m : feat_msg T, well_sized m = false ->
     dl_push_feat (w_st w) (w_ld w k) m = (w_st w, w_ld w k, m, false)).
Proof.
  intros H. pose proof (run_off _ _ _ _ (world0_off per) H) as Ho.
  destruct (run_statics _ _ _ _ None None (world0_off per) H eq_refl eq_refl) as [Hi Hf].
  rewrite orelse_none in Hi, Hf. split; [|split]; intros m.
  - rewrite push_imu_eq by apply Ho. simpl. rewrite Hi. split; auto.
    destruct (last_opt (imu_inputs ops)); unfold accepts; simpl; destruct (f64_ltb _ _); rewrite ?app_nil_r; auto.
  - intros Hm. rewrite push_feat_eq by apply Ho. rewrite Hm. simpl. rewrite Hf. split; auto.
    destruct (last_opt (feat_inputs ops)); unfold accepts; simpl; destruct (f64_ltb _ _); rewrite ?app_nil_r; auto.
  - intros Hm. rewrite push_feat_eq by apply Ho. rewrite Hm. reflexivity.
Qed.

(** C04 *)
Lemma pop_one_conserve l : let '(l', c, r, _) := dl_pop_one l in
  cm_imu c ++ dl_imu l' = dl_imu l /\
  match cm_feat c with Some f => [f] | None => [] end ++ dl_feat l' = dl_feat l.
Proof.
  unfold dl_pop_one. destruct (dl_imu l) eqn:Ei, (dl_feat l) eqn:Ef; simpl; rewrite ?Ei, ?Ef; auto.
  destruct (f64_leb _ _); [destruct (f64_ltb _ _)|]; simpl; rewrite ?Ei, ?Ef; auto.
Qed.

Lemma conservation_gen ops : forall w w' obs pi pf k,
  w_off w -> dl_run w ops = Ok (w', obs) -> Forall push_or_pop_one ops ->
  st_imu (w_st w) = option_map shift pi -> st_feat (w_st w) = option_map shift pf ->
  delivered_imu k obs ++ dl_imu (w_ld w' k) = dl_imu (w_ld w k) ++ accepted_imu pi k ops /\
  delivered_feat k obs ++ dl_feat (w_ld w' k) = dl_feat (w_ld w k) ++ accepted_feat pf k ops.
Proof.
  induction ops as [|op ops IH]; intros w w' obs pi pf k Hw H Hall Hi Hf.
  - injection H as <- <-. simpl. rewrite !app_nil_r. auto.
  - apply run_cons in H as (w1 & o & obs' & Hs & Hr & ->).
    inversion Hall as [|? ? Hop Hops]; subst.
    destruct (step_statics _ _ _ _ _ _ Hw Hs Hi Hf) as [Hi1 Hf1].
    destruct (IH _ _ _ _ _ k (step_off _ _ _ _ Hw Hs) Hr Hops Hi1 Hf1) as [IHi IHf].
    destruct op as [j m|j m|j|j|j]; simpl in Hop; try contradiction; cbn [dl_step] in Hs.
    + rewrite push_feat_eq in Hs by apply Hw. rewrite Hf in Hs. cbn [accepted_imu accepted_feat].
      simpl in IHi, IHf, Hi1, Hf1.
      destruct (well_sized m) eqn:Hm.
      * injection Hs as <- <-. simpl in *. rewrite IHi, IHf.
        destruct (Nat.eqb k j) eqn:Ek.
        -- apply Nat.eqb_eq in Ek as ->. rewrite upd_same. simpl. split; auto.
           destruct pf; unfold accepts; simpl; destruct (f64_ltb _ _); rewrite <- ?app_assoc; auto.
        -- apply Nat.eqb_neq in Ek. rewrite upd_other by assumption. auto.
      * injection Hs as <- <-. simpl in *. rewrite IHi, IHf.
        destruct (upd_cases (w_ld w) j k (w_ld w j)) as [[-> ->]|[n ->]]; auto.
    + rewrite push_imu_eq in Hs by apply Hw. rewrite Hi in Hs. cbn [accepted_imu accepted_feat].
      simpl in IHi, IHf, Hi1, Hf1.
      injection Hs as <- <-. simpl in *. rewrite IHi, IHf.
      destruct (Nat.eqb k j) eqn:Ek.
      * apply Nat.eqb_eq in Ek as ->. rewrite upd_same. simpl. split; auto.
        destruct pi; unfold accepts; simpl; destruct (f64_ltb _ _); rewrite <- ?app_assoc; auto.
      * apply Nat.eqb_neq in Ek. rewrite upd_other by assumption. auto.
    + pose proof (pop_one_conserve (w_ld w j)) as Hc.
      destruct (dl_pop_one _) as [[[l' c] r] st]. injection Hs as <- <-. simpl in *.
      destruct Hc as [Hc1 Hc2]. rewrite <- !app_assoc, IHi, IHf.
      destruct (Nat.eqb k j) eqn:Ek.
      * apply Nat.eqb_eq in Ek as ->. rewrite upd_same, !app_assoc, Hc1, Hc2. auto.
      * apply Nat.eqb_neq in Ek. rewrite upd_other by assumption. auto.
Qed.

Lemma conservation per ops w obs k :
  dl_run (world0 per) ops = Ok (w, obs) -> Forall push_or_pop_one ops ->
  delivered_imu k obs ++ dl_imu (w_ld w k) = accepted_imu None k ops /\
  delivered_feat k obs ++ dl_feat (w_ld w k) = accepted_feat None k ops.
Proof.
  intros H Hall. exact (conservation_gen ops _ _ _ None None k (world0_off per) H Hall eq_refl eq_refl).
Qed.

(** Every history of pushes and PopOneMessage runs (no undefined outcome), so conservation is not vacuous. *)
Lemma run_push_pop_total ops : forall w, Forall push_or_pop_one ops -> exists r, dl_run w ops = Ok r.
Proof.
  induction ops as [|op ops IH]; intros w H; [eexists; reflexivity|].
  inversion H as [|? ? Hop Hops]; subst. simpl.
  assert (exists p, dl_step w op = Ok p) as [p ->].
  { destruct op; cbn [dl_step push_or_pop_one] in *; try contradiction.
    - destruct (dl_push_feat _ _ _) as [[[? ?] ?] ?]; eauto.
    - destruct (dl_push_imu _ _ _) as [[[? ?] ?] ?]; eauto.
    - destruct (dl_pop_one _) as [[[? ?] ?] ?]; eauto. }
  simpl. destruct (IH (fst p) Hops) as [q ->]. simpl. eauto.
Qed.

(** C08 *)
Definition pending l : nat := length (dl_imu l) + length (dl_feat l).

Lemma pop_one_result l : let '(l', _, r, _) := dl_pop_one l in
  (r = true <-> pending l <> 0) /\ (r = true -> pending l' < pending l) /\ (r = false -> l' = l).
Proof.
  unfold dl_pop_one, pending. destruct (dl_imu l) eqn:Ei, (dl_feat l) eqn:Ef; simpl;
    repeat split; try discriminate; try congruence; try lia.
  all: destruct (f64_leb _ _); [destruct (f64_ltb _ _)|]; simpl; try lia; try congruence.
Qed.

Lemma drains_gen n : forall l, pending l <= n ->
  exists k, k <= n /\
    dl_imu (fst (pops k l)) = [] /\ dl_feat (fst (pops k l)) = [] /\
    Forall (fun cr => snd cr = true) (snd (pops k l)) /\
    concat (map (fun cr => cm_imu (fst cr)) (snd (pops k l))) = dl_imu l /\
    concat (map (fun cr => match cm_feat (fst cr) with Some f => [f] | None => [] end) (snd (pops k l))) = dl_feat l.
Proof.
  induction n as [|n IH]; intros l Hn.
  - exists 0. unfold pending in Hn. simpl. destruct (dl_imu l), (dl_feat l); simpl in *; try lia. repeat split; auto.
  - destruct (Nat.eq_dec (pending l) 0) as [E|E].
    + exists 0. unfold pending in E. simpl. destruct (dl_imu l), (dl_feat l); simpl in *; try lia.
      repeat split; auto. lia.
    + pose proof (pop_one_result l) as Hp. pose proof (pop_one_conserve l) as Hc.
      destruct (dl_pop_one l) as [[[l' c] r] st] eqn:El.
      destruct Hp as (Hp1 & Hp2 & _), Hc as [Hc1 Hc2].
      assert (r = true) as -> by tauto. specialize (Hp2 eq_refl).
      destruct (IH l') as (k & Hk & E1 & E2 & E3 & E4 & E5); [lia|].
      exists (Datatypes.S k). cbn [pops]. rewrite El. destruct (pops k l') as [l2 rest]; simpl in *.
      rewrite E4, E5. repeat split; auto; lia.
Qed.

(** C07 *)
Lemma stale_read_iff l : let '(_, _, _, stale) := dl_pop_one l in
  stale = true <-> exists i is f fs, dl_imu l = i :: is /\ dl_feat l = f :: fs /\ f64_leb (fm_ts f) (im_ts i) = true.
Proof.
  unfold dl_pop_one. destruct (dl_imu l) as [|i is] eqn:Ei, (dl_feat l) as [|f fs] eqn:Ef.
  1-3: split; [discriminate | intros (? & ? & ? & ? & ? & ? & ?); discriminate].
  destruct (f64_leb _ _) eqn:E; [destruct (f64_ltb _ _)|].
  1-2: split; intros _; [exists i, is, f, fs; split; [reflexivity|split; [reflexivity|exact E]]|reflexivity].
  split; [discriminate|]. intros (i1 & is1 & f1 & fs1 & Hi & Hf & H). injection Hi as <- <-. injection Hf as <- <-.
  rewrite E in H. discriminate H.
Qed.

(** C05 *)
Lemma sorted_tail_imu (a : imu_msg T) q b : StronglySorted imu_lt (a :: q) -> In b q -> imu_lt a b.
Proof. intros H Hb. apply StronglySorted_inv in H as [_ H]. rewrite Forall_forall in H. auto. Qed.
Lemma sorted_tail_feat (a : feat_msg T) q b : StronglySorted feat_lt (a :: q) -> In b q -> feat_lt a b.
Proof. intros H Hb. apply StronglySorted_inv in H as [_ H]. rewrite Forall_forall in H. auto. Qed.

Lemma pop_one_order l : sorted_buffers l -> not_nan_buffers l ->
  let '(l', c, r, _) := dl_pop_one l in
  (r = false <-> dl_imu l = [] /\ dl_feat l = []) /\
  (r = false -> l' = l /\ c = comb_empty) /\
  match cm_feat c, cm_imu c with
  | Some f, is =>
      (forall f', In f' (dl_feat l') -> f64_ltb (fm_ts f) (fm_ts f') = true) /\
      (forall i', In i' (dl_imu l') -> f64_leb (fm_ts f) (im_ts i') = true) /\
      match is with
      | [] => forall i is', dl_imu l' = i :: is' ->
                f64_ltb (f64_abs (f64_sub (fm_ts f) (im_ts i))) (dl_period l) = false
      | [i] => f64_leb (fm_ts f) (im_ts i) = true /\
               f64_ltb (f64_abs (f64_sub (fm_ts f) (im_ts i))) (dl_period l) = true
      | _ => False
      end
  | None, is =>
      match is with
      | [] => r = false
      | [i] => (forall f', In f' (dl_feat l') -> f64_ltb (im_ts i) (fm_ts f') = true) /\
               (forall i', In i' (dl_imu l') -> f64_ltb (im_ts i) (im_ts i') = true)
      | _ => False
      end
  end.
Proof.
  intros [Si Sf] [Ni Nf]. unfold dl_pop_one.
  destruct (dl_imu l) as [|i is] eqn:Ei, (dl_feat l) as [|f fs] eqn:Ef.
  - simpl. repeat split; auto.
  - simpl. repeat split; try discriminate; try tauto.
    + intros [_ H]; discriminate H.
    + intros f' H. eapply sorted_tail_feat; eauto.
  - simpl. repeat split; try discriminate; try tauto.
    + intros [H _]; discriminate H.
    + intros i' H. eapply sorted_tail_imu; eauto.
  - destruct (f64_leb (fm_ts f) (im_ts i)) eqn:E; [destruct (f64_ltb _ _) eqn:E2|]; simpl;
      (split; [split; [discriminate | intros [H _]; discriminate H] |]; split; [discriminate|]).
    + repeat split; auto.
      * intros f' H. eapply sorted_tail_feat; eauto.
      * intros i' H. pose proof (sorted_tail_imu _ _ _ Si H) as Hl.
        apply f64_ltb_leb. eapply f64_leb_ltb_trans; eauto.
    + repeat split.
      * intros f' H. eapply sorted_tail_feat; eauto.
      * intros i' [<-|H]; auto. pose proof (sorted_tail_imu _ _ _ Si H) as Hl.
        apply f64_ltb_leb. eapply f64_leb_ltb_trans; eauto.
      * intros i0 is0 [= <- <-]. auto.
    + inversion Ni; inversion Nf; subst. split.
      * intros f' [<-|H]; [apply f64_leb_false_ltb; auto|].
        eapply f64_ltb_trans; [apply f64_leb_false_ltb; eauto | eapply sorted_tail_feat; eauto].
      * intros i' H. eapply sorted_tail_imu; eauto.
Qed.

(** C09 *)
Lemma back_app_some (q : list (imu_msg T)) : q <> [] -> exists x, back q = Ok x /\ In x q /\ q = removelast q ++ [x].
Proof.
  induction q as [|a q IH]; [congruence|]. intros _. destruct q as [|b q].
  - exists a. simpl. auto.
  - destruct IH as (x & H1 & H2 & H3); [discriminate|]. exists x. split; [exact H1|]. split; [right; exact H2|].
    change (removelast (a :: b :: q)) with (a :: removelast (b :: q)). simpl app. f_equal. exact H3.
Qed.

(** The loop stops before running off the queue as soon as one element is not <= t. *)
Lemma take_until_spec t (q : list (imu_msg T)) : forall acc,
  (exists x, In x q /\ f64_leb (im_ts x) t = false) ->
  exists pre post y, take_until t q acc = Ok (acc ++ pre, y :: post) /\ q = pre ++ y :: post /\
    Forall (fun m => f64_leb (im_ts m) t = true) pre /\ f64_leb (im_ts y) t = false.
Proof.
  induction q as [|m q IH]; intros acc (x & Hx & Hl); [destruct Hx|].
  simpl. destruct (f64_leb (im_ts m) t) eqn:E.
  - destruct Hx as [<-|Hx]; [congruence|].
    destruct (IH (acc ++ [m])) as (pre & post & y & -> & -> & H1 & H2); [eauto|].
    exists (m :: pre), post, y. rewrite <- app_assoc. simpl. auto.
  - exists [], q, m. rewrite app_nil_r. auto.
Qed.

(** Shape of the result, for buffers without NaN. *)
Lemma pop_packed_spec l : not_nan_buffers l -> exists l' c r, dl_pop_packed l = Ok (l', c, r) /\
  dl_offset l' = dl_offset l /\ dl_period l' = dl_period l /\
  ((r = false /\ c = comb_empty /\ dl_imu l' = dl_imu l /\
     (dl_feat l' = dl_feat l \/
      exists f i is, dl_feat l = f :: dl_feat l' /\ dl_imu l = i :: is /\ f64_leb (fm_ts f) (im_ts i) = true)) \/
   (r = true /\ exists f pre post lft rgt,
      dl_feat l = f :: dl_feat l' /\
      dl_imu l = pre ++ lft :: rgt :: post /\
      Forall (fun m => f64_leb (im_ts m) (fm_ts f) = true) (pre ++ [lft]) /\
      f64_leb (im_ts rgt) (fm_ts f) = false /\
      if f64_ltb f64_1e_6 (f64_abs (f64_sub (im_ts lft) (fm_ts f)))
      then let mid := interpolate lft rgt (fm_ts f) in
           c = CombMsg (Some f) (pre ++ [lft; mid]) /\ dl_imu l' = mid :: rgt :: post
      else c = CombMsg (Some f) (pre ++ [lft]) /\ dl_imu l' = lft :: rgt :: post)).
Proof.
  intros [Ni Nf]. unfold dl_pop_packed.
  destruct (dl_imu l) as [|i is] eqn:Ei.
  { do 3 eexists. split; [reflexivity|]. split; [reflexivity|]. split; [reflexivity|]. left. rewrite Ei. auto. }
  destruct (dl_feat l) as [|f fs] eqn:Ef.
  { do 3 eexists. split; [reflexivity|]. split; [reflexivity|]. split; [reflexivity|]. left. rewrite Ei, Ef. auto. }
  inversion Ni as [|? ? Ni1 _]; inversion Nf as [|? ? Nf1 _]; subst.
  destruct (back_app_some (i :: is)) as (lst & Hb & Hin & _); [discriminate|]. rewrite Hb. cbn [obind].
  destruct (f64_leb (im_ts lst) (fm_ts f)) eqn:E1.
  { do 3 eexists. split; [reflexivity|]. split; [reflexivity|]. split; [reflexivity|]. left. rewrite Ei, Ef. auto. }
  destruct (f64_leb (fm_ts f) (im_ts i)) eqn:E2.
  { do 3 eexists. split; [reflexivity|]. split; [reflexivity|]. split; [reflexivity|]. left.
    split; [reflexivity|]. split; [reflexivity|]. split; [reflexivity|]. right. exists f, i, is.
    split; [reflexivity|]. split; [reflexivity|exact E2]. }
  destruct (take_until_spec (fm_ts f) (i :: is) []) as (pre & post & y & Ht & Hq & Hp & Hy); [eauto|].
  rewrite Ht. cbn [obind fst snd app].
  assert (f64_leb (im_ts i) (fm_ts f) = true) as E3 by (apply f64_ltb_leb, f64_leb_false_ltb; auto).
  assert (pre <> []) as En by (intros ->; simpl in Hq; injection Hq as <- <-; congruence).
  destruct (back_app_some pre En) as (lft & Hlb & Hlin & Hpre). rewrite Hlb. cbn [obind front].
  destruct (f64_ltb f64_1e_6 _) eqn:E4.
  - do 3 eexists. split; [reflexivity|]. split; [reflexivity|]. split; [reflexivity|]. right. split; [reflexivity|].
    exists f, (removelast pre), post, lft, y. rewrite <- Hpre. cbn [dl_feat dl_imu]. rewrite E4.
    repeat split; auto.
    + rewrite Hq. rewrite Hpre at 1. rewrite <- app_assoc. reflexivity.
    + f_equal. rewrite Hpre at 1. rewrite <- app_assoc. reflexivity.
  - do 3 eexists. split; [reflexivity|]. split; [reflexivity|]. split; [reflexivity|]. right. split; [reflexivity|].
    exists f, (removelast pre), post, lft, y. rewrite <- Hpre. cbn [dl_feat dl_imu]. rewrite E4.
    repeat split; auto.
    rewrite Hq. rewrite Hpre at 1. rewrite <- app_assoc. reflexivity.
Qed.

(** Reachable loaders never buffer a NaN time, and never leave the safe path. *)
Definition w_nn w : Prop := forall k, not_nan_buffers (w_ld w k).

Lemma accept_nn a b : f64_ltb a b = true -> f64_isnan b = false.
Proof. intros H. apply f64_ltb_iff in H. tauto. Qed.

Lemma pop_one_nn l : not_nan_buffers l -> not_nan_buffers (fst (fst (fst (dl_pop_one l)))).
Proof.
  intros [Hi Hf]. unfold dl_pop_one. destruct (dl_imu l) eqn:Ei, (dl_feat l) eqn:Ef; simpl;
    repeat match goal with H : Forall _ (_ :: _) |- _ => inversion H; clear H; subst end.
  all: try (split; simpl; rewrite ?Ei, ?Ef; auto; fail).
  destruct (f64_leb _ _); [destruct (f64_ltb _ _)|]; split; simpl; rewrite ?Ei, ?Ef; auto.
Qed.

Lemma Forall_tail {A} (P : A -> Prop) x q : Forall P (x :: q) -> Forall P q.
Proof. intros H; inversion H; auto. Qed.

Lemma pop_packed_nn l p : not_nan_buffers l -> dl_pop_packed l = Ok p -> not_nan_buffers (fst (fst p)).
Proof.
  intros Hn Hp. destruct (pop_packed_spec l Hn) as (l' & c & r & E & _ & _ & H).
  rewrite E in Hp. injection Hp as <-. simpl. destruct Hn as [Hi Hf].
  destruct H as [(_ & _ & Ei & [Ef|(f & i & is & Ef & _)])|(_ & f & pre & post & lft & rgt & Ef & Ei & _ & _ & Hc)].
  - split; rewrite ?Ei, ?Ef; auto.
  - split; rewrite ?Ei; auto. rewrite Ef in Hf. inversion Hf; auto.
  - rewrite Ef in Hf. rewrite Ei in Hi. inversion Hf as [|? ? Hf1 Hf2]; subst.
    apply Forall_app in Hi as [_ Hi]. inversion Hi as [|? ? Hi1 Hi2]; subst.
    split; auto. destruct (f64_ltb _ _); destruct Hc as [_ ->]; constructor; auto.
Qed.

Lemma step_nn w op : w_off w -> w_nn w -> exists w' o, dl_step w op = Ok (w', o) /\ w_nn w'.
Proof.
  intros Hw Hn. destruct op as [k m|k m|k|k|k]; cbn [dl_step].
  - rewrite push_feat_eq by apply Hw. destruct (well_sized m); do 2 eexists; (split; [reflexivity|]); intros j; simpl.
    + match goal with |- not_nan_buffers (upd _ _ ?l _) => destruct (upd_cases (w_ld w) k j l) as [[-> ->]|[n ->]]; auto end.
      destruct (Hn k). split; auto. cbn [dl_feat].
      destruct (f64_ltb _ _) eqn:E; auto. apply Forall_app; split; auto. constructor; auto. eapply accept_nn; exact E.
    + destruct (upd_cases (w_ld w) k j (w_ld w k)) as [[-> ->]|[n ->]]; auto.
  - rewrite push_imu_eq by apply Hw. do 2 eexists. split; [reflexivity|]. intros j; simpl.
    match goal with |- not_nan_buffers (upd _ _ ?l _) => destruct (upd_cases (w_ld w) k j l) as [[-> ->]|[n ->]]; auto end.
    destruct (Hn k). split; auto. cbn [dl_imu].
    destruct (f64_ltb _ _) eqn:E; auto. apply Forall_app; split; auto. constructor; auto. eapply accept_nn; exact E.
  - pose proof (pop_one_nn _ (Hn k)). destruct (dl_pop_one _) as [[[l' c] r] st]. do 2 eexists. split; [reflexivity|].
    intros j; simpl in *. destruct (upd_cases (w_ld w) k j l') as [[-> ->]|[n ->]]; auto.
  - destruct (pop_packed_spec _ (Hn k)) as (l' & c & r & E & _). pose proof (pop_packed_nn _ _ (Hn k) E) as Hl.
    rewrite E. cbn [obind]. do 2 eexists. split; [reflexivity|].
    intros j; simpl in *. destruct (upd_cases (w_ld w) k j l') as [[-> ->]|[n ->]]; auto.
  - do 2 eexists. split; [reflexivity|]. intros j; simpl.
    destruct (upd_cases (w_ld w) k j (dl_clear (w_ld w k))) as [[-> ->]|[n ->]]; auto. split; constructor.
Qed.

Lemma run_nn ops : forall w, w_off w -> w_nn w -> exists w' obs, dl_run w ops = Ok (w', obs) /\ w_nn w'.
Proof.
  induction ops as [|op ops IH]; intros w Hw Hn.
  - exists w, []. auto.
  - destruct (step_nn w op Hw Hn) as (w1 & o & Hs & Hn1).
    destruct (IH w1 (step_off _ _ _ _ Hw Hs) Hn1) as (w2 & obs & Hr & Hn2).
    simpl. rewrite Hs. simpl. rewrite Hr. simpl. eauto.
Qed.

Lemma world0_nn per : w_nn (world0 (T := T) per).
Proof. intros k. split; constructor. Qed.

(** C09: no history of API calls is undefined, and packs are not empty. *)
Lemma packed_safe per ops : exists w obs, dl_run (world0 per) ops = Ok (w, obs) /\
  forall k, exists l' c r, dl_pop_packed (w_ld w k) = Ok (l', c, r) /\
    (r = true -> cm_feat c <> None /\ cm_imu c <> []).
Proof.
  destruct (run_nn ops _ (world0_off per) (world0_nn per)) as (w & obs & Hr & Hn).
  exists w, obs. split; auto. intros k.
  destruct (pop_packed_spec _ (Hn k)) as (l' & c & r & E & _ & _ & H).
  exists l', c, r. split; auto. intros ->.
  destruct H as [(H & _)|(_ & f & pre & post & lft & rgt & _ & _ & _ & _ & Hc)]; [discriminate|].
  destruct (f64_ltb _ _); destruct Hc as [-> _]; split; try discriminate; simpl;
    intros H; apply app_eq_nil in H as [_ H]; discriminate.
Qed.

(** C03: sortedness. *)
Lemma SS_app_one {A} (R : A -> A -> Prop) q x :
  StronglySorted R q -> Forall (fun y => R y x) q -> StronglySorted R (q ++ [x]).
Proof.
  induction q as [|a q IH]; intros H1 H2; [repeat constructor|].
  simpl. apply StronglySorted_inv in H1 as [H1 H3]. inversion H2; subst.
  constructor; auto. apply Forall_app; split; auto.
Qed.
Lemma SS_suffix {A} (R : A -> A -> Prop) p q : StronglySorted R (p ++ q) -> StronglySorted R q.
Proof. induction p; simpl; auto. intros H. apply StronglySorted_inv in H as [H _]. auto. Qed.

End Facts.

(** Adding one second is monotone. *)
Lemma shift_nn : forall x, f64_isnan x = false -> f64_isnan (shift x) = false.
Proof.
  intros x H. unfold shift. rewrite <- f64_sub_m1.
  destruct (f64_cases x) as [Fx|[->|[->| ->]]]; [|vm_compute; reflexivity|vm_compute; reflexivity|discriminate H].
  apply f64_sub_fin; [exact Fx|vm_compute; reflexivity].
Qed.
Lemma shift_mono : forall x y : f64, f64_leb x y = true -> f64_leb (shift x) (shift y) = true.
Proof.
  intros x y H. pose proof H as H0. apply f64_leb_iff in H0 as (Nx & Ny & _).
  pose proof (shift_nn _ Nx). pose proof (shift_nn _ Ny). unfold shift in *.
  rewrite <- f64_sub_m1 in *. rewrite <- f64_sub_m1 in *. apply f64_sub_mono_l; assumption.
Qed.
Lemma f64_notnan_leb_or : forall x y, f64_isnan x = false -> f64_isnan y = false ->
  f64_leb x y = true \/ f64_ltb y x = true.
Proof. intros x y Hx Hy. destruct (f64_leb x y) eqn:E; auto. right. apply f64_leb_false_ltb; auto. Qed.

Section Sorted.
Context {T : Type} {S : SOps T}.
Implicit Types (l : loader T) (w : dl_world T) (ops : list (dl_op T)) (op : dl_op T).

Definition imu_inv (p : option f64) l : Prop :=
  StronglySorted imu_lt (dl_imu l) /\
  Forall (fun m => match p with Some t => f64_leb (im_ts m) (shift t) = true | None => False end) (dl_imu l).
Definition feat_inv (p : option f64) l : Prop :=
  StronglySorted feat_lt (dl_feat l) /\
  Forall (fun m => match p with Some t => f64_leb (fm_ts m) (shift t) = true | None => False end) (dl_feat l).

Definition le_opt (p : option f64) (t : f64) : Prop := match p with Some u => f64_leb u t = true | None => True end.

Lemma nondec_cons p t ts : nondec (match p with Some u => u :: t :: ts | None => t :: ts end) ->
  le_opt p t /\ nondec (t :: ts).
Proof.
  destruct p as [u|]; simpl; auto. intros H. inversion H as [|? ? H1 H2]; subst. inversion H2; subst. auto.
Qed.

Lemma imu_inv_weaken p t l : le_opt p t -> imu_inv p l -> imu_inv (Some t) l.
Proof.
  intros Hp [H1 H2]. split; auto. eapply Forall_impl; [|exact H2]. intros m Hm. destruct p; [|contradiction].
  eapply f64_leb_trans; [exact Hm|]. apply shift_mono. exact Hp.
Qed.
Lemma feat_inv_weaken p t l : le_opt p t -> feat_inv p l -> feat_inv (Some t) l.
Proof.
  intros Hp [H1 H2]. split; auto. eapply Forall_impl; [|exact H2]. intros m Hm. destruct p; [|contradiction].
  eapply f64_leb_trans; [exact Hm|]. apply shift_mono. exact Hp.
Qed.

Lemma imu_inv_suffix p l l' pre : dl_imu l = pre ++ dl_imu l' -> imu_inv p l -> imu_inv p l'.
Proof. intros E [H1 H2]. rewrite E in H1, H2. split; [eapply SS_suffix; eauto|]. apply Forall_app in H2. tauto. Qed.
Lemma feat_inv_suffix p l l' pre : dl_feat l = pre ++ dl_feat l' -> feat_inv p l -> feat_inv p l'.
Proof. intros E [H1 H2]. rewrite E in H1, H2. split; [eapply SS_suffix; eauto|]. apply Forall_app in H2. tauto. Qed.

Lemma pop_packed_inv l p pi pf : not_nan_buffers l -> dl_pop_packed l = Ok p ->
  (imu_inv pi l -> imu_inv pi (fst (fst p))) /\ (feat_inv pf l -> feat_inv pf (fst (fst p))).
Proof.
  intros Hn Hp. destruct (pop_packed_spec l Hn) as (l' & c & r & E & _ & _ & H).
  rewrite E in Hp. injection Hp as <-. simpl. destruct Hn as [Ni Nf].
  destruct H as [(_ & _ & Ei & [Ef|(f & i & is & Ef & _)])|(_ & f & pre & post & lft & rgt & Ef & Ei & _ & Hr & Hc)].
  - split; [apply imu_inv_suffix with (pre := [])|apply feat_inv_suffix with (pre := [])]; rewrite ?Ei, ?Ef; auto.
  - split; [apply imu_inv_suffix with (pre := [])|apply feat_inv_suffix with (pre := [f])]; rewrite ?Ei, ?Ef; auto.
  - split; [|apply feat_inv_suffix with (pre := [f]); rewrite Ef; auto].
    destruct (f64_ltb _ _); destruct Hc as [_ Hq].
    + intros [H1 H2]. rewrite Ei in *. apply Forall_app in H2 as [_ H2]. apply SS_suffix in H1.
      rewrite Ef in Nf. inversion Nf as [|? ? Nf1 _]; subst.
      apply Forall_app in Ni as [_ Ni]. inversion Ni as [|? ? _ Ni2]; subst. inversion Ni2 as [|? ? Ni3 _]; subst.
      apply StronglySorted_inv in H1 as [H1 _]. inversion H2 as [|? ? _ H3]; subst.
      assert (f64_ltb (fm_ts f) (im_ts rgt) = true) as Hlt by (apply f64_leb_false_ltb; auto).
      split; rewrite Hq; constructor; auto.
      * constructor; [exact Hlt|]. apply StronglySorted_inv in H1 as [_ H1].
        eapply Forall_impl; [|exact H1]. intros m Hm. eapply f64_ltb_trans; [exact Hlt|exact Hm].
      * inversion H3 as [|? ? H4 _]; subst. cbn [interpolate im_ts]. destruct pi; [|contradiction].
        apply f64_ltb_leb. eapply f64_ltb_leb_trans; eauto.
    + apply imu_inv_suffix with (pre := pre). rewrite Hq. exact Ei.
Qed.

Lemma step_imu_inv w op w' o p : w_off w -> w_nn w -> dl_step w op = Ok (w', o) ->
  st_imu (w_st w) = option_map shift p ->
  (forall t, In t (imu_inputs [op]) -> le_opt p t) -> (forall k, imu_inv p (w_ld w k)) ->
  forall k, imu_inv (orelse (last_opt (imu_inputs [op])) p) (w_ld w' k).
Proof.
  intros Hw Hn Hs Hst Hle Hi j. destruct op as [k m|k m|k|k|k]; cbn [dl_step] in Hs.
  - rewrite push_feat_eq in Hs by apply Hw. destruct (well_sized m); injection Hs as <- <-; simpl.
    + match goal with |- imu_inv _ (upd _ _ ?l _) => destruct (upd_cases (w_ld w) k j l) as [[-> ->]|[n ->]]; auto end.
      apply imu_inv_suffix with (l := w_ld w k) (pre := []); auto.
    + destruct (upd_cases (w_ld w) k j (w_ld w k)) as [[-> ->]|[n ->]]; auto.
  - rewrite push_imu_eq in Hs by apply Hw. rewrite Hst in Hs. injection Hs as <- <-; simpl.
    assert (le_opt p (im_ts m)) as Hp by (apply Hle; simpl; auto).
    match goal with |- imu_inv _ (upd _ _ ?l _) => destruct (upd_cases (w_ld w) k j l) as [[-> ->]|[n ->]] end;
      [|eapply imu_inv_weaken; eauto].
    destruct (f64_ltb _ _) eqn:E.
    + destruct (imu_inv_weaken _ _ _ Hp (Hi k)) as [_ H2]. destruct (Hi k) as [H1 H3]. split; cbn [dl_imu].
      * apply SS_app_one; auto. destruct p as [u|]; simpl in E.
        -- eapply Forall_impl; [|exact H3]. intros a Ha. eapply f64_leb_ltb_trans; [exact Ha|exact E].
        -- eapply Forall_impl; [|exact H3]. intros a [].
      * apply Forall_app. split; auto. constructor; auto. apply f64_leb_refl. eapply accept_nn; eauto.
    + eapply imu_inv_weaken; eauto.
  - pose proof (pop_one_conserve (w_ld w k)) as Hc. destruct (dl_pop_one _) as [[[l' c] r] st].
    injection Hs as <- <-. destruct Hc as [Hc _]. simpl.
    destruct (upd_cases (w_ld w) k j l') as [[-> ->]|[n ->]]; auto.
    eapply imu_inv_suffix; [symmetry; exact Hc|]. auto.
  - destruct (dl_pop_packed (w_ld w k)) as [[[l' c] r]|] eqn:E; cbn [obind] in Hs; [|discriminate].
    injection Hs as <- <-. simpl. destruct (upd_cases (w_ld w) k j l') as [[-> ->]|[n ->]]; auto.
    destruct (pop_packed_inv _ _ p None (Hn k) E) as [H _]. apply H. auto.
  - injection Hs as <- <-. simpl.
    destruct (upd_cases (w_ld w) k j (dl_clear (w_ld w k))) as [[-> ->]|[n ->]]; auto. split; constructor.
Qed.

Lemma step_feat_inv w op w' o p : w_off w -> w_nn w -> dl_step w op = Ok (w', o) ->
  st_feat (w_st w) = option_map shift p ->
  (forall t, In t (feat_inputs [op]) -> le_opt p t) -> (forall k, feat_inv p (w_ld w k)) ->
  forall k, feat_inv (orelse (last_opt (feat_inputs [op])) p) (w_ld w' k).
Proof.
  intros Hw Hn Hs Hst Hle Hi j. destruct op as [k m|k m|k|k|k]; cbn [dl_step] in Hs.
  - rewrite push_feat_eq in Hs by apply Hw. simpl in Hle. simpl.
    destruct (well_sized m); [rewrite Hst in Hs|]; injection Hs as <- <-; simpl.
    + assert (le_opt p (fm_ts m)) as Hp by (apply Hle; simpl; auto).
      match goal with |- feat_inv _ (upd _ _ ?l _) => destruct (upd_cases (w_ld w) k j l) as [[-> ->]|[n ->]] end;
        [|eapply feat_inv_weaken; eauto].
      destruct (f64_ltb _ _) eqn:E.
      * destruct (feat_inv_weaken _ _ _ Hp (Hi k)) as [_ H2]. destruct (Hi k) as [H1 H3]. split; cbn [dl_feat].
        -- apply SS_app_one; auto. destruct p as [u|]; simpl in E.
           ++ eapply Forall_impl; [|exact H3]. intros a Ha. eapply f64_leb_ltb_trans; [exact Ha|exact E].
           ++ eapply Forall_impl; [|exact H3]. intros a [].
        -- apply Forall_app. split; auto. constructor; auto. apply f64_leb_refl. eapply accept_nn; eauto.
      * eapply feat_inv_weaken; eauto.
    + destruct (upd_cases (w_ld w) k j (w_ld w k)) as [[-> ->]|[n ->]]; auto.
  - rewrite push_imu_eq in Hs by apply Hw. injection Hs as <- <-; simpl.
    match goal with |- feat_inv _ (upd _ _ ?l _) => destruct (upd_cases (w_ld w) k j l) as [[-> ->]|[n ->]]; auto end.
    apply feat_inv_suffix with (l := w_ld w k) (pre := []); auto.
  - pose proof (pop_one_conserve (w_ld w k)) as Hc. destruct (dl_pop_one _) as [[[l' c] r] st].
    injection Hs as <- <-. destruct Hc as [_ Hc]. simpl.
    destruct (upd_cases (w_ld w) k j l') as [[-> ->]|[n ->]]; auto.
    eapply feat_inv_suffix; [symmetry; exact Hc|]. auto.
  - destruct (dl_pop_packed (w_ld w k)) as [[[l' c] r]|] eqn:E; cbn [obind] in Hs; [|discriminate].
    injection Hs as <- <-. simpl. destruct (upd_cases (w_ld w) k j l') as [[-> ->]|[n ->]]; auto.
    destruct (pop_packed_inv _ _ None p (Hn k) E) as [_ H]. apply H. auto.
  - injection Hs as <- <-. simpl.
    destruct (upd_cases (w_ld w) k j (dl_clear (w_ld w k))) as [[-> ->]|[n ->]]; auto. split; constructor.
Qed.

Definition with_prev (p : option f64) (ts : list f64) : list f64 := match p with Some u => u :: ts | None => ts end.

Lemma nondec_split p xs ts : (xs = [] \/ exists t, xs = [t]) -> nondec (with_prev p (xs ++ ts)) ->
  (forall t, In t xs -> le_opt p t) /\ nondec (with_prev (orelse (last_opt xs) p) ts).
Proof.
  intros [->|[t ->]] H; simpl in *.
  - split; [tauto|auto].
  - destruct (nondec_cons p t ts) as [H1 H2]; [destruct p; exact H|]. split; auto. intros ? [<-|[]]; auto.
Qed.

Lemma run_sorted ops : forall w w' obs p q, w_off w -> w_nn w -> dl_run w ops = Ok (w', obs) ->
  st_imu (w_st w) = option_map shift p -> st_feat (w_st w) = option_map shift q ->
  (nondec (with_prev p (imu_inputs ops)) -> (forall k, imu_inv p (w_ld w k)) ->
     forall k, StronglySorted imu_lt (dl_imu (w_ld w' k))) /\
  (nondec (with_prev q (feat_inputs ops)) -> (forall k, feat_inv q (w_ld w k)) ->
     forall k, StronglySorted feat_lt (dl_feat (w_ld w' k))).
Proof.
  induction ops as [|op ops IH]; intros w w' obs p q Hw Hn H Hp Hq.
  - injection H as <- _. split; intros _ Hi k; apply Hi.
  - apply run_cons in H as (w1 & o & obs' & Hs & Hr & _).
    destruct (step_statics _ _ _ _ _ _ Hw Hs Hp Hq) as [Hp1 Hq1].
    assert (w_nn w1) as Hn1.
    { destruct (step_nn w op Hw Hn) as (w2 & o2 & E & Hn2). rewrite E in Hs. injection Hs as <- <-. exact Hn2. }
    destruct (IH _ _ _ _ _ (step_off _ _ _ _ Hw Hs) Hn1 Hr Hp1 Hq1) as [IHi IHf].
    rewrite imu_inputs_cons, feat_inputs_cons. split; intros Hnd Hi.
    + destruct (nondec_split p (imu_inputs [op]) (imu_inputs ops)) as [Ha Hb]; auto.
      { destruct (imu_inputs_one op); auto. }
      apply IHi; auto. eapply step_imu_inv; eauto.
    + destruct (nondec_split q (feat_inputs [op]) (feat_inputs ops)) as [Ha Hb]; auto.
      { destruct (feat_inputs_one op); auto. }
      apply IHf; auto. eapply step_feat_inv; eauto.
Qed.

Lemma sorted_if_inputs_sorted per ops w obs k : dl_run (world0 per) ops = Ok (w, obs) ->
  (nondec (imu_inputs ops) -> StronglySorted imu_lt (dl_imu (w_ld w k))) /\
  (nondec (feat_inputs ops) -> StronglySorted feat_lt (dl_feat (w_ld w k))).
Proof.
  intros H. destruct (run_sorted ops _ _ _ None None (world0_off per) (world0_nn per) H eq_refl eq_refl) as [Hi Hf].
  split; intros Hn; [apply Hi|apply Hf]; auto; intros j; split; constructor.
Qed.
End Sorted.
