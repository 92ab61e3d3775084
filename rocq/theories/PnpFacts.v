(** Pose refinement and RANSAC: lemmas for C54-C58. *)
From Coq Require Import ZArith Reals Lra Lia Arith Bool List Psatz Sorted.
From Flocq Require Import Core BinarySingleNaN.
From Verif Require Import Fp Scalar Base LinAlg MathLib Triangulate Pnp MatFacts QuatFacts GeoSpec TriFacts.
Import ListNotations.

Section Any.
Context {T : Type} {SO : SOps T}.
Variable cfg : pnp_cfg T.
Variable ldlt : mat T -> mat T -> nat -> T.

Lemma pnp_loop_calls : forall w eps pts iter k q p, (po_calls (pnp_loop ldlt w eps pts iter k q p) <= k + iter)%nat.
Proof.
  intros w eps pts. induction iter as [|it IH]; intros k q p; cbn [pnp_loop]; [cbn; lia|].
  destruct (pnp_normal w q p pts) as [H b]. destruct (sisnan _); [cbn; lia|]. destruct (sltb _ _); [cbn; lia|].
  rewrite IH. lia.
Qed.
Lemma pnp_refuse : forall (p3 : list (v3 T)) (p2 : list (v2 T)) q p, length p3 <> length p2 \/ p3 = [] ->
  pnp_estimate cfg ldlt p3 p2 q p = PnpOut false q p 0 /\ pnp_kernel cfg ldlt p3 p2 q p = PnpOut false q p 0.
Proof.
  intros p3 p2 q p H. unfold pnp_estimate, pnp_kernel. replace (_ || _)%bool with true; [split; reflexivity|].
  symmetry. apply orb_true_iff. destruct H as [H| ->]; [left|right; reflexivity].
  apply negb_true_iff, Nat.eqb_neq, H.
Qed.
Lemma pnp_bounded : forall (p3 : list (v3 T)) (p2 : list (v2 T)) q p,
  (po_calls (pnp_estimate cfg ldlt p3 p2 q p) <= pc_iter cfg)%nat /\ (po_calls (pnp_kernel cfg ldlt p3 p2 q p) <= pc_iter cfg)%nat.
Proof.
  intros. unfold pnp_estimate, pnp_kernel. destruct (_ || _)%bool; [cbn; lia|]. split; rewrite pnp_loop_calls; lia.
Qed.

(** ** The set of drawn indices *)
Lemma set_insert_In : forall x s y, In y (set_insert x s) <-> y = x \/ In y s.
Proof.
  intros x. induction s as [|a s IH]; intros y; cbn [set_insert]; [cbn; intuition|].
  destruct (Nat.ltb_spec x a); [cbn; intuition|]. destruct (Nat.eqb_spec x a) as [->|]; [cbn; intuition|].
  cbn [In]. rewrite IH. intuition.
Qed.
Lemma set_insert_sorted : forall x s, StronglySorted lt s -> StronglySorted lt (set_insert x s).
Proof.
  intros x. induction s as [|a s IH]; intros H; cbn [set_insert]; [repeat constructor|].
  inversion H as [|a' s' Hs Ha]; subst. destruct (Nat.ltb_spec x a).
  - constructor; [exact H|]. constructor; [assumption|]. eapply Forall_impl; [|exact Ha]. intros; lia.
  - destruct (Nat.eqb_spec x a) as [->|]; [exact H|]. constructor; [apply IH, Hs|].
    rewrite Forall_forall in *. intros y Hy. apply set_insert_In in Hy as [->|Hy]; [lia|auto].
Qed.
Lemma set_insert_len : forall x s, (length s <= length (set_insert x s) <= S (length s))%nat.
Proof.
  intros x. induction s as [|a s IH]; cbn [set_insert length]; [lia|]. destruct (Nat.ltb x a); [cbn; lia|].
  destruct (Nat.eqb x a); cbn [length]; lia.
Qed.
Lemma sorted_nodup : forall s, StronglySorted lt s -> NoDup s.
Proof.
  induction 1 as [|a s _ IH Ha]; constructor; [|exact IH]. intros Hin. rewrite Forall_forall in Ha. specialize (Ha _ Hin). lia.
Qed.
Lemma bounded_len : forall n s, StronglySorted lt s -> (forall x, In x s -> x < n)%nat -> (length s <= n)%nat.
Proof.
  intros n s Hs Hb. rewrite <- (seq_length n 0). apply NoDup_incl_length; [apply sorted_nodup, Hs|].
  intros x Hx. apply in_seq. specialize (Hb x Hx). lia.
Qed.
Lemma three_in : forall (s : list nat) a b c, a <> b -> a <> c -> b <> c -> In a s -> In b s -> In c s -> (3 <= length s)%nat.
Proof.
  intros s a b c Hab Hac Hbc Ha Hb Hc. change 3%nat with (length [a; b; c]). apply NoDup_incl_length.
  - repeat constructor; cbn; intuition.
  - intros x [<-|[<-|[<-|[]]]]; assumption.
Qed.

(** With fewer than three points the draw never ends. *)
Lemma ra_draw_small : forall rnd n, (0 < n < 3)%nat -> forall fuel pos s, StronglySorted lt s -> (forall x, In x s -> x < n)%nat ->
  ra_draw fuel rnd n pos s = None.
Proof.
  intros rnd n Hn. induction fuel as [|f IH]; intros pos s Hs Hb; cbn [ra_draw];
    pose proof (bounded_len n s Hs Hb); replace (Nat.ltb (length s) 3) with true by (symmetry; apply Nat.ltb_lt; lia); [reflexivity|].
  apply IH; [apply set_insert_sorted, Hs|]. intros x Hx. apply set_insert_In in Hx as [->|Hx]; [|auto].
  apply Nat.mod_upper_bound. lia.
Qed.
Lemma ransac_small : forall fuel rnd pos (p3 : list (v3 T)) (p2 : list (v2 T)) q p,
  (0 < length p3 < 3)%nat -> length p2 = length p3 -> (0 < ra_iter cfg)%nat ->
  pnp_ransac fuel cfg ldlt rnd pos p3 p2 q p = Ok None.
Proof.
  intros fuel rnd pos p3 p2 q p Hn Hl Hi. unfold pnp_ransac. rewrite Hl, Nat.eqb_refl.
  replace (Nat.eqb (length p3) 0) with false by (symmetry; apply Nat.eqb_neq; lia). cbn [negb orb].
  destruct (ra_iter cfg) as [|it]; [lia|]. cbn [ra_loop]. rewrite ra_draw_small; [reflexivity|exact Hn|constructor|intros x []].
Qed.

(** With three distinct residues coming, it ends, with three indices in range. *)
Lemma ra_draw_ends : forall (rnd : nat -> nat) (n a b c : nat), (0 < n)%nat -> a <> b -> a <> c -> b <> c ->
  forall d pos s, StronglySorted lt s -> (forall x, In x s -> x < n)%nat -> (length s <= 3)%nat ->
  (forall x, x = a \/ x = b \/ x = c -> In x s \/ exists k, (pos <= k < pos + d)%nat /\ Nat.modulo (rnd k) n = x) ->
  exists r pos', (pos <= pos' <= pos + d)%nat /\ length r = 3%nat /\ StronglySorted lt r /\ (forall x, In x r -> x < n)%nat /\
    forall fuel, (d <= fuel)%nat -> ra_draw fuel rnd n pos s = Some (r, pos').
Proof.
  intros rnd n a b c Hn Hab Hac Hbc. induction d as [|d IH]; intros pos s Hs Hb Hl Hx.
  - assert (3 <= length s)%nat. 
    { apply (three_in s a b c); try assumption; [destruct (Hx a)|destruct (Hx b)|destruct (Hx c)]; auto; destruct H as (k & Hk & _); lia. }
    exists s, pos. split; [lia|]. split; [lia|]. split; [exact Hs|]. split; [exact Hb|]. intros fuel _.
    destruct fuel; cbn [ra_draw]; replace (Nat.ltb (length s) 3) with false by (symmetry; apply Nat.ltb_ge; lia); reflexivity.
  - destruct (Nat.ltb (length s) 3) eqn:L.
    + apply Nat.ltb_lt in L. destruct (IH (S pos) (set_insert (Nat.modulo (rnd pos) n) s)) as (r & pos' & H1 & H2 & H3 & H4 & H5).
      * apply set_insert_sorted, Hs.
      * intros x H. apply set_insert_In in H as [->|H]; [apply Nat.mod_upper_bound; lia|auto].
      * pose proof (set_insert_len (Nat.modulo (rnd pos) n) s). lia.
      * intros x Hxx. destruct (Hx x Hxx) as [H|(k & Hk & E)]; [left; apply set_insert_In; auto|].
        destruct (Nat.eq_dec k pos) as [->|]; [left; apply set_insert_In; auto|right; exists k; split; [lia|exact E]].
      * exists r, pos'. split; [lia|]. split; [exact H2|]. split; [exact H3|]. split; [exact H4|]. intros [|f] Hf; [lia|].
        cbn [ra_draw]. replace (Nat.ltb (length s) 3) with true by (symmetry; apply Nat.ltb_lt; exact L). apply H5. lia.
    + apply Nat.ltb_ge in L. exists s, pos. split; [lia|]. split; [lia|]. split; [exact Hs|]. split; [exact Hb|]. intros fuel _.
      destruct fuel; cbn [ra_draw]; replace (Nat.ltb (length s) 3) with false by (symmetry; apply Nat.ltb_ge; exact L); reflexivity.
Qed.
Lemma fair_draw : forall rnd n pos, (0 < n)%nat -> fair n rnd -> exists d r pos', length r = 3%nat /\ (forall x, In x r -> x < n)%nat /\
  forall fuel, (d <= fuel)%nat -> ra_draw fuel rnd n pos [] = Some (r, pos').
Proof.
  intros rnd n pos Hn Hf. destruct (Hf pos) as (a & b & c & Ha & Hb & Hc & Hab & Hac & Hbc).
  destruct (ra_draw_ends rnd n _ _ _ Hn Hab Hac Hbc (a + b + c + 1) pos []) as (r & pos' & _ & H2 & _ & H4 & H5).
  - constructor.
  - intros x [].
  - cbn; lia.
  - intros x [->|[->| ->]]; right; [exists a|exists b|exists c]; (split; [lia|reflexivity]).
  - exists (a + b + c + 1)%nat, r, pos'. auto.
Qed.
Lemma pick_ok : forall {A} (l : list A) ix, (forall x, In x ix -> x < length l)%nat -> exists r, pick l ix = Ok r /\ length r = length ix.
Proof.
  intros A l. induction ix as [|i ix IH]; intros H; [exists []; split; reflexivity|]. cbn [pick]. unfold at_.
  destruct (nth_error l i) as [x|] eqn:E; [|apply nth_error_None in E; specialize (H i (or_introl eq_refl)); lia].
  destruct IH as (r & -> & Hr); [intros y Hy; apply H; right; exact Hy|]. exists (x :: r). cbn. split; [reflexivity|lia].
Qed.
Lemma ra_loop_ends : forall rnd (p3 : list (v3 T)) (p2 : list (v2 T)), (0 < length p3)%nat -> length p2 = length p3 -> fair (length p3) rnd ->
  forall iter bq bp bs q p pos tried, exists F o, ro_ok o = true /\
    forall fuel, (F <= fuel)%nat -> ra_loop fuel cfg ldlt rnd p3 p2 iter bq bp bs q p pos tried = Ok (Some o).
Proof.
  intros rnd p3 p2 Hn Hl Hf. induction iter as [|it IH]; intros bq bp bs q p pos tried.
  - exists 0%nat, (RaOut true q p pos tried). split; [reflexivity|]. intros fuel _. reflexivity.
  - destruct (fair_draw rnd _ pos Hn Hf) as (d & r & pos' & Hr & Hb & Hd).
    destruct (pick_ok p3 r Hb) as (s3 & E3 & _). destruct (pick_ok p2 r) as (s2d & E2 & _); [rewrite Hl; exact Hb|].
    cbn [ra_loop].
    set (e := pnp_estimate cfg ldlt s3 s2d bq bp).
    set (score := ra_score (ra_thr cfg) (combine p3 p2) (po_q e) (po_p e)).
    match goal with |- context [if ?x then Ok (Some ?o) else ra_loop _ _ _ _ _ _ _ ?bq' ?bp' ?bs' ?q' ?p' ?pos'' ?tr] => idtac | _ => idtac end.
    destruct (sltb (ra_rate cfg) (sdiv (sof32 (f32_of_Z (Z.of_nat score))) (sof32 (f32_of_Z (Z.of_nat (length p3)))))) eqn:X.
    + exists d, (RaOut true (po_q e) (po_p e) pos' (tried ++ [(po_q e, po_p e)])). split; [reflexivity|]. intros fuel Hfu.
      rewrite Hd by exact Hfu. rewrite E3, E2. cbn [obind]. fold e. fold score. rewrite X. reflexivity.
    + destruct (IH (if Nat.ltb bs score then po_q e else bq) (if Nat.ltb bs score then po_p e else bp) (if Nat.ltb bs score then score else bs)
        (po_q e) (po_p e) pos' (tried ++ [(po_q e, po_p e)])) as (F & o & Ho & HF).
      exists (d + F)%nat, o. split; [exact Ho|]. intros fuel Hfu. rewrite Hd by lia. rewrite E3, E2. cbn [obind]. fold e. fold score. rewrite X.
      apply HF. lia.
Qed.
Lemma ransac_ends : forall rnd pos (p3 : list (v3 T)) (p2 : list (v2 T)) q p,
  (0 < length p3)%nat -> length p2 = length p3 -> fair (length p3) rnd ->
  exists F o, ro_ok o = true /\ forall fuel, (F <= fuel)%nat -> pnp_ransac fuel cfg ldlt rnd pos p3 p2 q p = Ok (Some o).
Proof.
  intros rnd pos p3 p2 q p Hn Hl Hf. destruct (ra_loop_ends rnd p3 p2 Hn Hl Hf (ra_iter cfg) q p 0%nat q p pos []) as (F & o & Ho & HF).
  exists F, o. split; [exact Ho|]. intros fuel Hfu. unfold pnp_ransac. rewrite Hl, Nat.eqb_refl.
  replace (Nat.eqb (length p3) 0) with false by (symmetry; apply Nat.eqb_neq; lia). cbn [negb orb]. apply HF, Hfu.
Qed.

(** ** Which model is left *)
Definition rate_of (n score : nat) : T := sdiv (sof32 (f32_of_Z (Z.of_nat score))) (sof32 (f32_of_Z (Z.of_nat n))).
Lemma ra_loop_result : forall fuel rnd (p3 : list (v3 T)) (p2 : list (v2 T)) iter bq bp bs q p pos tried o,
  ra_loop fuel cfg ldlt rnd p3 p2 iter bq bp bs q p pos tried = Ok (Some o) ->
  ro_ok o = true /\ exists l, ro_tried o = tried ++ l /\ (length l <= iter)%nat /\
    ((l = [] /\ ro_q o = q /\ ro_p o = p) \/
     exists l0, l = l0 ++ [(ro_q o, ro_p o)] /\
       forall m, In m l0 -> sltb (ra_rate cfg) (rate_of (length p3) (ra_score (ra_thr cfg) (combine p3 p2) (fst m) (snd m))) = false).
Proof.
  intros fuel rnd p3 p2. induction iter as [|it IH]; intros bq bp bs q p pos tried o H; cbn [ra_loop] in H.
  - injection H as <-. split; [reflexivity|]. exists []. cbn. rewrite app_nil_r. split; [reflexivity|]. split; [lia|]. left. auto.
  - destruct (ra_draw _ _ _ _ _) as [[r pos']|]; [|discriminate].
    destruct (pick p3 r) as [s3|]; cbn [obind] in H; [|discriminate]. destruct (pick p2 r) as [s2d|]; cbn [obind] in H; [|discriminate].
    set (e := pnp_estimate cfg ldlt s3 s2d bq bp) in *. set (score := ra_score (ra_thr cfg) (combine p3 p2) (po_q e) (po_p e)) in *.
    destruct (sltb (ra_rate cfg) _) eqn:X in H.
    + injection H as <-. split; [reflexivity|]. exists [(po_q e, po_p e)]. cbn [ro_tried ro_q ro_p]. split; [reflexivity|]. split; [cbn; lia|].
      right. exists []. split; [reflexivity|intros m []].
    + apply IH in H as (Hok & l & Ht & Hlen & Hl). split; [exact Hok|]. exists ((po_q e, po_p e) :: l). rewrite <- app_assoc in Ht. split; [exact Ht|].
      split; [cbn; lia|]. right. destruct Hl as [(-> & -> & ->)|(l0 & -> & Hl)].
      * exists []. split; [reflexivity|intros m []].
      * exists ((po_q e, po_p e) :: l0). split; [reflexivity|]. intros m [<-|Hm]; [|auto]. cbn [fst snd]. exact X.
Qed.
Lemma ransac_last : forall fuel rnd pos (p3 : list (v3 T)) (p2 : list (v2 T)) q p o,
  pnp_ransac fuel cfg ldlt rnd pos p3 p2 q p = Ok (Some o) -> ro_ok o = true ->
  (length (ro_tried o) <= ra_iter cfg)%nat /\
  ((ro_tried o = [] /\ ro_q o = q /\ ro_p o = p) \/
   exists l0, ro_tried o = l0 ++ [(ro_q o, ro_p o)] /\
     forall m, In m l0 -> sltb (ra_rate cfg) (rate_of (length p3) (ra_score (ra_thr cfg) (combine p3 p2) (fst m) (snd m))) = false).
Proof.
  intros fuel rnd pos p3 p2 q p o H Hok. unfold pnp_ransac in H. destruct (_ || _)%bool; [injection H as <-; discriminate|].
  apply ra_loop_result in H as (_ & l & -> & Hl & H). cbn [app]. split; [exact Hl|exact H].
Qed.

(** ** Inlier flags *)
Lemma combine_nth_error : forall {A B} (l : list A) (m : list B) i x y, nth_error l i = Some x -> nth_error m i = Some y ->
  nth_error (combine l m) i = Some (x, y).
Proof.
  intros A B. induction l as [|a l IH]; intros [|b m] [|i] x y H1 H2; cbn in *; try discriminate; [congruence|auto].
Qed.
Lemma resize_len : forall fl n, length (resize_true fl n) = n.
Proof. intros. unfold resize_true. rewrite app_length, firstn_length, repeat_length. lia. Qed.
Lemma resize_nth : forall fl n i, (i < n)%nat -> nth_error (resize_true fl n) i = Some (nth i fl true).
Proof.
  intros fl n i H. unfold resize_true. destruct (Nat.lt_ge_cases i (length fl)) as [L|L].
  - rewrite nth_error_app1 by (rewrite firstn_length; lia). rewrite (nth_error_nth' _ true) by (rewrite firstn_length; lia).
    f_equal. rewrite <- (firstn_skipn n fl) at 2. rewrite app_nth1; [reflexivity|rewrite firstn_length; lia].
  - rewrite nth_error_app2 by (rewrite firstn_length; lia). rewrite (nth_overflow fl) by lia.
    rewrite nth_error_repeat; [reflexivity|]. rewrite firstn_length. lia.
Qed.
Lemma ransac_flags : forall fuel rnd pos (p3 : list (v3 T)) (p2 : list (v2 T)) q p fl o fl',
  pnp_ransac_flags fuel cfg ldlt rnd pos p3 p2 q p fl = Ok (Some (o, fl')) -> ro_ok o = true ->
  pnp_ransac fuel cfg ldlt rnd pos p3 p2 q p = Ok (Some o) /\ length fl' = length p3 /\
  forall i pt obs, nth_error p3 i = Some pt -> nth_error p2 i = Some obs ->
    nth_error fl' i = Some (if sleb (ra_thr cfg) (pnp_err (ro_q o) (ro_p o) (pt, obs)) then false else nth i fl true).
Proof.
  intros fuel rnd pos p3 p2 q p fl o fl' H Hok. unfold pnp_ransac_flags in H.
  destruct (pnp_ransac fuel cfg ldlt rnd pos p3 p2 q p) as [[o1|]|] eqn:E; cbn [obind] in H; try discriminate.
  assert (Hl : length p3 = length p2).
  { destruct (ro_ok o1) eqn:O; injection H as <- <-; [|congruence]. unfold pnp_ransac in E.
    destruct (Nat.eqb (length p3) (length p2)) eqn:L; [apply Nat.eqb_eq, L|]. cbn in E. injection E as <-. discriminate. }
  assert (o1 = o) by (destruct (ro_ok o1); congruence). subst o1. rewrite Hok in H. injection H as <-. split; [reflexivity|]. split.
  - rewrite map_length, combine_length, combine_length, resize_len. lia.
  - intros i pt obs H3 H2. assert (i < length p3)%nat by (apply nth_error_Some; congruence).
    erewrite map_nth_error; [|apply combine_nth_error; [apply resize_nth; assumption|apply combine_nth_error; eassumption]]. reflexivity.
Qed.
End Any.

(** ** Exact arithmetic *)
Local Open Scope R_scope.
Lemma pnp_loop_unit : forall ldlt w eps pts iter k (q : quat R) p, qunit q -> qunit (po_q (pnp_loop ldlt w eps pts iter k q p)).
Proof.
  intros ldlt w eps pts. induction iter as [|it IH]; intros k q p Hq; cbn [pnp_loop]; [exact Hq|].
  destruct (pnp_normal w q p pts) as [H b]. destruct (sisnan _); [exact Hq|]. destruct (sltb _ _); [cbn [po_q]; apply qstep_unit, Hq|].
  apply IH, qstep_unit, Hq.
Qed.
Lemma pnp_unit : forall cfg ldlt p3 p2 (q : quat R) p, qunit q ->
  qunit (po_q (pnp_estimate cfg ldlt p3 p2 q p)) /\ qunit (po_q (pnp_kernel cfg ldlt p3 p2 q p)).
Proof.
  intros. unfold pnp_estimate, pnp_kernel. destruct (_ || _)%bool; [split; assumption|]. split; apply pnp_loop_unit; assumption.
Qed.

Lemma res_zero : forall (q : quat R) p pt obs, qunit q -> reprojects q p pt obs -> pnp_res q p pt obs = V2 0 0.
Proof.
  intros q p pt obs Hq (c & Hc & Hz & ->). unfold pnp_res, pnp_pc. rewrite (camera_of _ _ _ _ Hq Hc). destruct c. vunf. f_equal; lra.
Qed.
Lemma normal_zero : forall w (q : quat R) p pts, qunit q -> (forall pt obs, In (pt, obs) pts -> reprojects q p pt obs) ->
  forall i, me (snd (pnp_normal w q p pts)) i 0%nat = 0.
Proof.
  intros w q p pts Hq Hp i. unfold pnp_normal.
  assert (G : forall acc, me (snd acc) i 0%nat = 0 -> me (snd (fold_left (pnp_accum w q p) pts acc)) i 0%nat = 0).
  { clear - Hq Hp. induction pts as [|[pt obs] pts IH]; intros acc Ha; [exact Ha|]. cbn [fold_left]. apply IH; [intros; apply Hp; right; assumption|].
    unfold pnp_accum. destruct acc as [H b]. cbn [fst snd] in *. destruct (slt64 _ _); [exact Ha|].
    rewrite (res_zero q p pt obs Hq) by (apply Hp; left; reflexivity).
    match goal with |- context [mmul (mopp (mtr ?J)) ?r] => set (db := mmul (mopp (mtr J)) r) end.
    assert (Hd : me db i 0%nat = 0) by (apply rsum_0; intros k _; cbn [me]; destruct k; cbn; ring).
    destruct w as [w|]; cbn [snd madd me sadd smul ops_R]; rewrite Ha, Hd; ring. }
  apply G. reflexivity.
Qed.
Definition zero_solver (ldlt : mat R -> mat R -> nat -> R) : Prop :=
  forall H b, (forall i, me b i 0%nat = 0) -> forall i, (i < 6)%nat -> ldlt H b i = 0.
Lemma step_zero : forall (q : quat R) (p : v3 R) dx, qunit q -> (forall i, (i < 6)%nat -> dx i = 0) ->
  v3add p (head3 dx) = p /\ qnormalize (qmul q (delta_q (tail3 dx))) = q.
Proof.
  intros q p dx Hq H. unfold head3, tail3. rewrite !H by lia. split; [destruct p; vring|].
  replace (qmul q (delta_q (V3 0 0 0))) with q; [apply qnormalize_of_unit, Hq|]. destruct q. vunf. apply q_ext; rops; field.
Qed.
Lemma pnp_loop_fix : forall ldlt w eps pts (q : quat R) p, qunit q -> zero_solver ldlt -> (forall pt obs, In (pt, obs) pts -> reprojects q p pt obs) ->
  forall iter k, let r := pnp_loop ldlt w eps pts iter k q p in po_ok r = true /\ po_q r = q /\ po_p r = p.
Proof.
  intros ldlt w eps pts q p Hq Hz Hp. induction iter as [|it IH]; intros k; cbn [pnp_loop]; [cbn; auto|].
  destruct (pnp_normal w q p pts) as [H b] eqn:N. cbn [sisnan ops_R].
  pose proof (normal_zero w q p pts Hq Hp) as Hb. rewrite N in Hb. cbn [snd] in Hb.
  destruct (step_zero q p (ldlt H b) Hq (Hz H b Hb)) as [-> ->]. destruct (sltb _ _); [cbn; auto|]. apply IH.
Qed.
Lemma pnp_fix : forall cfg ldlt p3 p2 (q : quat R) p, qunit q -> zero_solver ldlt -> length p3 = length p2 -> p3 <> [] ->
  (forall pt obs, In (pt, obs) (combine p3 p2) -> reprojects q p pt obs) ->
  (let r := pnp_estimate cfg ldlt p3 p2 q p in po_ok r = true /\ po_q r = q /\ po_p r = p) /\
  (let r := pnp_kernel cfg ldlt p3 p2 q p in po_ok r = true /\ po_q r = q /\ po_p r = p).
Proof.
  intros cfg ldlt p3 p2 q p Hq Hz Hl Hn Hp. unfold pnp_estimate, pnp_kernel. rewrite Hl, Nat.eqb_refl.
  replace (Nat.eqb (length p2) 0) with false by (symmetry; apply Nat.eqb_neq; destruct p3; [congruence|cbn in Hl; lia]). cbn [negb orb].
  split; apply pnp_loop_fix; assumption.
Qed.

(** The early exit is taken only by the best model. *)
Lemma f32_Z_mono : forall a b, (0 <= a <= b)%Z -> (b < 2 ^ 32)%Z -> B2R (f32_of_Z a) <= B2R (f32_of_Z b).
Proof.
  assert (G : forall z, (0 <= z < 2 ^ 32)%Z -> B2R (f32_of_Z z) = round radix2 (SpecFloat.fexp prec32 emax32) (round_mode mode_NE) (IZR z)).
  { intros z Hz. unfold f32_of_Z, f32_lit.
    pose proof (binary_normalize_correct prec32 emax32 prec32_gt_0 prec32_lt_emax mode_NE z 0 false) as C.
    unfold F2R in C. cbn [Fnum Fexp] in C. rewrite Rmult_1_r in C. rewrite Rlt_bool_true in C; [apply C|].
    rewrite Rabs_pos_eq.
    - apply Rle_lt_trans with (bpow radix2 32).
      + apply round_le_generic; [apply fexp_correct; reflexivity|apply valid_rnd_round_mode| |].
        * apply generic_format_bpow. cbn. lia.
        * apply Rlt_le. replace (bpow radix2 32) with (IZR (2 ^ 32)) by (cbn; reflexivity). apply IZR_lt. lia.
      + apply bpow_lt. reflexivity.
    - apply round_ge_generic; [apply fexp_correct; reflexivity|apply valid_rnd_round_mode|apply generic_format_0|apply IZR_le; lia]. }
  intros a b Ha Hb. rewrite !G by lia. apply round_le; [apply fexp_correct; reflexivity|apply valid_rnd_round_mode|apply IZR_le; lia].
Qed.
Lemma f32_1_val : B2R (f32_of_Z 1) = 1.
Proof.
  rewrite <- SF2R_B2SF. let y := eval vm_compute in (B2SF (f32_of_Z 1)) in
  replace (B2SF (f32_of_Z 1)) with y by (vm_compute; reflexivity). unfold SF2R, F2R. cbn. lra.
Qed.
Lemma rate_mono : forall n a b, (0 < n)%nat -> (Z.of_nat n < 2 ^ 32)%Z -> (a <= b <= n)%nat -> rate_of (T := R) n a <= rate_of n b.
Proof.
  intros n a b Hn Hn2 Hab. unfold rate_of. cbn [sdiv sof32 ops_R]. apply Rmult_le_compat_r.
  - apply Rlt_le, Rinv_0_lt_compat. apply Rlt_le_trans with 1; [lra|]. rewrite <- f32_1_val. apply f32_Z_mono; lia.
  - apply f32_Z_mono; lia.
Qed.
Lemma score_le : forall {T} {SO : SOps T} thr pts (q : quat T) p, (ra_score thr pts q p <= length pts)%nat.
Proof. intros. unfold ra_score. induction pts as [|a l IH]; cbn; [lia|]. destruct (sltb _ _); cbn; lia. Qed.
Lemma ransac_exit_best : forall cfg ldlt fuel rnd pos p3 p2 (q : quat R) p o, (Z.of_nat (length p3) < 2 ^ 32)%Z -> length p2 = length p3 ->
  pnp_ransac fuel cfg ldlt rnd pos p3 p2 q p = Ok (Some o) -> ro_ok o = true ->
  let score m := ra_score (ra_thr cfg) (combine p3 p2) (fst m) (snd m) in
  ra_rate cfg < rate_of (length p3) (score (ro_q o, ro_p o)) ->
  forall m, In m (ro_tried o) -> (score m <= score (ro_q o, ro_p o))%nat.
Proof.
  intros cfg ldlt fuel rnd pos p3 p2 q p o Hn Hl H Hok score Hr m Hm.
  destruct (ransac_last cfg ldlt _ _ _ _ _ _ _ _ H Hok) as (_ & [(E & _)|(l0 & E & Hl0)]); [rewrite E in Hm; destruct Hm|].
  rewrite E in Hm. apply in_app_or in Hm as [Hm|[<-|[]]]; [|lia]. specialize (Hl0 m Hm). apply sltb_R_false in Hl0.
  apply Nat.nlt_ge. intros C. 
  assert (Hp : (0 < length p3)%nat).
  { destruct p3; [|cbn; lia]. unfold pnp_ransac in H. cbn in H. destruct p2; [|discriminate]. cbn in H. injection H as <-. discriminate. }
  assert (rate_of (T := R) (length p3) (score (ro_q o, ro_p o)) <= rate_of (length p3) (score m)).
  { apply rate_mono; [exact Hp|exact Hn|]. split; [lia|]. unfold score. rewrite score_le, combine_length. lia. }
  unfold score in *. lra.
Qed.
Lemma ra_loop_unit : forall cfg ldlt fuel rnd p3 p2 iter (bq : quat R) bp bs q p pos tried o, qunit bq -> qunit q ->
  ra_loop fuel cfg ldlt rnd p3 p2 iter bq bp bs q p pos tried = Ok (Some o) -> qunit (ro_q o).
Proof.
  intros cfg ldlt fuel rnd p3 p2. induction iter as [|it IH]; intros bq bp bs q p pos tried o Hb Hq H; cbn [ra_loop] in H.
  - injection H as <-. exact Hq.
  - destruct (ra_draw _ _ _ _ _) as [[r pos']|]; [|discriminate].
    destruct (pick p3 r) as [s3|]; cbn [obind] in H; [|discriminate]. destruct (pick p2 r) as [s2d|]; cbn [obind] in H; [|discriminate].
    pose proof (proj1 (pnp_unit cfg ldlt s3 s2d bq bp Hb)) as Hu. destruct (sltb _ _) in H; [injection H as <-; exact Hu|].
    eapply IH; [| |exact H]; [|exact Hu]. destruct (Nat.ltb _ _); assumption.
Qed.
Lemma ransac_unit : forall cfg ldlt fuel rnd pos p3 p2 (q : quat R) p o, qunit q ->
  pnp_ransac fuel cfg ldlt rnd pos p3 p2 q p = Ok (Some o) -> qunit (ro_q o).
Proof.
  intros cfg ldlt fuel rnd pos p3 p2 q p o Hq H. unfold pnp_ransac in H. destruct (_ || _)%bool; [injection H as <-; exact Hq|].
  eapply ra_loop_unit; [| |exact H]; exact Hq.
Qed.
Lemma pnp_err_spec : forall (q : quat R) p pt, qunit q -> pnp_err q p pt = pair_err q p pt.
Proof. intros q p [pt obs] Hq. unfold pnp_err, pair_err, pnp_res, pnp_pc, reproj_err. rewrite (qinv_unit q Hq). reflexivity. Qed.
Lemma ransac_flags_R : forall cfg ldlt fuel rnd pos p3 p2 (q : quat R) p o fl fl', qunit q ->
  pnp_ransac_flags fuel cfg ldlt rnd pos p3 p2 q p fl = Ok (Some (o, fl')) -> ro_ok o = true ->
  length fl' = length p3 /\ forall i pt obs, nth_error p3 i = Some pt -> nth_error p2 i = Some obs ->
    (nth i fl' true = true <-> pair_err (ro_q o) (ro_p o) (pt, obs) < ra_thr cfg /\ nth i fl true = true).
Proof.
  intros cfg ldlt fuel rnd pos p3 p2 q p o fl fl' Hq H Hok. destruct (ransac_flags cfg ldlt _ _ _ _ _ _ _ _ _ _ H Hok) as (Hr & Hl & Hf).
  split; [exact Hl|]. intros i pt obs H3 H2. specialize (Hf i pt obs H3 H2). apply nth_error_nth with (d := true) in Hf. rewrite Hf.
  rewrite pnp_err_spec by (eapply ransac_unit; eauto). clear Hf. destruct (sleb _ _) eqn:E.
  - apply sleb_R in E. split; [intros C; cbn in C; discriminate C|]. intros [C _]. lra.
  - assert (~ ra_thr cfg <= pair_err (ro_q o) (ro_p o) (pt, obs)) by (intros C; apply sleb_R in C; congruence).
    split; [intros; split; [lra|assumption]|tauto].
Qed.

(** ** Weights *)
Lemma ln2_lt_1 : 0 < ln 2 < 1.
Proof.
  split; [rewrite <- ln_1; apply ln_increasing; lra|]. rewrite <- (ln_exp 1). apply ln_increasing; [lra|].
  pose proof (exp_ineq1 1 ltac:(lra)). lra.
Qed.
Lemma cauchy_1 : forall x : R, cauchy 1 x = if Rlt_dec 1 x then ln 2 / x else 1.
Proof.
  intros x. unfold cauchy. cbn [sltb slog sadd smul sdiv s1 ops_R]. unfold Rltb. destruct (Rlt_dec 1 x); [|reflexivity].
  replace (1 / (1 * 1) + 1) with 2 by field. field. lra.
Qed.
Lemma cauchy_range : forall x : R, 0 < cauchy 1 x <= 1.
Proof.
  intros x. rewrite cauchy_1. destruct (Rlt_dec 1 x) as [H|]; [|lra]. pose proof ln2_lt_1.
  assert (0 < / x < 1) by (split; [apply Rinv_0_lt_compat; lra|rewrite <- Rinv_1; apply Rinv_lt_contravar; lra]). unfold Rdiv. nra.
Qed.
Lemma cauchy_mono : forall x y : R, x <= y -> cauchy 1 y <= cauchy 1 x.
Proof.
  intros x y H. destruct (Rlt_dec 1 x) as [Hx|Hx].
  - rewrite !cauchy_1. destruct (Rlt_dec 1 x); [|lra]. destruct (Rlt_dec 1 y); [|lra]. pose proof ln2_lt_1.
    apply Rmult_le_compat_l; [lra|]. apply Rinv_le_contravar; lra.
  - rewrite (cauchy_1 x). destruct (Rlt_dec 1 x); [lra|]. apply cauchy_range.
Qed.
Lemma huber_1 : forall x : R, huber 1 x = if Rlt_dec 1 x then (2 * sqrt x - 1) / (sqrt x * sqrt x) else 1.
Proof.
  intros x. unfold huber, s2. cbn [sltb ssqrt sadd ssub smul sdiv s1 ops_R]. unfold Rltb. destruct (Rlt_dec 1 x); [|reflexivity].
  rewrite sqrt_sqrt by lra. field. lra.
Qed.
Lemma huber_range : forall x : R, 0 < huber 1 x <= 1.
Proof.
  intros x. rewrite huber_1. destruct (Rlt_dec 1 x) as [H|]; [|lra]. assert (1 < sqrt x) by (rewrite <- sqrt_1; apply sqrt_lt_1; lra).
  set (s := sqrt x) in *. assert (0 < s * s) by nra. split; [apply Rdiv_lt_0_compat; lra|]. apply Rmult_le_reg_r with (s * s); [lra|].
  unfold Rdiv. rewrite Rmult_assoc, Rinv_l by lra. nra.
Qed.
Lemma huber_mono : forall x y : R, x <= y -> huber 1 y <= huber 1 x.
Proof.
  intros x y H. destruct (Rlt_dec 1 x) as [Hx|Hx].
  - rewrite !huber_1. destruct (Rlt_dec 1 x); [|lra]. destruct (Rlt_dec 1 y); [|lra].
    assert (1 < sqrt x) by (rewrite <- sqrt_1; apply sqrt_lt_1; lra). assert (sqrt x <= sqrt y) by (apply sqrt_le_1; lra).
    set (s := sqrt x) in *. set (t := sqrt y) in *. assert (0 < s * s) by nra. assert (0 < t * t) by nra.
    apply Rmult_le_reg_r with (s * s * (t * t)); [nra|].
    replace ((2 * t - 1) / (t * t) * (s * s * (t * t))) with ((2 * t - 1) * (s * s)) by (field; nra).
    replace ((2 * s - 1) / (s * s) * (s * s * (t * t))) with ((2 * s - 1) * (t * t)) by (field; nra).
    assert (0 <= (t - s) * (2 * s * t - s - t)); [|nra]. apply Rmult_le_pos; [lra|]. nra.
  - rewrite (huber_1 x). destruct (Rlt_dec 1 x); [lra|]. apply huber_range.
Qed.
