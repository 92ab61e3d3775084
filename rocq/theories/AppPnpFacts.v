(** Facts about test_pnp (C89). *)
From Coq Require Import ZArith Reals List Bool Lia Lra Arith.
From Flocq Require Import Core IEEE754.BinarySingleNaN.
From Verif Require Import Fp Scalar Base LinAlg MathLib Triangulate Pnp MatFacts QuatFacts GeoSpec TriFacts PnpFacts
  LmFacts StepSpec StepFacts BackLenFacts AppGeometry.
Import ListNotations.
Local Open Scope R_scope.

(** ** Any scalar type: sizes, indices, no undefined behaviour *)
Section Any.
Context {T : Type} {SO : SOps T}.
Lemma pts_len : length (tp_pts (T := T)) = 729%nat.
Proof. reflexivity. Qed.
Lemma spoil_ok : forall (l : list (v2 T)) i, (i < length l)%nat -> exists r, tp_spoil l i = Ok r /\ length r = length l /\
  forall k, nth_error r k = if Nat.eqb k i then option_map (fun o => V2 (s_of_Z 10) (v2y o)) (nth_error l k) else nth_error l k.
Proof.
  induction l as [|o l IH]; intros i Hi; cbn [length] in Hi; [lia|]. destruct i as [|i]; cbn [tp_spoil].
  - eexists. split; [reflexivity|]. split; [reflexivity|]. intros [|k]; reflexivity.
  - destruct (IH i ltac:(lia)) as (r & -> & L & N). cbn [obind]. eexists. split; [reflexivity|]. split; [cbn; lia|].
    intros [|k]; [reflexivity|]. cbn. apply N.
Qed.
Lemma outliers_ok : forall rnd n, (0 < n)%nat -> forall k pos (l : list (v2 T)) ix, length l = n ->
  exists r jx, tp_outliers k pos rnd n l ix = Ok (r, ix ++ jx) /\ length r = n /\ jx = map (fun i => Nat.modulo (rnd i) n) (seq pos k) /\
  forall i, nth_error r i = if in_dec Nat.eq_dec i jx then option_map (fun o => V2 (s_of_Z 10) (v2y o)) (nth_error l i) else nth_error l i.
Proof.
  intros rnd n Hn. induction k as [|k IH]; intros pos l ix L; cbn [tp_outliers].
  - exists l, []. rewrite app_nil_r. repeat split; try assumption; reflexivity.
  - destruct (spoil_ok l (Nat.modulo (rnd pos) n)) as (r & -> & L' & N); [rewrite L; apply Nat.mod_upper_bound; lia|]. cbn [obind].
    destruct (IH (S pos) r (ix ++ [Nat.modulo (rnd pos) n]) ltac:(lia)) as (r' & jx & -> & L'' & J & N').
    exists r', (Nat.modulo (rnd pos) n :: jx). rewrite <- app_assoc. cbn [app]. split; [reflexivity|]. split; [exact L''|]. split; [cbn [seq map]; rewrite J; reflexivity|].
    intros i. rewrite N', N. set (a := Nat.modulo (rnd pos) n) in *. destruct (in_dec Nat.eq_dec i jx) as [I|I], (in_dec Nat.eq_dec i (a :: jx)) as [I'|I'].
    + destruct (Nat.eqb i a); [|reflexivity]. destruct (nth_error l i); reflexivity.
    + exfalso. apply I'. right. exact I.
    + destruct I' as [->|I']; [rewrite Nat.eqb_refl; reflexivity|contradiction].
    + destruct (Nat.eqb_spec i a) as [->|]; [exfalso; apply I'; left; reflexivity|reflexivity].
Qed.
Lemma data_ok : forall rnd, exists obs, let ix := map (fun i => Nat.modulo (rnd i) 729) (seq 0 7) in
  tp_data rnd = Ok (obs, ix) /\ length obs = 729%nat /\
  forall i, nth_error obs i = if in_dec Nat.eq_dec i ix then option_map (fun pt => V2 (s_of_Z 10) (v2y (tp_image pt))) (nth_error tp_pts i)
    else option_map tp_image (nth_error tp_pts i).
Proof.
  intros rnd. unfold tp_data, tp_count. rewrite pts_len. change (729 / 100)%nat with 7%nat.
  destruct (outliers_ok rnd 729 ltac:(lia) 7 0 (map tp_image tp_pts) []) as (r & jx & E & L & J & N); [rewrite map_length; apply pts_len|].
  rewrite E. cbn [app]. exists r. cbv zeta. rewrite <- J. split; [reflexivity|]. split; [exact L|].
  intros i. rewrite N, nth_error_map. destruct (in_dec _ _ _); [|reflexivity]. destruct (nth_error tp_pts i); reflexivity.
Qed.
Lemma draw_in : forall fuel rnd n pos s r pos', (0 < n)%nat -> (forall x, In x s -> x < n)%nat -> ra_draw fuel rnd n pos s = Some (r, pos') -> forall x, In x r -> (x < n)%nat.
Proof.
  induction fuel as [|f IH]; intros rnd n pos s r pos' Hn Hs H x Hx; cbn [ra_draw] in H; destruct (Nat.ltb _ _); try discriminate H.
  - injection H as <- <-. apply Hs, Hx.
  - revert Hx. eapply IH; [exact Hn| |exact H]. intros y Hy. apply set_insert_In in Hy as [->|Hy]; [apply Nat.mod_upper_bound; lia|apply Hs, Hy].
  - injection H as <- <-. apply Hs, Hx.
Qed.
Lemma loop_safe : forall fuel cfg ldlt rnd (p3 : list (v3 T)) (p2 : list (v2 T)) iter bq bp bs q p pos tried, (0 < length p3)%nat -> length p2 = length p3 ->
  safe (ra_loop fuel cfg ldlt rnd p3 p2 iter bq bp bs q p pos tried).
Proof.
  intros fuel cfg ldlt rnd p3 p2. induction iter as [|it IH]; intros bq bp bs q p pos tried H3 H2; cbn [ra_loop]; [eexists; reflexivity|].
  destruct (ra_draw fuel rnd (length p3) pos []) as [[ix pos']|] eqn:E; [|eexists; reflexivity].
  assert (I : forall x, In x ix -> (x < length p3)%nat) by (eapply draw_in; [exact H3| |exact E]; intros x []).
  destruct (pick_ok p3 ix I) as (s3 & -> & _). cbn [obind]. destruct (pick_ok p2 ix) as (s2 & -> & _); [rewrite H2; exact I|]. cbn [obind].
  destruct (sltb _ _); [eexists; reflexivity|]. apply IH; assumption.
Qed.
Theorem ransac_safe : forall fuel cfg ldlt rnd pos (p3 : list (v3 T)) (p2 : list (v2 T)) q p, safe (pnp_ransac fuel cfg ldlt rnd pos p3 p2 q p).
Proof.
  intros. unfold pnp_ransac. destruct (_ || _)%bool eqn:E; [eexists; reflexivity|]. apply orb_false_iff in E as [E1 E2].
  apply negb_false_iff, Nat.eqb_eq in E1. apply Nat.eqb_neq in E2. apply loop_safe; lia.
Qed.
Theorem app_safe : forall fuel ldlt rnd, safe (app_pnp (T := T) fuel ldlt rnd).
Proof.
  intros. unfold app_pnp. destruct (data_ok rnd) as (obs & E & _). cbv zeta in E. rewrite E. cbn [obind fst].
  match goal with |- context [pnp_ransac ?a ?b ?c ?d ?e ?f ?g ?h ?i] => destruct (ransac_safe a b c d e f g h i) as [o ->] end. eexists. reflexivity.
Qed.
Theorem app_ends : forall ldlt rnd, fair 729 rnd -> exists F r, forall fuel, (F <= fuel)%nat -> app_pnp (T := T) fuel ldlt rnd = Ok (Some r).
Proof.
  intros ldlt rnd Hf. destruct (data_ok rnd) as (obs & E & L & _). cbv zeta in E.
  destruct (ransac_ends pnp_default ldlt rnd tp_count (tp_pts (T := T)) obs qid v3zero) as (F & o & _ & H); [rewrite pts_len; lia|rewrite pts_len; exact L|rewrite pts_len; exact Hf|].
  exists F. eexists. intros fuel HF. unfold app_pnp. rewrite E. cbn [obind fst]. rewrite (H fuel HF). cbn [obind]. reflexivity.
Qed.
End Any.

Lemma pair_ok : forall {A B} (a a' : A) (b b' : B), Ok (a, b) = Ok (a', b') -> a = a' /\ b = b'.
Proof. intros. split; congruence. Qed.

(** ** The scene over the reals *)
Definition PW : v3 R := V3 1 (-3) 0.
Lemma sZ_10 : @s_of_Z R _ 10 = 10. Proof. unfold s_of_Z. bval (f32_of_Z 10). Qed.
Lemma tp_p_val : @tp_p R _ = PW.
Proof. unfold tp_p, PW, s_of_Z. apply v3_ext; cbn [v3x v3y v3z]; [bval (f32_of_Z 1)|bval (f32_of_Z (-3))|bval (f32_of_Z 0)]. Qed.
Lemma sZ_small : forall i, In i (seq 1 9) -> 1 <= @s_of_Z R _ (Z.of_nat i) <= 9 /\ 2 <= @s_of_Z R _ (Z.of_nat i * 2).
Proof.
  intros i H. unfold s_of_Z. cbn [seq In] in H.
  destruct H as [<-|[<-|[<-|[<-|[<-|[<-|[<-|[<-|[<-|[]]]]]]]]]];
  match goal with |- context [f32_of_Z (Z.of_nat ?n)] => let z := eval vm_compute in (Z.of_nat n) in let z2 := eval vm_compute in (Z.of_nat n * 2)%Z in
    change (Z.of_nat n * 2)%Z with z2; change (Z.of_nat n) with z; split; [bval (f32_of_Z z)|bval (f32_of_Z z2)] end.
Qed.
Lemma in_pts : forall pt, In pt (tp_pts (T := R)) -> exists x y z, pt = V3 x y z /\ 1 <= x <= 9 /\ 1 <= y <= 9 /\ 2 <= z.
Proof.
  intros pt H. unfold tp_pts in H. apply in_flat_map in H as (i & Hi & H). apply in_flat_map in H as (j & Hj & H). apply in_map_iff in H as (k & <- & Hk).
  exists (s_of_Z (Z.of_nat i)), (s_of_Z (Z.of_nat j)), (s_of_Z (Z.of_nat k * 2)). split; [reflexivity|]. split; [apply sZ_small, Hi|]. split; [apply sZ_small, Hj|apply sZ_small, Hk].
Qed.
Lemma image_val : forall x y z, tp_image (V3 x y z) = V2 ((x - 1) / z) ((y + 3) / z).
Proof.
  intros x y z. unfold tp_image, tp_R. rewrite tp_p_val. unfold PW. vunf.
  replace (1 * (x - 1) + (0 * (y - -3) + 0 * (z - 0))) with (x - 1) by ring. replace (0 * (x - 1) + (1 * (y - -3) + 0 * (z - 0))) with (y + 3) by ring.
  replace (0 * (x - 1) + (0 * (y - -3) + 1 * (z - 0))) with z by ring. reflexivity.
Qed.
Lemma camera_val : forall x y z c, at_camera qid PW (V3 x y z) c -> c = V3 (x - 1) (y + 3) z.
Proof. intros x y z [c0 c1 c2] H. unfold at_camera, PW in H. vunf. injection H as -> -> ->. f_equal; ring. Qed.
Lemma exact_image : forall pt, In pt tp_pts -> reprojects qid PW pt (tp_image pt).
Proof.
  intros pt H. destruct (in_pts pt H) as (x & y & z & -> & Hx & Hy & Hz). rewrite image_val. exists (V3 (x - 1) (y + 3) z).
  split; [|split; [cbn; lra|reflexivity]]. unfold at_camera, PW. vring.
Qed.
Lemma small_x : forall pt, In pt (tp_pts (T := R)) -> v2x (tp_image pt) <= 4.
Proof.
  intros pt H. destruct (in_pts pt H) as (x & y & z & -> & Hx & Hy & Hz). rewrite image_val. cbn [v2x].
  apply Rmult_le_reg_r with z; [lra|]. unfold Rdiv. rewrite Rmult_assoc, Rinv_l by lra. lra.
Qed.
Theorem scene : forall rnd, exists obs ix, tp_data (T := R) rnd = Ok (obs, ix) /\ length (tp_pts (T := R)) = 729%nat /\ length obs = 729%nat /\
  ix = map (fun i => Nat.modulo (rnd i) 729) (seq 0 7) /\
  forall i pt o, nth_error tp_pts i = Some pt -> nth_error obs i = Some o ->
    (In i ix -> v2x o = 10 /\ ~ reprojects qid PW pt o) /\ (~ In i ix -> reprojects qid PW pt o).
Proof.
  intros rnd. destruct (data_ok (T := R) rnd) as (obs & E & L & N). cbv zeta in E, N. eexists obs, _. split; [exact E|]. split; [apply pts_len|]. split; [exact L|]. split; [reflexivity|].
  intros i pt o Hp Ho. rewrite N, Hp in Ho. assert (Hin : In pt tp_pts) by (eapply nth_error_In; exact Hp).
  destruct (in_dec _ _ _) as [I|I]; cbn [option_map] in Ho; (split; intros I2); try contradiction.
  - assert (Eo : o = V2 (s_of_Z 10) (v2y (tp_image pt))) by congruence. clear Ho. subst o. cbn [v2x]. rewrite sZ_10. split; [reflexivity|].
    intros (c & Hc & Hz & Hb). pose proof (small_x pt Hin) as S. destruct (in_pts pt Hin) as (x & y & z & -> & Hx & Hy & Hz').
    rewrite image_val in S. cbn [v2x] in S. rewrite (camera_val _ _ _ _ Hc) in Hb. cbn [v3x v3y v3z] in Hb. apply (f_equal v2x) in Hb. cbn [v2x] in Hb. lra.
  - assert (Eo : o = tp_image pt) by congruence. subst o. apply exact_image, Hin.
Qed.

(** ** The true pose explains every pair but the spoiled ones *)
Lemma filter_index : forall {A} (f : A -> bool) (l : list A) d, length (List.filter f l) = length (List.filter (fun i => f (nth i l d)) (seq 0 (length l))).
Proof.
  intros A f l d. induction l as [|x l IH] using rev_ind; [reflexivity|]. rewrite filter_app, app_length, IH, app_length, seq_app, filter_app, app_length. cbn [length seq Nat.add List.filter].
  f_equal.
  - f_equal. apply filter_ext_in. intros i Hi. apply in_seq in Hi. rewrite app_nth1 by lia. reflexivity.
  - rewrite app_nth2, Nat.sub_diag by lia. cbn [nth]. destruct (f x); reflexivity.
Qed.
Lemma filter_split : forall {A} (f : A -> bool) l, (length (List.filter f l) + length (List.filter (fun x => negb (f x)) l) = length l)%nat.
Proof. intros A f l. induction l as [|x l IH]; [reflexivity|]. cbn [List.filter length]. destruct (f x); cbn [length negb]; lia. Qed.
Lemma count_but : forall {A} (f : A -> bool) (l : list A) ix, (forall i, In i ix -> (i < length l)%nat) ->
  (forall i x, nth_error l i = Some x -> (f x = false <-> In i ix)) -> (length (List.filter f l) + length (nodup Nat.eq_dec ix) = length l)%nat.
Proof.
  intros A f l ix Hix H. destruct l as [|d l0] eqn:El.
  { destruct ix as [|a ix]; [reflexivity|]. exfalso. specialize (Hix a (or_introl eq_refl)). cbn in Hix. lia. }
  rewrite <- El in *. clear El l0. rewrite (filter_index f l d).
  pose proof (filter_split (fun i => f (nth i l d)) (seq 0 (length l))) as S. rewrite seq_length in S. rewrite <- S at 2. f_equal.
  apply Nat.le_antisymm; apply NoDup_incl_length; try apply NoDup_nodup; try (apply List.NoDup_filter, seq_NoDup).
  - intros i Hi. apply nodup_In in Hi. pose proof (Hix i Hi) as Hl. apply filter_In. split; [apply in_seq; lia|].
    rewrite (proj2 (H i (nth i l d) ltac:(apply nth_error_nth'; exact Hl)) Hi). reflexivity.
  - intros i Hi. apply filter_In in Hi as [Hs Hn]. apply in_seq in Hs. apply nodup_In. apply (H i (nth i l d)); [apply nth_error_nth'; lia|].
    destruct (f (nth i l d)); [discriminate Hn|reflexivity].
Qed.
Lemma combine_nth_inv : forall {A B} (l : list A) (m : list B) i x, nth_error (combine l m) i = Some x -> nth_error l i = Some (fst x) /\ nth_error m i = Some (snd x).
Proof.
  induction l as [|a l IH]; intros m i x H; [destruct i; discriminate H|]. destruct m as [|b m]; [destruct i; discriminate H|].
  destruct i as [|i]; cbn in H |- *; [injection H as <-; split; reflexivity|apply IH, H].
Qed.
Lemma thr_val : 0 < ra_thr (pnp_default (T := R)) < 1.
Proof. unfold pnp_default. cbn [ra_thr]. bval (f32_lit 0x83126f (-33)). Qed.
Lemma rate_val : ra_rate (pnp_default (T := R)) < 91 / 100.
Proof. unfold pnp_default. cbn [ra_rate]. bval (f32_lit 0xe66666 (-24)). Qed.
Lemma err_exact : forall pt o, reprojects qid PW pt o -> pair_err qid PW (pt, o) = 0.
Proof.
  intros pt o (c & Hc & Hz & ->). unfold pair_err, reproj_err. cbn [fst snd].
  replace (qrot (qconj qid) (v3sub pt PW)) with c; [cbn [v2x v2y]; ring|]. rewrite Hc. destruct c. clear. unfold PW. vring.
Qed.
Lemma err_spoiled : forall pt y, In pt tp_pts -> 36 <= pair_err qid PW (pt, V2 10 y).
Proof.
  intros pt y0 H. pose proof (small_x pt H) as S. destruct (in_pts pt H) as (x & y & z & -> & Hx & Hy & Hz). rewrite image_val in S. cbn [v2x] in S.
  unfold pair_err, reproj_err. cbn [fst snd v2x v2y].
  replace (qrot (qconj qid) (v3sub (V3 x y z) PW)) with (V3 (x - 1) (y + 3) z) by (unfold PW; vring). cbn [v3x v3y v3z].
  assert (0 <= ((y + 3) / z - y0) * ((y + 3) / z - y0)) by apply Rle_0_sqr. nra.
Qed.
Theorem true_pose_score : forall rnd obs ix, tp_data (T := R) rnd = Ok (obs, ix) ->
  (ra_score (ra_thr pnp_default) (combine tp_pts obs) qid PW + length (nodup Nat.eq_dec ix) = 729)%nat.
Proof.
  intros rnd obs ix E. destruct (data_ok (T := R) rnd) as (obs' & E' & L & N). cbv zeta in E', N. rewrite E in E'.
  apply pair_ok in E' as [<- ->].
  set (ix := map _ _) in *. unfold ra_score.
  assert (LC : length (combine (tp_pts (T := R)) obs) = 729%nat) by (rewrite combine_length, L, pts_len; reflexivity).
  transitivity (length (combine (tp_pts (T := R)) obs)); [|exact LC].
  apply count_but.
  - intros i Hi. rewrite LC. unfold ix in Hi. apply in_map_iff in Hi as (k & <- & _). apply Nat.mod_upper_bound. lia.
  - intros i [pt o] Hx. apply combine_nth_inv in Hx as [Hp Ho]. cbn [fst snd] in Hp, Ho. rewrite N, Hp in Ho. cbn [option_map] in Ho.
    assert (Hin : In pt tp_pts) by (eapply nth_error_In; exact Hp). rewrite (pnp_err_spec qid PW (pt, o)) by (unfold qunit; vunf; ring).
    change (sltb ?a ?b) with (Rltb a b). unfold Rltb. pose proof thr_val as TV. destruct (in_dec Nat.eq_dec i ix) as [I|I].
    + assert (Eo : o = V2 (s_of_Z 10) (v2y (tp_image pt))) by congruence. subst o. rewrite sZ_10. pose proof (err_spoiled pt (v2y (tp_image pt)) Hin).
      destruct (Rlt_dec _ _); [lra|]. split; auto.
    + assert (Eo : o = tp_image pt) by congruence. subst o. rewrite (err_exact _ _ (exact_image pt Hin)). destruct (Rlt_dec _ _); [|lra]. split; [discriminate|contradiction].
Qed.
Theorem true_pose_accepted : forall rnd obs ix, tp_data (T := R) rnd = Ok (obs, ix) ->
  ra_rate pnp_default < rate_of 729 (ra_score (ra_thr pnp_default) (combine tp_pts obs) qid PW).
Proof.
  intros rnd obs ix E. pose proof (true_pose_score rnd obs ix E) as S. destruct (data_ok (T := R) rnd) as (obs' & E' & L & _). cbv zeta in E'. rewrite E in E'. apply pair_ok in E' as [_ Eix].
  assert (K : (length (nodup Nat.eq_dec ix) <= 7)%nat).
  { rewrite Eix. apply Nat.le_trans with (length (map (fun i => Nat.modulo (rnd i) 729) (seq 0 7))); [|rewrite map_length; reflexivity].
    apply NoDup_incl_length; [apply NoDup_nodup|]. intros x Hx. apply nodup_In in Hx. exact Hx. }
  apply Rlt_le_trans with (rate_of (T := R) 729 722).
  - apply Rlt_trans with (91 / 100); [exact rate_val|]. unfold rate_of. cbn [sdiv ops_R].
    assert (E1 : sof32 (f32_of_Z (Z.of_nat 722)) = 722) by (change (Z.of_nat 722) with 722%Z; bval (f32_of_Z 722)).
    assert (E2 : sof32 (f32_of_Z (Z.of_nat 729)) = 729) by (change (Z.of_nat 729) with 729%Z; bval (f32_of_Z 729)).
    rewrite E1, E2. lra.
  - apply rate_mono; lia.
Qed.

(** ** Both refinements leave the true pose *)
Lemma unit_id : qunit (qid (T := R)).
Proof. unfold qunit. vunf. ring. Qed.
Lemma lsum_pos : forall A (f : A -> R) l x, (forall y, In y l -> 0 <= f y) -> In x l -> 0 < f x -> 0 < lsum f l.
Proof.
  intros A f l x H Hx Hp. induction l as [|a l IH]; [destruct Hx|]. cbn [lsum].
  assert (0 <= f a) by (apply H; left; reflexivity). assert (0 <= lsum f l) by (apply lsum_nonneg; intros y Hy; apply H; right; exact Hy).
  destruct Hx as [->|Hx]; [lra|]. specialize (IH (fun y Hy => H y (or_intror Hy)) Hx). lra.
Qed.
Definition e0 (i : nat) : R := if Nat.eqb i 0 then 1 else 0.
Lemma jx_e0 : forall x y z o, 2 <= z -> jx qid PW (V3 x y z, o) 0 e0 = - (1 / z) /\ jx qid PW (V3 x y z, o) 1 e0 = 0 /\
  rx qid PW (V3 x y z, o) = (x - 1) / z - v2x o.
Proof.
  intros x y z o Hz. unfold jx, rx, pnp_res, pnp_jac. cbn [fst snd]. 
  assert (C : pnp_pc qid PW (V3 x y z) = V3 (x - 1) (y + 3) z).
  { rewrite (pc_conj qid PW unit_id). unfold PW. vring. }
  rewrite C. rewrite (qinv_unit qid unit_id). split; [|split; [|reflexivity]]; cbn [rsum me Nat.ltb Nat.leb row_mul e0 Nat.eqb Nat.sub];
  unfold e0, row_mul; vunf; cbn; field; lra.
Qed.
Theorem first_step_leaves : forall wt w eps ldlt obs ix rnd, solves_psd ldlt ->
  (forall e, 0 <= e -> 0 < w e /\ match wt with None => w e = 1 | Some k => k (R_sqrt.sqrt e) = w e end) ->
  tp_data (T := R) rnd = Ok (obs, ix) -> let r := pnp_loop ldlt wt eps (combine tp_pts obs) 1 0 qid PW in (po_q r, po_p r) <> (qid, PW).
Proof.
  intros wt w eps ldlt obs ix rnd Hs Hw E r.
  destruct (data_ok (T := R) rnd) as (obs' & E' & L & N). cbv zeta in E', N. rewrite E in E'.
  apply pair_ok in E' as [<- ->].
  set (pts := combine tp_pts obs) in *. 
  destruct (normal_solved qid PW unit_id wt w Hw pts ldlt Hs) as (H & b & En & _ & Hb & Hd).
  assert (Hpt : forall pt, In pt pts -> In (fst pt) tp_pts /\ (snd pt = tp_image (fst pt) \/ v2x (snd pt) = 10)).
  { intros pt Hin. apply In_nth_error in Hin as [i Hi]. apply combine_nth_inv in Hi as [Hp Ho]. split; [eapply nth_error_In; exact Hp|].
    rewrite N, Hp in Ho. cbn [option_map] in Ho. destruct (in_dec _ _ _); [right|left; congruence].
    replace (snd pt) with (V2 (s_of_Z 10) (v2y (tp_image (fst pt)))) by congruence. cbn [v2x]. apply sZ_10. }
  assert (Hterm : forall pt, In pt pts -> rx qid PW pt * jx qid PW pt 0 e0 + ry qid PW pt * jx qid PW pt 1 e0 = (v2x (snd pt) - v2x (tp_image (fst pt))) / v3z (fst pt) /\ off_plane qid PW pt = true /\
     0 < v3z (fst pt) /\ 0 <= (v2x (snd pt) - v2x (tp_image (fst pt))) / v3z (fst pt)).
  { intros [pt o] Hin. destruct (Hpt _ Hin) as [Hp Ho]. cbn [fst snd] in *. pose proof (small_x pt Hp) as Sx. destruct (in_pts pt Hp) as (x & y & z & -> & Hx & Hy & Hz).
    destruct (jx_e0 x y z o Hz) as (J0 & J1 & Rx). rewrite J0, J1, Rx. rewrite image_val in *. cbn [v2x v3z] in *. split; [field; lra|]. split; [|split; [lra|]].
    - unfold off_plane. cbn [fst]. replace (qrot (qconj qid) (v3sub (V3 x y z) PW)) with (V3 (x - 1) (y + 3) z) by (unfold PW; vring). cbn [v3z].
      destruct (Rle_dec _ _) as [_|K]; [reflexivity|]. exfalso. apply K. rewrite Rabs_pos_eq by lra. lra.
    - apply Rmult_le_pos; [|apply Rlt_le, Rinv_0_lt_compat; lra]. destruct Ho as [->|Ho]; [cbn [v2x]; lra|rewrite Ho; lra]. }
  assert (Hbad : exists pt, In pt pts /\ v2x (snd pt) = 10).
  { set (i := Nat.modulo (rnd 0%nat) 729). assert (Hi : (i < 729)%nat) by (apply Nat.mod_upper_bound; lia).
    destruct (nth_error tp_pts i) as [pt|] eqn:Ep; [|apply nth_error_None in Ep; rewrite pts_len in Ep; lia].
    exists (pt, V2 (s_of_Z 10) (v2y (tp_image pt))). split; [|apply sZ_10]. apply nth_error_In with i. apply combine_nth_error; [exact Ep|].
    rewrite N, Ep. destruct (in_dec _ _ _) as [_|K]; [reflexivity|]. exfalso. apply K. left. reflexivity. }
  assert (Pos : bform b e0 < 0).
  { rewrite Hb. apply Ropp_lt_gt_0_contravar. destruct Hbad as (pt & Hin & H10). apply lsum_pos with pt.
    - intros y Hy. apply filter_In in Hy as [Hy _]. destruct (Hterm y Hy) as (-> & _ & _ & G). apply Rmult_le_pos; [apply Rlt_le; apply (wp_pos qid PW unit_id wt w Hw)|exact G].
    - apply filter_In. split; [exact Hin|apply Hterm, Hin].
    - destruct (Hterm pt Hin) as (-> & _ & Hz & _). apply Rmult_lt_0_compat; [apply (wp_pos qid PW unit_id wt w Hw)|]. rewrite H10.
      apply Rmult_lt_0_compat; [pose proof (small_x _ (proj1 (Hpt _ Hin))); lra|apply Rinv_0_lt_compat; exact Hz]. }
  intros C. unfold r in C. cbn [pnp_loop] in C. change (sisnan ?x) with false in C. rewrite En in C. cbn iota in C. set (dx := ldlt H b) in *.
  assert (C' : (qnormalize (qmul qid (delta_q (tail3 dx))), v3add PW (head3 dx)) = (qid, PW)) by (destruct (sltb _ _); exact C). clear C.
  pose proof (f_equal fst C') as Cq. pose proof (f_equal snd C') as Cp. cbn [fst snd] in Cq, Cp. clear C'.
  assert (Z : hform H e0 dx = 0).
  { unfold hform. apply rsum_0. intros i Hi. unfold fvec. rewrite rsum_0; [ring|]. intros k Hk.
    assert (D : dx k = 0); [|rewrite D; ring].
    assert (Dh : dx 0%nat = 0 /\ dx 1%nat = 0 /\ dx 2%nat = 0).
    { unfold PW, head3 in Cp. vunf. injection Cp as C1 C2 C3. lra. }
    assert (Dt : dx 3%nat = 0 /\ dx 4%nat = 0 /\ dx 5%nat = 0).
    { set (th := tail3 dx) in *. assert (V : 0 < qnorm2 (qmul qid (delta_q th))) by (destruct th; vunf; nra).
      assert (W : qw (qmul qid (delta_q th)) = 1 /\ qx (qmul qid (delta_q th)) = v3x th / 2 /\ qy (qmul qid (delta_q th)) = v3y th / 2 /\ qz (qmul qid (delta_q th)) = v3z th / 2)
        by (destruct th; vunf; repeat split; lra).
      unfold qnormalize in Cq. change (sltb s0 ?x) with (Rltb 0 x) in Cq. unfold Rltb in Cq. destruct (Rlt_dec 0 _) as [_|K]; [|contradiction].
      set (u := qmul qid (delta_q th)) in *. destruct W as (_ & W1 & W2 & W3). clearbody u.
      pose proof (f_equal qx Cq) as C1. pose proof (f_equal qy Cq) as C2. pose proof (f_equal qz Cq) as C3. unfold qdivs, qid in C1, C2, C3. cbn [qx qy qz] in C1, C2, C3. rewrite W1 in C1. rewrite W2 in C2. rewrite W3 in C3.
      cbn [sdiv ssqrt s0 ops_R] in C1, C2, C3. pose proof (sqrt_lt_R0 _ V) as G. 
      assert (F : forall a, a / 2 / R_sqrt.sqrt (qnorm2 u) = 0 -> a = 0).
      { intros a Ha. apply Rmult_integral in Ha as [Ha|Ha]; [lra|]. pose proof (Rinv_0_lt_compat _ G). lra. }
      split; [exact (F _ C1)|]. split; [exact (F _ C2)|exact (F _ C3)]. }
    destruct k as [|[|[|[|[|[|k]]]]]]; try tauto. lia. }
  rewrite Hd in Z. lra.
Qed.
Theorem estimates_leave : forall cfg ldlt rnd obs ix, solves_psd ldlt -> pc_iter cfg = 1%nat -> tp_data (T := R) rnd = Ok (obs, ix) ->
  (let r := pnp_estimate cfg ldlt tp_pts obs qid PW in po_ok r = true /\ (po_q r, po_p r) <> (qid, PW)) /\
  (let r := pnp_kernel cfg ldlt tp_pts obs qid PW in po_ok r = true /\ (po_q r, po_p r) <> (qid, PW)).
Proof.
  intros cfg ldlt rnd obs ix Hs Hi E. destruct (data_ok (T := R) rnd) as (obs' & E' & L & _). cbv zeta in E'. assert (Eo : obs = obs') by congruence. subst obs'.
  assert (N : length (tp_pts (T := R)) = length obs) by (rewrite L; apply pts_len).
  assert (NN : tp_pts (T := R) <> []) by discriminate.
  assert (G : (negb (Nat.eqb (length (tp_pts (T := R))) (length obs)) || Nat.eqb (length (tp_pts (T := R))) 0)%bool = false) by (rewrite N, L; reflexivity).
  split; cbv zeta; (split; [first [exact (proj1 (estimate_steps cfg ldlt tp_pts obs qid PW Hs unit_id N NN))|exact (proj1 (kernel_steps cfg ldlt tp_pts obs qid PW Hs unit_id N NN))]|]).
  - unfold pnp_estimate. rewrite G, Hi. exact (first_step_leaves None one (pc_eps cfg) ldlt obs ix rnd Hs plain_w E).
  - unfold pnp_kernel. rewrite G, Hi. exact (first_step_leaves (Some (cauchy s1)) capped_w (pc_eps cfg) ldlt obs ix rnd Hs capped_w_pos E).
Qed.
Theorem ransac_stops : forall fuel ldlt rnd obs ix pos q p o, tp_data (T := R) rnd = Ok (obs, ix) ->
  pnp_ransac fuel pnp_default ldlt rnd pos tp_pts obs q p = Ok (Some o) -> In (qid, PW) (ro_tried o) -> (ro_q o, ro_p o) = (qid, PW).
Proof.
  intros fuel ldlt rnd obs ix pos q p o E H Hin. assert (Hok : ro_ok o = true).
  { unfold pnp_ransac in H. destruct (_ || _)%bool.
    - apply (f_equal (fun x => match x with Ok (Some y) => ro_tried y | _ => ro_tried o end)) in H. cbn [ro_tried] in H. rewrite <- H in Hin. destruct Hin.
    - pose proof (ra_loop_result _ _ _ _ _ _ _ _ _ _ _ _ _ _ _ H) as K. apply K. }
  destruct (ransac_last pnp_default ldlt fuel rnd pos tp_pts obs q p o H Hok) as [_ [[E0 _]|(l0 & Et & Hl)]]; [rewrite E0 in Hin; destruct Hin|].
  rewrite Et in Hin. apply in_app_or in Hin as [Hin|[Hin|[]]]; [|exact Hin]. exfalso. specialize (Hl _ Hin). cbn [fst snd] in Hl. rewrite pts_len in Hl.
  pose proof (true_pose_accepted rnd obs ix E) as A. change (sltb ?a ?b) with (Rltb a b) in Hl. unfold Rltb in Hl. destruct (Rlt_dec _ _); [discriminate Hl|contradiction].
Qed.
Lemma fair_729 : fair 729 (fun k => k).
Proof.
  intros k. exists (729 * (k + 1))%nat, (1 + 729 * (k + 1))%nat, (2 + 729 * (k + 1))%nat.
  rewrite (Nat.mul_comm 729), Nat.mod_mul, !Nat.mod_add by lia. rewrite !Nat.mod_small by lia. repeat split; lia.
Qed.

(** RANSAC started at the true pose draws three good pairs and stops there. *)
Lemma pick_combine : forall {A B} (l : list A) (m : list B) ix s t, pick l ix = Ok s -> pick m ix = Ok t ->
  forall x y, In (x, y) (combine s t) -> exists i, In i ix /\ nth_error l i = Some x /\ nth_error m i = Some y.
Proof.
  intros A B l m. induction ix as [|i ix IH]; intros s t Hs Ht x y H; cbn [pick] in Hs, Ht.
  - assert (s = []) by congruence. subst s. destruct H.
  - unfold at_ in Hs, Ht. destruct (nth_error l i) as [a|] eqn:Ea; [|discriminate Hs]. destruct (nth_error m i) as [b|] eqn:Eb; [|discriminate Ht]. cbn [obind] in Hs, Ht.
    destruct (pick l ix) as [s'|] eqn:Es; [|discriminate Hs]. destruct (pick m ix) as [t'|] eqn:Et; [|discriminate Ht]. cbn [obind] in Hs, Ht.
    assert (s = a :: s') by congruence. assert (t = b :: t') by congruence. subst s t. cbn [combine] in H. destruct H as [H|H].
    + exists i. split; [left; reflexivity|]. split; congruence.
    + destruct (IH s' t' eq_refl eq_refl x y H) as (k & Hk & K). exists k. split; [right; exact Hk|exact K].
Qed.
Definition good_rnd (k : nat) : nat := if Nat.ltb k 7 then 0%nat else k.
Theorem stops_example : exists ldlt obs ix (o : ra_out R), tp_data (T := R) good_rnd = Ok (obs, ix) /\
  pnp_ransac 10 pnp_default ldlt good_rnd 7 tp_pts obs qid PW = Ok (Some o) /\ In (qid, PW) (ro_tried o).
Proof.
  destruct (scene good_rnd) as (obs & ix & E & L3 & L2 & Eix & Sc). set (z := fun (_ b : mat R) (i : nat) => me b i 0%nat). exists z, obs, ix.
  assert (Hz : zero_solver z) by (intros H b Hb i _; apply Hb).
  assert (G : (negb (Nat.eqb (length (tp_pts (T := R))) (length obs)) || Nat.eqb (length (tp_pts (T := R))) 0)%bool = false) by (rewrite L3, L2; reflexivity).
  assert (D : ra_draw 10 good_rnd 729 7 [] = Some ([7; 8; 9]%nat, 10%nat)) by (vm_compute; reflexivity).
  destruct (pick_ok (tp_pts (T := R)) [7; 8; 9]%nat) as (s3 & P3 & N3); [intros x [<-|[<-|[<-|[]]]]; rewrite L3; lia|].
  destruct (pick_ok obs [7; 8; 9]%nat) as (s2 & P2 & N2); [intros x [<-|[<-|[<-|[]]]]; rewrite L2; lia|].
  destruct (pnp_fix pnp_default z s3 s2 qid PW unit_id Hz) as [F _].
  { rewrite N2, N3. reflexivity. }
  { intros C. rewrite C in N3. discriminate N3. }
  { intros pt ob Hin. destruct (pick_combine _ _ _ _ _ P3 P2 _ _ Hin) as (i & Hi & Hp & Ho). apply (Sc i pt ob Hp Ho). rewrite Eix.
    change (map (fun i0 => (good_rnd i0 mod 729)%nat) (seq 0 7)) with (repeat (0 mod 729) 7)%nat. intros C. apply repeat_spec in C. rewrite Nat.mod_0_l in C by lia.
    subst i. destruct Hi as [Hi|[Hi|[Hi|[]]]]; discriminate Hi. }
  cbv zeta in F. destruct F as (_ & Fq & Fp).
  eexists. split; [exact E|]. assert (A := true_pose_accepted good_rnd obs ix E).
  split.
  - unfold pnp_ransac. rewrite G. change (ra_iter pnp_default) with (S 19). generalize 19%nat. intros it. cbn [ra_loop]. rewrite L3, D, P3. cbn [obind]. rewrite P2. cbn [obind]. rewrite Fq, Fp.
    change (sltb ?a ?b) with (Rltb a b). unfold Rltb. destruct (Rlt_dec _ _) as [_|C]; [reflexivity|]. exfalso. apply C. exact A.
  - left. reflexivity.
Qed.

(** ** Where the three printed poses come from *)
Lemma steps_app : forall {A} (r : A -> A -> Prop) n m a b c, steps r n a b -> steps r m b c -> steps r (n + m) a c.
Proof. intros A r n m a b c H. induction H as [a|n a x b Hx _ IH]; intros K; [exact K|]. cbn [Nat.add]. eapply steps_S; [exact Hx|apply IH, K]. Qed.
Lemma steps_sub : forall {A} (r r' : A -> A -> Prop) n a b, (forall x y, r x y -> r' x y) -> steps r n a b -> steps r' n a b.
Proof. intros A r r' n a b H K. induction K as [a|n a x b Hx _ IH]; [constructor|]. eapply steps_S; [apply H, Hx|exact IH]. Qed.
Lemma draw_three : forall fuel rnd n pos s r pos', (length s <= 3)%nat -> ra_draw fuel rnd n pos s = Some (r, pos') -> length r = 3%nat.
Proof.
  assert (SI : forall x s, (length (set_insert x s) <= S (length s))%nat).
  { intros x s. induction s as [|y s IH]; cbn [set_insert length]; [lia|]. destruct (Nat.ltb x y); cbn [length]; [lia|]. destruct (Nat.eqb x y); cbn [length]; lia. }
  induction fuel as [|f IH]; intros rnd n pos s r pos' Hs H; cbn [ra_draw] in H; destruct (Nat.ltb (length s) 3) eqn:E; try discriminate H.
  - apply Nat.ltb_ge in E. injection H as <- <-. lia.
  - apply Nat.ltb_lt in E. eapply IH; [|exact H]. pose proof (SI (Nat.modulo (rnd pos) n) s). lia.
  - apply Nat.ltb_ge in E. injection H as <- <-. lia.
Qed.
Lemma reaches_trans : forall pts a b c, reaches pts a b -> reaches pts b c -> reaches pts a c.
Proof. intros pts a b c [n H] [m K]. exists (n + m)%nat. eapply steps_app; eassumption. Qed.
Lemma loop_reaches : forall fuel cfg ldlt rnd p3 p2 a, solves_psd ldlt -> length p2 = length p3 -> (0 < length p3)%nat ->
  forall iter bq bp bs q p pos tried o, qunit bq -> reaches (combine p3 p2) a (bq, bp) -> reaches (combine p3 p2) a (q, p) ->
  (forall x, In x tried -> reaches (combine p3 p2) a x) ->
  ra_loop fuel cfg ldlt rnd p3 p2 iter bq bp bs q p pos tried = Ok (Some o) ->
  reaches (combine p3 p2) a (ro_q o, ro_p o) /\ forall x, In x (ro_tried o) -> reaches (combine p3 p2) a x.
Proof.
  intros fuel cfg ldlt rnd p3 p2 a Hs L N. induction iter as [|it IH]; intros bq bp bs q p pos tried o Hb Rb Rq Rt H; cbn [ra_loop] in H.
  - injection H as <-. cbn [ro_q ro_p ro_tried]. split; assumption.
  - destruct (ra_draw fuel rnd (length p3) pos []) as [[ix pos']|] eqn:E; [|discriminate H].
    assert (L3 : length ix = 3%nat) by (refine (draw_three _ _ _ _ [] _ _ _ E); cbn; lia).
    assert (I : forall x, In x ix -> (x < length p3)%nat) by (eapply draw_in; [exact N| |exact E]; intros x []).
    destruct (pick_ok p3 ix I) as (s3 & P3 & N3). rewrite P3 in H. cbn [obind] in H.
    destruct (pick_ok p2 ix) as (s2 & P2 & N2); [rewrite L; exact I|]. rewrite P2 in H. cbn [obind] in H.
    assert (S3 : s3 <> []) by (intros ->; cbn in N3; lia).
    destruct (estimate_steps cfg ldlt s3 s2 bq bp Hs Hb ltac:(lia) S3) as [_ St].
    assert (Ub : qunit (po_q (pnp_estimate cfg ldlt s3 s2 bq bp))) by (apply pnp_unit, Hb).
    set (e := pnp_estimate cfg ldlt s3 s2 bq bp) in *. clearbody e.
    assert (Re : reaches (combine p3 p2) a (po_q e, po_p e)).
    { eapply reaches_trans; [exact Rb|]. exists (po_calls e). eapply steps_sub; [|exact St]. intros x y K. exists (combine s3 s2).
      split; [rewrite combine_length; lia|]. split; [|exact K]. intros [u v] Hin. destruct (pick_combine _ _ _ _ _ P3 P2 _ _ Hin) as (i & _ & Hu & Hv).
      eapply nth_error_In with i. apply combine_nth_error; assumption. }
    assert (Rt' : forall x, In x (tried ++ [(po_q e, po_p e)]) -> reaches (combine p3 p2) a x) by (intros x Hx; apply in_app_or in Hx as [Hx|[<-|[]]]; [apply Rt, Hx|exact Re]).
    destruct (sltb (ra_rate cfg) _).
    + assert (o = RaOut true (po_q e) (po_p e) pos' (tried ++ [(po_q e, po_p e)])) as -> by congruence. cbn [ro_q ro_p ro_tried]. split; assumption.
    + eapply IH; [| | | |exact H]; try assumption; destruct (Nat.ltb bs _); assumption.
Qed.
Theorem app_start : forall fuel ldlt rnd a b c, solves_psd ldlt -> app_pnp (T := R) fuel ldlt rnd = Ok (Some (a, b, c)) ->
  exists obs ix, tp_data (T := R) rnd = Ok (obs, ix) /\
  (exists n, (n <= 10)%nat /\ steps (refine_step same one never (combine tp_pts obs)) n (qid, V3 0 0 0) a) /\
  (exists n, (n <= 10)%nat /\ steps (refine_step capped capped_w at_one (combine tp_pts obs)) n (qid, V3 0 0 0) b) /\
  reaches (combine tp_pts obs) (qid, V3 0 0 0) c.
Proof.
  intros fuel ldlt rnd a b c Hs H. destruct (data_ok (T := R) rnd) as (obs & E & L & _). cbv zeta in E. unfold app_pnp in H. rewrite E in H. cbn [obind fst] in H.
  destruct (pnp_ransac fuel pnp_default ldlt rnd tp_count tp_pts obs qid v3zero) as [r|] eqn:Er; [|discriminate H]. cbn [obind] in H.
  destruct r as [o|]; [|discriminate H].
  assert (N : length (tp_pts (T := R)) = length obs) by (rewrite L; apply pts_len).
  assert (NN : tp_pts (T := R) <> []) by discriminate.
  pose proof (estimate_steps pnp_default ldlt tp_pts obs qid v3zero Hs unit_id N NN) as [_ SA].
  pose proof (kernel_steps pnp_default ldlt tp_pts obs qid v3zero Hs unit_id N NN) as [_ SB].
  pose proof (estimate_stop pnp_default ldlt tp_pts obs qid v3zero default_eps N NN) as ST. cbv zeta in ST. destruct ST as [TA TB].
  assert (CA : (po_calls (pnp_estimate pnp_default ldlt tp_pts obs qid v3zero) <= 10)%nat).
  { destruct TA as (m & x & _ & [(A1 & A2 & _)|(A1 & A2 & _)]); change (pc_iter pnp_default) with 10%nat in A2; lia. }
  assert (CB : (po_calls (pnp_kernel pnp_default ldlt tp_pts obs qid v3zero) <= 10)%nat).
  { destruct TB as (m & x & _ & [(A1 & A2 & _)|(A1 & A2 & _)]); change (pc_iter pnp_default) with 10%nat in A2; lia. }
  clear TA TB.
  set (ra := pnp_estimate pnp_default ldlt tp_pts obs qid v3zero) in *. set (rb := pnp_kernel pnp_default ldlt tp_pts obs qid v3zero) in *. clearbody ra rb.
  assert (Ha : a = (po_q ra, po_p ra)) by congruence. assert (Hb : b = (po_q rb, po_p rb)) by congruence. assert (Hc : c = (ro_q o, ro_p o)) by congruence. clear H. subst a b c.
  eexists obs, _. split; [exact E|]. split; [eexists; split; [exact CA|exact SA]|]. split; [eexists; split; [exact CB|exact SB]|].
  unfold pnp_ransac in Er. destruct (_ || _)%bool.
  - assert (o = RaOut false qid v3zero tp_count []) as -> by congruence. exists 0%nat. constructor.
  - refine (proj1 (loop_reaches _ _ _ _ _ _ _ Hs (eq_sym N) _ _ _ _ _ _ _ _ _ _ unit_id _ _ _ Er)).
    + rewrite pts_len. lia.
    + exists 0%nat. constructor.
    + exists 0%nat. constructor.
    + intros x [].
Qed.
Theorem start_example : solves_psd pinv6 /\ exists fuel a b c, app_pnp (T := R) fuel pinv6 (fun k => k) = Ok (Some (a, b, c)).
Proof.
  split; [exact pinv6_psd|]. destruct (app_ends (T := R) pinv6 (fun k => k) fair_729) as (F & [[a b] c] & H). exists F, a, b, c. apply H. lia.
Qed.
