(** Geometry of the initialization (C81). *)
From Coq Require Import ZArith Reals List Bool Lia Lra Arith.
From stdpp Require Import gmap list.
From Verif Require Import Fp Scalar Base LinAlg Msg DataLoader FeatureManager FrameManager Window MathLib Attitude Propagator
  Triangulate Pnp VisionUpdate Backend WindowSpec QueueSpec UpdSpec GeoSpec MatFacts QuatFacts TriFacts PnpFacts FrameFacts FeatureFacts SafeFacts AttitudeFacts NarrowFacts BackLenFacts BackSafeFacts BlindFacts InitSpec.
Import ListNotations.
Local Open Scope R_scope.

Lemma views_zip : forall vs : list (view R), views (map (fun v => fst (fst v)) vs) (map (fun v => snd (fst v)) vs) (map snd vs) = Ok vs.
Proof. induction vs as [|[[q p] n] r IH]; cbn; [reflexivity|]. rewrite IH. reflexivity. Qed.
Lemma v3add_comm : forall a b : v3 R, v3add a b = v3add b a.
Proof. intros [] []. vring. Qed.
Lemma v3add_assoc : forall a b c : v3 R, v3add (v3add a b) c = v3add a (v3add b c).
Proof. intros [] [] []. vring. Qed.

(** What a mounted camera sees. *)
Lemma seen_camera : forall q p e P z, qunit q -> qunit (ex_q e) -> seen_from q p e P z ->
  exists c, at_camera (cam_q q e) (cam_p q p e) P c /\ 0 < v3z c /\ z = V2 (v3x c / v3z c) (v3y c / v3z c).
Proof.
  intros q p e P z Hq He (c & E & Hc & Hz). exists c. split; [|split; assumption]. unfold at_camera, cam_q, cam_p.
  rewrite (qrot_mul q (ex_q e) c Hq He), E, qrot_add, (v3add_comm (qrot q (ex_p e)) p), v3add_assoc. reflexivity.
Qed.
Lemma views_exact : forall exts q p P l, qunit q -> List.Forall (fun e => qunit (ex_q e)) exts ->
  (forall cam z, In (cam, z) l -> exists e, nth_error exts (Z.to_nat cam) = Some e /\ seen_from q p e P z) ->
  exists vs, cam_views exts q p l = Ok vs /\ List.Forall unit_view vs /\ List.Forall (sees P) vs /\
    forall cam z e, In (cam, z) l -> nth_error exts (Z.to_nat cam) = Some e -> In (cam_q q e, cam_p q p e, z) vs.
Proof.
  intros exts q p P l Hq He. induction l as [|[cam z] r IH]; intros Hl; cbn [cam_views].
  { exists []. repeat split; try constructor. intros cam z e []. }
  destruct (Hl cam z (or_introl eq_refl)) as (e & Ee & Hs). unfold at_. rewrite Ee. cbn [obind].
  destruct IH as (vs & -> & V1 & V2 & V3); [intros; apply Hl; right; assumption|]. cbn [obind].
  assert (Ue : qunit (ex_q e)) by (rewrite List.Forall_forall in He; exact (He e (nth_error_In _ _ Ee))).
  exists ((cam_q q e, cam_p q p e, z) :: vs). split; [reflexivity|]. split; [|split].
  - constructor; [exact (qmul_unit _ _ Hq Ue)|exact V1].
  - constructor; [|exact V2]. destruct (seen_camera q p e P z Hq Ue Hs) as (c & A & B & C). exists c. auto.
  - intros cam' z' e' [E|Hin] En; [|right; eapply V3; eassumption]. injection E as -> ->. left. rewrite Ee in En. injection En as ->. reflexivity.
Qed.

(** One triangulation. *)
Lemma observed_track : forall ft g frame, same_track ft g -> observed g frame = observed ft frame.
Proof. intros ft g frame (_ & E1 & E2 & _). unfold observed. rewrite E1, E2. reflexivity. Qed.
Lemma good_track_same : forall ft g : feature R, same_track ft g -> good_track ft -> good_track g.
Proof. intros ft g (_ & E1 & E2 & _). unfold good_track. rewrite E1, E2. auto. Qed.
Lemma observed_at : forall ft frame ob, good_track ft -> (0 <= frame < 4294967296)%Z -> observed ft frame = Some ob ->
  at_ (ft_obs ft) (Z.to_nat (u32 (frame - ft_first ft))) = Ok ob.
Proof.
  intros ft frame ob (_ & H0 & _) Hf H. unfold observed in H. destruct (Z.leb_spec (ft_first ft) frame) as [L|L]; [|discriminate].
  rewrite u32_small by lia. unfold at_. rewrite H. reflexivity.
Qed.
Lemma observed_norm : forall ft frame, good_track ft -> (0 <= frame < 4294967296)%Z ->
  get_norm ft frame 0 = match observed ft frame with Some ob => ob !! 0%Z | None => None end.
Proof. intros ft frame G Hf. rewrite (get_norm_obs ft frame 0 G Hf). reflexivity. Qed.

Section Tri.
Context (o : voracle R) (exts : list (extrinsic R)) (f : frame R) (P : nat -> v3 R).
Context (Hn : valid_norder (vo_nord o)) (Hs : exact_svd (vo_svd o)) (Hq : qunit (fr_q f)) (He : List.Forall (fun e => qunit (ex_q e)) exts)
  (Hid : (0 <= fr_id f < 4294967296)%Z).

(** A feature seen exactly in the frame. *)
Definition exact_ft (p : nat) (ft : feature R) : Prop := good_track ft /\ exists ob, observed ft (fr_id f) = Some ob /\
  exact_obs exts (fr_q f) (fr_p f) (P p) ob /\ two_rays exts ob /\ v3dot (P p) (P p) <= 999999 * 999999.
Lemma exact_ft_same : forall p ft g, same_track ft g -> exact_ft p ft -> exact_ft p g.
Proof. intros p ft g S (G & H). split; [eapply good_track_same; eassumption|]. rewrite (observed_track ft g _ S). exact H. Qed.

Lemma tri_one_exact : forall h p ft, hp_cells h !! p = Some ft -> exact_ft p ft ->
  exists g, tri_one o exts f h p = Ok (hset h p g) /\ same_track ft g /\ ft_status g = FSolved /\ ft_pw g = P p.
Proof.
  intros h p ft Ef (G & ob & Eo & Hx & (c1 & z1 & e1 & c2 & z2 & e2 & L1 & L2 & N1 & N2 & Hc) & Hb). unfold tri_one, hget. rewrite Ef. cbn [deref obind].
  rewrite (observed_at ft (fr_id f) ob G Hid Eo). cbn [obind].
  assert (Hin : forall cam z, In (cam, z) (vo_nord o ob) <-> ob !! cam = Some z).
  { intros cam z. rewrite <- elem_of_list_In, (Hn ob). apply (elem_of_map_to_list (M := gmap Z) (ob : gmap Z (v2 R)) cam z). }
  destruct (views_exact exts (fr_q f) (fr_p f) (P p) (vo_nord o ob) Hq He) as (vs & -> & V1 & V2 & V3).
  { intros cam z H. apply Hin in H. exact (Hx cam z H). }
  cbn [obind]. unfold solve_feature.
  rewrite (tri_analytic_exact (vo_svd o) _ _ _ vs (P p) (ft_pw ft) (cam_q (fr_q f) e1, cam_p (fr_q f) (fr_p f) e1, z1)
    (cam_q (fr_q f) e2, cam_p (fr_q f) (fr_p f) e2, z2) (views_zip vs) V1 V2).
  - cbn [obind fst snd]. eexists. split; [reflexivity|]. repeat split.
  - apply (V3 c1 z1 e1); [apply Hin; exact L1|exact N1].
  - apply (V3 c2 z2 e2); [apply Hin; exact L2|exact N2].
  - unfold ray, cam_q. rewrite List.Forall_forall in He. pose proof (He e1 (nth_error_In _ _ N1)) as U1. pose proof (He e2 (nth_error_In _ _ N2)) as U2.
    rewrite (qrot_mul _ _ _ Hq U1), (qrot_mul _ _ _ Hq U2), <- (qrot_cross _ _ _ Hq). intros E. apply Hc.
    rewrite <- (qrot_inv_l (fr_q f) (v3cross _ _) Hq), E. destruct (qinv (fr_q f)). vring.
  - exact Hb.
  - apply Hs. reflexivity.
Qed.

(** The whole frame. *)
Definition after_tri (D : nat -> Prop) (h h' : heap R) : Prop :=
  hp_next h' = hp_next h /\
  (forall p, ~ D p -> hp_cells h' !! p = hp_cells h !! p) /\
  forall p, D p -> exists ft g, hp_cells h !! p = Some ft /\ hp_cells h' !! p = Some g /\ same_track ft g /\ ft_status g = FSolved /\ ft_pw g = P p.
Lemma tri_loop_exact : forall l h, (forall p, In p (map snd l) -> exists ft, hp_cells h !! p = Some ft /\ exact_ft p ft) ->
  exists h', tri_loop o exts f l h = Ok h' /\ after_tri (fun p => In p (map snd l)) h h'.
Proof.
  induction l as [|[id p] r IH]; intros h H; cbn [tri_loop map snd].
  { exists h. split; [reflexivity|]. repeat split. intros p []. }
  destruct (H p (or_introl eq_refl)) as (ft & Ef & Hf). destruct (tri_one_exact h p ft Ef Hf) as (g & -> & Sg & Ss & Sp). cbn [obind].
  destruct (IH (hset h p g)) as (h' & -> & A1 & A2 & A3).
  { intros p' Hp'. cbn [hset hp_cells]. destruct (decide (p = p')) as [<-|Np].
    - exists g. rewrite lookup_insert. split; [reflexivity|]. eapply exact_ft_same; eassumption.
    - rewrite lookup_insert_ne by exact Np. apply H. right. exact Hp'. }
  exists h'. split; [reflexivity|]. split; [exact A1|]. split.
  - intros p' Np. rewrite A2 by (intros Hin; apply Np; right; exact Hin). cbn [hset hp_cells]. rewrite lookup_insert_ne; [reflexivity|].
    intros ->. apply Np. left. reflexivity.
  - intros p' Hp'. destruct (in_dec Nat.eq_dec p' (map snd r)) as [Hin|Hin].
    + destruct (A3 p' Hin) as (f1 & g1 & E1 & E2 & S1 & S2 & S3). cbn [hset hp_cells] in E1. destruct (decide (p = p')) as [<-|Np].
      * rewrite lookup_insert in E1. injection E1 as <-. exists ft, g1. split; [exact Ef|]. split; [exact E2|]. split; [|auto]. eapply same_track_trans; eassumption.
      * rewrite lookup_insert_ne in E1 by exact Np. exists f1, g1. auto.
    + destruct Hp' as [<-|Hp']; [|destruct (Hin Hp')]. exists ft, g. split; [exact Ef|]. split; [|auto].
      rewrite A2 by exact Hin. cbn [hset hp_cells]. apply lookup_insert.
Qed.
End Tri.

Lemma order_in : forall ord (m : gmap Z nat) id p, valid_order ord -> (In (id, p) (ord m) <-> m !! id = Some p).
Proof. intros ord m id p Ho. rewrite <- elem_of_list_In, (Ho m). apply elem_of_map_to_list. Qed.
Lemma order_ids : forall ord (m : gmap Z nat), valid_order ord -> List.NoDup (map fst (ord m)).
Proof.
  intros ord m Ho. apply NoDup_ListNoDup. rewrite (Permutation_map fst (Ho m)). apply NoDup_fst_map_to_list.
Qed.

(** The points used for the second pose. *)
Section Points.
Context (exts : list (extrinsic R)) (h h1 : heap R) (fi fj : frame R) (P : nat -> v3 R) (q0 q1 : quat R) (p1 : v3 R).
Context (X : exact_pair exts h fi fj P q0 q1 p1) (A : after_tri P (linked fi) h h1).
(** The pair contributed by a feature. *)
Definition pair_of (kp : Z * nat) (x : v3 R * v2 R) : Prop :=
  usable h fi fj (fst kp) /\ fst x = P (snd kp) /\ exists e, nth_error exts 0 = Some e /\ seen_from q1 p1 e (fst x) (snd x).
Lemma points_exact : forall l, (forall id p, In (id, p) l -> fr_feats fj !! id = Some p) -> (forall p, linked fi p \/ ~ linked fi p) ->
  exists sel pts, pose_points h1 fj l = Ok pts /\ sublist sel l /\ Forall2 pair_of sel pts /\
    forall id p, In (id, p) l -> usable h fi fj id -> In (id, p) sel.
Proof.
  intros l Hl D. induction l as [|[id p] r IH]; cbn [pose_points].
  { exists [], []. split; [reflexivity|]. split; [constructor|]. split; [constructor|]. intros id p []. }
  pose proof (Hl id p (or_introl eq_refl)) as Ep. assert (Lp : linked fj p) by (exists id; exact Ep).
  destruct (xp_second _ _ _ _ _ _ _ _ X p Lp) as (ft & Ef & G & Hx & Hw). destruct A as (_ & A2 & A3).
  destruct IH as (sel & pts & E & S1 & S2 & S3); [intros; apply Hl; right; assumption|].
  assert (K : exists g, hp_cells h1 !! p = Some g /\ same_track ft g /\
    ((linked fi p \/ ft_status ft = FSolved) -> ft_status g = FSolved) /\ (ft_status g = FSolved -> ft_pw g = P p /\ (linked fi p \/ ft_status ft = FSolved))).
  { destruct (D p) as [L|L].
    - destruct (A3 p L) as (f1 & g & E1 & E2 & T1 & T2 & T3). rewrite Ef in E1. injection E1 as <-. exists g. auto 8.
    - exists ft. rewrite (A2 p L). split; [exact Ef|]. split; [apply same_track_refl|]. split; [intros [H|H]; [destruct (L H)|exact H]|].
      intros H. split; [|auto]. destruct (Hw H) as [H'|H']; [destruct (L H')|exact H']. }
  destruct K as (g & Eg & Sg & K1 & K2). unfold hget. rewrite Eg. cbn [deref obind]. rewrite E. cbn [obind].
  rewrite (observed_norm g (fr_id fj) (good_track_same _ _ Sg G) (proj2 (xp_ids _ _ _ _ _ _ _ _ X))), (observed_track ft g _ Sg).
  assert (NU : (~ usable h fi fj id) -> exists sel' pts', Ok pts = Ok pts' /\ sublist sel' ((id, p) :: r) /\ Forall2 pair_of sel' pts' /\
    (forall id' p', In (id', p') ((id, p) :: r) -> usable h fi fj id' -> In (id', p') sel')).
  { intros N. exists sel, pts. split; [reflexivity|]. split; [constructor; exact S1|]. split; [exact S2|]. intros id' p' [H|H] U; [|eapply S3; eassumption].
    injection H as <- <-. destruct (N U). }
  assert (UE : usable h fi fj id -> (linked fi p \/ ft_status ft = FSolved) /\ exists ob z, observed ft (fr_id fj) = Some ob /\ ob !! 0%Z = Some z).
  { intros (p' & ft' & ob & E1 & E2 & E3 & E4 & (z & E5)). rewrite Ep in E1. injection E1 as <-. rewrite Ef in E2. injection E2 as <-. eauto. }
  destruct (ft_status g) eqn:Es; try (apply NU; intros U; apply UE in U as (U & _); discriminate (K1 U)).
  destruct (K2 eq_refl) as (Ew & Hu). destruct (observed ft (fr_id fj)) as [ob|] eqn:Eo; [|apply NU; intros U; apply UE in U as (_ & ? & ? & ? & _); discriminate].
  destruct (ob !! 0%Z) as [z|] eqn:Ez; [|apply NU; intros U; apply UE in U as (_ & ? & ? & [= <-] & ?); congruence].
  exists ((id, p) :: sel), ((ft_pw g, z) :: pts). split; [reflexivity|]. split; [constructor; exact S1|]. split.
  - constructor; [|exact S2]. split; [exists p, ft, ob; rewrite Ez; eauto 8|]. cbn [fst snd]. split; [exact Ew|]. rewrite Ew. eapply Hx; [reflexivity|exact Ez].
  - intros id' p' [H|H] U; [left; exact H|right; eapply S3; eassumption].
Qed.
End Points.

Lemma linked_dec : forall (f : frame R) p, linked f p \/ ~ linked f p.
Proof.
  intros f p. destruct (in_dec Nat.eq_dec p (map snd (map_to_list (fr_feats f)))) as [H|H].
  - left. apply in_map_iff in H as ([id p'] & E & H). cbn in E. subst p'. exists id. apply elem_of_map_to_list, elem_of_list_In. exact H.
  - right. intros (id & E). apply H. apply in_map_iff. exists (id, p). split; [reflexivity|]. apply elem_of_list_In, elem_of_map_to_list. exact E.
Qed.
Lemma sublist_in : forall {A} (a b : list A) x, sublist a b -> In x a -> In x b.
Proof. intros A a b x H. induction H; cbn; [auto|intros [E|E]; auto|auto]. Qed.
Lemma sublist_nodup : forall {A} (a b : list A), sublist a b -> List.NoDup b -> List.NoDup a.
Proof.
  intros A a b H. induction H; intros N; [constructor| |]; inversion N as [|? ? N1 N2]; subst; [|auto].
  constructor; [|auto]. intros Hin. apply N1. eapply sublist_in; eassumption.
Qed.
Lemma sublist_fst : forall {A B} (a b : list (A * B)), sublist a b -> sublist (map fst a) (map fst b).
Proof. intros A B a b H. induction H; cbn; constructor; assumption. Qed.
Lemma combine_split_map : forall {A B} (l : list (A * B)), combine (map fst l) (map snd l) = l.
Proof. induction l as [|[a b] r IH]; cbn; [reflexivity|]. rewrite IH. reflexivity. Qed.
Lemma qmul_assoc : forall a b c : quat R, qmul (qmul a b) c = qmul a (qmul b c).
Proof. intros [] [] []. vunf. apply q_ext; rops; ring. Qed.
Lemma qmul_id_r : forall a : quat R, qmul a qid = a.
Proof. intros []. vunf. apply q_ext; rops; ring. Qed.
Lemma mount_back : forall q e : quat R, qunit e -> qmul (qmul q (qinv e)) e = q.
Proof. intros q e He. rewrite qmul_assoc, (qinv_unit e He), (qmul_conj_l e He). apply qmul_id_r. Qed.
Lemma mount_inj : forall a b e : quat R, qunit e -> qmul a e = qmul b e -> a = b.
Proof. intros a b e He H. rewrite <- (qmul_id_r a), <- (qmul_id_r b), <- (qmul_conj_r e He), <- !qmul_assoc, H. reflexivity. Qed.

Lemma v3sub_0 : forall a : v3 R, v3sub a v3zero = a.
Proof. intros []. vring. Qed.

Lemma mount_unique : forall a b p p' (e : extrinsic R), qunit (ex_q e) -> mount_q a e = mount_q b e -> mount_p a p e = mount_p b p' e -> a = b /\ p = p'.
Proof.
  intros a b p p' e He Hq Hp. pose proof (mount_inj a b (ex_q e) He Hq) as ->. split; [reflexivity|]. unfold mount_p in Hp.
  assert (G : forall x y z : v3 R, v3add x z = v3add y z -> x = y).
  { intros [x1 x2 x3] [y1 y2 y3] [z1 z2 z3] E. injection E as E1 E2 E3. cbn in E1, E2, E3. f_equal; lra. }
  exact (G _ _ _ Hp).
Qed.

Theorem initial_exact : forall c o (s : bstate R) fi fj rest q0 q1 p1 P ids,
  wn_frames (b_win s) = fi :: fj :: rest -> f64_ltb (f64_abs (f64_sub (fr_ts fj) (fr_ts fi))) f64_zero_thr = false ->
  att_get (b_att s) (fr_ts fi) (f64_mul (dl_period (b_dl s)) f64_0_55) = Ok (Some q0) ->
  valid_order (vo_ord (bo_init o)) -> valid_norder (vo_nord (bo_init o)) -> valid_order (bo_pord o) -> exact_svd (vo_svd (bo_init o)) ->
  exact_pair (b_ext s) (wn_heap (b_win s)) fi fj P q0 q1 p1 ->
  List.NoDup ids -> (forall id, In id ids <-> usable (wn_heap (b_win s)) fi fj id) ->
  exists s' b, initialize c o s = Ok (s', b) /\
  (forall p, linked fi p -> exists ft g, hp_cells (wn_heap (b_win s)) !! p = Some ft /\ hp_cells (wn_heap (b_win s')) !! p = Some g /\
     same_track ft g /\ ft_status g = FSolved /\ ft_pw g = P p) /\
  (forall p, ~ linked fi p -> hp_cells (wn_heap (b_win s')) !! p = hp_cells (wn_heap (b_win s)) !! p) /\
  ((length ids < 10)%nat -> b = false) /\
  ((10 <= length ids)%nat -> exists e p3 p2, nth_error (b_ext s) 0 = Some e /\ length p3 = length ids /\ length p2 = length ids /\
     (forall pt z, In (pt, z) (combine p3 p2) -> seen_from q1 p1 e pt z) /\
     let r := refine o e q0 p3 p2 in b = po_ok r /\
     (b = true -> exists qj pj, mount_q qj e = po_q r /\ mount_p qj pj e = po_p r /\ (po_q r = mount_q q1 e -> po_p r = mount_p q1 p1 e -> qj = q1 /\ pj = p1) /\
        let v := v3div pj (time_step fi fj) in
        wn_frames (b_win s') = with_pose fi q0 v3zero v :: with_pose fj qj pj v :: rest /\ pq_init (b_pq s') = Motion v3zero v q0)).
Proof.
  intros c o s fi fj rest q0 q1 p1 P ids Ew Ht Ea O1 O2 O3 Hsvd X Nd Hids.
  destruct (get_attitude_nearest (b_att s) (fr_ts fi) (f64_mul (dl_period (b_dl s)) f64_0_55)) as (aq & Eq & Hq). rewrite Ea in Eq. injection Eq as <-.
  destruct (Hq q0 eq_refl) as (it & Hit & _ & Hnear & _). clear Hq. apply within_period in Hnear. apply narrow_mono in Hnear.
  destruct (att_clean_ok (b_att s) (fr_ts fi) (f64_to_f32 (dl_period (b_dl s))) it Hit Hnear) as (a & Eac).
  destruct (att_clean_inv _ _ _ _ Eac) as (_ & Hne & _). clear Hnear.
  remember (initialize c o s) as res eqn:H. symmetry in H. unfold initialize in H. rewrite Ew, Ht, Ea in H. cbn [obind] in H.
  set (fi1 := with_pose fi q0 v3zero (fr_v fi)) in *. unfold tri_multi_view in H. set (h := wn_heap (b_win s)) in *.
  assert (Hex : List.Forall (fun e : extrinsic R => qunit (ex_q e)) (b_ext s)) by exact (xp_ext _ _ _ _ _ _ _ _ X).
  assert (L : forall p, In p (map snd (vo_ord (bo_init o) (fr_feats fi1))) <-> linked fi p).
  { intros p. split.
    - intros Hin. apply in_map_iff in Hin as ([id p'] & E & Hin). cbn in E. subst p'. exists id. exact (proj1 (order_in _ _ _ _ O1) Hin).
    - intros (id & E). apply in_map_iff. exists (id, p). split; [reflexivity|]. apply (order_in _ _ _ _ O1). exact E. }
  destruct (tri_loop_exact (bo_init o) (b_ext s) fi1 P O2 Hsvd (xp_q0 _ _ _ _ _ _ _ _ X) Hex (proj1 (xp_ids _ _ _ _ _ _ _ _ X))
    (vo_ord (bo_init o) (fr_feats fi1)) h) as (h1 & E1 & A).
  { intros p Hp. apply L in Hp. destruct (xp_first _ _ _ _ _ _ _ _ X p Hp) as (ft & ob & B1 & B2 & B3 & B4). exists ft. split; [exact B1|]. split; [exact B2|]. exists ob. auto. }
  rewrite E1 in H. cbn [obind] in H.
  assert (A' : after_tri P (linked fi) h h1).
  { destruct A as (A1 & A2 & A3). split; [exact A1|]. split; [intros p Np; apply A2; intros Hin; apply Np, L, Hin|]. intros p Lp. apply A3, L, Lp. }
  clear A. assert (Fin : forall s', wn_heap (b_win s') = h1 ->
    (forall p, linked fi p -> exists ft g, hp_cells h !! p = Some ft /\ hp_cells (wn_heap (b_win s')) !! p = Some g /\ same_track ft g /\ ft_status g = FSolved /\ ft_pw g = P p) /\
    (forall p, ~ linked fi p -> hp_cells (wn_heap (b_win s')) !! p = hp_cells h !! p)).
  { intros s' ->. destruct A' as (_ & A2 & A3). auto. }
  set (fj1 := with_pose fj (fr_q fi1) (fr_p fi1) (fr_v fj)) in *. unfold estimate_pose in H.
  destruct (points_exact (b_ext s) h h1 fi fj P q0 q1 p1 X A' (bo_pord o (fr_feats fj1))) as (sel & pts & Ep & S1 & S2 & S3).
  { intros id p Hin. exact (proj1 (order_in _ _ _ _ O3) Hin). }
  { apply linked_dec. }
  assert (Ep' : pose_points h1 fj1 (bo_pord o (fr_feats fj1)) = Ok pts).
  { rewrite <- Ep. clear. generalize (bo_pord o (fr_feats fj1)). induction l as [|[id p] r IH]; cbn [pose_points]; [reflexivity|]. destruct (hget h1 p) as [ft|]; [|reflexivity]. cbn [obind]. rewrite IH. reflexivity. }
  rewrite Ep' in H. cbn [obind] in H.
  assert (Len : length pts = length ids).
  { rewrite <- (Forall2_length _ _ _ S2), <- (map_length fst sel). apply Permutation_length. apply NoDup_Permutation.
    - apply NoDup_ListNoDup. eapply sublist_nodup; [apply sublist_fst; exact S1|]. apply order_ids, O3.
    - apply NoDup_ListNoDup. exact Nd.
    - intros id. rewrite !elem_of_list_In, Hids. split.
      + intros Hin. apply in_map_iff in Hin as ([id' p] & E & Hin). cbn in E. subst id'.
        clear - S2 Hin. induction S2 as [|x y l l' Hxy S2 IH]; [destruct Hin|]. destruct Hin as [->|Hin]; [exact (proj1 Hxy)|auto].
      + intros U. pose proof U as (p & ft & ob & U1 & _). apply in_map_iff. exists (id, p). split; [reflexivity|]. apply S3; [|exact U].
        apply (order_in _ _ _ _ O3). exact U1. }
  destruct (Nat.ltb_spec (length pts) 10) as [Lt|Ge].
  { cbn [obind] in H. subst res. eexists _, _. split; [reflexivity|]. destruct (Fin (with_win s (Window h1 (wn_mgr (b_win s)) (fi1 :: fj1 :: rest))) eq_refl) as (F1 & F2). split; [exact F1|]. split; [exact F2|]. split; [reflexivity|]. intros; lia. }
  assert (Ex : exists e, nth_error (b_ext s) 0 = Some e).
  { destruct S2 as [|x y l l' (_ & _ & e & Ee & _) S2]; [cbn in Ge; lia|]. exists e. exact Ee. }
  destruct Ex as (e & Ee). unfold at_ in H. rewrite Ee in H. cbn [obind] in H.
  assert (Ue : qunit (ex_q e)) by (rewrite List.Forall_forall in Hex; exact (Hex e (nth_error_In _ _ Ee))).
  assert (Er : pnp_kernel pnp_default (bo_ldlt o) (map fst pts) (map snd pts) (cam_q (fr_q fj1) e) (cam_p (fr_q fj1) (fr_p fj1) e) = refine o e q0 (map fst pts) (map snd pts)).
  { unfold refine, mount_q, mount_p, cam_q, cam_p. rewrite (v3add_comm v3zero). reflexivity. }
  rewrite Er in H. clear Er. remember (refine o e q0 (map fst pts) (map snd pts)) as r eqn:Hr.
  assert (Seen : forall pt z, In (pt, z) (combine (map fst pts) (map snd pts)) -> seen_from q1 p1 e pt z).
  { intros pt z Hin. rewrite combine_split_map in Hin. clear - S2 Hin Ee. induction S2 as [|x y l l' Hxy S2 IH]; [destruct Hin|].
    destruct Hin as [->|Hin]; [|auto]. destruct Hxy as (_ & _ & e' & Ee' & Hs). rewrite Ee in Ee'. injection Ee' as <-. exact Hs. }
  destruct (po_ok r) eqn:Eok; cbn [obind] in H.
  2:{ subst res. eexists _, _. split; [reflexivity|]. destruct (Fin (with_win s (Window h1 (wn_mgr (b_win s)) (fi1 :: fj1 :: rest))) eq_refl) as (F1 & F2). split; [exact F1|]. split; [exact F2|]. split; [intros; lia|]. intros _.
      exists e, (map fst pts), (map snd pts). split; [exact Ee|]. rewrite !map_length. split; [exact Len|]. split; [exact Len|]. split; [exact Seen|].
      cbv zeta. rewrite <- Hr. split; [symmetry; exact Eok|discriminate]. }
  unfold init_propagator in H. cbn [with_win b_att b_dl b_ext b_pq] in H.
  match type of H with context [att_clean (b_att s) ?t ?p] => change t with (fr_ts fi) in H end. rewrite Eac in H. cbn [obind] in H.
  match type of H with context [front (pq_items (b_pq ?x))] => remember x as s2 eqn:E2 end.
  assert (Hfr : exists x0 xs, pq_items (b_pq s2) = x0 :: xs).
  { clear H. subst s2. cbn [with_pq b_pq]. match goal with |- context [replay ?g ?n ?q ?l] => destruct (replay_items g n l q) as (l' & El & Hm & _) end.
    rewrite El. match goal with |- context [?x ++ l'] => destruct x as [|y ys] end; [|eexists _, _; reflexivity]. destruct l' as [|y ys]; [|eexists _, _; reflexivity]. exfalso.
    symmetry in Hm. apply map_eq_nil in Hm. apply Hne; [|exact Hm]. intros e2. rewrite e2 in Hit. destruct Hit. }
  destruct Hfr as (x0 & xs & Ex0). rewrite Ex0 in H. cbn [front obind] in H. subst res. exists s2, true. split; [reflexivity|].
  destruct (Fin s2) as (F1 & F2); [subst s2; reflexivity|]. split; [exact F1|]. split; [exact F2|]. split; [intros; lia|]. intros _. subst s2.
  exists e, (map fst pts), (map snd pts). split; [exact Ee|]. rewrite !map_length. split; [exact Len|]. split; [exact Len|]. split; [exact Seen|].
  cbv zeta. rewrite <- Hr. split; [symmetry; exact Eok|]. intros _. exists (qmul (po_q r) (qinv (ex_q e))), (v3add (v3opp (qrot (qmul (po_q r) (qinv (ex_q e))) (ex_p e))) (po_p r)).
  set (pj := v3add (v3opp _) (po_p r)) in *. change (fr_p fi1) with (v3zero (T := R)) in *. rewrite !v3sub_0. fold (time_step fi fj).
  assert (M1 : mount_q (qmul (po_q r) (qinv (ex_q e))) e = po_q r) by exact (mount_back (po_q r) (ex_q e) Ue).
  assert (M2 : mount_p (qmul (po_q r) (qinv (ex_q e))) pj e = po_p r) by (unfold mount_p, pj; destruct (qrot _ _), (po_p r); vring).
  split; [exact M1|]. split; [exact M2|]. split; [intros Y1 Y2; apply (mount_unique _ _ _ _ e Ue); congruence|]. split.
  2:{ cbn [with_pq b_pq]. match goal with |- pq_init (replay ?g ?n ?q ?l) = _ => assert (K : forall q', pq_init (replay g n q' l) = pq_init q') end.
      { clear. unfold replay. induction (at_items a) as [|it l IH]; intros q; [reflexivity|]. cbn [fold_left]. rewrite IH. unfold pq_propagate. destruct (back _) as [i0|]; [|reflexivity]. destruct (prop_item _ _ _ _ _ _ _ _ _ _) as [[? ?] ?]. reflexivity. }
      rewrite K. cbn [with_init pq_init]. reflexivity. }
  cbn [with_pq with_att b_win with_win wn_frames]. reflexivity.
Qed.

(** A sensor at rest. *)
Theorem initial_rest : forall c o (s : bstate R) fi fj rest q0 P ids,
  wn_frames (b_win s) = fi :: fj :: rest -> f64_ltb (f64_abs (f64_sub (fr_ts fj) (fr_ts fi))) f64_zero_thr = false ->
  att_get (b_att s) (fr_ts fi) (f64_mul (dl_period (b_dl s)) f64_0_55) = Ok (Some q0) ->
  valid_order (vo_ord (bo_init o)) -> valid_norder (vo_nord (bo_init o)) -> valid_order (bo_pord o) -> exact_svd (vo_svd (bo_init o)) -> zero_solver (bo_ldlt o) ->
  exact_pair (b_ext s) (wn_heap (b_win s)) fi fj P q0 q0 v3zero ->
  List.NoDup ids -> (forall id, In id ids <-> usable (wn_heap (b_win s)) fi fj id) -> (10 <= length ids)%nat ->
  exists s', initialize c o s = Ok (s', true) /\ wn_frames (b_win s') = with_pose fi q0 v3zero v3zero :: with_pose fj q0 v3zero v3zero :: rest /\ pq_init (b_pq s') = Motion v3zero v3zero q0.
Proof.
  intros c o s fi fj rest q0 P ids Ew Ht Ea O1 O2 O3 Hsvd Hz X Nd Hids Hl.
  destruct (initial_exact c o s fi fj rest q0 q0 v3zero P ids Ew Ht Ea O1 O2 O3 Hsvd X Nd Hids) as (s' & b & H & _ & _ & _ & K).
  destruct (K Hl) as (e & p3 & p2 & Ee & L3 & L2 & Seen & Hb & Hr). clear K.
  assert (Ue : qunit (ex_q e)) by (pose proof (xp_ext _ _ _ _ _ _ _ _ X) as He; rewrite List.Forall_forall in He; exact (He e (nth_error_In _ _ Ee))).
  assert (Uq : qunit q0) by exact (xp_q0 _ _ _ _ _ _ _ _ X).
  destruct (pnp_fix pnp_default (bo_ldlt o) p3 p2 (mount_q q0 e) (mount_p q0 v3zero e) (qmul_unit _ _ Uq Ue) Hz) as (_ & R1 & R2 & R3).
  { congruence. }
  { intros ->. cbn in L3. lia. }
  { intros pt z Hin. destruct (seen_camera q0 v3zero e pt z Uq Ue (Seen pt z Hin)) as (cc & C1 & C2 & C3). exists cc. split; [|split; [lra|exact C3]].
    unfold mount_p. rewrite (v3add_comm v3zero). exact C1. }
  unfold refine in Hb. rewrite R1 in Hb. subst b. exists s'. split; [exact H|]. destruct (Hr eq_refl) as (qj & pj & _ & _ & U & F & I).
  destruct (U R2 R3) as (-> & ->). assert (V : forall k, v3div (v3zero (T := R)) k = v3zero) by (intros k; vunf; apply v3_ext; rops; unfold Rdiv; ring).
  rewrite V in F, I. split; assumption.
Qed.
