(** Examples for C90 and C91. *)
From Coq Require Import Reals List Arith ZArith Lra Lia.
From stdpp Require Import gmap.
From Verif Require Import Fp Scalar Base LinAlg MathLib MatFacts Msg FeatureManager FrameManager Window WindowSpec Propagator VisionUpdate
  UpdSpec KalmanFacts MeasFacts UnitFacts SafeFacts QuatFacts ProcSpec RunSpec QrFacts JacobiFacts UpdWitness RunWitness BlindSpec BlindWitness BundleSpec.
Import ListNotations.
Local Open Scope nat_scope.

Lemma bu_qr : exact_qr bl_o.
Proof. intros A. apply qr_fac_of. Qed.
(** The same with all orthogonal factors negated and the reverse order of the cameras of an observation. *)
Definition bu_o : voracle R := VOracle map_to_list (fun o => rev (map_to_list o)) (fun _ _ => 0%R) (fun A i j => (- qr_fac (mr A) (mc A) (me A) i j)%R) r_saes
  (fun _ _ => 8%R) (fun _ => 0%Z).
Lemma bu_qr2 : exact_qr bu_o.
Proof.
  intros A. cbn [vo_qr bu_o]. destruct (qr_fac_of (mr A) (mc A) (me A)) as [[O1 O2] T]. set (q := qr_fac (mr A) (mc A) (me A)) in *.
  split; [split|].
  - rewrite <- O1. split. intros i j _ _. apply rsum_ext. intros k _. unfold ftr. ring.
  - rewrite <- O2. split. intros i j _ _. apply rsum_ext. intros k _. unfold ftr. ring.
  - intros i j Hi Hj Hij. transitivity (- fmul (mr A) (ftr q) (me A) i j)%R; [|rewrite T by assumption; ring].
    unfold fmul. rewrite <- rsum_opp. apply rsum_ext. intros k _. unfold ftr. ring.
Qed.
(** Two features with the same views, one of them with a residual. *)
Definition bu_ob : observe R := {[0%Z := V2 (1 / 5)%R 0%R]}.
Definition bu_g : feature R := Feature 10 1 [n_ob; bu_ob] 2 (V3 0 0 (1 / 3))%R FSolved.
Definition bu_h : heap R := Heap 2 (<[0 := n_f]> {[1 := bu_g]}).
Lemma bu_heap : Forall2 (fun p f => hp_cells bu_h !! p = Some f) [0; 1] [n_f; bu_g].
Proof. constructor; [reflexivity|]. constructor; [reflexivity|constructor]. Qed.
Lemma bu_usable : usable 1 1 2 bu_g.
Proof.
  split; [exists 0; split; [reflexivity|cbn; lia]|]. split; [reflexivity|]. split; [cbn; lia|]. split; [cbn; lia|].
  assert (G : forall v c z, ({[0%Z := v]} : observe R) !! c = Some z -> (0 <= c < Z.of_nat 1)%Z).
  { intros v c z E. unfold observe in E. apply (proj1 (lookup_singleton_Some (M := gmap Z) _ _ _ _)) in E. destruct E as [<- _]. lia. }
  constructor; [apply G|constructor; [apply G|constructor]].
Qed.
Lemma bu_measure : forall o l, valid_norder (vo_nord o) -> (forall p, In p l -> p = 0 \/ p = 1) -> length l <= 2 ->
  exists H, measurement o [n_e] [n_f0; n_f1] bu_h l = Ok (Some H).
Proof.
  intros o l Ho Hl Hn. destruct (measurement_ok o [n_e] [n_f0; n_f1] 1 bu_h l) as (H & E & _).
  - exact Ho.
  - lia.
  - intros i f E. destruct i as [|[|i]]; cbn [nth_error] in E; try discriminate E; [| |destruct i; discriminate E]; injection E as <-; reflexivity.
  - cbn; lia.
  - cbn; lia.
  - cbn; lia.
  - cbn; lia.
  - intros p Hp. destruct (Hl p Hp) as [-> | ->].
    + exists n_f. split; [reflexivity|]. destruct bl_usable as (A & B & C & D & F). split; [|rewrite <- B; exact C]. split; [exact A|]. split; [rewrite B; reflexivity|exact F].
    + exists bu_g. split; [reflexivity|]. destruct bu_usable as (A & B & C & D & F). split; [|rewrite <- B; exact C]. split; [exact A|]. split; [rewrite B; reflexivity|exact F].
  - exists H. exact E.
Qed.
(** The two views of the point fix it: one along the optical axis, one from the side. *)
Lemma bu_entry : forall f c, meas_pc n_e f (V3 0 0 (1 / 3))%R = c -> fr_q f = qid -> (1 / 10 < v3z c)%R -> forall z r k, nth_error [n_f0; n_f1] k = Some f -> r < 2 ->
  forall dp, rsum 3 (fun j => Rmult (meas_entry 1 2 [n_e] [n_f0; n_f1] (V3 0 0 (1 / 3))%R (k, 0, z) r j) (v3get dp j)) =
    (match r with 0 => v3x dp / v3z c - v3x c / (v3z c * v3z c) * v3z dp | _ => v3y dp / v3z c - v3y c / (v3z c * v3z c) * v3z dp end)%R.
Proof.
  intros f c Ec Eq Hc z r k Ek Hr dp. pose proof zero_thr_val as Hz. unfold zero_thr in Hz.
  unfold meas_entry. rewrite Ek. cbn [nth_error]. rewrite Ec.
  replace (sltb szero (sabs (v3z c))) with true.
  2:{ symmetry. apply sltb_R. cbn [sabs ops_R]. rewrite Rabs_pos_eq by lra. lra. }
  unfold jac_pw. rewrite Ec. unfold meas_Rcb, meas_Rbw. rewrite Eq. cbn [ex_q n_e]. rewrite !qinv_unit by apply qid_unit.
  assert (H0 : (v3z c <> 0)%R) by lra. clear - H0 Hr. destruct c as [x y z0], dp as [a1 a2 a3]. cbn [v3x v3y v3z] in *.
  rewrite !rsum_S. cbn [ssum]. destruct r as [|[|r]]; [| |lia]; unfold in3; cbn; field; exact H0.
Qed.
Lemma bu_loc : forall o (v0 v1 : v2 R) f, valid_norder (vo_nord o) -> ft_first f = 1%Z -> ft_obs f = [({[0%Z := v0]} : observe R); {[0%Z := v1]}] -> ft_pw f = V3 0%R 0%R (1 / 3)%R ->
  locatable (vo_nord o) 1 [n_e] [n_f0; n_f1] f.
Proof.
  intros o v0 v1 f Ho F1 F2 F3 dp Hd.
  assert (M : meas_of (vo_nord o) 1 f = [(0, 0, v0); (1, 0, v1)]).
  { unfold meas_of. rewrite F1, F2. cbn [track_meas Z.to_nat Z.sub Z.add Z.opp Z.pos_sub].
    assert (G : forall v : v2 R, vo_nord o ({[0%Z := v]} : observe R) = [(0%Z, v)]).
    { intros v. pose proof (Ho ({[0%Z := v]} : observe R)) as Q. unfold observe in Q. rewrite (map_to_list_singleton (M := gmap Z)) in Q. apply Permutation_length_1_inv. symmetry. exact Q. }
    rewrite !G. reflexivity. }
  rewrite M, F3 in Hd. change (length [n_e]) with 1 in Hd. change (length [n_f0; n_f1]) with 2 in Hd.
  pose proof (Hd _ 0 (or_introl eq_refl) ltac:(lia)) as A0. pose proof (Hd _ 1 (or_introl eq_refl) ltac:(lia)) as A1.
  pose proof (Hd _ 0 (or_intror (or_introl eq_refl)) ltac:(lia)) as A2.
  rewrite (bu_entry _ _ n_c0 eq_refl ltac:(cbn; lra) v0 0 0 eq_refl) in A0 by lia.
  rewrite (bu_entry _ _ n_c0 eq_refl ltac:(cbn; lra) v0 1 0 eq_refl) in A1 by lia.
  rewrite (bu_entry _ _ n_c1 eq_refl ltac:(cbn; lra) v1 0 1 eq_refl) in A2 by lia.
  cbn [v3x v3y v3z] in *. destruct dp as [x y z]. cbn [v3x v3y v3z] in *. apply v3_ext; cbn [v3x v3y v3z]; lra.
Qed.
Lemma bu_located : forall o, valid_norder (vo_nord o) -> List.Forall (locatable (vo_nord o) 1 [n_e] [n_f0; n_f1]) [n_f; bu_g].
Proof. intros o Ho. constructor; [|constructor; [|constructor]]; (eapply bu_loc; [exact Ho|reflexivity..]). Qed.
