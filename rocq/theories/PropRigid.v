(** A vision update does not depend on the world axes (C106). *)
From Coq Require Import Reals List Arith ZArith Lra Lia.
From stdpp Require Import gmap.
From Verif Require Import Fp Scalar Base LinAlg MathLib MatFacts Msg FeatureManager FrameManager Window WindowSpec Propagator VisionUpdate
  UpdSpec KalmanFacts QuatFacts ProcSpec RunSpec UpdWitness RunWitness BlindSpec BlindWitness BundleSpec BundleWitness InjectSpec YawSpec RigidSpec RigidFacts RigidWitness.
Import ListNotations.
Local Open Scope R_scope.

(** C106: with frames, points and prior given in other world axes, gain and correction belong to the same errors ... *)
Theorem C106_gain : forall u o (o1 o2 : voracle R) b exts (fs fs' : list (frame R)) h h' l l' fl fl' H1 H2 noise (P P' : mat R),
  qunit u -> valid_norder (vo_nord o1) -> exact_qr o1 -> exact_solver (vo_saes o1) ->
  valid_norder (vo_nord o2) -> exact_qr o2 -> exact_solver (vo_saes o2) ->
  (1 <= b)%Z -> consecutive b fs -> (b + Z.of_nat (length fs) < 4294967296)%Z -> (1 <= length fs)%nat ->
  List.Forall (fun f => qunit (fr_q f)) fs -> Forall2 (moved_frame u o) fs fs' ->
  Forall2 (fun p f => hp_cells h !! p = Some f) l fl -> Forall2 (fun p f => hp_cells h' !! p = Some f) l' fl' -> Forall2 (moved_feature u o) fl fl' ->
  List.Forall (usable (length exts) b (length fs)) fl -> List.Forall (locatable (vo_nord o1) b exts fs) fl ->
  measurement o1 exts fs h l = Ok (Some H1) -> measurement o2 exts fs' h' l' = Ok (Some H2) ->
  let n := err_size (length exts) (length fs - 1) in let U := matrix_of (turn_all u (length exts)) in
  mr P = n -> mc P = n -> fpsd n (me P) -> (zero_thr < noise * noise)%R ->
  mr P' = n -> mc P' = n -> feq n n (me P') (fmul n (fmul n U (me P)) (ftr U)) ->
  exists K1 dx1 P1 K2 dx2 P2, kalman (vo_saes o1) noise P H1 = Ok (K1, dx1, P1) /\ kalman (vo_saes o2) noise P' H2 = Ok (K2, dx2, P2) /\
    (forall i, (i < n)%nat -> me dx2 i 0%nat = turn_all u (length exts) (fun k => me dx1 k 0%nat) i) /\
    feq n n (me P2) (fmul n (fmul n U (me P1)) (ftr U)).
Proof. exact update_moved. Qed.
Print Assumptions C106_gain.
(** ... the corrected states are the same states, for any correction ... *)
Theorem C106_states : forall u o (s s' s1 s1' : vstate R) dx dx', qunit u ->
  moved_state u o s s' -> (forall it r, pq_items (vs_pq s) = it :: r -> qunit (mo_q (pi_mo it))) ->
  List.Forall (fun f => qunit (fr_q f)) (wn_frames (vs_win s)) ->
  let ne := length (vs_ext s) in
  (forall i, (i < err_size ne (length (wn_frames (vs_win s)) - 1))%nat -> me dx' i 0%nat = turn_all u ne (fun k => me dx k 0%nat) i) ->
  corrected dx s s1 -> corrected dx' s' s1' -> moved_state u o s1 s1'.
Proof. exact corrected_moved. Qed.
Print Assumptions C106_states.
(** ... and both updates run to the same estimate. *)
Theorem C106_update : forall u o (o1 o2 : voracle R) c b (s s' : vstate R) l l' fl fl' H1 H2 (P P' : mat R),
  qunit u -> valid_norder (vo_nord o1) -> exact_qr o1 -> exact_solver (vo_saes o1) ->
  valid_norder (vo_nord o2) -> exact_qr o2 -> exact_solver (vo_saes o2) ->
  let exts := vs_ext s in let fs := wn_frames (vs_win s) in
  (1 <= b)%Z -> consecutive b fs -> (b + Z.of_nat (length fs) < 4294967296)%Z -> (1 <= length fs)%nat ->
  List.Forall (fun f => qunit (fr_q f)) fs -> (forall it r, pq_items (vs_pq s) = it :: r -> qunit (mo_q (pi_mo it))) ->
  moved_state u o s s' ->
  Forall2 (fun p f => hp_cells (wn_heap (vs_win s)) !! p = Some f) l fl -> Forall2 (fun p f => hp_cells (wn_heap (vs_win s')) !! p = Some f) l' fl' ->
  Forall2 (moved_feature u o) fl fl' ->
  List.Forall (usable (length exts) b (length fs)) fl -> List.Forall (locatable (vo_nord o1) b exts fs) fl ->
  measurement o1 exts fs (wn_heap (vs_win s)) l = Ok (Some H1) -> measurement o2 (vs_ext s') (wn_frames (vs_win s')) (wn_heap (vs_win s')) l' = Ok (Some H2) ->
  let n := err_size (length exts) (length fs - 1) in let U := matrix_of (turn_all u (length exts)) in
  mr P = n -> mc P = n -> fpsd n (me P) -> (zero_thr < vc_noise c * vc_noise c)%R ->
  mr P' = n -> mc P' = n -> feq n n (me P') (fmul n (fmul n U (me P)) (ftr U)) ->
  exists P1 s1 P2 s1', update_state o1 c P H1 s = Ok (P1, s1) /\ update_state o2 c P' H2 s' = Ok (P2, s1') /\
  feq n n (me P2) (fmul n (fmul n U (me P1)) (ftr U)) /\ moved_state u o s1 s1'.
Proof. exact update_state_moved. Qed.
Print Assumptions C106_update.

(** The problem of C90 from axes turned about y and shifted, with different variances and other factors and orders. *)
Example C106_example : qunit rw_u /\ moved_state rw_u rw_o rw_s rw_s' /\ exact_qr bu_o /\ exact_solver (vo_saes bu_o) /\
  List.Forall (fun f => qunit (fr_q f)) [n_f0; n_f1] /\ consecutive 1 [n_f0; n_f1] /\
  Forall2 (fun p f => hp_cells rw_h' !! p = Some f) [0; 1]%nat [rw_ft n_f; rw_ft bu_g] /\
  Forall2 (moved_feature rw_u rw_o) [n_f; bu_g] [rw_ft n_f; rw_ft bu_g] /\
  (exists H, measurement bl_o [n_e] [n_f0; n_f1] bu_h [0; 1]%nat = Ok (Some H)) /\
  (exists H, measurement bu_o [n_e] [rw_fr n_f0; rw_fr n_f1] rw_h' [0; 1]%nat = Ok (Some H)) /\
  err_size 1 1 = 27%nat /\ fpsd 27 (me rw_P) /\ qrot rw_u (V3 0 0 1) = V3 (24 / 25) 0 (-7 / 25) /\
  turn_all rw_u 1 (fun i => if Nat.eqb i 23 then 1 else 0) 21 = 24 / 25 /\ turn_all rw_u 1 (fun i => if Nat.eqb i 20 then 1 else 0) 18 = 0.
Proof.
  split; [exact rw_unit|]. split; [exact rw_moved|]. split; [exact bu_qr2|]. split; [exact r_exact|].
  split; [constructor; [apply qid_unit|constructor; [apply qid_unit|constructor]]|]. split.
  { intros i f E. destruct i as [|[|i]]; cbn [nth_error] in E; try discriminate E; [| |destruct i; discriminate E]; injection E as <-; reflexivity. }
  split; [constructor; [reflexivity|constructor; [reflexivity|constructor]]|].
  split; [constructor; [apply rw_feature|constructor; [apply rw_feature|constructor]]|].
  split; [apply bu_measure; [intros x; reflexivity| |cbn; lia]; intros p [<-|[<-|[]]]; auto|].
  split; [exact rw_measure|]. split; [reflexivity|]. split; [exact rw_psd|].
  split; [unfold rw_u; vunf; apply v3_ext; rops; lra|]. split.
  - unfold turn_all, rw_u. cbn [Nat.div Nat.divmod fst Nat.modulo world_block]. cbn. lra.
  - unfold turn_all, rw_u. cbn. lra.
Qed.
