(** What a vision update computes (C90, C91). *)
From Coq Require Import Reals List Arith ZArith Lra Lia.
From stdpp Require Import gmap.
From Verif Require Import Fp Scalar Base LinAlg MathLib MatFacts Msg FeatureManager FrameManager Window WindowSpec Propagator VisionUpdate
  UpdSpec KalmanFacts ProcSpec RunSpec UpdWitness RunWitness BlindSpec BlindWitness BundleSpec BundleFacts ChoiceFacts BundleWitness UnlocWitness.
Import ListNotations.
Local Open Scope nat_scope.

(** C90: the correction is the unique minimum of prior and squared misfits over states and points together, and the new
    covariance is its curvature: at dx + P' z the best points give z^t P' z more. *)
Theorem C90_bundle : forall (o : voracle R) b exts (fs : list (frame R)) h l fl Hr noise (P : mat R),
  valid_norder (vo_nord o) -> exact_qr o -> exact_solver (vo_saes o) ->
  (1 <= b)%Z -> consecutive b fs -> (b + Z.of_nat (length fs) < 4294967296)%Z -> 1 <= length fs ->
  Forall2 (fun p f => hp_cells h !! p = Some f) l fl ->
  List.Forall (usable (length exts) b (length fs)) fl -> List.Forall (locatable (vo_nord o) b exts fs) fl ->
  measurement o exts fs h l = Ok (Some Hr) ->
  let n := err_size (length exts) (length fs - 1) in
  let cost := bundle_cost (vo_nord o) b exts fs (me P) noise fl in
  mr P = n -> mc P = n -> fpsd n (me P) -> (zero_thr < noise * noise)%R ->
  exists K dx P' y0 dps0, kalman (vo_saes o) noise P Hr = Ok (K, dx, P') /\ mr dx = n /\ mr P' = n /\ mc P' = n /\
    (forall i, i < n -> me dx i 0 = mvec n (me P) y0 i) /\
    (forall y dps, (cost y0 dps0 <= cost y dps)%R) /\
    (forall y dps, cost y dps = cost y0 dps0 -> forall i, i < n -> mvec n (me P) y i = me dx i 0) /\
    (forall z, exists y dps, (forall i, i < n -> mvec n (me P) y i = (me dx i 0 + mvec n (me P') z i)%R) /\
       (forall dps', (cost y dps <= cost y dps')%R) /\ cost y dps = (cost y0 dps0 + qform n (me P') z)%R).
Proof. exact update_bundle. Qed.
Print Assumptions C90_bundle.
(** C91: two updates with exact factors agree, whatever the orders of features and cameras, the orthogonal factors and
    the eigenvectors. *)
Theorem C91_choice : forall (o1 o2 : voracle R) b exts (fs : list (frame R)) h l1 l2 fl H1 H2 noise (P : mat R),
  valid_norder (vo_nord o1) -> exact_qr o1 -> exact_solver (vo_saes o1) ->
  valid_norder (vo_nord o2) -> exact_qr o2 -> exact_solver (vo_saes o2) ->
  (1 <= b)%Z -> consecutive b fs -> (b + Z.of_nat (length fs) < 4294967296)%Z -> 1 <= length fs ->
  Permutation l1 l2 -> Forall2 (fun p f => hp_cells h !! p = Some f) l1 fl ->
  List.Forall (usable (length exts) b (length fs)) fl -> List.Forall (locatable (vo_nord o1) b exts fs) fl ->
  measurement o1 exts fs h l1 = Ok (Some H1) -> measurement o2 exts fs h l2 = Ok (Some H2) ->
  let n := err_size (length exts) (length fs - 1) in
  mr P = n -> mc P = n -> fpsd n (me P) -> (zero_thr < noise * noise)%R ->
  exists K1 dx1 P1 K2 dx2 P2, kalman (vo_saes o1) noise P H1 = Ok (K1, dx1, P1) /\ kalman (vo_saes o2) noise P H2 = Ok (K2, dx2, P2) /\
    feq n 1 (me dx1) (me dx2) /\ feq n n (me P1) (me P2).
Proof. exact update_choice. Qed.
Print Assumptions C91_choice.

(** ... but not for a point that its views leave open (two frames at the same place): [meas_feature] always drops three
    rows, and which information goes with the third one is up to the orthogonal factor. *)
Theorem C91_unlocated_refuted : exists (o1 o2 : voracle R) exts fs h f H1 H2 (P : mat R),
  valid_norder (vo_nord o1) /\ exact_qr o1 /\ exact_solver (vo_saes o1) /\ valid_norder (vo_nord o2) /\ exact_qr o2 /\ exact_solver (vo_saes o2) /\
  consecutive 1 fs /\ hp_cells h !! 0 = Some f /\ usable (length exts) 1 (length fs) f /\
  measurement o1 exts fs h [0] = Ok (Some H1) /\ measurement o2 exts fs h [0] = Ok (Some H2) /\
  mr P = err_size (length exts) (length fs - 1) /\ mc P = mr P /\ fpsd (mr P) (me P) /\
  exists K1 dx1 P1 K2 dx2 P2, kalman (vo_saes o1) 1%R P H1 = Ok (K1, dx1, P1) /\ kalman (vo_saes o2) 1%R P H2 = Ok (K2, dx2, P2) /\
    ~ feq (mr P) 1 (me dx1) (me dx2).
Proof. exact unlocated_choice_refuted. Qed.
Print Assumptions C91_unlocated_refuted.

(** Two features seen in two frames, one of them off by 1/5 in one image; exact factors of two kinds, both orders. *)
Example C90_example : valid_norder (vo_nord bl_o) /\ exact_qr bl_o /\ exact_solver (vo_saes bl_o) /\ consecutive 1 [n_f0; n_f1] /\
  Forall2 (fun p f => hp_cells bu_h !! p = Some f) [0; 1] [n_f; bu_g] /\ List.Forall (usable 1 1 2) [n_f; bu_g] /\
  List.Forall (locatable (vo_nord bl_o) 1 [n_e] [n_f0; n_f1]) [n_f; bu_g] /\
  (exists H, measurement bl_o [n_e] [n_f0; n_f1] bu_h [0; 1] = Ok (Some H)) /\ err_size 1 1 = 27 /\
  fpsd 27 (me (eye 27)) /\ (zero_thr < 1 * 1)%R.
Proof.
  split; [intros x; reflexivity|]. split; [exact bu_qr|]. split; [exact r_exact|]. split.
  { intros i f E. destruct i as [|[|i]]; cbn [nth_error] in E; try discriminate E; [| |destruct i; discriminate E]; injection E as <-; reflexivity. }
  split; [exact bu_heap|]. split; [constructor; [exact bl_usable|constructor; [exact bu_usable|constructor]]|].
  split; [apply bu_located; intros x; reflexivity|]. split.
  { apply bu_measure; [intros x; reflexivity| |cbn; lia]. intros p [<-|[<-|[]]]; auto. }
  split; [reflexivity|]. split; [apply (eye_cov 1 1)|]. pose proof zero_thr_small. lra.
Qed.
Example C91_example : valid_norder (vo_nord bu_o) /\ exact_qr bu_o /\ exact_solver (vo_saes bu_o) /\ Permutation [0; 1] [1; 0] /\
  (exists H, measurement bu_o [n_e] [n_f0; n_f1] bu_h [1; 0] = Ok (Some H)).
Proof.
  assert (V : valid_norder (vo_nord bu_o)) by (intros x; symmetry; apply Permutation_rev).
  split; [exact V|]. split; [exact bu_qr2|]. split; [exact r_exact|]. split; [apply perm_swap|].
  apply bu_measure; [exact V| |cbn; lia]. intros p [<-|[<-|[]]]; auto.
Qed.
