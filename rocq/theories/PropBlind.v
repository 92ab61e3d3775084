(** The unobservable directions of a vision update (C79). *)
From Coq Require Import Reals List Arith ZArith Lia.
From stdpp Require Import gmap.
From Verif Require Import Fp Scalar Base LinAlg MathLib MatFacts Msg FeatureManager FrameManager Window WindowSpec Propagator VisionUpdate
  UpdSpec QuatFacts ProcSpec RunSpec UpdWitness RunWitness BlindSpec BlindFacts BlindWitness.
Import ListNotations.
Local Open Scope nat_scope.

(** C79: moving the whole world does not change the (stacked, projected, compressed) measurement ... *)
Theorem C79_blind : forall (o : voracle R) b exts (fs : list (frame R)) h l H t phi d,
  valid_norder (vo_nord o) -> exact_qr3 o -> (1 <= b)%Z -> consecutive b fs -> (b + Z.of_nat (length fs) < 4294967296)%Z -> 1 <= length fs ->
  List.Forall (fun f => qnorm2 (fr_q f) = 1%R) fs ->
  (forall p, In p l -> exists f, hp_cells h !! p = Some f /\ usable (length exts) b (length fs) f) ->
  measurement o exts fs h l = Ok (Some H) -> moves_world (length exts) fs t phi d ->
  let n := err_size (length exts) (length fs - 1) in
  mc H = n + 1 /\ forall i, i < mr H -> mvec n (me H) d i = 0%R.
Proof. exact measurement_blind. Qed.
Print Assumptions C79_blind.
(** ... so an uncertainty in such a direction has no influence on the correction and passes the update unchanged. *)
Theorem C79_update : forall (o : voracle R) b exts (fs : list (frame R)) h l H t phi d c noise (P : mat R),
  valid_norder (vo_nord o) -> exact_qr3 o -> (1 <= b)%Z -> consecutive b fs -> (b + Z.of_nat (length fs) < 4294967296)%Z -> 1 <= length fs ->
  List.Forall (fun f => qnorm2 (fr_q f) = 1%R) fs ->
  (forall p, In p l -> exists f, hp_cells h !! p = Some f /\ usable (length exts) b (length fs) f) ->
  measurement o exts fs h l = Ok (Some H) -> moves_world (length exts) fs t phi d ->
  let n := err_size (length exts) (length fs - 1) in
  let P2 := Mat n n (fadd (me P) (along c d)) in
  mr P = n -> mc P = n -> fsym n (me P) -> exact_solver (vo_saes o) ->
  exists K dx P' K2 dx2 P2',
    kalman (vo_saes o) noise P H = Ok (K, dx, P') /\ kalman (vo_saes o) noise P2 H = Ok (K2, dx2, P2') /\
    feq n 1 (me dx2) (me dx) /\ feq n n (me P2') (fadd (me P') (along c d)).
Proof. exact update_blind. Qed.
Print Assumptions C79_update.

(** Two frames, one feature seen in both, exact solvers, a shift and a turn about three axes. *)
Example C79_example : valid_norder (vo_nord bl_o) /\ exact_qr3 bl_o /\ exact_solver (vo_saes bl_o) /\ consecutive 1 [n_f0; n_f1] /\
  List.Forall (fun f => qnorm2 (fr_q f) = 1%R) [n_f0; n_f1] /\ usable 1 1 2 n_f /\ hp_cells bl_h !! 0 = Some n_f /\
  (exists H, measurement bl_o [n_e] [n_f0; n_f1] bl_h [0] = Ok (Some H)) /\
  moves_world 1 [n_f0; n_f1] (V3 1 2 3)%R (V3 1 (-1) 2)%R bl_d /\ bl_d 6 = 1%R /\
  fsym 27 (me (midn (T := R) 27)) /\ err_size 1 1 = 27.
Proof.
  split; [intros x; reflexivity|]. split; [exact bl_qr|]. split; [exact r_exact|]. split.
  { intros i f E. destruct i as [|[|i]]; cbn [nth_error] in E; try discriminate E; [| |destruct i; discriminate E]; injection E as <-; reflexivity. }
  split; [repeat constructor; apply qid_unit|]. split; [exact bl_usable|]. split; [reflexivity|]. split; [exact bl_meas|]. split; [exact bl_moves|].
  split; [reflexivity|]. split; [|reflexivity]. split. intros i j _ _. unfold ftr, midn. cbn [me]. rewrite Nat.eqb_sym. reflexivity.
Qed.
