(** Examples for C79. *)
From Coq Require Import Reals List Arith ZArith Lra Lia.
From stdpp Require Import gmap.
From Verif Require Import Fp Scalar Base LinAlg MathLib MatFacts Msg FeatureManager FrameManager Window WindowSpec Propagator VisionUpdate
  UpdSpec SafeFacts QuatFacts ProcSpec RunSpec QrFacts JacobiFacts UpdWitness RunWitness BlindSpec.
Import ListNotations.
Local Open Scope nat_scope.

(** Exact solvers, maps in increasing order. *)
Definition bl_o : voracle R := VOracle map_to_list (fun o => map_to_list o) (fun _ _ => 0%R) (fun A => qr_fac (mr A) (mc A) (me A)) r_saes
  (fun _ _ => 7%R) (fun _ => 0%Z).
Lemma bl_qr : exact_qr3 bl_o.
Proof. intros A E. cbn [vo_qr bl_o]. rewrite E. apply qr_fac_of. Qed.
Definition bl_h : heap R := Heap 1 {[0 := n_f]}.
Definition bl_d (i : nat) : R := nth i [1 - 1 / 12; 2 - 2 - 1 / 12; 3 - 1; 7; 7; 7; 1; -1; 2; 5; 5; 5; 4; 4; 4; 0; 0; 0; 0; 0; 0; 1; 2; 3; 1; -1; 2]%R 0%R.
Lemma bl_moves : moves_world 1 [n_f0; n_f1] (V3 1 2 3)%R (V3 1 (-1) 2)%R bl_d.
Proof.
  split.
  - intros k f E. destruct k as [|[|k]]; cbn [nth_error] in E; try discriminate E; [| |destruct k; discriminate E]; injection E as <-.
    + split; unfold part, col_pos, col_att; cbn -[Rplus Rmult Rminus Rdiv]; vunf; apply v3_ext; rops; field.
    + split; unfold part, col_pos, col_att; cbn -[Rplus Rmult Rminus Rdiv]; vunf; apply v3_ext; rops; field.
  - intros j Hj. unfold bl_d. do 21 (destruct j as [|j]; [try lia; reflexivity|]). lia.
Qed.
Lemma bl_usable : usable 1 1 2 n_f.
Proof.
  split; [exists 0; split; [reflexivity|cbn; lia]|]. split; [reflexivity|]. split; [cbn; lia|]. split; [cbn; lia|].
  assert (G : forall c z, n_ob !! c = Some z -> (0 <= c < Z.of_nat 1)%Z).
  { intros c z E. unfold n_ob, observe in E. apply (proj1 (lookup_singleton_Some (M := gmap Z) _ _ _ _)) in E. destruct E as [<- _]. lia. }
  constructor; [exact G|constructor; [exact G|constructor]].
Qed.
Lemma bl_meas : exists H, measurement bl_o [n_e] [n_f0; n_f1] bl_h [0] = Ok (Some H).
Proof.
  destruct (measurement_ok bl_o [n_e] [n_f0; n_f1] 1 bl_h [0]) as (H & E & _).
  - intros x. reflexivity.
  - lia.
  - intros i f E. destruct i as [|[|i]]; cbn [nth_error] in E; try discriminate E; [| |destruct i; discriminate E]; injection E as <-; reflexivity.
  - cbn; lia.
  - cbn; lia.
  - cbn; lia.
  - cbn; lia.
  - intros p [<-|[]]. exists n_f. split; [reflexivity|]. destruct bl_usable as (A & B & C & D & F). split; [|rewrite <- B; exact C].
    split; [exact A|]. split; [rewrite B; reflexivity|exact F].
  - exists H. exact E.
Qed.
