(** Examples for C106. *)
From Coq Require Import Reals List Arith ZArith Lra Lia.
From stdpp Require Import gmap.
From Verif Require Import Fp Scalar Base LinAlg MathLib MatFacts Msg FeatureManager FrameManager Window WindowSpec Propagator VisionUpdate
  UpdSpec KalmanFacts MeasFacts UnitFacts SafeFacts QuatFacts ProcSpec RunSpec QrFacts JacobiFacts UpdWitness RunWitness BlindSpec BlindWitness BundleSpec BundleWitness
  InjectSpec YawSpec RigidSpec.
Import ListNotations.
Local Open Scope nat_scope.

(** A turn about the y axis, so that the vertical changes, and a shift. *)
Definition rw_u : quat R := (Quat (3 / 5) 0 (4 / 5) 0)%R.
Definition rw_o : v3 R := (V3 1 2 3)%R.
Definition rw_fr (f : frame R) : frame R := Frame (fr_feats f) (qmul rw_u (fr_q f)) (v3add (qrot rw_u (fr_p f)) rw_o) (qrot rw_u (fr_v f)) (fr_id f) (fr_ts f).
Definition rw_ft (f : feature R) : feature R := Feature (ft_id f) (ft_first f) (ft_obs f) (ft_num f) (v3add (qrot rw_u (ft_pw f)) rw_o) (ft_status f).
Definition rw_item : pitem R := PItem (Motion (fr_p n_f1) (V3 1 0 0)%R qid) (eye 15) (Mat 15 12 (fun _ _ => 0%R)) v3zero v3zero (f64_lit 1 0).
Definition rw_item' : pitem R := PItem (moved_motion rw_u rw_o (pi_mo rw_item)) (eye 15) (Mat 15 12 (fun _ _ => 0%R)) v3zero v3zero (f64_lit 1 0).
Definition rw_pq (it : pitem R) : pqueue R := PQueue [it] (eye 12) v3zero v3zero (pi_mo it) F_reset G_reset (noise_Q 1%R 1%R 1%R 1%R).
Definition rw_h' : heap R := Heap 2 (<[0 := rw_ft n_f]> {[1 := rw_ft bu_g]}).
Definition rw_s : vstate R := VState (Window bu_h ∅ [n_f0; n_f1]) [n_e] (rw_pq rw_item).
Definition rw_s' : vstate R := VState (Window rw_h' ∅ [rw_fr n_f0; rw_fr n_f1]) [n_e] (rw_pq rw_item').
Lemma rw_unit : qunit rw_u.
Proof. unfold qunit, rw_u, qnorm2. cbn. lra. Qed.
Lemma rw_frame : forall f, moved_frame rw_u rw_o f (rw_fr f).
Proof. intros f. repeat split. Qed.
Lemma rw_feature : forall f, moved_feature rw_u rw_o f (rw_ft f).
Proof. intros f. repeat split. Qed.
Lemma rw_moved : moved_state rw_u rw_o rw_s rw_s'.
Proof.
  split; [exists rw_item, [], rw_item', []; repeat split|]. split; [reflexivity|]. split; [reflexivity|]. split; [reflexivity|].
  constructor; [apply rw_frame|constructor; [apply rw_frame|constructor]].
Qed.
Lemma rw_usable : forall ne b nf f, usable ne b nf f -> usable ne b nf (rw_ft f).
Proof. intros ne b nf f H. exact H. Qed.
Lemma rw_measure : exists H, measurement bu_o [n_e] [rw_fr n_f0; rw_fr n_f1] rw_h' [0; 1] = Ok (Some H).
Proof.
  destruct (measurement_ok bu_o [n_e] [rw_fr n_f0; rw_fr n_f1] 1 rw_h' [0; 1]) as (H & E & _).
  - intros x; symmetry; apply Permutation_rev.
  - lia.
  - intros i f E. destruct i as [|[|i]]; cbn [nth_error] in E; try discriminate E; [| |destruct i; discriminate E]; injection E as <-; reflexivity.
  - cbn; lia.
  - cbn; lia.
  - cbn; lia.
  - cbn; lia.
  - intros p [<-|[<-|[]]].
    + exists (rw_ft n_f). split; [reflexivity|]. destruct bl_usable as (A & B & C & D & F). split; [|change (ft_obs (rw_ft n_f)) with (ft_obs n_f); rewrite <- B; exact C]. split; [exact A|]. split; [exact B|exact F].
    + exists (rw_ft bu_g). split; [reflexivity|]. destruct bu_usable as (A & B & C & D & F). split; [|change (ft_obs (rw_ft bu_g)) with (ft_obs bu_g); rewrite <- B; exact C]. split; [exact A|]. split; [exact B|exact F].
  - exists H. exact E.
Qed.
(** The turned prior; here one with different variances. *)
Definition rw_P : mat R := Mat 27 27 (fun i j => if Nat.eqb i j then INR (i + 1) else 0%R).
Definition rw_P' : mat R := Mat 27 27 (fmul 27 (fmul 27 (matrix_of (turn_all rw_u 1)) (me rw_P)) (ftr (matrix_of (turn_all rw_u 1)))).
Lemma rw_psd : fpsd 27 (me rw_P).
Proof. apply (fpsd_diag 27 (fun i => INR (i + 1))). intros. apply pos_INR. Qed.
