(** Concrete inputs and counterexamples for C100 and C101. *)
From Coq Require Import ZArith Reals Lra List Bool.
From stdpp Require Import gmap list.
From Flocq Require Import Core IEEE754.BinarySingleNaN.
From Verif Require Import Fp Scalar Base LinAlg Msg FeatureManager FrameManager Window MathLib QuatFacts WindowSpec WindowWitness PrintWitness HelperSpec HelperFacts.
Import ListNotations.
Local Open Scope R_scope.
#[local] Existing Instance ops_one.

(** A mathematics library that answers NaN outside the domain of the arc cosine, as the C standard asks. *)
Definition acos_domain (lm : libm32) : Prop := forall x, f32_ltb x (f32_of_Z (-1)) = true -> f32_isnan (lm_acos lm x) = true.
Lemma half_turn_nan : exists q : quat f32, forall lm, acos_domain lm -> f32_isnan (rot_magnitude_q (S := ops_f32 lm) (qnormalize (S := ops_f32 lm) q)) = true.
Proof.
  exists (Quat (f32_of_Z 0) (f32_of_Z 7) (f32_of_Z 7) (f32_of_Z 1)). intros lm H. unfold rot_magnitude_q, rot_magnitude. cbn [sabs sacos ops_f32].
  match goal with |- f32_isnan (f32_abs (lm_acos lm ?e)) = true => assert (E : f32_ltb e (f32_of_Z (-1)) = true) by (vm_compute; reflexivity); specialize (H e E); destruct (lm_acos lm e) end;
    try discriminate H; reflexivity.
Qed.
Lemma long_vector_nan : exists d : v3 f32, forall lm, acos_domain lm -> f32_isnan (rot_magnitude_v (S := ops_f32 lm) d) = true.
Proof.
  exists (V3 (f32_of_Z 3) (f32_of_Z 0) (f32_of_Z 0)). intros lm H. unfold rot_magnitude_v, rot_magnitude_q, rot_magnitude. cbn [sabs sacos ops_f32].
  match goal with |- f32_isnan (f32_abs (lm_acos lm ?e)) = true => assert (E : f32_ltb e (f32_of_Z (-1)) = true) by (vm_compute; reflexivity); specialize (H e E); destruct (lm_acos lm e) end;
    try discriminate H; reflexivity.
Qed.
Lemma vector_length : exists d : v3 R, v3norm d <= 2 /\ rot_magnitude_v d <> v3norm d.
Proof.
  exists (V3 2 0 0). destruct magnitude_vector_two as [E N]. rewrite E, N. split; [lra|]. pose proof pi_low. lra.
Qed.
Lemma turn_ex : v3dot (V3 (3 / 5) 0 (4 / 5)) (V3 (3 / 5) 0 (4 / 5)) = 1 /\ 0 <= 1 <= PI /\ PI <= 4 <= 2 * PI.
Proof. pose proof pi_low. split; [vunf; field|lra]. Qed.
Lemma between_ex : qunit (Quat (3 / 5) 0 0 (4 / 5)) /\ v3dot (qvec (Quat (3 / 5) 0 0 (4 / 5))) (V3 1 0 0) = 0 /\ v3dot (V3 1 0 0) (V3 1 0 0) = 1.
Proof. unfold qunit. vunf. repeat split; field. Qed.
Lemma euler_ex : qunit (rpy 1 (-1) 3) /\ (forall v, qrot (rpy 1 (-1) 3) v = attitude 1 (-1) 3 v) /\ - PI < 1 <= PI /\ - (PI / 2) < -1 < PI / 2 /\ - PI < 3 <= PI.
Proof. pose proof pi_low. split; [apply rpy_unit|]. split; [intros v; apply rpy_attitude|lra]. Qed.
(** Two messages of three have feature 2 and 3 in common. *)
Lemma covis_ex : good_history (firstn 3 (demo_hist (T := unit))) /\
  match w_run map_to_list window0 (firstn 3 (demo_hist (T := unit))) with
  | Ok w => match wn_frames w with
            | [f1; f2; f3] => length (covisible map_to_list f1 f3) = 1%nat /\ length (covisible map_to_list f2 f3) = 2%nat /\ size (fr_feats f2) = 3%nat
            | _ => False end
  | Ub _ => False end.
Proof. split; [exact demo3_good|vm_compute; auto]. Qed.
