(** Properties C100 and C101: the angle helpers and the common features of two frames. *)
From Coq Require Import ZArith Reals Bool List.
From stdpp Require Import gmap list.
From Flocq Require Import IEEE754.BinarySingleNaN.
From Verif Require Import Fp Scalar Base LinAlg Msg FeatureManager FrameManager Window MathLib QuatFacts WindowSpec WindowWitness HelperSpec HelperFacts CovisFacts HelperWitness.
Import ListNotations.
Local Open Scope R_scope.
#[local] Existing Instance ops_one.

(** C100: in exact arithmetic ComputeRotationMagnitude of the rotation by the angle a about a unit axis is a, and for more than half a turn the rest of
    the turn ... *)
Theorem C100_angle : forall n a, v3dot n n = 1 -> (0 <= a <= PI -> rot_magnitude_q (turn n a) = a) /\ (PI <= a <= 2 * PI -> rot_magnitude_q (turn n a) = 2 * PI - a).
Proof. exact (fun n a H => conj (magnitude_turn n a H) (magnitude_long n a H)). Qed.
Print Assumptions C100_angle.
Example C100_angle_example : v3dot (V3 (3 / 5) 0 (4 / 5)) (V3 (3 / 5) 0 (4 / 5)) = 1 /\ 0 <= 1 <= PI /\ PI <= 4 <= 2 * PI.
Proof. exact turn_ex. Qed.
(** ... that is the angle between a vector orthogonal to the axis and its image, for every unit quaternion. *)
Theorem C100_between : forall q v, qunit q -> v3dot (qvec q) v = 0 -> v3dot v v = 1 -> cos (rot_magnitude_q q) = v3dot v (qrot q v).
Proof. exact magnitude_between. Qed.
Print Assumptions C100_between.
Example C100_between_example : qunit (Quat (3 / 5) 0 0 (4 / 5)) /\ v3dot (qvec (Quat (3 / 5) 0 0 (4 / 5))) (V3 1 0 0) = 0 /\ v3dot (V3 1 0 0) (V3 1 0 0) = 1.
Proof. exact between_ex. Qed.
(** For a rotation vector it is twice the arc sine of half the length ... *)
Theorem C100_vector : forall d : v3 R, v3norm d <= 2 -> rot_magnitude_v d = 2 * asin (v3norm d / 2).
Proof. exact magnitude_vector. Qed.
Print Assumptions C100_vector.
Example C100_vector_example : rot_magnitude_v (V3 2 0 0) = PI /\ v3norm (V3 2 0 0) = 2.
Proof. exact magnitude_vector_two. Qed.
(** ... and not the length. *)
Theorem C100_vector_refuted : exists d : v3 R, v3norm d <= 2 /\ rot_magnitude_v d <> v3norm d.
Proof. exact vector_length. Qed.
Print Assumptions C100_vector_refuted.
(** In float arithmetic the arc cosine is called outside its domain: NaN for a normalized half turn and for a rotation vector of length 3. *)
Theorem C100_domain_refuted : (exists q : quat f32, forall lm, acos_domain lm -> f32_isnan (rot_magnitude_q (S := ops_f32 lm) (qnormalize (S := ops_f32 lm) q)) = true) /\
  (exists d : v3 f32, forall lm, acos_domain lm -> f32_isnan (rot_magnitude_v (S := ops_f32 lm) d) = true).
Proof. exact (conj half_turn_nan long_vector_nan). Qed.
Print Assumptions C100_domain_refuted.
(** ComputeTranslationMagnitude is the length, the same in every rotated frame. *)
Theorem C100_translation : forall (q : quat R) d, qunit q -> trans_magnitude (qrot q d) = trans_magnitude d /\ trans_magnitude d * trans_magnitude d = v3x d * v3x d + v3y d * v3y d + v3z d * v3z d.
Proof. exact magnitude_translation. Qed.
Print Assumptions C100_translation.
(** QuaternionToEuler recovers the angles about x, y and z (applied in this order about fixed axes), in degrees, as long as the second is short of a right angle. *)
Theorem C100_euler : forall q r p y, qunit q -> (forall v, qrot q v = attitude r p y v) -> - PI < r <= PI -> - (PI / 2) < p < PI / 2 -> - PI < y <= PI ->
  quat_to_euler q = V3 (r * rad2deg) (p * rad2deg) (y * rad2deg).
Proof. exact euler_angles. Qed.
Print Assumptions C100_euler.
Theorem C100_degrees : Rabs (rad2deg * PI - 180) <= 1 / 100000.
Proof. exact rad2deg_close. Qed.
Print Assumptions C100_degrees.
Example C100_euler_example : qunit (rpy 1 (-1) 3) /\ (forall v, qrot (rpy 1 (-1) 3) v = attitude 1 (-1) 3 v) /\ - PI < 1 <= PI /\ - (PI / 2) < -1 < PI / 2 /\ - PI < 3 <= PI.
Proof. exact euler_ex. Qed.

Local Open Scope Z_scope.
(** C101: GetCovisibleFeatures lists, each once, exactly the managed features that both messages of the two frames report; the other way round the same. *)
Theorem C101_covisible : forall (T : Type) (S : SOps T) ord ord' (ops : list (w_op T)), valid_order ord -> valid_order ord' -> good_history ops -> exists w, w_run ord window0 ops = Ok w /\
  forall i j fi fj mi mj, nth_error (wn_frames w) i = Some fi -> nth_error (wn_frames w) j = Some fj -> nth_error (a_run [] ops) i = Some mi -> nth_error (a_run [] ops) j = Some mj ->
    List.NoDup (covisible ord' fi fj) /\
    (forall p, In p (covisible ord' fi fj) <-> exists id f, wn_mgr w !! id = Some p /\ hp_cells (wn_heap w) !! p = Some f /\ ft_id f = id /\ reported mi id <> None /\ reported mj id <> None) /\
    covisible ord' fi fj ≡ₚ covisible ord' fj fi.
Proof. exact @covisible_messages. Qed.
Print Assumptions C101_covisible.
Example C101_example : good_history (firstn 3 (demo_hist (T := unit))) /\
  match w_run map_to_list window0 (firstn 3 (demo_hist (T := unit))) with
  | Ok w => match wn_frames w with
            | [f1; f2; f3] => length (covisible map_to_list f1 f3) = 1%nat /\ length (covisible map_to_list f2 f3) = 2%nat /\ size (fr_feats f2) = 3%nat
            | _ => False end
  | Ub _ => False end.
Proof. exact covis_ex. Qed.
