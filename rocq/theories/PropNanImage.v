(** Property C99: not-a-number image coordinates. *)
From Coq Require Import ZArith Bool List.
From stdpp Require Import gmap.
From Flocq Require Import IEEE754.BinarySingleNaN.
From Verif Require Import Fp Scalar Base LinAlg Msg DataLoader FeatureManager FrameManager Window MathLib Attitude Propagator
  Triangulate Pnp VisionUpdate Backend UpdSpec BackendSpec NanSpec NanImageSpec NanImageFacts BackWitness NanWitness NanImageWitness.
Import ListNotations.
Local Open Scope nat_scope.

(** C99: one NaN coordinate among the measurements of an update, and all states are NaN after it: pose, velocity, biases, mountings, frames. *)
Theorem C99_update : forall (lm : libm32) (o : voracle f32) c s ts thr s' pol, valid_norder (vo_nord o) -> List.NoDup (map fr_id (wn_frames (vs_win s))) ->
  vision_update (S := ops_f32 lm) o c s ts thr = Ok (s', true, pol) -> nan_update lm o c s ts thr -> all_lost s'.
Proof. exact nan_update_all_lost. Qed.
Print Assumptions C99_update.
(** RunOnce reports success, and whatever calls follow the mountings and the biases stay NaN, as does every position and velocity published for
    the newest sample, unless the queue holds the one item of a new initialization only. *)
Theorem C99_forever : forall (lm : libm32) c (o : boracle f32) (s s1 s2 : bstate f32) ops m v thr r, valid_norder (vo_nord (bo_vis o)) ->
  run_once (S := ops_f32 lm) c o s = Ok (s1, r) -> image_update lm c o s m v thr -> nan_update lm (bo_vis o) c v (fm_ts m) thr -> b_hist (S := ops_f32 lm) c s1 ops = Ok s2 ->
  r = true /\ b_status s1 = Initialized /\ published_nan (b_publish_oldest s1) /\ List.Forall mount_nan (b_ext s2) /\
  (forall mo ba bg t, b_publish_newest s2 = Some (mo, ba, bg, t) -> v3_all_nan ba /\ v3_all_nan bg /\ (2 <= length (pq_items (b_pq s2)) -> v3_all_nan (mo_p mo) /\ v3_all_nan (mo_v mo))).
Proof. exact image_nan_forever. Qed.
Print Assumptions C99_forever.
(** Ten points seen by two cameras in two images; in the second the second camera reports a NaN. *)
Example C99_example : exists s s1 s2 m v thr, fresh w_s0 /\ b_hist (w_c 1) w_s0 ni_before = Ok s /\
  valid_norder (vo_nord (bo_vis w_o)) /\ run_once (w_c 1) w_o s = Ok (s1, true) /\ image_update lm0 (w_c 1) w_o s m v thr /\ nan_image m /\ nan_update lm0 (bo_vis w_o) (w_c 1) v (fm_ts m) thr /\
  List.NoDup (map fr_id (wn_frames (vs_win v))) /\ b_hist (w_c 1) s1 ni_after = Ok s2 /\ b_status s2 = Initialized /\ 2 <= length (pq_items (b_pq s2)) /\ published_nan (b_publish_newest s2).
Proof. exact ni_forever. Qed.
Example C99_good_example : exists s s1, b_hist (w_c 1) w_s0 ni_fine = Ok s /\ run_once (w_c 1) w_o s = Ok (s1, true) /\ b_status s1 = Initialized /\ pub_okb s1 = true.
Proof. exact ni_good. Qed.
(** A feature whose located point is itself NaN is used, but its rows and residuals are all zero: it says nothing. *)
Theorem C99_point : forall (lm : libm32) (o : voracle f32) exts fs cols f B, v3_some_nan (ft_pw f) -> (forall i j, is_finite (vo_qr o (mzero (S := ops_f32 lm) (rows_of f) 3) i j) = true) ->
  meas_feature (S := ops_f32 lm) o exts fs cols f = Ok (Some B) -> forall i j, exists b, me B i j = B754_zero b.
Proof. exact nan_point_silent. Qed.
Print Assumptions C99_point.
Example C99_point_example : v3_some_nan (ft_pw ni_ft) /\ (forall i j, is_finite (vo_qr w_vis (mzero (rows_of ni_ft) 3) i j) = true) /\
  exists B, meas_feature w_vis [w_ext; w_ext] [ni_fr 1; ni_fr 2] (hx_cols 2 2) ni_ft = Ok (Some B) /\ mr B = 5.
Proof. exact ni_point. Qed.
(** False that an image with a NaN in it is refused, reported, or recovered from by a Reset and a new initialization. *)
Theorem C99_recovers_refuted : exists (lm : libm32) c (o : boracle f32) (s0 s s1 s2 : bstate f32) ops1 ops2 m v thr,
  fresh (S := ops_f32 lm) s0 /\ b_hist (S := ops_f32 lm) c s0 ops1 = Ok s /\ image_update lm c o s m v thr /\ nan_image m /\ run_once (S := ops_f32 lm) c o s = Ok (s1, true) /\
  b_hist (S := ops_f32 lm) c s1 (BReset :: ops2) = Ok s2 /\ b_status s2 = Initialized /\ published_nan (b_publish_newest s2).
Proof.
  destruct ni_forever as (s & s1 & s2 & m & v & thr & H1 & H2 & _ & H3 & H4 & H5 & _ & _ & H6 & H7 & _ & H8).
  exists lm0, (w_c 1), w_o, w_s0, s, s1, s2, ni_before, (flat_map ni_round [2; 3; 4]%Z), m, v, thr. exact (conj H1 (conj H2 (conj H4 (conj H5 (conj H3 (conj H6 (conj H7 H8))))))).
Qed.
Print Assumptions C99_recovers_refuted.
