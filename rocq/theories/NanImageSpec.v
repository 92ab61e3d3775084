(** Specification vocabulary for C99: not-a-number image coordinates. Nothing here is used by the model. *)
From Coq Require Import ZArith List Bool.
From stdpp Require Import gmap.
From Flocq Require Import IEEE754.BinarySingleNaN.
From Verif Require Import Fp Scalar Base LinAlg Msg DataLoader FeatureManager FrameManager Window MathLib Attitude Propagator VisionUpdate Backend BackendSpec NanSpec.
Import ListNotations.

Section NanImageSpec.
Variable lm : libm32.
Local Instance ops_img : SOps f32 := ops_f32 lm.

Definition nan_pixel (z : v2 f32) : Prop := f32_isnan (v2x z) = true \/ f32_isnan (v2y z) = true.
(** A message in which some camera reported a coordinate that is not a number. *)
Definition nan_image (m : feat_msg f32) : Prop := exists ob cam z, In ob (fm_obs m) /\ ob !! cam = Some z /\ nan_pixel z.
(** Feature [f] has such a measurement from a frame of the window, and its point is not in the plane of that camera. *)
Definition nan_measured (exts : list (extrinsic f32)) (fs : list (frame f32)) (f : feature f32) : Prop :=
  exists (i : nat) ob cam z k fr e, nth_error (ft_obs f) i = Some ob /\ ob !! cam = Some z /\ nan_pixel z /\
    get_frame fs (u32 (Z.of_nat i + ft_first f)) = Some k /\ nth_error fs k = Some fr /\ nth_error exts (Z.to_nat cam) = Some e /\
    sltb szero (sabs (v3z (meas_pc e fr (ft_pw f)))) = true.
(** The update at [ts] uses such a feature. *)
Definition nan_update (o : voracle f32) (c : vcfg f32) (s : vstate f32) (ts thr : f64) : Prop :=
  exists q fs h l (p : nat) f, pq_reset_origin (vs_pq s) ts thr = (q, true) /\ update_newest (wn_frames (vs_win s)) q = Ok (Some fs) /\
    select_good o c (vs_ext s) fs (wn_heap (vs_win s)) = Ok (h, l) /\ In p l /\ hget h p = Ok f /\ nan_measured (vs_ext s) fs f.

Definition mount_nan (e : extrinsic f32) : Prop := v3_all_nan (ex_p e) /\ q_some_nan (ex_q e).
Definition frame_nan (f : frame f32) : Prop := v3_all_nan (fr_p f) /\ q_some_nan (fr_q f).
(** Nothing is left of the estimate. *)
Definition all_lost (s : vstate f32) : Prop :=
  (exists it, front (pq_items (vs_pq s)) = Ok it /\ v3_all_nan (mo_p (pi_mo it)) /\ v3_all_nan (mo_v (pi_mo it)) /\ q_some_nan (mo_q (pi_mo it))) /\
  v3_all_nan (pq_ba (vs_pq s)) /\ v3_all_nan (pq_bg (vs_pq s)) /\ List.Forall mount_nan (vs_ext s) /\ List.Forall frame_nan (wn_frames (vs_win s)).

(** RunOnce takes the image [m] next and its vision update, started in [v], succeeds. *)
Definition image_update (c : vcfg f32) (o : boracle f32) (s : bstate f32) (m : feat_msg f32) (v : vstate f32) (thr : f64) : Prop :=
  exists s1 r w s2 v' pol, cm_feat (snd (fst (fst (dl_pop_one (b_dl s))))) = Some m /\
    (let l := fst (fst (fst (dl_pop_one (b_dl s)))) in
     match cm_imu (snd (fst (fst (dl_pop_one (b_dl s))))) with [] => (with_dl s (b_st s) l, true) | i :: _ => imu_step c (with_dl s (b_st s) l) i end = (s1, r)) /\
    update_window (b_win s1) m = Ok w /\ init_step c o (with_win s1 w) = Ok s2 /\ b_status s2 = Initialized /\
    v = VState (b_win s2) (b_ext s2) (b_pq s2) /\ thr = dl_period (b_dl s2) /\
    vision_update (bo_vis o) c v (fm_ts m) thr = Ok (v', true, pol).
End NanImageSpec.
