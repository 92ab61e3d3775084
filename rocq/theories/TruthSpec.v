(** Specification of a filter that starts at the truth and is given exact data (C84). Nothing here is used by the model. *)
From Coq Require Import ZArith Reals List Bool.
From stdpp Require Import gmap list.
From Verif Require Import Fp Scalar Base LinAlg MathLib Msg DataLoader FeatureManager FrameManager Window Attitude Propagator Pnp VisionUpdate Backend
  WindowSpec QueueSpec UpdSpec GeoSpec BackendSpec InitSpec.
Import ListNotations.
Local Open Scope R_scope.

(** ** One update of a moving body *)

(** Every observation of the track [ft] is the exact image of the point [X] seen from the frame with the id of the observation. *)
Definition exact_track (exts : list (extrinsic R)) (fs : list (frame R)) (X : v3 R) (ft : feature R) : Prop :=
  forall k ob f, nth_error (ft_obs ft) k = Some ob -> In f fs -> fr_id f = u32 (Z.of_nat k + ft_first ft) -> exact_obs exts (fr_q f) (fr_p f) X ob.
(** [b] is the state the IMU samples lead to from [a]: the attitude turned by the mean rate, the velocity changed by the mean of
    the accelerations at both ends, the position by the mean velocity. *)
Definition midpoint (grav ba bg : v3 R) (a b : pitem R) : Prop :=
  let dt := sof32 (f64_to_f32 (f64_sub (pi_ts b) (pi_ts a))) : R in
  let half := 1 / 2 in
  mo_q (pi_mo b) = qnormalize (qmul (mo_q (pi_mo a)) (delta_q (v3scale (v3sub (v3scale (v3add (pi_g a) (pi_g b)) half) bg) dt))) /\
  mo_v (pi_mo b) = v3add (mo_v (pi_mo a)) (v3scale (v3sub (v3scale (v3add (qrot (mo_q (pi_mo a)) (v3sub (pi_a a) ba)) (qrot (mo_q (pi_mo b)) (v3sub (pi_a b) ba))) half) grav) dt) /\
  mo_p (pi_mo b) = v3add (mo_p (pi_mo a)) (v3scale (v3scale (v3add (mo_v (pi_mo a)) (mo_v (pi_mo b))) half) dt).
(** A queue every state of which follows from the one before. *)
Fixpoint coherent (grav ba bg : v3 R) (l : list (pitem R)) : Prop :=
  match l with a :: ((b :: _) as r) => midpoint grav ba bg a b /\ coherent grav ba bg r | _ => True end.
(** The part of the queue that is left when everything earlier than the image, by more than the tolerance, is dropped. *)
Definition from_image (ts thr : f64) (l l' : list (pitem R)) : Prop :=
  exists pre it r, l = pre ++ l' /\ l' = it :: r /\ List.Forall (fun x => f64_ltb thr (f64_sub ts (pi_ts x)) = true) pre /\
    f64_ltb thr (f64_sub ts (pi_ts it)) = false.
(** The window with its newest frame at the state [m]. *)
Definition newest_at (fs : list (frame R)) (m : motion R) (fs' : list (frame R)) : Prop :=
  exists l f, fs = l ++ [f] /\ fs' = l ++ [Frame (fr_feats f) (mo_q m) (mo_p m) (mo_v m) (fr_id f) (fr_ts f)].

(** ** A body at rest *)

(** The camera mounted as [e] sees the point with body coordinates [Y], in front of it, at [z]. *)
Definition body_sees (e : extrinsic R) (Y : v3 R) (z : v2 R) : Prop :=
  exists c, Y = v3add (ex_p e) (qrot (ex_q e) c) /\ 0 < v3z c /\ z = V2 (v3x c / v3z c) (v3y c / v3z c).
Definition exact_image (exts : list (extrinsic R)) (Y : v3 R) (ob : observe R) : Prop :=
  forall cam z, ob !! cam = Some z -> exists e, nth_error exts (Z.to_nat cam) = Some e /\ body_sees e Y z.
(** Every feature reported by the message is the exact image of the point [Y id]. *)
Definition exact_msg (exts : list (extrinsic R)) (Y : Z -> v3 R) (m : feat_msg R) : Prop :=
  forall id ob, In (id, ob) (combine (fm_ids m) (fm_obs m)) -> exact_image exts (Y id) ob.
(** A sample of the body at rest. *)
Definition rest_sample (a g : v3 R) (m : imu_msg R) : Prop := im_accel m = a /\ im_gyro m = g.
Definition rest_frame (q : quat R) (p : v3 R) (f : frame R) : Prop := fr_q f = q /\ fr_p f = p /\ fr_v f = v3zero.
Definition rest_item (q : quat R) (p a g : v3 R) (it : pitem R) : Prop := pi_mo it = Motion p v3zero q /\ pi_a it = a /\ pi_g it = g.
(** All tracks are exact, and the manager files them under their ids. *)
Definition exact_tracks (exts : list (extrinsic R)) (Y : Z -> v3 R) (w : window R) : Prop :=
  filed (wn_heap w) (wn_mgr w) /\ forall p ft, hp_cells (wn_heap w) !! p = Some ft -> List.Forall (exact_image exts (Y (ft_id ft))) (ft_obs ft).
(** What is waiting in the loader. *)
Definition exact_loader (exts : list (extrinsic R)) (Y : Z -> v3 R) (a g : v3 R) (l : loader R) : Prop :=
  List.Forall (rest_sample a g) (dl_imu l) /\ List.Forall (exact_msg exts Y) (dl_feat l).

(** The body rests at (q, p); the accelerometer with bias [ba] reads [a], the gyro reads its bias [bg]; the filter knows all this. *)
Record resting (grav : v3 R) (exts : list (extrinsic R)) (Y : Z -> v3 R) (q : quat R) (p a ba bg : v3 R) (s : bstate R) : Prop := {
  rs_q : qnorm2 q = 1;
  rs_grav : qrot q (v3sub a ba) = grav;
  rs_ext : b_ext s = exts;
  rs_exts : List.Forall (fun e => qnorm2 (ex_q e) = 1) exts;
  rs_bias : pq_ba (b_pq s) = ba /\ pq_bg (b_pq s) = bg;
  rs_queue : List.Forall (rest_item q p a bg) (pq_items (b_pq s)) /\ pq_items (b_pq s) <> [];
  rs_frames : List.Forall (rest_frame q p) (wn_frames (b_win s));
  rs_tracks : exact_tracks exts Y (b_win s);
  rs_loader : exact_loader exts Y a bg (b_dl s) }.

(** The calls deliver exact data of the body at rest. *)
Definition rest_op (exts : list (extrinsic R)) (Y : Z -> v3 R) (a g : v3 R) (op : b_op R) : Prop :=
  match op with
  | BImu m => rest_sample a g m
  | BFeat m => exact_msg exts Y m
  | BRun o => valid_norder (vo_nord (bo_vis o)) /\ exact_svd (vo_svd (bo_vis o))
  | _ => True
  end.
(** The back end stays initialized. *)
Definition stays_initialized (c : vcfg R) (s0 : bstate R) (ops : list (b_op R)) : Prop :=
  forall pre post s, ops = pre ++ post -> b_hist c s0 pre = Ok s -> b_status s = Initialized.

(** With new initializations: the body rests at (q, 0), the sensors have no bias, the attitude estimator has settled at [q], every
    observation contains the first camera, and solved points lie on the line of sight of that camera. *)
Definition on_sight (e : extrinsic R) (q : quat R) (Y pw : v3 R) : Prop :=
  forall z, body_sees e Y z -> exists c, pw = qrot q (v3add (ex_p e) (qrot (ex_q e) c)) /\ v3x c = v2x z * v3z c /\ v3y c = v2y z * v3z c.
Definition first_camera (m : feat_msg R) : Prop := List.Forall (fun ob : observe R => is_Some (ob !! 0%Z)) (fm_obs m).
Record settled (grav : v3 R) (exts : list (extrinsic R)) (Y : Z -> v3 R) (q : quat R) (a : v3 R) (s : bstate R) : Prop := {
  st_q : qnorm2 q = 1;
  st_grav : qrot q a = grav;
  st_ext : b_ext s = exts;
  st_exts : List.Forall (fun e => qnorm2 (ex_q e) = 1) exts;
  st_bias : pq_ba (b_pq s) = v3zero /\ pq_bg (b_pq s) = v3zero /\ at_ba (b_att s) = v3zero /\ at_bg (b_att s) = v3zero /\ at_err (b_att s) = v3zero;
  st_queue : List.Forall (rest_item q v3zero a v3zero) (pq_items (b_pq s)) /\ (b_status s = Initialized -> pq_items (b_pq s) <> []);
  st_att : List.Forall (fun it => ai_q it = q /\ ai_a it = a /\ ai_g it = v3zero) (at_items (b_att s)) /\ at_items (b_att s) <> [];
  st_frames : List.Forall (rest_frame q v3zero) (wn_frames (b_win s)) \/ b_status s = NeedInit /\ (length (wn_frames (b_win s)) <= 1)%nat;
  st_tracks : exact_tracks exts Y (b_win s);
  st_first : forall p ft, hp_cells (wn_heap (b_win s)) !! p = Some ft -> List.Forall (fun ob : observe R => is_Some (ob !! 0%Z)) (ft_obs ft) /\
    (ft_status ft = FSolved -> forall e, nth_error exts 0 = Some e -> on_sight e q (Y (ft_id ft)) (ft_pw ft));
  st_loader : exact_loader exts Y a v3zero (b_dl s) /\ List.Forall first_camera (dl_feat (b_dl s)) }.
(** The calls deliver exact data of the body at rest; the linear solver returns zero when the right-hand side is zero. *)
Definition settled_op (exts : list (extrinsic R)) (Y : Z -> v3 R) (a : v3 R) (op : b_op R) : Prop :=
  match op with
  | BImu m => rest_sample a v3zero m
  | BFeat m => exact_msg exts Y m /\ first_camera m
  | BRun o => valid_norder (vo_nord (bo_vis o)) /\ exact_svd (vo_svd (bo_vis o)) /\ valid_norder (vo_nord (bo_init o)) /\ exact_svd (vo_svd (bo_init o)) /\
      (forall H b, (forall i, me b i 0%nat = 0) -> forall i, (i < 6)%nat -> bo_ldlt o H b i = 0)
  | _ => True
  end.
