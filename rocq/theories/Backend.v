(** Backend: include/backend/backend.hpp, src/backend/backend.cpp, src/backend/backend_initialize.cpp,
    src/backend/backend_config.cpp. *)
From Coq Require Import ZArith List Bool Arith.
From stdpp Require Import gmap.
From Verif Require Import Fp Scalar Base LinAlg Msg DataLoader FeatureManager FrameManager Window MathLib Attitude Propagator
  Triangulate Pnp VisionUpdate.
Import ListNotations.
Local Open Scope nat_scope.

(** Status (typedef.hpp 61-64). *)
Inductive status := NeedInit | Initialized.

(** Backend members (backend.hpp 22-37) with the two statics of the data loader. The configuration, gravity_w
    and the solver parameters do not change after ConfigParams and are arguments ([vcfg], [pnp_default]);
    imuPeriod is in the loader. *)
Record bstate (T : Type) := BState {
  b_st : dl_statics; b_dl : loader T; b_win : window T; b_ext : list (extrinsic T);
  b_att : att T; b_pq : pqueue T; b_status : status }.
Arguments BState {T}. Arguments b_st {T}. Arguments b_dl {T}. Arguments b_win {T}. Arguments b_ext {T}.
Arguments b_att {T}. Arguments b_pq {T}. Arguments b_status {T}.

(** External and unspecified behaviour during one RunOnce: that of the vision update, the iteration orders and
    the singular value decomposition of the triangulation of the first frame ([bo_init]), the iteration order
    of EstimateFramePose, ldlt().solve of the PnP solver, and the iteration orders of successive
    marginalizations. *)
Record boracle (T : Type) := BOracle {
  bo_vis : voracle T; bo_init : voracle T; bo_pord : order; bo_ldlt : mat T -> mat T -> nat -> T; bo_marg : nat -> order }.
Arguments BOracle {T}. Arguments bo_vis {T}. Arguments bo_init {T}. Arguments bo_pord {T}. Arguments bo_ldlt {T}.
Arguments bo_marg {T}.

(** Scalar ZERO promoted to double (typedef.hpp 67, backend_initialize.cpp 14). *)
Definition f64_zero_thr : f64 := f64_lit 0xdbe6ff (-57).
(** The double 0.55 (backend_initialize.cpp 17). *)
Definition f64_0_55 : f64 := f64_lit 0x1199999999999a (-53).
#[global] Arguments f64_zero_thr : simpl never.
#[global] Arguments f64_0_55 : simpl never.

Section Backend.
Context {T : Type} {S : SOps T}.
Local Open Scope sc_scope.

(** Assignments to members (backend.cpp 58, 65, 72, 149 and the managers changed in place). *)
Definition with_dl (s : bstate T) (st : dl_statics) (l : loader T) : bstate T :=
  BState st l (b_win s) (b_ext s) (b_att s) (b_pq s) (b_status s).
Definition with_win (s : bstate T) (w : window T) : bstate T :=
  BState (b_st s) (b_dl s) w (b_ext s) (b_att s) (b_pq s) (b_status s).
Definition with_att (s : bstate T) (a : att T) : bstate T :=
  BState (b_st s) (b_dl s) (b_win s) (b_ext s) a (b_pq s) (b_status s).
Definition with_pq (s : bstate T) (q : pqueue T) : bstate T :=
  BState (b_st s) (b_dl s) (b_win s) (b_ext s) (b_att s) q (b_status s).
Definition with_status (s : bstate T) (x : status) : bstate T :=
  BState (b_st s) (b_dl s) (b_win s) (b_ext s) (b_att s) (b_pq s) x.

(** The backend after ConfigParams (backend_config.cpp 15-45): period, noise, default biases and extrinsics.
    F and G have their default values, identity and zero (sequence_propagator.hpp 45-46); initState is the identity. *)
Definition b_new (st : dl_statics) (period : f64) (exts : list (extrinsic T)) (ba bg : v3 T) (na ng nwa nwg : T) : bstate T :=
  BState st (Loader [] [] (dl_offset (dl_new (T := T))) period) window0 exts att_new
    (PQueue [] (mzero 0 0) ba bg (Motion v3zero v3zero qid) F_reset G_reset (noise_Q na ng nwa nwg)) NeedInit.

(** GetIMUMessage, GetFeaturesMessage (backend.cpp 8-18): the result of the push is ignored. *)
Definition b_imu (s : bstate T) (m : imu_msg T) : bstate T * bool :=
  let '(st, l, _, _) := dl_push_imu (b_st s) (b_dl s) m in (with_dl s st l, true).
Definition b_feat (s : bstate T) (m : feat_msg T) : bstate T * bool :=
  let '(st, l, _, _) := dl_push_feat (b_st s) (b_dl s) m in (with_dl s st l, true).
(** Reset (backend.cpp 147-149). *)
Definition b_reset (s : bstate T) : bstate T := with_status s NeedInit.
(** PublishPropagateState, PublishUpdateState (backend.cpp 117-143). *)
Definition b_publish_newest (s : bstate T) := pq_publish_newest (b_pq s).
Definition b_publish_oldest (s : bstate T) := pq_publish_oldest (b_pq s).

(** ** Initialization *)

(** Body of the loop of TrianglizeMultiView (backend_initialize.cpp 61-86) for one linked feature. *)
Definition tri_one (o : voracle T) (exts : list (extrinsic T)) (f : frame T) (h : heap T) (p : nat) : out (heap T) :=
  let! ft := hget h p in
  let! ob := at_ (ft_obs ft) (Z.to_nat (u32 (fr_id f - ft_first ft))) in
  let! vs := cam_views exts (fr_q f) (fr_p f) (vo_nord o ob) in
  let! r := solve_feature (vo_svd o) ft vs in
  Ok (hset h p (fst r)).
(** TrianglizeMultiView (backend_initialize.cpp 50-88); the frame is not null. Always returns true. *)
Fixpoint tri_loop (o : voracle T) (exts : list (extrinsic T)) (f : frame T) (l : list (Z * nat)) (h : heap T) : out (heap T) :=
  match l with [] => Ok h | (_, p) :: r => let! h' := tri_one o exts f h p in tri_loop o exts f r h' end.
Definition tri_multi_view (o : voracle T) (exts : list (extrinsic T)) (f : frame T) (h : heap T) : out (heap T) :=
  tri_loop o exts f (vo_ord o (fr_feats f)) h.

(** The points collected by EstimateFramePose (backend_initialize.cpp 100-108). *)
Fixpoint pose_points (h : heap T) (f : frame T) (l : list (Z * nat)) : out (list (v3 T * v2 T)) :=
  match l with
  | [] => Ok []
  | (_, p) :: r =>
      let! ft := hget h p in
      let! rest := pose_points h f r in
      Ok (match ft_status ft with
          | FSolved => match get_norm ft (fr_id f) 0 with Some z => (ft_pw ft, z) :: rest | None => rest end
          | _ => rest
          end)
  end.
(** EstimateFramePose (backend_initialize.cpp 92-126): the new q_wb and p_wb; [None] is the result false, the
    frame is then unchanged. *)
Definition estimate_pose (o : boracle T) (exts : list (extrinsic T)) (h : heap T) (f : frame T) : out (option (quat T * v3 T)) :=
  let! pts := pose_points h f (bo_pord o (fr_feats f)) in
  if Nat.ltb (length pts) 10 then Ok None
  else
    let! e := at_ exts 0 in
    let r := pnp_kernel pnp_default (bo_ldlt o) (map fst pts) (map snd pts) (cam_q (fr_q f) e) (cam_p (fr_q f) (fr_p f) e) in
    if po_ok r then
      let q := qmul (po_q r) (qinv (ex_q e)) in
      Ok (Some (q, v3add (v3opp (qrot q (ex_p e))) (po_p r)))
    else Ok None.

(** [propagator.initState = ...] (backend_initialize.cpp 133-135). *)
Definition with_init (q : pqueue T) (m : motion T) : pqueue T :=
  PQueue (pq_items q) (pq_ecc q) (pq_ba q) (pq_bg q) m (pq_F q) (pq_G q) (pq_Q q).
(** The replay loop (backend_initialize.cpp 138-140): the items of the attitude estimator are propagated. *)
Definition replay (grav : v3 T) (n_ext : nat) (q : pqueue T) (l : list (att_item T)) : pqueue T :=
  fold_left (fun q it => pq_propagate grav n_ext q (ai_a it) (ai_g it) (ai_ts it)) l q.
(** InitializePropagator (backend_initialize.cpp 130-142); always returns true. *)
Definition init_propagator (c : vcfg T) (s : bstate T) (m : motion T) (start : f64) : out (bstate T) :=
  let! a := att_clean (b_att s) start (f64_to_f32 (dl_period (b_dl s))) in
  Ok (with_pq (with_att s a) (replay (vc_grav c) (length (b_ext s)) (with_init (b_pq s) m) (at_items a))).

(** Initialize (backend_initialize.cpp 8-45). What was modified before a failure stays modified. The log line 35
    reads the front of the propagation queue. *)
Definition initialize (c : vcfg T) (o : boracle T) (s : bstate T) : out (bstate T * bool) :=
  let w := b_win s in
  match wn_frames w with
  | fi :: fj :: rest =>
      let diff := f64_sub (fr_ts fj) (fr_ts fi) in
      if f64_ltb (f64_abs diff) f64_zero_thr then Ok (s, false)
      else
        let! aq := att_get (b_att s) (fr_ts fi) (f64_mul (dl_period (b_dl s)) f64_0_55) in
        match aq with
        | None => Ok (s, false)
        | Some q0 =>
            let fi1 := with_pose fi q0 v3zero (fr_v fi) in
            let! h := tri_multi_view (bo_init o) (b_ext s) fi1 (wn_heap w) in
            let fj1 := with_pose fj (fr_q fi1) (fr_p fi1) (fr_v fj) in
            let! ep := estimate_pose o (b_ext s) h fj1 in
            match ep with
            | None => Ok (with_win s (Window h (wn_mgr w) (fi1 :: fj1 :: rest)), false)
            | Some (q1, p1) =>
                let v := v3div (v3sub p1 (fr_p fi1)) (sof32 (f64_to_f32 diff)) in
                let fj2 := with_pose fj1 q1 p1 v in
                let fi2 := with_pose fi1 (fr_q fi1) (fr_p fi1) v in
                let s1 := with_win s (Window h (wn_mgr w) (fi2 :: fj2 :: rest)) in
                let! s2 := init_propagator c s1 (Motion (fr_p fi2) (fr_v fi2) (fr_q fi2)) (fr_ts fi2) in
                let! _ := front (pq_items (b_pq s2)) in
                Ok (s2, true)
            end
        end
  | _ => Ok (s, false)
  end.

(** ** One step *)

(** [while (frames.size() > 1) Marginalize(MARG_OLDEST)] (backend.cpp 59-61, 74-76); every pass removes one
    frame, so the number of frames bounds the number of passes. [k] counts the calls. *)
Fixpoint shrink (fuel : nat) (ord : nat -> order) (k : nat) (w : window T) : out (window T) :=
  if Nat.ltb 1 (length (wn_frames w)) then
    match fuel with
    | O => Ok w
    | Datatypes.S n => let! w' := marginalize (ord k) w MargOldest in shrink n ord (Datatypes.S k) w'
    end
  else Ok w.
Definition shrink_all (ord : nat -> order) (w : window T) : out (window T) := shrink (length (wn_frames w)) ord 0 w.

(** An IMU sample (backend.cpp 33-46): the state and [res]. *)
Definition imu_step (c : vcfg T) (s : bstate T) (m : imu_msg T) : bstate T * bool :=
  let '(a, r) := att_propagate (vc_grav c) (b_att s) (im_accel m) (im_gyro m) (im_ts m) in
  let s1 := with_att s a in
  match b_status s with
  | NeedInit => (s1, r)
  | Initialized => (with_pq s1 (pq_propagate (vc_grav c) (length (b_ext s)) (b_pq s1) (im_accel m) (im_gyro m) (im_ts m)), true)
  end.

(** Initialization attempt (backend.cpp 53-66). *)
Definition init_step (c : vcfg T) (o : boracle T) (s : bstate T) : out (bstate T) :=
  match b_status s with
  | NeedInit =>
      let! r := initialize c o s in
      if snd r then Ok (with_status (fst r) Initialized)
      else let! w := shrink_all (bo_marg o) (b_win (fst r)) in Ok (with_win (fst r) w)
  | Initialized => Ok s
  end.
(** Vision update (backend.cpp 68-85). *)
Definition update_step (c : vcfg T) (o : boracle T) (ts : f64) (s : bstate T) : out (bstate T) :=
  match b_status s with
  | NeedInit => Ok s
  | Initialized =>
      let! u := vision_update (bo_vis o) c (VState (b_win s) (b_ext s) (b_pq s)) ts (dl_period (b_dl s)) in
      let '(v, ok, pol) := u in
      let s1 := BState (b_st s) (b_dl s) (vs_win v) (vs_ext v) (b_att s) (vs_pq v) (b_status s) in
      if ok : bool then
        let! w := marginalize (bo_marg o 0) (vs_win v) pol in
        Ok (with_att (with_win s1 w) (att_set_bias (b_att s) (pq_ba (vs_pq v)) (pq_bg (vs_pq v))))
      else
        let! w := shrink_all (bo_marg o) (vs_win v) in
        Ok (with_win (with_status s1 NeedInit) w)
  end.
(** Cleaning the attitude estimator (backend.cpp 88-92). *)
Definition clean_step (s : bstate T) : out (bstate T) :=
  if Nat.ltb 1 (length (wn_frames (b_win s))) then
    let! f := back (wn_frames (b_win s)) in
    let! a := att_clean (b_att s) (fr_ts f) (f64_to_f32 (dl_period (b_dl s))) in
    Ok (with_att s a)
  else Ok s.
(** A features message (backend.cpp 48-94). *)
Definition feat_step (c : vcfg T) (o : boracle T) (s : bstate T) (m : feat_msg T) : out (bstate T) :=
  let! w := update_window (b_win s) m in
  let! s1 := init_step c o (with_win s w) in
  let! s2 := update_step c o (fm_ts m) s1 in
  clean_step s2.

(** RunOnce (backend.cpp 22-99). The inner variables [res] (56, 71) shadow the outer one, which stays the result
    of UpdateFeatureFrameManager. The message pointers are not null. *)
Definition run_once (c : vcfg T) (o : boracle T) (s : bstate T) : out (bstate T * bool) :=
  let '(l, m, ok, _) := dl_pop_one (b_dl s) in
  let s0 := with_dl s (b_st s) l in
  if negb ok then Ok (s0, false)
  else
    let '(s1, r) := match cm_imu m with [] => (s0, true) | i :: _ => imu_step c s0 i end in
    match cm_feat m with
    | None => Ok (s1, r)
    | Some f => let! s2 := feat_step c o s1 f in Ok (s2, true)
    end.

(** RunOnceTest (backend.cpp 103-113): takes one message and drops it. *)
Definition run_once_test (s : bstate T) : bstate T * bool :=
  let '(l, _, ok, _) := dl_pop_one (b_dl s) in (with_dl s (b_st s) l, ok).

End Backend.
