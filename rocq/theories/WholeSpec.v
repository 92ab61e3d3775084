(** Specification of a vision update from its inputs to its results (C96). Nothing here is used by the model. *)
From Coq Require Import ZArith Reals List Bool Arith.
From stdpp Require Import gmap list.
From Verif Require Import Fp Scalar Base LinAlg MathLib MatFacts Msg DataLoader FeatureManager FrameManager Window Attitude Propagator VisionUpdate Backend
  WindowSpec QueueSpec UpdSpec NumSpec DerivSpec KalmanFacts InjectSpec BackendSpec TruthSpec BundleSpec.
Import ListNotations.
Local Open Scope R_scope.

(** ** What the estimate is *)

(** [dx] = P y0 is the one minimum of [cost] over state corrections P y and point corrections together, and [P'] its
    curvature: at dx + P' z the best points give z^t P' z more. *)
Definition estimate (n : nat) (cost : (nat -> R) -> (nat -> v3 R) -> R) (P : fmat) (dx : mat R) (P' : fmat) : Prop :=
  exists y0 dps0,
    (forall i, (i < n)%nat -> me dx i 0%nat = mvec n P y0 i) /\
    (forall y dps, cost y0 dps0 <= cost y dps) /\
    (forall y dps, cost y dps = cost y0 dps0 -> forall i, (i < n)%nat -> mvec n P y i = me dx i 0%nat) /\
    (forall z, exists y dps, (forall i, (i < n)%nat -> mvec n P y i = me dx i 0%nat + mvec n P' z i) /\
       (forall dps', cost y dps <= cost y dps') /\ cost y dps = cost y0 dps0 + qform n P' z).

(** ** When the measurements fix a point *)

(** The centre of the camera [e] carried by the frame [f], in the world. *)
Definition cam_centre (e : extrinsic R) (f : frame R) : v3 R := v3add (qrot (fr_q f) (ex_p e)) (fr_p f).
(** The measurement [m] of the point [pw] was taken from the camera centre [c], and the depth of the point is not too small to be used. *)
Definition taken_from (exts : list (extrinsic R)) (fs : list (frame R)) (pw : v3 R) (m : nat * nat * v2 R) (c : v3 R) : Prop :=
  exists e f, nth_error exts (snd (fst m)) = Some e /\ nth_error fs (fst (fst m)) = Some f /\
    zero_thr < Rabs (v3z (cam_point (fr_q f) (fr_p f) (ex_q e) (ex_p e) pw)) /\ c = cam_centre e f.
(** Two of the measurements see the point in different directions. *)
Definition parallax (nord : observe R -> list (Z * v2 R)) (b : Z) (exts : list (extrinsic R)) (fs : list (frame R)) (ft : feature R) : Prop :=
  exists m1 m2 c1 c2, In m1 (meas_of nord b ft) /\ In m2 (meas_of nord b ft) /\
    taken_from exts fs (ft_pw ft) m1 c1 /\ taken_from exts fs (ft_pw ft) m2 c2 /\
    v3cross (v3sub (ft_pw ft) c1) (v3sub (ft_pw ft) c2) <> V3 0 0 0.

(** ** The whole update *)

(** The measurements of the track are what the messages [A] of the window reported: position in the window, camera, image point. *)
Definition follows_messages (nord : observe R -> list (Z * v2 R)) (b : Z) (A : list (feat_msg R)) (ft : feature R) : Prop :=
  forall k cam z, In (k, cam, z) (meas_of nord b ft) <->
    exists m (ob : observe R), nth_error A k = Some m /\ reported m (ft_id ft) = Some ob /\ (ob : gmap Z (v2 R)) !! Z.of_nat cam = Some z.
(** A track that may be used: known, reported by the newest message, its point solved. *)
Definition candidate (nord : observe R -> list (Z * v2 R)) (b : Z) (A : list (feat_msg R)) (w : window R) (ft : feature R) : Prop :=
  managed (wn_heap w) (wn_mgr w) (ft_id ft) = Some ft /\ ft_status ft = FSolved /\
  (exists m ob, nth_error A (length A - 1) = Some m /\ reported m (ft_id ft) = Some ob) /\
  follows_messages nord b A ft.
(** Where entry [i] of the stored covariance comes from: the newest pose is cloned, then the poses of the dropped frame leave. *)
Definition reindex (ne nf : nat) (pol : marg_policy) (i : nat) : nat :=
  clone_of (err_size ne (nf - 1)) (keep_of (15 + 6 * ne) (kept pol nf) i).
(** What was measured at a queued state. *)
Definition sample (it : pitem R) : v3 R * v3 R * f64 := (pi_a it, pi_g it, pi_ts it).

(** The random scores of the first [n] tracks differ. *)
Definition scores_differ (rand : nat -> Z) (n : nat) : Prop :=
  forall i j, (i < j < n)%nat -> (f32_ltb (f32_of_Z (rand i)) (f32_of_Z (rand j)) || f32_ltb (f32_of_Z (rand j)) (f32_of_Z (rand i))) = true.

(** [v'] and the policy [pol] are the result of the update of [v] with the image at [ts]. [A] are the messages of the
    window, the last one that of the image. *)
Definition updated (nord : observe R -> list (Z * v2 R)) (rand : nat -> Z) (c : vcfg R) (b : Z) (A : list (feat_msg R)) (ts thr : f64) (v v' : vstate R)
    (pol : marg_policy) : Prop :=
  let ne := length (vs_ext v) in
  let nf := length A in
  let n := err_size ne (nf - 1) in
  exists it r fs fl dx P' v2 it' r',
    (* the state of the image time is the newest frame *)
    from_image ts thr (pq_items (vs_pq v)) (it :: r) /\ newest_at (wn_frames (vs_win v)) (pi_mo it) fs /\ length fs = nf /\
    (* the tracks used *)
    List.NoDup (map ft_id fl) /\ (length fl <= Z.to_nat (vc_maxfeat c))%nat /\ List.Forall (candidate nord b A (vs_win v')) fl /\
    (forall l f, wn_frames (vs_win v) = l ++ [f] -> scores_differ rand (size (fr_feats f)) -> (size (fr_feats f) <= Z.to_nat (vc_maxfeat c))%nat ->
       forall ft, candidate nord b A (vs_win v') ft -> In ft fl) /\
    (* the estimate *)
    (let P := full_cov (pi_cov it) (pi_ecov it) (pq_ecc (vs_pq v)) in
     List.Forall (parallax nord b (vs_ext v) fs) fl ->
     estimate n (bundle_cost nord b (vs_ext v) fs P (vc_noise c) fl) P dx P') /\
    (* the states move by it *)
    corrected dx (VState (Window (wn_heap (vs_win v')) (wn_mgr (vs_win v)) fs) (vs_ext v) (with_items (vs_pq v) (it :: r))) v2 /\
    vs_win v' = vs_win v2 /\ vs_ext v' = vs_ext v2 /\ pq_ba (vs_pq v') = pq_ba (vs_pq v2) /\ pq_bg (vs_pq v') = pq_bg (vs_pq v2) /\
    (* the queue starts with the corrected state and follows from it by the same samples *)
    pq_items (vs_pq v') = it' :: r' /\ (forall x y, pq_items (vs_pq v2) = x :: y -> pi_mo it' = pi_mo x) /\
    map sample (it' :: r') = map sample (it :: r) /\ coherent (vc_grav c) (pq_ba (vs_pq v')) (pq_bg (vs_pq v')) (it' :: r') /\
    (* the covariance of the kept states *)
    (forall i j, (i < err_size ne (length (kept pol nf)))%nat -> (j < err_size ne (length (kept pol nf)))%nat ->
       full_cov (pi_cov it') (pi_ecov it') (pq_ecc (vs_pq v')) i j = P' (reindex ne nf pol i) (reindex ne nf pol j)).

(** ** Where it happens *)

(** RunOnce in the state [s] takes the features message [m] and updates [v] to [v'] with it. *)
Definition runs_update (c : vcfg R) (o : boracle R) (s : bstate R) (m : feat_msg R) (ts thr : f64) (v v' : vstate R) (pol : marg_policy) : Prop :=
  exists s1 r w s2, next_feat s = Some m /\
    (let l := fst (fst (fst (dl_pop_one (b_dl s)))) in
     match cm_imu (snd (fst (fst (dl_pop_one (b_dl s))))) with [] => (with_dl s (b_st s) l, true) | i :: _ => imu_step c (with_dl s (b_st s) l) i end = (s1, r)) /\
    update_window (b_win s1) m = Ok w /\ init_step c o (with_win s1 w) = Ok s2 /\ b_status s2 = Initialized /\
    v = VState (b_win s2) (b_ext s2) (b_pq s2) /\ ts = fm_ts m /\ thr = dl_period (b_dl s2) /\
    vision_update (bo_vis o) c v ts thr = Ok (v', true, pol).
