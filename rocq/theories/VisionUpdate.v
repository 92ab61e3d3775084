(** MultiViewVisionUpdate: include/update/multi_view_vision_update.hpp,
    src/update/multi_view_vision_update.cpp (cited below as mvvu). *)
From Coq Require Import ZArith List Bool Arith.
From stdpp Require Import gmap.
From Verif Require Import Fp Scalar Base LinAlg Msg FeatureManager FrameManager Window MathLib Propagator Triangulate Pnp.
Import ListNotations.
Local Open Scope nat_scope.

(** What Update reads and writes through its manager pointers (multi_view_vision_update.hpp 16-20): the
    window, FrameManager::extrinsics (frame_manager.hpp 65) and the propagation queue. The private matrices
    of the class (30-46) are written before they are read in every Update, hence they are local values. *)
Record vstate (T : Type) := VState { vs_win : window T; vs_ext : list (extrinsic T); vs_pq : pqueue T }.
Arguments VState {T}. Arguments vs_win {T}. Arguments vs_ext {T}. Arguments vs_pq {T}.

(** Parameters: measureNoise, maxUsedFeatures (multi_view_vision_update.hpp 22-24), maxWindowSize,
    minKeyframeTrackedFeatureNum, maxKeyframeTranslation (frame_manager.hpp 67-71), gravity_w (imu_state.hpp 37). *)
Record vcfg (T : Type) := VCfg {
  vc_noise : T; vc_maxfeat : Z; vc_maxwin : Z; vc_mintrack : Z; vc_maxtrans : T; vc_grav : v3 T }.
Arguments VCfg {T}. Arguments vc_noise {T}. Arguments vc_maxfeat {T}. Arguments vc_maxwin {T}.
Arguments vc_mintrack {T}. Arguments vc_maxtrans {T}. Arguments vc_grav {T}.

(** Unspecified or external behaviour, arbitrary in every call: iteration order of the feature maps and of
    FeatureObserve::norms, jacobiSvd (last column of V), the matrix Q of HouseholderQR (by its entries),
    SelfAdjointEigenSolver, uninitialised memory, and the successive results of std::rand. *)
Record voracle (T : Type) := VOracle {
  vo_ord : order;
  vo_nord : observe T -> list (Z * v2 T);
  vo_svd : mat T -> nat -> T;
  vo_qr : mat T -> nat -> nat -> T;
  vo_saes : mat T -> eigen_dec T;
  vo_junk : nat -> nat -> T;
  vo_rand : nat -> Z }.
Arguments VOracle {T}. Arguments vo_ord {T}. Arguments vo_nord {T}. Arguments vo_svd {T}. Arguments vo_qr {T}.
Arguments vo_saes {T}. Arguments vo_junk {T}. Arguments vo_rand {T}.

Section VisionUpdate.
Context {T : Type} {S : SOps T}.
Local Open Scope sc_scope.

(** ** Marginalization policy *)

(** DecideMargPolicy (mvvu 57-76); frameManager is not null. [std::next(frames.rbegin())] is dereferenced:
    undefined for a window of one frame. *)
Definition decide_policy (c : vcfg T) (ord : order) (h : heap T) (fs : list (frame T)) : out marg_policy :=
  if need_marginalize fs (vc_maxwin c) then
    if Nat.ltb (length fs) 2 then Ub UbIter
    else
      let! k := is_keyframe ord h fs (vc_mintrack c) (vc_maxtrans c) (Some (length fs - 2)%nat) in
      Ok (if k then MargOldest else MargSubnew)
  else Ok NoMarg.

(** ** Covariance bookkeeping *)

(** camExSize of ConstructCovariance (mvvu 83). With an empty window the size_t subtraction would wrap; this
    cannot be told apart here because the window holds the new frame (UpdateFeatureFrameManager). *)
Definition cam_ex_size (n_ext n_frames : nat) : nat := ((n_ext + n_frames - 1) * 6)%nat.

(** ConstructCovariance (mvvu 80-94); [None] is the result false. imuCov is 15x15 and imuExCamCov has 15 rows
    by their types (imu_state.hpp 8, sequence_propagator.hpp 15-17). *)
Definition construct_cov (n_ext n_frames : nat) (q : pqueue T) : out (option (mat T)) :=
  let! it := front (pq_items q) in
  let ce := cam_ex_size n_ext n_frames in
  let size := (imu_size + ce)%nat in
  if negb (Nat.eqb (mc (pi_ecov it)) ce) then Ok None
  else
    let ec := Mat imu_size (mc (pi_ecov it)) (me (pi_ecov it)) in
    let c0 := mzero size size in
    let! c1 := setb c0 0 0 (Mat imu_size imu_size (me (pi_cov it))) in
    let! c2 := setbn c1 0 imu_size imu_size ce ec in
    let! c3 := setbn c2 imu_size 0 ce imu_size (mtr ec) in
    let! c4 := setbn c3 imu_size imu_size ce ce (pq_ecc q) in
    Ok (Some c4).

(** The matrix expand_J (mvvu 388-390). *)
Definition expand_J : mat T :=
  set_block (set_block (mzero 6 imu_size) 0 ix_p (mat_of_m33 m33id)) 3 ix_r (mat_of_m33 m33id).

(** ExpandCameraCovariance (mvvu 366-400); returns the new covariance. [junk] fills the entries that
    conservativeResize leaves uninitialised. *)
Definition expand_cov (junk : nat -> nat -> T) (n_ext n_frames : nat) (cov : mat T) : out (mat T) :=
  let ce := ((n_ext + n_frames) * 6)%nat in
  let size := (imu_size + ce)%nat in
  let c0 := cresize junk cov size size in
  let! c1 := setb c0 0 (size - 6) (mzero size 6) in
  let! c2 := setb c1 (size - 6) 0 (mzero 6 size) in
  let! ic := block c2 0 0 imu_size imu_size in
  let! ec := block c2 0 imu_size imu_size (ce - 6) in
  let! c3 := setbn c2 (size - 6) 0 6 imu_size (mmul expand_J ic) in
  let! c4 := setbn c3 (size - 6) imu_size 6 (ce - 6) (mmul expand_J ec) in
  let! b := block c4 (size - 6) 0 6 (size - 6) in
  let! c5 := setbn c4 0 (size - 6) (size - 6) 6 (mtr b) in
  setbn c5 (size - 6) (size - 6) 6 6 (mmul (mmul expand_J ic) (mtr expand_J)).

(** ReduceCameraCovariance (mvvu 415-446); [default] is not reachable. Shrinking conservativeResize keeps
    the top left corner. With an empty window [camSize - 6] would wrap; see [cam_ex_size]. *)
Definition reduce_cov (junk : nat -> nat -> T) (p : marg_policy) (n_ext n_frames : nat) (cov : mat T) : out (mat T) :=
  let exs := (n_ext * 6)%nat in
  let cs := (n_frames * 6)%nat in
  let imuex := (imu_size + exs)%nat in
  let full := (imu_size + (exs + cs))%nat in
  match p with
  | NoMarg => Ok cov
  | MargNewest => Ok (cresize junk cov (full - 6) (full - 6))
  | MargSubnew =>
      let! b1 := block cov 0 (full - 6) (full - 12) 6 in
      let! c1 := setbn cov 0 (full - 12) (full - 12) 6 b1 in
      let! b2 := block c1 (full - 6) 0 6 (full - 12) in
      let! c2 := setbn c1 (full - 12) 0 6 (full - 12) b2 in
      let! b3 := block c2 (full - 6) (full - 6) 6 6 in
      let! c3 := setbn c2 (full - 12) (full - 12) 6 6 b3 in
      Ok (cresize junk c3 (full - 6) (full - 6))
  | MargOldest =>
      let! t1 := block cov 0 (imuex + 6) imuex (cs - 6) in
      let! c1 := setbn cov 0 imuex imuex (cs - 6) t1 in
      let! c2 := setbn c1 imuex 0 (cs - 6) imuex (mtr t1) in
      let! t2 := (if (Nat.leb (cs - 6) (mr c2) && Nat.leb (cs - 6) (mc c2))%bool
                  then block c2 (mr c2 - (cs - 6)) (mc c2 - (cs - 6)) (cs - 6) (cs - 6) else Ub UbBlock) in
      let! c3 := setbn c2 imuex imuex (cs - 6) (cs - 6) t2 in
      Ok (cresize junk c3 (full - 6) (full - 6))
  end.

(** [propagator->items.front()] modified through the pointer (mvvu 330-334, 406-408). *)
Definition with_head (q : pqueue T) (it : pitem T) : out (pqueue T) :=
  match pq_items q with [] => Ub UbEmptyFront | _ :: r => Ok (with_items q (it :: r)) end.
(** [propagator->exCamCov = ...] (mvvu 409). *)
Definition with_ecc (q : pqueue T) (c : mat T) : pqueue T :=
  PQueue (pq_items q) c (pq_ba q) (pq_bg q) (pq_init q) (pq_F q) (pq_G q) (pq_Q q).
(** [propagator->bias_a += ...], [bias_g += ...] (mvvu 336-337). *)
Definition with_bias (q : pqueue T) (ba bg : v3 T) : pqueue T :=
  PQueue (pq_items q) (pq_ecc q) ba bg (pq_init q) (pq_F q) (pq_G q) (pq_Q q).

(** UpdateCovariance (mvvu 404-411). A covariance with less than 15 columns would make the unsigned
    subtraction wrap and the block be out of range. *)
Definition update_cov (cov : mat T) (q : pqueue T) : out (pqueue T) :=
  if Nat.ltb (mc cov) imu_size then Ub UbBlock
  else
    let ce := (mc cov - imu_size)%nat in
    let! it := front (pq_items q) in
    let! a := block cov 0 0 imu_size imu_size in
    let! b := block cov 0 imu_size imu_size ce in
    let! c := block cov imu_size imu_size ce ce in
    let! q' := with_head q (PItem (pi_mo it) a b (pi_a it) (pi_g it) (pi_ts it)) in
    Ok (with_ecc q' c).

(** ** Newest frame, triangulation, selection *)

(** Writing pose and velocity of a state into a frame (mvvu 104-106, 350-352). *)
Definition frame_of_motion (f : frame T) (m : motion T) : frame T := with_pose f (mo_q m) (mo_p m) (mo_v m).

(** UpdateNewestFramePose (mvvu 98-108); [None] is the result false. *)
Definition update_newest (fs : list (frame T)) (q : pqueue T) : out (option (list (frame T))) :=
  match fs with
  | [] => Ok None
  | _ =>
      let! f := back fs in
      let! it := front (pq_items q) in
      Ok (Some (set_last fs (frame_of_motion f (pi_mo it))))
  end.

(** Camera pose of one observation: q_wb * q_bc and q_wb * p_bc + p_wb (mvvu 138-139; backend_initialize.cpp 77-78, 118-119). *)
Definition cam_q (q_wb : quat T) (e : extrinsic T) : quat T := qmul q_wb (ex_q e).
Definition cam_p (q_wb : quat T) (p_wb : v3 T) (e : extrinsic T) : v3 T := v3add (qrot q_wb (ex_p e)) p_wb.

(** Inner loop over the cameras of one observation (mvvu 127-141; backend_initialize.cpp 68-80):
    [extrinsics[cameraID]] is an unchecked vector access. *)
Fixpoint cam_views (exts : list (extrinsic T)) (q_wb : quat T) (p_wb : v3 T) (l : list (Z * v2 T)) : out (list (view T)) :=
  match l with
  | [] => Ok []
  | (cam, n) :: r =>
      let! e := at_ exts (Z.to_nat cam) in
      let! vs := cam_views exts q_wb p_wb r in
      Ok ((cam_q q_wb e, cam_p q_wb p_wb e, n) :: vs)
  end.

(** Outer loop of TrianglizeMultiFrame (mvvu 122-142): observation [i] belongs to frame
    [i + firstFrameID]; the pointer returned by GetFrame is not checked (line 125). *)
Fixpoint track_views (nord : observe T -> list (Z * v2 T)) (exts : list (extrinsic T)) (fs : list (frame T))
    (first : Z) (i : Z) (obs : list (observe T)) : out (list (view T)) :=
  match obs with
  | [] => Ok []
  | o :: r =>
      let! k := deref (get_frame fs (u32 (i + first))) in
      let! f := deref (nth_error fs k) in
      let! vs := cam_views exts (fr_q f) (fr_p f) (nord o) in
      let! vs' := track_views nord exts fs first (i + 1)%Z r in
      Ok (vs ++ vs')
  end.

(** TrianglateAnalytic on the collected vectors, then p_w and status of the feature
    (mvvu 144-150; backend_initialize.cpp 81-85). *)
Definition solve_feature (svd : mat T -> nat -> T) (f : feature T) (vs : list (view T)) : out (feature T * bool) :=
  let! r := tri_analytic svd (map (fun v => fst (fst v)) vs) (map (fun v => snd (fst v)) vs) (map snd vs) (ft_pw f) in
  Ok (Feature (ft_id f) (ft_first f) (ft_obs f) (ft_num f) (snd r) (if fst r : bool then FSolved else FUnsolved), fst r).

(** TrianglizeMultiFrame (mvvu 112-151) of the feature behind pointer [p] (never null). *)
Definition trianglize (o : voracle T) (exts : list (extrinsic T)) (fs : list (frame T)) (h : heap T) (p : nat)
  : out (heap T * bool) :=
  let! f := hget h p in
  let! vs := track_views (vo_nord o) exts fs (ft_first f) 0 (ft_obs f) in
  let! r := solve_feature (vo_svd o) f vs in
  Ok (hset h p (fst r), snd r).

(** [std::map<fp32, ...>::insert] (mvvu 163) on a list sorted by decreasing key: an equal key keeps the old entry. *)
Fixpoint score_insert (k : f32) (p : nat) (l : list (f32 * nat)) : list (f32 * nat) :=
  match l with
  | [] => [(k, p)]
  | (k', p') :: r =>
      if f32_ltb k' k then (k, p) :: l
      else if f32_ltb k k' then (k', p') :: score_insert k p r
      else l
  end.

(** Loop of SelectGoodFeatures (mvvu 159-165): the random int is converted to float. [pos] counts the calls of std::rand. *)
Fixpoint select_loop (o : voracle T) (exts : list (extrinsic T)) (fs : list (frame T)) (l : list (Z * nat))
    (pos : nat) (h : heap T) (good : list (f32 * nat)) : out (heap T * list (f32 * nat)) :=
  match l with
  | [] => Ok (h, good)
  | (_, p) :: r =>
      let! hb := trianglize o exts fs h p in
      if snd hb : bool
      then select_loop o exts fs r (Datatypes.S pos) (fst hb) (score_insert (f32_of_Z (vo_rand o pos)) p good)
      else select_loop o exts fs r pos (fst hb) good
  end.

(** SelectGoodFeatures (mvvu 156-183): the heap and this->features, taken from the highest score down. *)
Definition select_good (o : voracle T) (c : vcfg T) (exts : list (extrinsic T)) (fs : list (frame T)) (h : heap T)
  : out (heap T * list nat) :=
  let! f := back fs in
  let! r := select_loop o exts fs (vo_ord o (fr_feats f)) 0 h [] in
  Ok (fst r, firstn (Z.to_nat (vc_maxfeat c)) (map snd (snd r))).

(** ** Measurement equations *)

(** R_cb, R_bw, p_b, p_c of one observation (mvvu 237-245). *)
Definition meas_Rcb (e : extrinsic T) : m33 T := qmat (qinv (ex_q e)).
Definition meas_Rbw (f : frame T) : m33 T := qmat (qinv (fr_q f)).
Definition meas_pb (f : frame T) (p_w : v3 T) : v3 T := m33mulv (meas_Rbw f) (v3sub p_w (fr_p f)).
Definition meas_pc (e : extrinsic T) (f : frame T) (p_w : v3 T) : v3 T :=
  m33mulv (meas_Rcb e) (v3sub (meas_pb f p_w) (ex_p e)).

(** A 2x3 matrix by its rows (Matrix23, mvvu 251). *)
Definition m23 (a b : v3 T) : mat T := Mat 2 3 (fun i j => v3get (match i with O => a | _ => b end) j).
(** jacobian_2d_3d (mvvu 251-253), as its two rows. [1. / p_c(2)] is a double division narrowed to float, equal to the
    float division (see [inv_depth] in Triangulate.v). *)
Definition meas_j0 (c : v3 T) : v3 T := V3 (s1 / v3z c) s0 (- v3x c / (v3z c * v3z c)).
Definition meas_j1 (c : v3 T) : v3 T := V3 s0 (s1 / v3z c) (- v3y c / (v3z c * v3z c)).
(** jacobian_2d_3d times a 3x3 matrix. *)
Definition meas_jm (c : v3 T) (m : m33 T) : mat T := m23 (row_mul (meas_j0 c) m) (row_mul (meas_j1 c) m).
(** (jacobian_2d_3d * A) * B. *)
Definition meas_jmm (c : v3 T) (a b : m33 T) : mat T :=
  m23 (row_mul (row_mul (meas_j0 c) a) b) (row_mul (row_mul (meas_j1 c) a) b).
(** The Jacobian blocks (mvvu 255, 261/267, 263/269, 274, 276). *)
Definition jac_pw (e : extrinsic T) (f : frame T) (p_w : v3 T) : mat T :=
  meas_jmm (meas_pc e f p_w) (meas_Rcb e) (meas_Rbw f).
Definition jac_pwb (e : extrinsic T) (f : frame T) (p_w : v3 T) : mat T :=
  meas_jm (meas_pc e f p_w) (m33mul (m33opp (meas_Rcb e)) (meas_Rbw f)).
Definition jac_Rwb (e : extrinsic T) (f : frame T) (p_w : v3 T) : mat T :=
  meas_jmm (meas_pc e f p_w) (meas_Rcb e) (skew (meas_pb f p_w)).
Definition jac_pbc (e : extrinsic T) (f : frame T) (p_w : v3 T) : mat T :=
  meas_jm (meas_pc e f p_w) (m33opp (meas_Rcb e)).
Definition jac_Rbc (e : extrinsic T) (f : frame T) (p_w : v3 T) : mat T :=
  meas_jm (meas_pc e f p_w) (skew (meas_pc e f p_w)).
(** residual = measure - (p_c / p_c.z()).head<2>() (mvvu 248). *)
Definition meas_res (e : extrinsic T) (f : frame T) (p_w : v3 T) (z : v2 T) : v2 T :=
  let c := meas_pc e f p_w in v2sub z (V2 (v3x c / v3z c) (v3y c / v3z c)).

(** Hx_cols (mvvu 191-192). *)
Definition hx_cols (n_ext n_frames : nat) : nat := (imu_size + n_ext * 6 + n_frames * 6 - 6)%nat.

(** Writing the rows of one observation (mvvu 246-278). [newest]: frameID equals the id of the newest frame;
    [fidx] is frameIdx (line 233). *)
Definition write_obs (n_ext : nat) (newest : bool) (fidx cam row : nat) (e : extrinsic T) (f : frame T) (p_w : v3 T)
    (z : v2 T) (H : mat T) : out (mat T) :=
  if szero <? sabs (v3z (meas_pc e f p_w)) then
    let r := meas_res e f p_w z in
    let! H1 := setb H row (mc H - 1) (Mat 2 1 (fun i _ => match i with O => v2x r | _ => v2y r end)) in
    let! H2 := setb H1 row 0 (jac_pw e f p_w) in
    let! H4 := (if newest then
                  let! H3 := setb H2 row (3 + ix_p) (jac_pwb e f p_w) in
                  setb H3 row (3 + ix_r) (jac_Rwb e f p_w)
                else
                  let col := (3 + imu_size + n_ext * 6 + fidx * 6)%nat in
                  let! H3 := setb H2 row col (jac_pwb e f p_w) in
                  setb H3 row (col + 3) (jac_Rwb e f p_w)) in
    let col := (3 + imu_size + cam * 6)%nat in
    let! H5 := setb H4 row col (jac_pbc e f p_w) in
    setb H5 row (col + 3) (jac_Rbc e f p_w)
  else Ok H.

(** Loop over the cameras of one observation (mvvu 234-280); returns the matrix and the next row. *)
Fixpoint write_cams (exts : list (extrinsic T)) (newest : bool) (fidx : nat) (f : frame T) (p_w : v3 T)
    (l : list (Z * v2 T)) (row : nat) (H : mat T) : out (mat T * nat) :=
  match l with
  | [] => Ok (H, row)
  | (cam, z) :: r =>
      let! e := at_ exts (Z.to_nat cam) in
      let! H' := write_obs (length exts) newest fidx (Z.to_nat cam) row e f p_w z H in
      write_cams exts newest fidx f p_w r (row + 2) H'
  end.

(** Loop over the observations of a feature (mvvu 229-281); [None] is the result false of line 232. *)
Fixpoint write_track (nord : observe T -> list (Z * v2 T)) (exts : list (extrinsic T)) (fs : list (frame T))
    (first : Z) (p_w : v3 T) (i : Z) (obs : list (observe T)) (row : nat) (H : mat T) : out (option (mat T * nat)) :=
  match obs with
  | [] => Ok (Some (H, row))
  | o :: r =>
      let fid := u32 (i + first) in
      match get_frame fs fid with
      | None => Ok None
      | Some k =>
          let! f := deref (nth_error fs k) in
          let! a := front fs in
          let! b := back fs in
          let fidx := Z.to_nat (u32 (fid - fr_id a)) in
          let! Hr := write_cams exts (fid =? fr_id b)%Z fidx f p_w (nord o) row H in
          write_track nord exts fs first p_w (i + 1)%Z r (snd Hr) (fst Hr)
      end
  end.

(** Left multiplication by the transpose of the Q of a Householder QR (mvvu 284-287, 210-213). *)
Definition qr_apply (qr : mat T -> nat -> nat -> T) (A M : mat T) : mat T := mmul (mtr (Mat (mr M) (mr M) (qr A))) M.

(** feature->observeNum * 2 and observeNum * 2 - 3 in uint32_t (mvvu 195, 204, 225). *)
Definition rows_of (f : feature T) : nat := Z.to_nat (u32 (ft_num f * 2)).
Definition sub_rows (f : feature T) : nat := Z.to_nat (u32 (ft_num f * 2 - 3)).

(** ConstructMeasurementFunction(feature, Hx_r) (mvvu 222-294). *)
Definition meas_feature (o : voracle T) (exts : list (extrinsic T)) (fs : list (frame T)) (cols : nat) (f : feature T)
  : out (option (mat T)) :=
  let H0 := mzero (rows_of f) (cols + 4) in
  let! w := write_track (vo_nord o) exts fs (ft_first f) (ft_pw f) 0 (ft_obs f) 0 H0 in
  match w with
  | None => Ok None
  | Some (H, _) =>
      let! Hf := block H 0 0 (mr H) 3 in
      let H' := qr_apply (vo_qr o) Hf H in
      if Nat.ltb (mr H') 3 then Ub UbBlock
      else let! r := block H' 3 3 (mr H' - 3) (mc H' - 3) in Ok (Some r)
  end.

(** Stacking loop (mvvu 202-207); [None] is the result false. *)
Fixpoint stack_loop (o : voracle T) (exts : list (extrinsic T)) (fs : list (frame T)) (cols : nat) (h : heap T)
    (l : list nat) (row : nat) (H : mat T) : out (option (mat T)) :=
  match l with
  | [] => Ok (Some H)
  | p :: r =>
      let! f := hget h p in
      let! m := meas_feature o exts fs cols f in
      match m with
      | None => Ok None
      | Some sub =>
          let! H' := setbn H row 0 (sub_rows f) (cols + 1) sub in
          stack_loop o exts fs cols h r (row + sub_rows f) H'
      end
  end.
(** Hx_rows (mvvu 193-196), a uint32_t sum. *)
Fixpoint sum_rows (h : heap T) (l : list nat) (acc : Z) : out Z :=
  match l with
  | [] => Ok acc
  | p :: r => let! f := hget h p in sum_rows h r (u32 (acc + u32 (ft_num f * 2 - 3)))
  end.
(** Compression by QR when there are more rows than columns (mvvu 209-216). *)
Definition compress (o : voracle T) (H : mat T) : out (mat T) :=
  if Nat.ltb (mc H) (mr H) then
    let! Hx := block H 0 0 (mr H) (mc H - 1) in
    let H' := qr_apply (vo_qr o) Hx H in
    Ok (cresize (vo_junk o) H' (mc H' - 1) (mc H'))
  else Ok H.
(** ConstructMeasurementFunction(void) (mvvu 187-218): Hx_r. *)
Definition measurement (o : voracle T) (exts : list (extrinsic T)) (fs : list (frame T)) (h : heap T) (l : list nat)
  : out (option (mat T)) :=
  let cols := hx_cols (length exts) (length fs) in
  let! rows := sum_rows h l 0 in
  let! m := stack_loop o exts fs cols h l 0 (mzero (Z.to_nat rows) (cols + 1)) in
  match m with
  | None => Ok None
  | Some H => let! H' := compress o H in Ok (Some H')
  end.

(** ** Kalman update *)

(** Adding a scalar to the diagonal ([diagonal().array() += x], mvvu 306, 311). *)
Definition add_diag (a : mat T) (x : T) : mat T :=
  Mat (mr a) (mc a) (fun i j => if Nat.eqb i j then me a i j + x else me a i j).
(** S = H P H^t + R (mvvu 303-306). *)
Definition innovation (noise : T) (P H : mat T) : out (mat T) :=
  let! pht := mmulc P (mtr H) in
  let! hpht := mmulc H pht in
  Ok (add_diag hpht (noise * noise)).
(** K, delta_x and the symmetrized covariance (mvvu 301-326). The check of the diagonal only logs. *)
Definition kalman (saes : mat T -> eigen_dec T) (noise : T) (P Hr : mat T) : out (mat T * mat T * mat T) :=
  if Nat.eqb (mc Hr) 0 then Ub UbBlock
  else
    let! H := block Hr 0 0 (mr Hr) (mc Hr - 1) in
    let! r := block Hr 0 (mc Hr - 1) (mr Hr) 1 in
    let! pht := mmulc P (mtr H) in
    let! sm := innovation noise P H in
    let! K := mmulc pht (sym_inverse saes sm) in
    let! dx := mmulc K r in
    let! kh := mmulc (mopp K) H in
    let ikh := add_diag kh s1 in
    let! nc := mmulc ikh P in
    let! sum := maddc nc (mtr nc) in
    Ok (K, dx, mscale shalf sum).

(** delta_x.segment<3>(i) (mvvu 330-356). *)
Definition seg3c (x : mat T) (i : nat) : out (v3 T) := if Nat.leb (i + 3) (mr x) then Ok (seg3 x i) else Ub UbBlock.
(** q * DeltaQ(theta), normalized (mvvu 332-334, 341-343, 356-357). *)
Definition q_correct (q : quat T) (theta : v3 T) : quat T := qnormalize (qmul q (delta_q theta)).

(** Correction of the extrinsics (mvvu 339-344). *)
Fixpoint correct_ext (dx : mat T) (i : nat) (l : list (extrinsic T)) : out (list (extrinsic T)) :=
  match l with
  | [] => Ok []
  | e :: r =>
      let! dp := seg3c dx (imu_size + i * 6) in
      let! dq := seg3c dx (imu_size + i * 6 + 3) in
      let! r' := correct_ext dx (Datatypes.S i) r in
      Ok (Extrinsic (q_correct (ex_q e) dq) (v3add (ex_p e) dp) :: r')
  end.
(** Correction of the frames (mvvu 346-359): stops at the frame with the id of the newest one. *)
Fixpoint correct_frames (dx : mat T) (offset idx : nat) (newest : Z) (m : motion T) (l : list (frame T))
  : out (list (frame T)) :=
  match l with
  | [] => Ok []
  | f :: r =>
      if (fr_id f =? newest)%Z then Ok (frame_of_motion f m :: r)
      else
        let! dp := seg3c dx (offset + idx * 6) in
        let! dq := seg3c dx (offset + idx * 6 + 3) in
        let! r' := correct_frames dx offset (Datatypes.S idx) newest m r in
        Ok (with_pose f (q_correct (fr_q f) dq) (v3add (fr_p f) dp) (fr_v f) :: r')
  end.
(** Correction of the nominal state (mvvu 330-334). *)
Definition correct_motion (dx : mat T) (m : motion T) : out (motion T) :=
  let! dp := seg3c dx ix_p in
  let! dv := seg3c dx ix_v in
  let! dq := seg3c dx ix_r in
  Ok (Motion (v3add (mo_p m) dp) (v3add (mo_v m) dv) (q_correct (mo_q m) dq)).

(** UpdateState, second step (mvvu 328-359). *)
Definition apply_delta (dx : mat T) (s : vstate T) : out (vstate T) :=
  let q := vs_pq s in
  let! it := front (pq_items q) in
  let! m := correct_motion dx (pi_mo it) in
  let! q1 := with_head q (PItem m (pi_cov it) (pi_ecov it) (pi_a it) (pi_g it) (pi_ts it)) in
  let! dba := seg3c dx ix_ba in
  let! dbg := seg3c dx ix_bg in
  let q2 := with_bias q1 (v3add (pq_ba q) dba) (v3add (pq_bg q) dbg) in
  let! ex := correct_ext dx 0 (vs_ext s) in
  let w := vs_win s in
  let! fs := (match wn_frames w with
              | [] => Ok []
              | _ => let! b := back (wn_frames w) in
                     correct_frames dx (imu_size + length (vs_ext s) * 6) 0 (fr_id b) m (wn_frames w)
              end) in
  Ok (VState (Window (wn_heap w) (wn_mgr w) fs) ex q2).

(** UpdateState (mvvu 298-362): the new covariance and state. *)
Definition update_state (o : voracle T) (c : vcfg T) (P Hr : mat T) (s : vstate T) : out (mat T * vstate T) :=
  let! k := kalman (vo_saes o) (vc_noise c) P Hr in
  let '(_, dx, P') := k in
  let! s' := apply_delta dx s in
  Ok (P', s').

(** ** The whole update *)

(** Steps 3, 6, 7 of Update: Expand, Reduce, UpdateCovariance, Repropagate (mvvu 26-31, 38-43). *)
Definition finish_update (o : voracle T) (c : vcfg T) (pol : marg_policy) (P : mat T) (s : vstate T) : out (vstate T) :=
  let ne := length (vs_ext s) in
  let nf := length (wn_frames (vs_win s)) in
  let! P1 := expand_cov (vo_junk o) ne nf P in
  let! P2 := reduce_cov (vo_junk o) pol ne nf P1 in
  let! q := update_cov P2 (vs_pq s) in
  Ok (VState (vs_win s) (vs_ext s) (pq_repropagate (vc_grav c) q)).

(** MultiViewVisionUpdate::Update (mvvu 14-45): the state, the result, and margPolicy (meaningful when the
    result is true: RunOnce reads it only then). *)
Definition vision_update (o : voracle T) (c : vcfg T) (s : vstate T) (ts thr : f64) : out (vstate T * bool * marg_policy) :=
  let w := vs_win s in
  let '(q, found) := pq_reset_origin (vs_pq s) ts thr in
  if negb found then Ok (VState w (vs_ext s) q, false, NoMarg)
  else
    let! pol := decide_policy c (vo_ord o) (wn_heap w) (wn_frames w) in
    let! cov := construct_cov (length (vs_ext s)) (length (wn_frames w)) q in
    match cov with
    | None => Ok (VState w (vs_ext s) q, false, pol)
    | Some P =>
        let! nf := update_newest (wn_frames w) q in
        match nf with
        | None => Ok (VState w (vs_ext s) q, false, pol)
        | Some fs =>
            let! sel := select_good o c (vs_ext s) fs (wn_heap w) in
            let s1 := VState (Window (fst sel) (wn_mgr w) fs) (vs_ext s) q in
            match snd sel with
            | [] => let! s2 := finish_update o c pol P s1 in Ok (s2, true, pol)
            | _ =>
                let! m := measurement o (vs_ext s) fs (fst sel) (snd sel) in
                match m with
                | None => Ok (s1, false, pol)
                | Some Hr =>
                    let! u := update_state o c P Hr s1 in
                    let! s2 := finish_update o c pol (fst u) (snd u) in
                    Ok (s2, true, pol)
                end
            end
        end
    end.

End VisionUpdate.
