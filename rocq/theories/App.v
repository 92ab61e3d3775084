(** The test program of the back end: /repo/apps/test_eskf_vio_backend.cpp (below: app). *)
From Coq Require Import ZArith List Bool Arith.
From stdpp Require Import gmap.
From Verif Require Import Fp Scalar Base LinAlg Msg DataLoader FeatureManager FrameManager Window MathLib Attitude Propagator
  Triangulate Pnp VisionUpdate Backend Config.
Import ListNotations.
Local Open Scope nat_scope.

(** ** Files *)

(** A token of a data file: text that converts to a number, given as the double and as the Scalar it converts to, or
    text that does not, with the values stored in this case (zero, or the largest number on overflow). As in
    Config.v, how text converts is library code. *)
Inductive atok (T : Type) := ANum (d : f64) (x : T) | ABad (d : f64) (x : T).
Arguments ANum {T}. Arguments ABad {T}.
(** A line read by std::getline (app 32, 62, 89): None when it is empty, else its tokens. *)
Definition aline (T : Type) := option (list (atok T)).
Definition afile (T : Type) := list (aline T).
(** The three data files (app 19, 53, 71); None when the file cannot be opened. *)
Record afiles (T : Type) := AFiles { af_imu : option (afile T); af_pts : option (afile T); af_cam : option (afile T) }.
Arguments AFiles {T}. Arguments af_imu {T}. Arguments af_pts {T}. Arguments af_cam {T}.

(** maxTimeStamp (app 15). *)
Definition app_max : f64 := f64_of_Z 100.
#[global] Arguments app_max : simpl never.

Section App.
Context {T : Type} {S : SOps T}.
Local Open Scope sc_scope.

(** std::istringstream (app 33, 63, 92): what is left of the line, and whether an extraction has failed. *)
Definition stream : Type := list (atok T) * bool.
(** [>> x] for a double (app 34, 93): nothing is stored after a failure or at the end of the line. *)
Definition get64 (s : stream) (old : f64) : stream * f64 :=
  match s with
  | (ANum d _ :: r, false) => ((r, false), d)
  | (ABad d _ :: r, false) => ((r, true), d)
  | (r, _) => ((r, true), old)
  end.
(** [>> x] for a Scalar (app 34-35, 65, 93). *)
Definition gets (s : stream) (old : T) : stream * T :=
  match s with
  | (ANum _ x :: r, false) => ((r, false), x)
  | (ABad _ x :: r, false) => ((r, true), x)
  | (r, _) => ((r, true), old)
  end.
(** [>> v.x() >> v.y() >> v.z()] (app 34-35, 65, 93). *)
Definition get3 (s : stream) (v : v3 T) : stream * v3 T :=
  let '(s, x) := gets s (v3x v) in let '(s, y) := gets s (v3y v) in let '(s, z) := gets s (v3z v) in (s, V3 x y z).
(** [>> q.w() >> q.x() >> q.y() >> q.z()] (app 34, 93). *)
Definition get4 (s : stream) (q : quat T) : stream * quat T :=
  let '(s, w) := gets s (qw q) in let '(s, x) := gets s (qx q) in let '(s, y) := gets s (qy q) in let '(s, z) := gets s (qz q) in
  (s, Quat w x y z).

(** ** LoadIMUData *)

(** The variables declared before the loop (app 28-30). They are not initialized; their first contents are an
    argument of [app_imu]. *)
Record imu_vars := ImuVars { iv_ts : f64; iv_q : quat T; iv_pos : v3 T; iv_gyr : v3 T; iv_acc : v3 T }.
(** One line (app 33-35). *)
Definition imu_line (l : list (atok T)) (v : imu_vars) : imu_vars :=
  let '(s, t) := get64 (l, false) (iv_ts v) in
  let '(s, q) := get4 s (iv_q v) in
  let '(s, p) := get3 s (iv_pos v) in
  let '(s, g) := get3 s (iv_gyr v) in
  let '(_, a) := get3 s (iv_acc v) in
  ImuVars t q p g a.
(** The loop (app 32-43). The time stamp tested on line 40 is the one changed in place by the push (data_loader.cpp
    42). [cnt] is a uint32_t. *)
Fixpoint imu_loop (f : afile T) (v : imu_vars) (s : bstate T) (cnt : Z) : bstate T * Z :=
  match f with
  | Some l :: r =>
      let v' := imu_line l v in
      let '(st, dl, m, _) := dl_push_imu (b_st s) (b_dl s) (ImuMsg (iv_gyr v') (iv_acc v') (iv_ts v')) in
      let cnt' := ((cnt + 1) mod 4294967296)%Z in
      if f64_ltb app_max (im_ts m) then (with_dl s st dl, cnt') else imu_loop r v' (with_dl s st dl) cnt'
  | _ => (s, cnt)
  end.
(** LoadIMUData (app 18-46). *)
Definition app_imu (junk : imu_vars) (f : option (afile T)) (s : bstate T) : bstate T * Z :=
  match f with Some f => imu_loop f junk s 0 | None => (s, 0%Z) end.

(** ** LoadFeaturesData *)

(** Reading the points (app 60-67); [pos] keeps its value between lines. *)
Fixpoint pts_loop (f : afile T) (pos : v3 T) : list (v3 T) :=
  match f with
  | Some l :: r => let '(_, pos') := get3 (l, false) pos in pos' :: pts_loop r pos'
  | _ => []
  end.
(** The variables of the camera loop (app 79-81). *)
Record cam_vars := CamVars { cv_ts : f64; cv_q : quat T; cv_p : v3 T }.
(** One line (app 92-93). *)
Definition cam_line (l : list (atok T)) (v : cam_vars) : cam_vars :=
  let '(s, t) := get64 (l, false) (cv_ts v) in
  let '(s, q) := get4 s (cv_q v) in
  let '(_, p) := get3 s (cv_p v) in
  CamVars t q p.
(** The camera poses on the body (app 83-86): 0.05, 0.04, 0.03; 0.05, -0.14, 0.03; 0.5, 0.5, -0.5, -0.5. *)
Definition app_bc0 : extrinsic T :=
  Extrinsic (Quat shalf shalf (- shalf) (- shalf))
    (V3 (sof32 (f32_lit 0xcccccd (-28))) (sof32 (f32_lit 0xa3d70a (-28))) (sof32 (f32_lit 0xf5c28f (-29)))).
Definition app_bc1 : extrinsic T :=
  Extrinsic (Quat shalf shalf (- shalf) (- shalf))
    (V3 (sof32 (f32_lit 0xcccccd (-28))) (sof32 (f32_lit (-0x8f5c29) (-26))) (sof32 (f32_lit 0xf5c28f (-29)))).
(** Body attitude and position (app 97-98), pose of camera 1 (app 102-103). *)
Definition app_qwb (v : cam_vars) : quat T := qmul (cv_q v) (qinv (ex_q app_bc0)).
Definition app_pwb (v : cam_vars) : v3 T := v3add (v3opp (qrot (app_qwb v) (ex_p app_bc0))) (cv_p v).
Definition app_q1 (v : cam_vars) : quat T := qmul (app_qwb v) (ex_q app_bc1).
Definition app_p1 (v : cam_vars) : v3 T := v3add (qrot (app_qwb v) (ex_p app_bc1)) (app_pwb v).
(** Projection of a point (app 107-108, 111-112). *)
Definition app_project (q : quat T) (p pt : v3 T) : v2 T :=
  let c := qrot (qinv q) (v3sub pt p) in V2 (v3x c / v3z c) (v3y c / v3z c).
(** The observation of a point by both cameras (app 123-126). *)
Definition app_obs (v : cam_vars) (pt : v3 T) : observe T :=
  <[1%Z := app_project (app_q1 v) (app_p1 v) pt]> {[0%Z := app_project (cv_q v) (cv_p v) pt]}.
(** The message of one camera line (app 105-131). The loop variable of line 120 is a uint32_t; with more than 2^32
    points the loop would not end, which is not modelled. *)
Definition app_msg (pts : list (v3 T)) (v : cam_vars) : feat_msg T :=
  feat_msg_make (map Z.of_nat (seq 0 (length pts))) (map (app_obs v) pts) (map (fun _ => 0%Z) pts) (cv_ts v).
(** The loop (app 89-137): as for the IMU, line 134 tests the time stamp changed by the push. *)
Fixpoint cam_loop_app (pts : list (v3 T)) (f : afile T) (v : cam_vars) (s : bstate T) : bstate T :=
  match f with
  | Some l :: r =>
      let v' := cam_line l v in
      let '(st, dl, m, _) := dl_push_feat (b_st s) (b_dl s) (app_msg pts v') in
      if f64_ltb app_max (fm_ts m) then with_dl s st dl else cam_loop_app pts r v' (with_dl s st dl)
  | _ => s
  end.
(** LoadFeaturesData (app 49-139). *)
Definition app_feat (junk_p : v3 T) (junk : cam_vars) (fp fc : option (afile T)) (s : bstate T) : bstate T :=
  match fp with
  | None => s
  | Some fp => match fc with None => s | Some fc => cam_loop_app (pts_loop fp junk_p) fc junk s end
  end.

(** ** main *)

(** What SavePose writes for one step (app 141-165): time, attitude, position, velocity, biases. *)
Definition saved : Type := f64 * motion T * v3 T * v3 T.
(** The loop (app 195-223): [n] passes left, [k] passes done, [last] is lastTimeStamp (NaN at first), results newest
    first. The loop ends early when the position is not a number or time goes back. Every RunOnce has its own
    external behaviour. *)
Fixpoint app_loop (c : vcfg T) (os : nat -> boracle T) (n k : nat) (s : bstate T) (last : f64) (res : list saved)
  : out (bstate T * nat * list saved) :=
  match n with
  | O => Ok (s, k, res)
  | Datatypes.S n' =>
      let! r := run_once c (os k) s in
      let s' := fst r in
      match b_publish_newest s' with
      | None => app_loop c os n' (Datatypes.S k) s' last res
      | Some (m, ba, bg, t) =>
          if sisnan (v3x (mo_p m)) then Ok (s', Datatypes.S k, res)
          else if f64_ltb t last then Ok (s', Datatypes.S k, res)
          else app_loop c os n' (Datatypes.S k) s' t ((t, m, ba, bg) :: res)
      end
  end.
(** main (app 167-227) after ConfigParams has made the back end [s] (app 180-181): the final state, the number of RunOnce
    calls, and the saved results. *)
Definition app_main (ji : imu_vars) (jp : v3 T) (jc : cam_vars) (c : vcfg T) (os : nat -> boracle T) (fs : afiles T) (s : bstate T)
  : out (bstate T * nat * list saved) :=
  let '(s1, cnt) := app_imu ji (af_imu fs) s in
  let s2 := app_feat jp jc (af_pts fs) (af_cam fs) s1 in
  let! r := app_loop c os (Z.to_nat cnt) 0 s2 f64_nan [] in
  let '(s3, k, res) := r in Ok (s3, k, rev res).

End App.
Arguments stream : clear implicits.
Arguments imu_vars : clear implicits.
Arguments cam_vars : clear implicits.
Arguments saved : clear implicits.
