(** DataLoader: src/data_manager/data_loader.cpp, include/data_manager/data_loader.hpp. *)
From Coq Require Import ZArith List Bool.
From Verif Require Import Fp Scalar Base LinAlg Msg.
Import ListNotations.

(** DataLoader members (data_loader.hpp 12-18). Messages are held by value: a message object that the
    caller pushes twice or mutates after pushing is not modelled. *)
Record loader (T : Type) := Loader {
  dl_feat : list (feat_msg T);
  dl_imu : list (imu_msg T);
  dl_offset : f64;
  dl_period : f64 }.
Arguments Loader {T}. Arguments dl_feat {T}. Arguments dl_imu {T}. Arguments dl_offset {T}. Arguments dl_period {T}.

(** The two function-local statics [lastTimeStamp] (data_loader.cpp 27, 43): one per function and per
    process, not per loader; [None] before the first execution of the declaration. *)
Record dl_statics := DlStatics { st_feat : option f64; st_imu : option f64 }.

(** Process start: neither static is initialised yet. *)
Definition statics0 : dl_statics := DlStatics None None.

Section DataLoader.
Context {T : Type} {S : SOps T}.

(** DataLoader::Clear (data_loader.cpp 8-12). *)
Definition dl_clear (l : loader T) : loader T := Loader [] [] (f64_of_Z (-1)) (dl_period l).

(** Constructor (data_loader.hpp 15, 18, 21): offset NaN, period 0.005, then Clear. *)
Definition dl_new : loader T := dl_clear (Loader [] [] f64_nan f64_0_005).

(** PushFeaturesMessage (data_loader.cpp 16-33). Returns the statics, the loader, the caller's message
    object (its time stamp is modified in place) and the returned bool. *)
Definition dl_push_feat (st : dl_statics) (l : loader T) (m : feat_msg T)
  : dl_statics * loader T * feat_msg T * bool :=
  if negb (Nat.eqb (length (fm_ids m)) (length (fm_obs m))) then (st, l, m, false)
  else
    let off := if f64_isnan (dl_offset l) then fm_ts m else dl_offset l in
    let ts := f64_sub (fm_ts m) off in
    let m' := feat_set_ts m ts in
    let last := match st_feat st with Some t => t | None => f64_sub ts (f64_of_Z 1) end in
    let q := if f64_ltb last ts then dl_feat l ++ [m'] else dl_feat l in
    (DlStatics (Some ts) (st_imu st), Loader q (dl_imu l) off (dl_period l), m', true).

(** PushIMUMessage (data_loader.cpp 37-49). *)
Definition dl_push_imu (st : dl_statics) (l : loader T) (m : imu_msg T)
  : dl_statics * loader T * imu_msg T * bool :=
  let off := if f64_isnan (dl_offset l) then im_ts m else dl_offset l in
  let ts := f64_sub (im_ts m) off in
  let m' := imu_set_ts m ts in
  let last := match st_imu st with Some t => t | None => f64_sub ts (f64_of_Z 1) end in
  let q := if f64_ltb last ts then dl_imu l ++ [m'] else dl_imu l in
  (DlStatics (st_feat st) (Some ts), Loader (dl_feat l) q off (dl_period l), m', true).

(** PopOneMessage (data_loader.cpp 53-88). The last component tells whether line 67 was executed, which
    reads [feat] after line 65 popped the element [feat] refers to. The value read is modelled as the
    old element (the usual behaviour); the flag records that the C++ standard gives no guarantee. *)
Definition dl_pop_one (l : loader T) : loader T * comb_msg T * bool * bool :=
  match dl_imu l, dl_feat l with
  | imu :: imus, feat :: feats =>
      if f64_leb (fm_ts feat) (im_ts imu) then
        if f64_ltb (f64_abs (f64_sub (fm_ts feat) (im_ts imu))) (dl_period l)
        then (Loader feats imus (dl_offset l) (dl_period l), CombMsg (Some feat) [imu], true, true)
        else (Loader feats (dl_imu l) (dl_offset l) (dl_period l), CombMsg (Some feat) [], true, true)
      else (Loader (dl_feat l) imus (dl_offset l) (dl_period l), CombMsg None [imu], true, false)
  | imu :: imus, [] =>
      (Loader [] imus (dl_offset l) (dl_period l), CombMsg None [imu], true, false)
  | [], feat :: feats =>
      (Loader feats [] (dl_offset l) (dl_period l), CombMsg (Some feat) [], true, false)
  | [], [] => (l, comb_empty, false, false)
  end.

(** Lines 112-115 of PopPackedMessage: [while (front->ts <= t) { emplace_back; pop_front; }], returns the
    samples moved and the rest of the queue; reading the front of the emptied queue is UB. *)
Fixpoint take_until (t : f64) (q acc : list (imu_msg T)) : out (list (imu_msg T) * list (imu_msg T)) :=
  match q with
  | [] => Ub UbEmptyFront
  | m :: r => if f64_leb (im_ts m) t then take_until t r (acc ++ [m]) else Ok (acc, q)
  end.

(** Lines 119-125: linear interpolation at time [t] between [left] and [right]. [float vector * double]
    converts the double to float (Eigen promotes the scalar argument to the expression's scalar type). *)
Definition interpolate (left right : imu_msg T) (t : f64) : imu_msg T :=
  let rate := f64_div (f64_sub t (im_ts left)) (f64_sub (im_ts right) (im_ts left)) in
  let a := sof32 (f64_to_f32 (f64_sub (f64_of_Z 1) rate)) in
  let b := sof32 (f64_to_f32 rate) in
  ImuMsg (v3add (v3scale (im_gyro left) a) (v3scale (im_gyro right) b))
         (v3add (v3scale (im_accel left) a) (v3scale (im_accel right) b)) t.

(** PopPackedMessage (data_loader.cpp 92-135); the caller passes a non-null [output]
    (a null one is dereferenced at line 93). *)
Definition dl_pop_packed (l : loader T) : out (loader T * comb_msg T * bool) :=
  match dl_imu l, dl_feat l with
  | [], _ | _, [] => Ok (l, comb_empty, false)
  | imu :: _, feat :: feats =>
      let! last := back (dl_imu l) in
      if f64_leb (im_ts last) (fm_ts feat) then Ok (l, comb_empty, false)
      else if f64_leb (fm_ts feat) (im_ts imu) then
        Ok (Loader feats (dl_imu l) (dl_offset l) (dl_period l), comb_empty, false)
      else
        let! p := take_until (fm_ts feat) (dl_imu l) [] in
        let! lft := back (fst p) in
        if f64_ltb f64_1e_6 (f64_abs (f64_sub (im_ts lft) (fm_ts feat))) then
          let! rgt := front (snd p) in
          let mid := interpolate lft rgt (fm_ts feat) in
          Ok (Loader feats (mid :: snd p) (dl_offset l) (dl_period l),
              CombMsg (Some feat) (fst p ++ [mid]), true)
        else
          Ok (Loader feats (lft :: snd p) (dl_offset l) (dl_period l),
              CombMsg (Some feat) (fst p), true)
  end.

End DataLoader.
