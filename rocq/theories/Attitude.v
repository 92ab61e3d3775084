(** AttitudeEstimate: include/propagate/attitude_estimate.hpp, src/propagate/attitude_estimate.cpp. *)
From Coq Require Import ZArith List Bool.
From Verif Require Import Fp Scalar Base LinAlg MathLib.
Import ListNotations.

(** AttitudeEstimateItem (attitude_estimate.hpp 8-21). Items are shared pointers held by one deque only,
    hence by value. *)
Record att_item (T : Type) := AttItem { ai_q : quat T; ai_a : v3 T; ai_g : v3 T; ai_ts : f64 }.
Arguments AttItem {T}. Arguments ai_q {T}. Arguments ai_a {T}. Arguments ai_g {T}. Arguments ai_ts {T}.

(** AttitudeEstimate members (attitude_estimate.hpp 28-35); Kp and Ki are never changed and are constants below. *)
Record att (T : Type) := Att { at_items : list (att_item T); at_ba : v3 T; at_bg : v3 T; at_err : v3 T }.
Arguments Att {T}. Arguments at_items {T}. Arguments at_ba {T}. Arguments at_bg {T}. Arguments at_err {T}.

(** fp64(0.04) (attitude_estimate.cpp 16): the double 0x1.47ae147ae147bp-5. *)
Definition f64_0_04 : f64 := f64_lit 0x147ae147ae147b (-57).
#[global] Arguments f64_0_04 : simpl never.

Section Attitude.
Context {T : Type} {S : SOps T}.
Local Open Scope sc_scope.

(** Kp = Scalar(0.001), Ki = Scalar(0.0001) (attitude_estimate.hpp 33-34): floats 0x1.0624dep-10 and 0x1.a36e2ep-14. *)
Definition att_kp : T := sof32 (f32_lit 0x83126f (-33)).
Definition att_ki : T := sof32 (f32_lit 0xd1b717 (-37)).

(** Default constructed estimator (attitude_estimate.hpp 28-35). *)
Definition att_new : att T := Att [] v3zero v3zero v3zero.

(** Initial attitude from the bias-corrected acceleration [g_imu] (attitude_estimate.cpp 22-27, 33).
    [IMUFullState::gravity_w] is the parameter [grav]. *)
Definition att_init_q (grav g_imu : v3 T) : quat T :=
  let g_cross := v3cross g_imu grav in
  let norm := v3norm g_cross in
  let u := v3div g_cross norm in
  let theta := satan2 norm (v3dot g_imu grav) in
  let dq_v := v3scale u theta in
  qnormalize (qnormalize (delta_q dq_v)).

(** The gate on the first sample (attitude_estimate.cpp 16): true when initialization is refused. *)
Definition att_gate (grav g_imu : v3 T) : bool := sgt64 (sabs (v3norm grav - v3norm g_imu)) f64_0_04.

(** AttitudeEstimate::Propagate (attitude_estimate.cpp 10-62). *)
Definition att_propagate (grav : v3 T) (st : att T) (accel gyro : v3 T) (ts : f64) : att T * bool :=
  match back (at_items st) with
  | Ub _ =>
      let g_imu := v3sub accel (at_ba st) in
      if att_gate grav g_imu then (st, false)
      else
        let it := AttItem (att_init_q grav g_imu) (v3sub accel (at_ba st)) (v3sub gyro (at_bg st)) ts in
        (Att (at_items st ++ [it]) (at_ba st) (at_bg st) (at_err st), true)
  | Ok it0 =>
      if f64_ltb ts (ai_ts it0) then (st, false)
      else
        let a1 := v3sub accel (at_ba st) in
        let g1 := v3sub gyro (at_bg st) in
        let acc_measure := v3div accel (v3norm accel) in
        let acc_target := v3div (qrot (qinv (ai_q it0)) grav) (v3norm grav) in
        let err := v3cross acc_measure acc_target in
        let gyr_mid := v3scale (v3add (ai_g it0) g1) shalf in
        let err_int := v3add (at_err st) (v3scale err att_ki) in
        let gyr := v3add (v3add gyr_mid (v3scale err att_kp)) err_int in
        let dt := sof32 (f64_to_f32 (f64_sub ts (ai_ts it0))) in
        let dq := delta_q (v3scale (v3opp gyr) dt) in
        let q1 := qnormalize (qmul (ai_q it0) dq) in
        (Att (at_items st ++ [AttItem q1 a1 g1 ts]) (at_ba st) (at_bg st) err_int, true)
  end.

(** The search from newest to oldest (attitude_estimate.cpp 91-107) over the reversed queue; [prev] is the
    element before the current one in this order, absent at rbegin ([*std::prev(rbegin)] is outside the queue). *)
Fixpoint att_search (ts thr : f64) (prev : option (att_item T)) (l : list (att_item T)) : out (option (quat T)) :=
  match l with
  | [] => Ok None
  | it :: r =>
      if f64_leb (ai_ts it) ts then
        match prev with
        | None => Ub UbIter
        | Some p =>
            let prev_diff := f64_sub (ai_ts p) ts in
            let diff := f64_sub ts (ai_ts it) in
            if (f64_ltb prev_diff diff && f64_ltb prev_diff thr)%bool then Ok (Some (ai_q p))
            else if f64_ltb diff thr then Ok (Some (ai_q it))
            else Ok None
        end
      else att_search ts thr (Some it) r
  end.

(** AttitudeEstimate::GetAttitude (attitude_estimate.cpp 66-108): [Some q] is "true with atti = q", [None] is
    "false with atti untouched". *)
Definition att_get (st : att T) (ts thr : f64) : out (option (quat T)) :=
  match at_items st with
  | [] => Ok None
  | _ =>
      let! b := back (at_items st) in
      if f64_leb (ai_ts b) ts then
        Ok (if f64_ltb (f64_sub ts (ai_ts b)) thr then Some (ai_q b) else None)
      else
        let! a := front (at_items st) in
        if (Nat.ltb 1 (length (at_items st)) && f64_leb ts (ai_ts a))%bool then
          Ok (if f64_ltb (f64_sub (ai_ts a) ts) thr then Some (ai_q a) else None)
        else att_search ts thr None (rev (at_items st))
  end.

(** AttitudeEstimate::SetBias (attitude_estimate.cpp 112-116). *)
Definition att_set_bias (st : att T) (ba bg : v3 T) : att T := Att (at_items st) ba bg (at_err st).

(** The condition of the loop in CleanOldItems (attitude_estimate.cpp 124): the double difference is narrowed
    to float; bit exact at every scalar instance. *)
Definition is_old32 (ts : f64) (thr : f32) (it_ts : f64) : bool := f32_ltb thr (f64_to_f32 (f64_sub ts it_ts)).

(** The loop of CleanOldItems (attitude_estimate.cpp 124-126): front() of an emptied queue is undefined. *)
Fixpoint clean_loop (ts : f64) (thr : f32) (l : list (att_item T)) : out (list (att_item T)) :=
  match l with
  | [] => Ub UbEmptyFront
  | it :: r => if is_old32 ts thr (ai_ts it) then clean_loop ts thr r else Ok l
  end.

(** AttitudeEstimate::CleanOldItems (attitude_estimate.cpp 120-130); always returns true. *)
Definition att_clean (st : att T) (ts : f64) (thr : f32) : out (att T) :=
  match at_items st with
  | [] => Ok st
  | l => let! l' := clean_loop ts thr l in Ok (Att l' (at_ba st) (at_bg st) (at_err st))
  end.

End Attitude.
