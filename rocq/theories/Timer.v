(** TickTockTimer: src/utility/tick_tock.cpp, include/utility/tick_tock.hpp; and its use in apps/test_pnp.cpp. *)
From Coq Require Import ZArith List Bool.
From Verif Require Import Fp Base.
Import ListNotations.

(** std::chrono::system_clock (tick_tock.hpp 12): its readings in order, as counts of nanoseconds since the epoch; in libstdc++ the
    count is a signed 64-bit integer. The clock can be set back. *)
Definition clock := nat -> Z.
(** The timer: the member timeStamp (tick_tock.hpp 12); and the number of readings taken from the clock so far. *)
Record timer := Timer { tm_stamp : Z; tm_pos : nat }.
(** TickTockTimer (tick_tock.cpp 6-8). *)
Definition timer_new (clk : clock) (pos : nat) : timer := Timer (clk pos) (S pos).
(** newTimeStamp - this->timeStamp (tick_tock.cpp 13): a difference of two signed 64-bit counts. *)
Definition count_diff (a b : Z) : out Z :=
  let d := (a - b)%Z in if ((- 2 ^ 63 <=? d) && (d <? 2 ^ 63))%Z then Ok d else Ub UbOverflow.
(** Conversion to duration<double> (tick_tock.cpp 13): double(count) / double(1000000000), as duration_cast does for a ratio with
    numerator 1; then * 1000.0 and narrowing to Scalar (tick_tock.cpp 15). *)
Definition count_ms (d : Z) : f32 := f64_to_f32 (f64_mul (f64_div (f64_of_Z d) (f64_of_Z 1000000000)) (f64_of_Z 1000)).
(** TickTock (tick_tock.cpp 11-16). *)
Definition tick_tock (clk : clock) (t : timer) : out (f32 * timer) :=
  let now := clk (tm_pos t) in
  let! d := count_diff now (tm_stamp t) in
  Ok (count_ms d, Timer now (S (tm_pos t))).
(** [n] calls one after the other. *)
Fixpoint ticks (clk : clock) (n : nat) (t : timer) : out (list f32 * timer) :=
  match n with
  | O => Ok ([], t)
  | S k => let! r := tick_tock clk t in let! s := ticks clk k (snd r) in Ok (fst r :: fst s, snd s)
  end.

(** The three times printed by test_pnp (test_pnp.cpp 53-55, 63-65, 73-75); the results of lines 63 and 73 are dropped. *)
Definition pnp_times (clk : clock) : out (f32 * f32 * f32) :=
  let t := timer_new clk 0 in
  let! a := tick_tock clk t in
  let! x := tick_tock clk (snd a) in
  let! b := tick_tock clk (snd x) in
  let! y := tick_tock clk (snd b) in
  let! c := tick_tock clk (snd y) in
  Ok (fst a, fst b, fst c).
