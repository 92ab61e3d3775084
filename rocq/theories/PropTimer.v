(** Property C92: the timer. *)
From Coq Require Import ZArith Reals List.
From Flocq Require Import BinarySingleNaN.
From Verif Require Import Fp Base Timer TimerSpec TimerFacts.
Import ListNotations.
Local Open Scope R_scope.

(** Every call returns the milliseconds since the previous call (the first: since the construction), finite and with a relative error of at most 2^-23,
    for all readings of the clock between 1970 and 2262. *)
Theorem C92_interval : forall clk n pos, (forall k, date (clk k)) -> exists l t, ticks clk n (timer_new clk pos) = Ok (l, t) /\ length l = n /\
  (forall i r, nth_error l i = Some r -> measures r (clk (pos + i)%nat) (clk (pos + i + 1)%nat)).
Proof. exact ticks_measure. Qed.
Print Assumptions C92_interval.
(** So the results of a run add up to the time it took, if the clock is not set back. *)
Theorem C92_total : forall clk n pos l t, (forall k, date (clk k)) -> (forall k, (clk k <= clk (S k))%Z) -> ticks clk n (timer_new clk pos) = Ok (l, t) ->
  Rabs (fold_right Rplus 0 (map (B2R (prec := prec32) (emax := emax32)) l) - elapsed (clk pos) (clk (pos + n)%nat)) <= / 8388608 * elapsed (clk pos) (clk (pos + n)%nat).
Proof. exact ticks_total. Qed.
Print Assumptions C92_total.
Example C92_example : (forall k, date (steady k)) /\ (forall k, (steady k <= steady (S k))%Z) /\ elapsed (steady 0) (steady 6) = 6.
Proof. exact steady_example. Qed.
(** The sign of a result tells whether the clock went forward; longer intervals never show as shorter times. *)
Theorem C92_sign : forall r a b, measures r a b -> (B2R r < 0 <-> (b < a)%Z) /\ (0 < B2R r <-> (a < b)%Z) /\ (B2R r = 0 <-> a = b).
Proof. exact measures_sign. Qed.
Print Assumptions C92_sign.
Example C92_sign_example : exists r, measures r 1000000 3000000.
Proof. exact sign_example. Qed.
Theorem C92_order : forall d e, (- 2 ^ 63 <= d)%Z -> (d <= e)%Z -> (e < 2 ^ 63)%Z -> B2R (count_ms d) <= B2R (count_ms e).
Proof. exact ms_monotone. Qed.
Print Assumptions C92_order.
(** test_pnp prints the times of its three solver calls, without those of its own printing. *)
Theorem C92_pnp : forall clk, (forall k, date (clk k)) -> exists a b c, pnp_times clk = Ok (a, b, c) /\
  measures a (clk 0%nat) (clk 1%nat) /\ measures b (clk 2%nat) (clk 3%nat) /\ measures c (clk 4%nat) (clk 5%nat).
Proof. exact pnp_times_ok. Qed.
Print Assumptions C92_pnp.
(** "A measured time is never negative" is false: the clock can be set back. *)
Theorem C92_nonneg_refuted : exists clk r t, (forall k, date (clk k)) /\ tick_tock clk (timer_new clk 0) = Ok (r, t) /\ B2R (r : f32) < 0.
Proof. exact time_nonneg_refuted. Qed.
Print Assumptions C92_nonneg_refuted.
(** "Different intervals give different results" is false. *)
Theorem C92_exact_refuted : exists d e, (0 <= d < e)%Z /\ (e < 2 ^ 63)%Z /\ count_ms d = count_ms e.
Proof. exact time_exact_refuted. Qed.
Print Assumptions C92_exact_refuted.
(** "A call is defined for every pair of readings" is false. *)
Theorem C92_defined_refuted : exists clk, (forall k, (- 2 ^ 63 <= clk k < 2 ^ 63)%Z) /\ tick_tock clk (timer_new clk 0) = Ub UbOverflow.
Proof. exact time_defined_refuted. Qed.
Print Assumptions C92_defined_refuted.
