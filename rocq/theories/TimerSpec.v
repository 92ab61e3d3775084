(** Specification vocabulary for the timer (C92). *)
From Coq Require Import ZArith Reals.
From Flocq Require Import Core BinarySingleNaN.
From Verif Require Import Fp.
Local Open Scope R_scope.

(** Milliseconds between two readings of a clock that counts nanoseconds. *)
Definition elapsed (a b : Z) : R := IZR (b - a) / 1000000.
(** [r] is the time from [a] to [b] up to the relative error 2^-23. *)
Definition measures (r : f32) (a b : Z) : Prop := is_finite r = true /\ Rabs (B2R r - elapsed a b) <= / 8388608 * Rabs (elapsed a b).
(** Dates from 1970 to 2262. *)
Definition date (z : Z) : Prop := (0 <= z < 2 ^ 63)%Z.
