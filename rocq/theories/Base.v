(** Outcomes of C++ computations and bounds-checked containers. *)
From Coq Require Import ZArith List Bool.
Import ListNotations.

(** Reasons for undefined behaviour that the model distinguishes. *)
Inductive ub_reason :=
| UbNull          (* dereference of a null pointer *)
| UbEmptyFront    (* front()/back()/pop_front() of an empty std::deque / std::vector *)
| UbIndex         (* operator[] out of range *)
| UbBlock         (* Eigen block / segment outside the matrix *)
| UbDim           (* Eigen operation on operands of different size *)
| UbIter          (* iterator moved outside its container *)
| UbConv          (* floating-point value outside the range of the integer type it is converted to *)
| UbOverflow.     (* signed integer overflow *)

(** Result of running a C++ function: a value or undefined behaviour (guide: UB is a distinct outcome).
    Models no particular line: it is the result type of every modelled function that can go wrong. *)
Inductive out (A : Type) := Ok (a : A) | Ub (r : ub_reason).
Arguments Ok {A}. Arguments Ub {A}.

Definition obind {A B} (m : out A) (k : A -> out B) : out B :=
  match m with Ok a => k a | Ub r => Ub r end.
Notation "'let!' x ':=' m 'in' k" := (obind m (fun x => k))
  (at level 200, x pattern, m at level 100, k at level 200).

(** A computation that does not run into undefined behaviour. *)
Definition safe {A} (m : out A) : Prop := exists a, m = Ok a.

(** [c.front()] of std::deque/std::vector. *)
Definition front {A} (l : list A) : out A := match l with [] => Ub UbEmptyFront | x :: _ => Ok x end.
(** [c.pop_front()]. *)
Definition pop_front {A} (l : list A) : out (list A) := match l with [] => Ub UbEmptyFront | _ :: r => Ok r end.
(** [c.back()]. *)
Fixpoint back {A} (l : list A) : out A :=
  match l with [] => Ub UbEmptyFront | [x] => Ok x | _ :: r => back r end.
(** [v[i]] of std::vector / std::deque. *)
Definition at_ {A} (l : list A) (i : nat) : out A :=
  match nth_error l i with Some x => Ok x | None => Ub UbIndex end.
(** Dereference of a pointer obtained from a lookup ([None] = nullptr). *)
Definition deref {A} (o : option A) : out A := match o with Some x => Ok x | None => Ub UbNull end.

(** Unsigned 32-bit arithmetic ([uint32_t], typedef.hpp 18). *)
Definition u32 (z : Z) : Z := (z mod 4294967296)%Z.
