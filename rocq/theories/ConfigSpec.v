(** Specification vocabulary for the configuration files (C66, C69, C70). Nothing here is used by the model. *)
From Coq Require Import ZArith Reals List.
From stdpp Require Import gmap.
From Verif Require Import Fp Scalar Base LinAlg Config.
Import ListNotations.
Local Open Scope nat_scope.

Section ConfigSpec.
Context {T : Type}.
(** The lines before the first empty one. *)
Fixpoint data_lines (f : cfile T) : list (list (tok T)) :=
  match f with Some l :: r => l :: data_lines r | _ => [] end.
(** The values stored by successive extractions: up to and including the first text that is no number. *)
Fixpoint values (l : list (tok T)) : list T :=
  match l with [] => [] | TNum x :: r => x :: values r | TBad x :: _ => [x] end.
(** What a file says about entry (i, j). *)
Definition entry (f : cfile T) (i j : nat) : option T :=
  match nth_error (data_lines f) i with Some l => nth_error (values l) j | None => None end.

(** A file that says exactly one number about each entry of a matrix with [rows] rows and [cols] columns. *)
Definition complete (rows cols : nat) (f : cfile T) (t : nat -> nat -> T) : Prop :=
  length (data_lines f) = rows /\ forall i j, i < rows -> j < cols -> entry f i j = Some (t i j).
(** A parameter file is missing, or is complete. *)
Definition told (rows cols : nat) (f : option (cfile T)) (t : option (nat -> nat -> T)) : Prop :=
  match f, t with None, None => True | Some f, Some t => complete rows cols f t | _, _ => False end.
(** The new value of a parameter: from the file, or the old one. *)
Definition or_old {A} (t : option (nat -> nat -> T)) (get : (nat -> nat -> T) -> A) (old : A) : A :=
  match t with Some t => get t | None => old end.
(** Cameras 0, 1, ..., n-1 have complete files and camera n has none. *)
Definition cameras (d : cdir T) (ts : list (nat -> nat -> T)) : Prop :=
  (forall k t, nth_error ts k = Some t -> exists f, cd_cams d !! Z.of_nat k = Some f /\ complete 4 4 f t) /\
  cd_cams d !! Z.of_nat (length ts) = None.
(** No more data lines than rows. *)
Definition fits (rows : nat) (f : option (cfile T)) : Prop := match f with Some f => length (data_lines f) <= rows | None => True end.
Definition said (f : option (cfile T)) (i j : nat) : option T := match f with Some f => entry f i j | None => None end.
Definition column3 (t : nat -> nat -> T) : v3 T := V3 (t 0 3) (t 1 3) (t 2 3).
End ConfigSpec.

(** ** Rotations *)
Local Open Scope R_scope.
(** The rows are orthonormal and the determinant is 1. *)
Definition rotation (a : nat -> nat -> R) : Prop :=
  (forall i j, (i < 3)%nat -> (j < 3)%nat -> a i 0%nat * a j 0%nat + a i 1%nat * a j 1%nat + a i 2%nat * a j 2%nat = if Nat.eqb i j then 1 else 0) /\
  a 0%nat 0%nat * (a 1%nat 1%nat * a 2%nat 2%nat - a 1%nat 2%nat * a 2%nat 1%nat)
  - a 0%nat 1%nat * (a 1%nat 0%nat * a 2%nat 2%nat - a 1%nat 2%nat * a 2%nat 0%nat)
  + a 0%nat 2%nat * (a 1%nat 0%nat * a 2%nat 1%nat - a 1%nat 1%nat * a 2%nat 0%nat) = 1.
(** The image of a point under the rigid transformation of a 4 x 4 matrix. *)
Definition carried (t : nat -> nat -> R) (x : v3 R) : v3 R :=
  let row i := t i 0%nat * v3x x + t i 1%nat * v3y x + t i 2%nat * v3z x + t i 3%nat in V3 (row 0%nat) (row 1%nat) (row 2%nat).
