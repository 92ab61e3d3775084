(** Specification of the rounds of the iterative triangulation (C82). Nothing here is used by the model. *)
From Coq Require Import Reals List Arith.
From Verif Require Import Fp Scalar Base LinAlg MathLib Triangulate.
Local Open Scope R_scope.

(** One round: the weighted equations at the present solution, then trials with growing damping. *)
Definition round (fuel : nat) (ldlt : m33 R -> v3 R -> v3 R) (cw : list (view R)) (a z : lm R) : Prop :=
  let '(A, b) := tri_normal cw (lm_sol a) in lm_inner fuel ldlt cw A b 0 a = Some z.
(** The double 5e-7. *)
Definition tiny : R := 4722366482869645 / 9444732965739290427392.
