(** C54: what EstimatePoseP3P accepts. *)
From Coq Require Import Bool Arith Lia List.
From Verif Require Import Fp Scalar Base LinAlg MathLib Pnp.
Import ListNotations.

Lemma p3p_accepts : forall T (SO : SOps T) (p3 : list (v3 T)) (p2 : list (v2 T)) q p, let r := pnp_p3p p3 p2 q p in
  (po_ok r = true <-> length p3 = length p2 /\ (3 <= length p3)%nat) /\ po_q r = q /\ po_p r = p.
Proof.
  intros T SO p3 p2 q p. unfold pnp_p3p. cbv zeta. destruct (Nat.eqb_spec (length p3) (length p2)) as [E|E], (Nat.ltb_spec (length p3) 3) as [L|L]; cbn [negb orb po_ok po_q po_p];
    (split; [split; [intros H; try discriminate; split; assumption|intros [H1 H2]; try reflexivity; exfalso; try contradiction; lia]|split; reflexivity]).
Qed.
