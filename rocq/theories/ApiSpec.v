(** Specification vocabulary for C104. Nothing here is used by the model. *)
From Verif Require Import Fp Scalar Msg DataLoader Backend.
(** The two back ends differ at most in what waits in the loader and in the times of the last messages. *)
Definition only_loader {T} (s s' : bstate T) : Prop :=
  b_win s' = b_win s /\ b_ext s' = b_ext s /\ b_att s' = b_att s /\ b_pq s' = b_pq s /\ b_status s' = b_status s /\ dl_period (b_dl s') = dl_period (b_dl s).
