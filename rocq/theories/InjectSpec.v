(** Specification of the state correction (C71): which part of the error vector changes which state. *)
From Coq Require Import ZArith List.
From stdpp Require Import gmap.
From Verif Require Import Fp Scalar Base LinAlg Msg FeatureManager FrameManager Window Propagator VisionUpdate UpdSpec.
Import ListNotations.
Local Open Scope nat_scope.

Section Inject.
Context {T : Type} {SO : SOps T}.

(** Three consecutive entries of a column. *)
Definition three (dx : mat T) (i : nat) : v3 T := V3 (me dx i 0) (me dx (i + 1) 0) (me dx (i + 2) 0).
(** The attitude [q] turned by the small body-frame angle [th]: q * (1, th / 2), normalized. *)
Definition turned (q : quat T) (th : v3 T) : quat T :=
  qnormalize (qmul q (Quat s1 (sdiv (v3x th) s2) (sdiv (v3y th) s2) (sdiv (v3z th) s2))).

(** Only the newest frame carries the largest id. *)
Definition newest_alone (fs : list (frame T)) : Prop :=
  forall i f g, nth_error fs i = Some f -> nth_error fs (length fs - 1) = Some g -> fr_id f = fr_id g -> i = length fs - 1.

(** [s'] is [s] corrected by the error vector [dx], whose layout is that of the measurement Jacobian (C49) without
    the three columns of the feature position: every state moves along the columns in which it was measured. *)
Definition corrected (dx : mat T) (s s' : vstate T) : Prop :=
  let ne := length (vs_ext s) in
  let fs := wn_frames (vs_win s) in
  let nf := length fs in
  exists it r,
    pq_items (vs_pq s) = it :: r /\
    let m := Motion (v3add (mo_p (pi_mo it)) (three dx 0)) (v3add (mo_v (pi_mo it)) (three dx 3)) (turned (mo_q (pi_mo it)) (three dx 6)) in
    vs_pq s' = PQueue (PItem m (pi_cov it) (pi_ecov it) (pi_a it) (pi_g it) (pi_ts it) :: r) (pq_ecc (vs_pq s))
      (v3add (pq_ba (vs_pq s)) (three dx 9)) (v3add (pq_bg (vs_pq s)) (three dx 12))
      (pq_init (vs_pq s)) (pq_F (vs_pq s)) (pq_G (vs_pq s)) (pq_Q (vs_pq s)) /\
    length (vs_ext s') = ne /\
    (forall c e, nth_error (vs_ext s) c = Some e ->
       nth_error (vs_ext s') c = Some (Extrinsic (turned (ex_q e) (three dx (col_ext c))) (v3add (ex_p e) (three dx (col_ext c - 3))))) /\
    wn_heap (vs_win s') = wn_heap (vs_win s) /\ wn_mgr (vs_win s') = wn_mgr (vs_win s) /\
    length (wn_frames (vs_win s')) = nf /\
    (forall k f, nth_error fs k = Some f ->
       let newest := k =? nf - 1 in
       let q := if newest then mo_q (pi_mo it) else fr_q f in
       let p := if newest then mo_p (pi_mo it) else fr_p f in
       nth_error (wn_frames (vs_win s')) k =
         Some (Frame (fr_feats f) (turned q (three dx (col_att ne nf k - 3))) (v3add p (three dx (col_pos ne nf k - 3)))
                 (if newest then v3add (mo_v (pi_mo it)) (three dx 3) else fr_v f) (fr_id f) (fr_ts f))).

(** The newest frame carries the pose and velocity of the first queued state. *)
Definition newest_is_head (s : vstate T) : Prop :=
  exists it r f, pq_items (vs_pq s) = it :: r /\ nth_error (wn_frames (vs_win s)) (length (wn_frames (vs_win s)) - 1) = Some f /\
    fr_q f = mo_q (pi_mo it) /\ fr_p f = mo_p (pi_mo it) /\ fr_v f = mo_v (pi_mo it).
End Inject.
