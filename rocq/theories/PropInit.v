(** The geometry of the initialization (C81). *)
From Coq Require Import ZArith Reals List Arith.
From stdpp Require Import gmap list.
From Verif Require Import Fp Scalar Base LinAlg Msg DataLoader FeatureManager FrameManager Window MathLib Attitude Propagator
  Triangulate Pnp VisionUpdate Backend WindowSpec QueueSpec UpdSpec GeoSpec PnpFacts InitSpec InitFacts InitWitness.
Import ListNotations.
Local Open Scope R_scope.

(** C81: with exact observations the points of the first frame are found, and the pose of the second is that of the camera refined
    from exact observations of at least ten of them. *)
Theorem C81_exact : forall c o (s : bstate R) fi fj rest q0 q1 p1 P ids,
  wn_frames (b_win s) = fi :: fj :: rest -> f64_ltb (f64_abs (f64_sub (fr_ts fj) (fr_ts fi))) f64_zero_thr = false ->
  att_get (b_att s) (fr_ts fi) (f64_mul (dl_period (b_dl s)) f64_0_55) = Ok (Some q0) ->
  valid_order (vo_ord (bo_init o)) -> valid_norder (vo_nord (bo_init o)) -> valid_order (bo_pord o) -> exact_svd (vo_svd (bo_init o)) ->
  exact_pair (b_ext s) (wn_heap (b_win s)) fi fj P q0 q1 p1 ->
  List.NoDup ids -> (forall id, In id ids <-> usable (wn_heap (b_win s)) fi fj id) ->
  exists s' b, initialize c o s = Ok (s', b) /\
  (forall p, linked fi p -> exists ft g, hp_cells (wn_heap (b_win s)) !! p = Some ft /\ hp_cells (wn_heap (b_win s')) !! p = Some g /\
     same_track ft g /\ ft_status g = FSolved /\ ft_pw g = P p) /\
  (forall p, ~ linked fi p -> hp_cells (wn_heap (b_win s')) !! p = hp_cells (wn_heap (b_win s)) !! p) /\
  ((length ids < 10)%nat -> b = false) /\
  ((10 <= length ids)%nat -> exists e p3 p2, nth_error (b_ext s) 0 = Some e /\ length p3 = length ids /\ length p2 = length ids /\
     (forall pt z, In (pt, z) (combine p3 p2) -> seen_from q1 p1 e pt z) /\
     let r := refine o e q0 p3 p2 in b = po_ok r /\
     (b = true -> exists qj pj, mount_q qj e = po_q r /\ mount_p qj pj e = po_p r /\ (po_q r = mount_q q1 e -> po_p r = mount_p q1 p1 e -> qj = q1 /\ pj = p1) /\
        let v := v3div pj (time_step fi fj) in
        wn_frames (b_win s') = with_pose fi q0 v3zero v :: with_pose fj qj pj v :: rest /\ pq_init (b_pq s') = Motion v3zero v q0)).
Proof. exact initial_exact. Qed.
Print Assumptions C81_exact.
(** A sensor at rest is found to be at rest: no motion between the frames, no velocity. *)
Theorem C81_rest : forall c o (s : bstate R) fi fj rest q0 P ids,
  wn_frames (b_win s) = fi :: fj :: rest -> f64_ltb (f64_abs (f64_sub (fr_ts fj) (fr_ts fi))) f64_zero_thr = false ->
  att_get (b_att s) (fr_ts fi) (f64_mul (dl_period (b_dl s)) f64_0_55) = Ok (Some q0) ->
  valid_order (vo_ord (bo_init o)) -> valid_norder (vo_nord (bo_init o)) -> valid_order (bo_pord o) -> exact_svd (vo_svd (bo_init o)) -> zero_solver (bo_ldlt o) ->
  exact_pair (b_ext s) (wn_heap (b_win s)) fi fj P q0 q0 v3zero ->
  List.NoDup ids -> (forall id, In id ids <-> usable (wn_heap (b_win s)) fi fj id) -> (10 <= length ids)%nat ->
  exists s', initialize c o s = Ok (s', true) /\ wn_frames (b_win s') = with_pose fi q0 v3zero v3zero :: with_pose fj q0 v3zero v3zero :: rest /\ pq_init (b_pq s') = Motion v3zero v3zero q0.
Proof. exact initial_rest. Qed.
Print Assumptions C81_rest.

(** A tilted sensor at rest with ten points. An exact decomposition exists. *)
Example C81_example : (wn_frames (b_win i_s) = [i_fi; i_fj] /\ f64_ltb (f64_abs (f64_sub (fr_ts i_fj) (fr_ts i_fi))) f64_zero_thr = false /\
  att_get (b_att i_s) (fr_ts i_fi) (f64_mul (dl_period (b_dl i_s)) f64_0_55) = Ok (Some i_q) /\
  valid_order (vo_ord (bo_init i_o)) /\ valid_norder (vo_nord (bo_init i_o)) /\ valid_order (bo_pord i_o) /\ exact_svd (vo_svd (bo_init i_o)) /\ zero_solver (bo_ldlt i_o)) /\
  exact_pair (b_ext i_s) (wn_heap (b_win i_s)) i_fi i_fj i_P i_q i_q v3zero /\
  List.NoDup (map Z.of_nat (seq 0 10)) /\ (forall id, In id (map Z.of_nat (seq 0 10)) <-> usable (wn_heap (b_win i_s)) i_fi i_fj id) /\
  (10 <= length (map Z.of_nat (seq 0 10)))%nat.
Proof. exact (conj i_hyp (conj i_pair i_ids)). Qed.
