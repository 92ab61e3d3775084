(** Properties C01-C12: DataLoader (src/data_manager/data_loader.cpp). *)
From Coq Require Import ZArith List Bool Sorting.Sorted Reals.
From Flocq Require Import Core BinarySingleNaN.
From Verif Require Import Fp Scalar Base LinAlg Msg DataLoader LoaderSpec LoaderFacts InterpFacts LoaderWitness.
Import ListNotations.
Local Open Scope nat_scope.

(** C01: after any history, a pushed message is buffered, if at all, with its time plus one second. *)
Theorem C01_constant_time_shift : forall (T : Type) (S : SOps T) per (ops : list (dl_op T)) w obs k,
  dl_run (world0 per) ops = Ok (w, obs) ->
  (forall m : imu_msg T, let '(_, l', m', r) := dl_push_imu (w_st w) (w_ld w k) m in
     r = true /\ m' = imu_shifted m /\
     (dl_imu l' = dl_imu (w_ld w k) ++ [imu_shifted m] \/ dl_imu l' = dl_imu (w_ld w k)) /\
     dl_feat l' = dl_feat (w_ld w k)) /\
  (forall m : feat_msg T, well_sized m = true ->
     let '(_, l', m', r) := dl_push_feat (w_st w) (w_ld w k) m in
     r = true /\ m' = feat_shifted m /\
     (dl_feat l' = dl_feat (w_ld w k) ++ [feat_shifted m] \/ dl_feat l' = dl_feat (w_ld w k)) /\
     dl_imu l' = dl_imu (w_ld w k)).
Proof. exact @time_shift. Qed.
Print Assumptions C01_constant_time_shift.
Example C01_example : exists w obs, dl_run (world0 (T := R) p5) demo_ops = Ok (w, obs) /\
  length (dl_imu (w_ld w 0)) = 3 /\ length (dl_feat (w_ld w 0)) = 2.
Proof. exact demo_run. Qed.

(** C02: the exact acceptance rule. *)
Theorem C02_acceptance_rule : forall (T : Type) (S : SOps T) per (ops : list (dl_op T)) w obs k,
  dl_run (world0 per) ops = Ok (w, obs) ->
  (forall m : imu_msg T, let '(_, l', _, r) := dl_push_imu (w_st w) (w_ld w k) m in
     r = true /\
     dl_imu l' = dl_imu (w_ld w k) ++
       (if accepts (last_opt (imu_inputs ops)) (im_ts m) then [imu_shifted m] else [])) /\
  (forall m : feat_msg T, well_sized m = true ->
     let '(_, l', _, r) := dl_push_feat (w_st w) (w_ld w k) m in
     r = true /\
     dl_feat l' = dl_feat (w_ld w k) ++
       (if accepts (last_opt (feat_inputs ops)) (fm_ts m) then [feat_shifted m] else [])) /\
  (forall m : feat_msg T, well_sized m = false ->
     dl_push_feat (w_st w) (w_ld w k) m = (w_st w, w_ld w k, m, false)).
Proof. exact @acceptance. Qed.
Print Assumptions C02_acceptance_rule.
Example C02_example : exists w obs, dl_run (world0 (T := R) p5) demo_pack = Ok (w, obs) /\
  length (dl_imu (w_ld w 0)) = 3 /\ length (dl_feat (w_ld w 0)) = 1.
Proof. exact demo_pack_run. Qed.

(** C03: buffers are strictly increasing as long as the pushed times never go back... *)
Theorem C03_sorted_if_pushed_in_order : forall (T : Type) (S : SOps T) per (ops : list (dl_op T)) w obs k,
  dl_run (world0 per) ops = Ok (w, obs) ->
  (nondec (imu_inputs ops) -> StronglySorted imu_lt (dl_imu (w_ld w k))) /\
  (nondec (feat_inputs ops) -> StronglySorted feat_lt (dl_feat (w_ld w k))).
Proof. exact @sorted_if_inputs_sorted. Qed.
Print Assumptions C03_sorted_if_pushed_in_order.
Example C03_example : nondec (imu_inputs (T := R) demo_ops) /\ nondec (feat_inputs (T := R) demo_ops).
Proof. exact demo_nondec. Qed.

(** ... and not in general. *)
Theorem C03_sorted_refuted : forall (T : Type) (S : SOps T), exists (ops : list (dl_op T)) w obs,
  dl_run (world0 p5) ops = Ok (w, obs) /\ ~ StronglySorted imu_lt (dl_imu (w_ld w 0)).
Proof. exact @sorted_refuted. Qed.
Print Assumptions C03_sorted_refuted.

(** C04: FIFO conservation. *)
Theorem C04_fifo_conservation : forall (T : Type) (S : SOps T) per (ops : list (dl_op T)) w obs k,
  dl_run (world0 per) ops = Ok (w, obs) -> Forall push_or_pop_one ops ->
  delivered_imu k obs ++ dl_imu (w_ld w k) = accepted_imu None k ops /\
  delivered_feat k obs ++ dl_feat (w_ld w k) = accepted_feat None k ops.
Proof. exact @conservation. Qed.
Print Assumptions C04_fifo_conservation.
Theorem C04_histories_run : forall (T : Type) (S : SOps T) (ops : list (dl_op T)) w,
  Forall push_or_pop_one ops -> exists r, dl_run w ops = Ok r.
Proof. exact @run_push_pop_total. Qed.
Print Assumptions C04_histories_run.
Example C04_example : Forall push_or_pop_one (demo_ops (T := R)).
Proof. exact demo_no_packed. Qed.

(** C05: which heads are released, for any buffers... *)
Theorem C05_pop_one_decision : forall (T : Type) (l : loader T), let '(l', c, r, _) := dl_pop_one l in
  cm_imu c ++ dl_imu l' = dl_imu l /\
  (match cm_feat c with Some f => [f] | None => [] end) ++ dl_feat l' = dl_feat l /\
  length (cm_imu c) <= 1 /\
  (r = false <-> dl_imu l = [] /\ dl_feat l = []) /\
  (cm_feat c <> None <-> exists f fs, dl_feat l = f :: fs /\
     forall i is, dl_imu l = i :: is -> f64_leb (fm_ts f) (im_ts i) = true) /\
  (cm_imu c <> [] <-> exists i is, dl_imu l = i :: is /\
     forall f fs, dl_feat l = f :: fs ->
       f64_leb (fm_ts f) (im_ts i) = false \/ f64_ltb (f64_abs (f64_sub (fm_ts f) (im_ts i))) (dl_period l) = true).
Proof. exact @pop_one_decision. Qed.
Print Assumptions C05_pop_one_decision.
(** ... and, for sorted buffers, nothing earlier is left behind a features message or a lone IMU sample. *)
Theorem C05_pop_one_order : forall (T : Type) (l : loader T), sorted_buffers l -> not_nan_buffers l ->
  let '(l', c, r, _) := dl_pop_one l in
  (r = false <-> dl_imu l = [] /\ dl_feat l = []) /\
  (r = false -> l' = l /\ c = comb_empty) /\
  match cm_feat c, cm_imu c with
  | Some f, is =>
      (forall f', In f' (dl_feat l') -> f64_ltb (fm_ts f) (fm_ts f') = true) /\
      (forall i', In i' (dl_imu l') -> f64_leb (fm_ts f) (im_ts i') = true) /\
      match is with
      | [] => forall i is', dl_imu l' = i :: is' ->
                f64_ltb (f64_abs (f64_sub (fm_ts f) (im_ts i))) (dl_period l) = false
      | [i] => f64_leb (fm_ts f) (im_ts i) = true /\
               f64_ltb (f64_abs (f64_sub (fm_ts f) (im_ts i))) (dl_period l) = true
      | _ => False
      end
  | None, is =>
      match is with
      | [] => r = false
      | [i] => (forall f', In f' (dl_feat l') -> f64_ltb (im_ts i) (fm_ts f') = true) /\
               (forall i', In i' (dl_imu l') -> f64_ltb (im_ts i) (im_ts i') = true)
      | _ => False
      end
  end.
Proof. exact @pop_one_order. Qed.
Print Assumptions C05_pop_one_order.
Example C05_example : sorted_buffers (bundle_loader (T := R)) /\ not_nan_buffers (bundle_loader (T := R)).
Proof. exact bundle_sorted. Qed.

(** C06: later deliveries can be earlier in time... *)
Theorem C06_delivery_order_refuted : forall (T : Type) (S : SOps T), exists l : loader T,
  sorted_buffers l /\ not_nan_buffers l /\ dl_imu l <> [] /\ dl_feat l <> [] /\
  let '(l1, c1, _, _) := dl_pop_one l in
  dl_imu l1 <> [] /\ dl_feat l1 <> [] /\
  let '(_, c2, _, _) := dl_pop_one l1 in
  exists t1 t2, In t1 (comb_times c1) /\ In t2 (comb_times c2) /\ f64_ltb t2 t1 = true.
Proof. exact @delivery_refuted. Qed.
Print Assumptions C06_delivery_order_refuted.
(** ... but only for a features message falling between an earlier features message and the IMU sample
    bundled with it, less than one period apart. *)
Theorem C06_delivery_order_bound : forall (T : Type) (l : loader T) n, sorted_buffers l -> not_nan_buffers l ->
  let '(l', c, _, _) := dl_pop_one l in
  forall c' r', In (c', r') (snd (pops n l')) ->
  (forall i', In i' (cm_imu c') -> forall t, In t (comb_times c) -> f64_leb t (im_ts i') = true) /\
  (forall f', cm_feat c' = Some f' -> forall t, In t (comb_times c) ->
     f64_leb t (fm_ts f') = true \/
     exists f i, cm_feat c = Some f /\ cm_imu c = [i] /\ t = im_ts i /\
       f64_ltb (fm_ts f) (fm_ts f') = true /\
       f64_ltb (f64_abs (f64_sub (fm_ts f) (im_ts i))) (dl_period l) = true).
Proof. exact @delivery_bound. Qed.
Print Assumptions C06_delivery_order_bound.
Example C06_example : sorted_buffers (bundle_loader (T := R)) /\ not_nan_buffers (bundle_loader (T := R)).
Proof. exact bundle_sorted. Qed.

(** C07: line 67 reads a popped element, exactly when both buffers are non-empty and the features come first. *)
Theorem C07_live_storage_refuted : forall (T : Type) (S : SOps T), exists l : loader T,
  let '(_, _, _, stale) := dl_pop_one l in stale = true.
Proof. exact @stale_refuted. Qed.
Print Assumptions C07_live_storage_refuted.
Theorem C07_stale_read_iff : forall (T : Type) (l : loader T), let '(_, _, _, stale) := dl_pop_one l in
  stale = true <-> exists i is f fs, dl_imu l = i :: is /\ dl_feat l = f :: fs /\ f64_leb (fm_ts f) (im_ts i) = true.
Proof. exact @stale_read_iff. Qed.
Print Assumptions C07_stale_read_iff.

(** C08: repeated PopOneMessage drains both buffers. *)
Theorem C08_drains : forall (T : Type) (l : loader T),
  exists k, k <= length (dl_imu l) + length (dl_feat l) /\
  let '(l', outs) := pops k l in
  Forall (fun cr => snd cr = true) outs /\
  concat (map (fun cr => cm_imu (fst cr)) outs) = dl_imu l /\
  concat (map (fun cr => match cm_feat (fst cr) with Some f => [f] | None => [] end) outs) = dl_feat l /\
  let '(_, _, r, _) := dl_pop_one l' in r = false.
Proof. exact @drains. Qed.
Print Assumptions C08_drains.
Example C08_example : length (dl_imu (bundle_loader (T := R))) + length (dl_feat (bundle_loader (T := R))) = 4.
Proof. reflexivity. Qed.

(** C09: PopPackedMessage is safe in every reachable state (any pushed times, NaN included). *)
Theorem C09_pop_packed_safe : forall (T : Type) (S : SOps T) per (ops : list (dl_op T)),
  exists w obs, dl_run (world0 per) ops = Ok (w, obs) /\
  forall k, exists l' c r, dl_pop_packed (w_ld w k) = Ok (l', c, r) /\
    (r = true -> cm_feat c <> None /\ cm_imu c <> []).
Proof. exact @packed_safe. Qed.
Print Assumptions C09_pop_packed_safe.
Example C09_example : exists w obs l' c, dl_run (world0 (T := R) p5) pack_ops = Ok (w, obs) /\
  dl_pop_packed (w_ld w 0) = Ok (l', c, true) /\ length (cm_imu c) = 2.
Proof. exact pack_run. Qed.

(** C10: exact contents of a pack and of what stays buffered. *)
Theorem C10_pop_packed_contents : forall (T : Type) (S : SOps T) per ops w obs k,
  dl_run (world0 per) ops = Ok (w, obs) ->
  let l : loader T := w_ld w k in
  exists l' c r, dl_pop_packed l = Ok (l', c, r) /\
  (r = true <-> exists f fs i is e, dl_feat l = f :: fs /\ dl_imu l = i :: is /\ last_opt (dl_imu l) = Some e /\
     f64_ltb (im_ts i) (fm_ts f) = true /\ f64_ltb (fm_ts f) (im_ts e) = true) /\
  (r = true -> exists f pre e b nxt post,
     cm_feat c = Some f /\ dl_feat l = f :: dl_feat l' /\
     dl_imu l = (pre ++ [e]) ++ nxt :: post /\
     Forall (fun m => f64_leb (im_ts m) (fm_ts f) = true) (pre ++ [e]) /\
     f64_ltb (fm_ts f) (im_ts nxt) = true /\
     dl_imu l' = b :: nxt :: post /\
     ((f64_ltb f64_1e_6 (f64_abs (f64_sub (im_ts e) (fm_ts f))) = false /\ b = e /\ cm_imu c = pre ++ [e]) \/
      (f64_ltb f64_1e_6 (f64_abs (f64_sub (im_ts e) (fm_ts f))) = true /\ im_ts b = fm_ts f /\
       cm_imu c = (pre ++ [e]) ++ [b]))) /\
  (r = false -> cm_feat c = None /\ cm_imu c = [] /\ dl_imu l' = dl_imu l /\
     (dl_feat l' = dl_feat l \/
      exists f i is, dl_feat l = f :: dl_feat l' /\ dl_imu l = i :: is /\ f64_leb (fm_ts f) (im_ts i) = true)).
Proof. exact @packed_contents. Qed.
Print Assumptions C10_pop_packed_contents.
Example C10_example : exists w obs l' c, dl_run (world0 (T := R) p5) pack_ops = Ok (w, obs) /\
  dl_pop_packed (w_ld w 0) = Ok (l', c, true) /\ length (cm_imu c) = 2.
Proof. exact pack_run. Qed.

(** C11: exact convexity fails (the two float weights need not sum to one)... *)
Theorem C11_convex_refuted : exists (lft rgt : imu_msg R) t,
  f64_leb (im_ts lft) t = true /\ f64_ltb t (im_ts rgt) = true /\
  v3x (im_gyro lft) = 1%R /\ v3x (im_gyro rgt) = 1%R /\ (v3x (im_gyro (interpolate lft rgt t)) > 1)%R.
Proof. exact convex_refuted. Qed.
Print Assumptions C11_convex_refuted.
(** ... but the sample leaves the interval of its neighbours by at most 2^-22 of their magnitude. *)
Theorem C11_interpolation_bound : forall per ops w obs k l' c,
  dl_run (world0 per) ops = Ok (w, obs) -> dl_pop_packed (w_ld w k) = Ok (l', c, true) ->
  Forall (fun m => is_finite (im_ts m) = true) (dl_imu (w_ld w k)) ->
  Forall (fun m => is_finite (fm_ts m) = true) (dl_feat (w_ld w k)) ->
  (forall a b, In a (dl_imu (w_ld w k)) -> In b (dl_imu (w_ld w k)) -> is_finite (f64_sub (im_ts b) (im_ts a)) = true) ->
  exists b, last_opt (cm_imu c) = Some b /\
  (In b (dl_imu (w_ld w k)) \/
   exists pre e nxt post, dl_imu (w_ld w k) = pre ++ e :: nxt :: post /\
     v3_between_upto (/ 4194304) (im_gyro e) (im_gyro nxt) (im_gyro b) /\
     v3_between_upto (/ 4194304) (im_accel e) (im_accel nxt) (im_accel b)).
Proof. exact packed_between. Qed.
Print Assumptions C11_interpolation_bound.
Example C11_example : exists w obs l' c, dl_run (world0 (T := R) p5) pack_ops = Ok (w, obs) /\
  dl_pop_packed (w_ld w 0) = Ok (l', c, true) /\ length (cm_imu c) = 2.
Proof. exact pack_run. Qed.

(** C12: what a loader accepts depends on other loaders and on what happened before its Clear. *)
Theorem C12_isolation_refuted : forall (T : Type) (S : SOps T),
  exists (opsa opsb : list (dl_op T)) k wa oa wb ob,
  filter (on_loader k) opsa = filter (on_loader k) opsb /\
  dl_run (world0 p5) opsa = Ok (wa, oa) /\ dl_run (world0 p5) opsb = Ok (wb, ob) /\
  length (dl_imu (w_ld wa k)) <> length (dl_imu (w_ld wb k)).
Proof. exact @isolation_refuted. Qed.
Print Assumptions C12_isolation_refuted.
Theorem C12_clear_refuted : forall (T : Type) (S : SOps T),
  exists (before after : list (dl_op T)) k wa oa wb ob,
  dl_run (world0 p5) (before ++ ClearL k :: after) = Ok (wa, oa) /\
  dl_run (world0 p5) after = Ok (wb, ob) /\
  length (dl_imu (w_ld wa k)) <> length (dl_imu (w_ld wb k)).
Proof. exact @clear_refuted. Qed.
Print Assumptions C12_clear_refuted.
