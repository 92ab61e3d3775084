(** Properties C40, C43-C50, C65 and C71: the vision update. *)
From Coq Require Import ZArith Reals Bool List.
From Coquelicot Require Import Coquelicot.
From stdpp Require Import gmap.
From Verif Require Import Fp Scalar Base LinAlg Msg FeatureManager FrameManager Window WindowSpec MathLib Propagator Triangulate Pnp
  VisionUpdate QueueSpec MatFacts QuatFacts NumSpec MotionFacts UpdSpec UpdCovFacts KalmanFacts MeasFacts SelectFacts UnitFacts DerivSpec DerivFacts
  InjectSpec InjectFacts NumWitness WindowWitness UpdWitness.
Import ListNotations.
Local Open Scope nat_scope.

(** C40: propagation, repropagation and the vision update keep every attitude a unit quaternion. *)
Theorem C40_propagation : forall grav n l (q : pqueue R), unit_queue q -> unit_queue (pq_feed grav n q l).
Proof. exact feed_unit. Qed.
Print Assumptions C40_propagation.
Theorem C40_repropagation : forall grav (q : pqueue R), qunit (mo_q (pq_init q)) ->
  (forall h r, pq_items q = h :: r -> qunit (mo_q (pi_mo h))) -> unit_queue (pq_repropagate grav q).
Proof. exact repropagate_unit. Qed.
Print Assumptions C40_repropagation.
Example C40_propagation_example : unit_queue u_pq /\ qunit (mo_q (pi_mo u_item)).
Proof. exact u_queue. Qed.
(** The correction alone, for any correction vector ... *)
Theorem C40_correction : forall dx s s', apply_delta dx s = Ok s' -> all_unit s -> all_unit s'.
Proof. exact apply_delta_unit. Qed.
Print Assumptions C40_correction.
Example C40_correction_example : all_unit u_s /\
  exists s', apply_delta u_dx u_s = Ok s' /\ length (wn_frames (vs_win s')) = 2 /\ vs_ext s' <> vs_ext u_s.
Proof. exact (conj u_unit u_apply). Qed.
(** ... and the whole update, for any solver, order and policy, successful or not. *)
Theorem C40_update : forall o c s ts thr s' b pol, vision_update o c s ts thr = Ok (s', b, pol) -> all_unit s -> all_unit s'.
Proof. exact vision_update_unit. Qed.
Print Assumptions C40_update.
Example C40_update_example : all_unit u_s /\
  exists s', vision_update n_o u_c u_s (f64_lit 1 0) (f64_lit 1 (-6)) = Ok (s', true, NoMarg).
Proof. exact (conj u_unit u_update). Qed.

(** C43: augmentation clones the rows and columns of the IMU pose ... *)
Theorem C43_clones : forall junk ne nf (P : mat R), 1 <= nf -> mr P = err_size ne (nf - 1) -> mc P = err_size ne (nf - 1) ->
  fsym (err_size ne (nf - 1)) (me P) ->
  exists P', expand_cov junk ne nf P = Ok P' /\ mr P' = err_size ne nf /\ mc P' = err_size ne nf /\
    (forall i j, i < err_size ne nf -> j < err_size ne nf ->
       me P' i j = me P (clone_of (err_size ne (nf - 1)) i) (clone_of (err_size ne (nf - 1)) j)) /\
    fsym (err_size ne nf) (me P') /\ (fpsd (err_size ne (nf - 1)) (me P) -> fpsd (err_size ne nf) (me P')).
Proof. exact expand_clones. Qed.
Print Assumptions C43_clones.
Example C43_example : (mr (eye (err_size 2 1)) = err_size 2 1 /\ mc (eye (err_size 2 1)) = err_size 2 1 /\
    fsym (err_size 2 1) (me (eye (err_size 2 1))) /\ fpsd (err_size 2 1) (me (eye (err_size 2 1)))) /\
  forall junk, exists P', expand_cov junk 2 2 (eye (err_size 2 1)) = Ok P' /\
    me P' 33 0 = 1%R /\ me P' 33 33 = 1%R /\ me P' 36 6 = 1%R /\ me P' 33 6 = 0%R /\ me P' 0 33 = 1%R.
Proof. exact (conj (eye_cov 2 1) eye_clone). Qed.
(** ... and nothing uninitialised survives, nothing old changes (any scalars, no symmetry). *)
Theorem C43_no_junk : forall (T : Type) (S : SOps T) junk junk' ne nf (P : mat T), 1 <= nf ->
  mr P = err_size ne (nf - 1) -> mc P = err_size ne (nf - 1) ->
  exists P1 P2, expand_cov junk ne nf P = Ok P1 /\ expand_cov junk' ne nf P = Ok P2 /\
    mr P1 = err_size ne nf /\ mc P1 = err_size ne nf /\ mr P2 = err_size ne nf /\ mc P2 = err_size ne nf /\
    (forall i j, i < err_size ne nf -> j < err_size ne nf -> me P1 i j = me P2 i j) /\
    (forall i j, i < err_size ne (nf - 1) -> j < err_size ne (nf - 1) -> me P1 i j = me P i j).
Proof. exact expand_no_junk. Qed.
Print Assumptions C43_no_junk.

(** C44: marginalization keeps the principal submatrix of the frames kept ... *)
Theorem C44_submatrix : forall junk p ne nf (P : mat R), 2 <= nf -> mr P = err_size ne nf -> mc P = err_size ne nf ->
  fsym (err_size ne nf) (me P) ->
  exists P', reduce_cov junk p ne nf P = Ok P' /\
    mr P' = err_size ne (length (kept p nf)) /\ mc P' = err_size ne (length (kept p nf)) /\
    (forall i j, i < err_size ne (length (kept p nf)) -> j < err_size ne (length (kept p nf)) ->
       me P' i j = me P (keep_of (15 + 6 * ne) (kept p nf) i) (keep_of (15 + 6 * ne) (kept p nf) j)) /\
    fsym (err_size ne (length (kept p nf))) (me P') /\
    (fpsd (err_size ne nf) (me P) -> fpsd (err_size ne (length (kept p nf))) (me P')).
Proof. exact reduce_keeps. Qed.
Print Assumptions C44_submatrix.
Example C44_example : (fsym (err_size 1 3) (me (count_cov (err_size 1 3))) /\ fpsd (err_size 1 3) (me (count_cov (err_size 1 3)))) /\
  forall junk, exists P', reduce_cov junk MargOldest 1 3 (count_cov (err_size 1 3)) = Ok P' /\
  mr P' = err_size 1 2 /\ me P' 20 20 = INR 20 /\ me P' 21 21 = INR 27 /\ me P' 32 32 = INR 38.
Proof. exact (conj (count_cov_psd (err_size 1 3)) count_reduce). Qed.
(** ... which are the frames the frame manager keeps under the same policy. *)
Theorem C44_same_frames : forall (T : Type) (S : SOps T) ord (w w' : window T) p, 2 <= length (wn_frames w) ->
  (Z.of_nat (length (wn_frames w)) < 4294967296)%Z -> marginalize ord w p = Ok w' ->
  length (wn_frames w') = length (kept p (length (wn_frames w))) /\
  forall k, k < length (kept p (length (wn_frames w))) -> exists f f',
    nth_error (wn_frames w) (nth k (kept p (length (wn_frames w))) 0) = Some f /\ nth_error (wn_frames w') k = Some f' /\
    fr_q f' = fr_q f /\ fr_p f' = fr_p f /\ fr_v f' = fr_v f /\ fr_ts f' = fr_ts f /\ fr_feats f' = fr_feats f.
Proof. exact marginalize_frames. Qed.
Print Assumptions C44_same_frames.
Example C44_same_frames_example : exists w', marginalize map_to_list m_win MargSubnew = Ok w' /\ length (wn_frames w') = 2.
Proof. exact m_hyp. Qed.

(** C45: the update contracts the covariance, and is the optimal linear one when the noise exceeds 1e-10. *)
Theorem C45_contracts : forall saes noise n (P Hr : mat R), mr P = n -> mc P = n -> mc Hr = (n + 1)%nat -> fpsd n (me P) ->
  solver_exact saes noise P (get_block Hr 0 0 (mr Hr) n) ->
  let m := mr Hr in let h := me Hr in let s := (noise * noise)%R in
  exists K dx P', kalman saes noise P Hr = Ok (K, dx, P') /\
    mr K = n /\ mc K = m /\ mr dx = n /\ mc dx = 1%nat /\ mr P' = n /\ mc P' = n /\
    feq n n (me P') (joseph n m (me P) h (me K) s) /\
    fpsd n (me P') /\ fpsd n (fsub (me P) (me P')) /\
    (forall i, (i < n)%nat -> me dx i 0%nat = mvec m (me K) (fun k => me Hr k n) i) /\
    ((forall k, (k < m)%nat -> me Hr k n = 0%R) -> forall i, (i < n)%nat -> me dx i 0%nat = 0%R) /\
    ((zero_thr < s)%R -> feq n m (fmul m (me K) (innov_cov n (me P) h s)) (fmul n (me P) (ftr h)) /\
       forall l, fpsd n (fsub (joseph n m (me P) h l s) (me P'))).
Proof. exact kalman_contracts. Qed.
Print Assumptions C45_contracts.
Example C45_example : mr k_P = 2 /\ mc k_P = 2 /\ mc k_Hr = 2 + 1 /\ fpsd 2 (me k_P) /\
  solver_exact k_saes 1%R k_P (get_block k_Hr 0 0 1 2) /\ (zero_thr < 1 * 1)%R.
Proof. exact k_hyp. Qed.

(** C46: compression does not change the update. *)
Theorem C46_same_update : forall (o : voracle R) noise n (P Hr Hc : mat R),
  mr P = n -> mc P = n -> mc Hr = (n + 1)%nat ->
  qr_of (mr Hr) n (me Hr) (vo_qr o (get_block Hr 0 0 (mr Hr) n)) ->
  compress o Hr = Ok Hc ->
  solver_exact (vo_saes o) noise P (get_block Hr 0 0 (mr Hr) n) ->
  solver_exact (vo_saes o) noise P (get_block Hc 0 0 (mr Hc) n) ->
  (mr Hc <= n + 1)%nat /\ mc Hc = (n + 1)%nat /\
  exists K dx P' K1 dx1 P1,
    kalman (vo_saes o) noise P Hr = Ok (K, dx, P') /\ kalman (vo_saes o) noise P Hc = Ok (K1, dx1, P1) /\
    mr dx1 = mr dx /\ mr P1 = mr P' /\ mc P1 = mc P' /\
    feq n 1 (me dx1) (me dx) /\ feq n n (me P1) (me P').
Proof. exact compress_same_update. Qed.
Print Assumptions C46_same_update.
Example C46_example : mr (eye 1) = 1 /\ mc (eye 1) = 1 /\ mc c_Hr = 1 + 1 /\
  qr_of (mr c_Hr) 1 (me c_Hr) (vo_qr c_o (get_block c_Hr 0 0 (mr c_Hr) 1)) /\
  solver_exact (vo_saes c_o) 1%R (eye 1) (get_block c_Hr 0 0 (mr c_Hr) 1) /\
  exists Hc, compress c_o c_Hr = Ok Hc /\ mr Hc = 1 /\ me Hc 0 0 = 5%R /\ solver_exact (vo_saes c_o) 1%R (eye 1) (get_block Hc 0 0 (mr Hc) 1).
Proof. exact c_hyp. Qed.

(** C47: the projected measurement does not depend on the error of the feature position. *)
Theorem C47_nullspace : forall (o : voracle R) exts fs cols (f : feature R) H row,
  write_track (vo_nord o) exts fs (ft_first f) (ft_pw f) 0 (ft_obs f) 0 (mzero (rows_of f) (cols + 4)) = Ok (Some (H, row)) ->
  mr H = rows_of f -> mc H = (cols + 4)%nat -> (3 <= rows_of f)%nat ->
  qr_of (mr H) 3 (me H) (vo_qr o (get_block H 0 0 (mr H) 3)) ->
  let m := rows_of f in
  exists R', meas_feature o exts fs cols f = Ok (Some R') /\ mr R' = (m - 3)%nat /\ mc R' = (cols + 1)%nat /\
    (exists w : fmat, feq (m - 3) (m - 3) (fmul m w (ftr w)) fid /\ feq (m - 3) 3 (fmul m w (me H)) fzero /\
       feq (m - 3) (cols + 1) (me R') (fun i j => fmul m w (me H) i (j + 3)%nat)) /\
    (forall (dp dx : nat -> R),
       (forall i, (i < m)%nat -> me H i (cols + 3)%nat = (mvec 3 (me H) dp i + rsum cols (fun j => me H i (j + 3)%nat * dx j))%R) ->
       forall i, (i < m - 3)%nat -> me R' i cols = mvec cols (me R') dx i).
Proof. exact nullspace_projection. Qed.
Print Assumptions C47_nullspace.
Example C47_example : exists H, write_track (vo_nord n_o) [n_e] [n_f0; n_f1] (ft_first n_f) (ft_pw n_f) 0 (ft_obs n_f) 0
    (mzero (rows_of n_f) (hx_cols 1 2 + 4)) = Ok (Some (H, rows_of n_f)) /\
  mr H = rows_of n_f /\ mc H = hx_cols 1 2 + 4 /\ 3 <= rows_of n_f /\
  qr_of (mr H) 3 (me H) (vo_qr n_o (get_block H 0 0 (mr H) 3)) /\ me H 2 2 = (- 16)%R.
Proof. exact n_hyp. Qed.

(** C48: the Jacobians are derivatives along every perturbation, in the error coordinates of the state
    update ([q_correct] for attitudes, addition for vectors). *)
Theorem C48_measurement : forall (e : extrinsic R) (f : frame R) pw th dp the dpe dw,
  qunit (fr_q f) -> qunit (ex_q e) -> v3z (cam_point (fr_q f) (fr_p f) (ex_q e) (ex_p e) pw) <> 0%R ->
  let pred t := cam_point (q_correct (fr_q f) (v3scale th t)) (v3add (fr_p f) (v3scale dp t))
      (q_correct (ex_q e) (v3scale the t)) (v3add (ex_p e) (v3scale dpe t)) (v3add pw (v3scale dw t)) in
  let jac i := (row3 (jac_pw e f pw) i 0 dw + row3 (jac_pwb e f pw) i 0 dp + row3 (jac_Rwb e f pw) i 0 th +
    row3 (jac_pbc e f pw) i 0 dpe + row3 (jac_Rbc e f pw) i 0 the)%R in
  is_derive (fun t => v3x (pred t) / v3z (pred t))%R 0%R (jac 0%nat) /\ is_derive (fun t => v3y (pred t) / v3z (pred t))%R 0%R (jac 1%nat).
Proof. exact measurement_jacobian. Qed.
Print Assumptions C48_measurement.
Example C48_example : qunit (fr_q j_f) /\ qunit (ex_q j_e) /\
  cam_point (fr_q j_f) (fr_p j_f) (ex_q j_e) (ex_p j_e) j_pw = (V3 1 (-1) 2)%R /\ me (jac_Rwb j_e j_f j_pw) 0 1 <> 0%R.
Proof. exact j_hyp. Qed.
Theorem C48_pnp : forall q p pt th dp, qunit q -> v3z (qrot (qconj q) (v3sub pt p)) <> 0%R ->
  let pred t := qrot (qconj (q_correct q (v3scale th t))) (v3sub pt (v3add p (v3scale dp t))) in
  let jac i := (row3 (pnp_jac q p pt) i 0 dp + row3 (pnp_jac q p pt) i 3 th)%R in
  is_derive (fun t => v3x (pred t) / v3z (pred t))%R 0%R (jac 0%nat) /\ is_derive (fun t => v3y (pred t) / v3z (pred t))%R 0%R (jac 1%nat).
Proof. exact pnp_jacobian. Qed.
Print Assumptions C48_pnp.
Example C48_pnp_example : qunit j_q /\ v3z (qrot (qconj j_q) (v3sub j_pw (V3 1 0 0)%R)) = 2%R.
Proof. exact j_pnp. Qed.
Theorem C48_triangulation : forall q t x z d j0 j1 r w, tri_jacobian q t x z = (j0, j1, r, w) ->
  let h (x : v3 R) := v3add (qrot q (V3 (v3x x) (v3y x) 1%R)) (v3scale t (v3z x)) in
  v3z (h x) <> 0%R ->
  let line s := h (v3add x (v3scale d s)) in
  is_derive (fun s => v3x (line s) / v3z (line s))%R 0%R (v3dot j0 d) /\ is_derive (fun s => v3y (line s) / v3z (line s))%R 0%R (v3dot j1 d) /\
  r = V2 (v3x (h x) / v3z (h x) - v2x z)%R (v3y (h x) / v3z (h x) - v2y z)%R.
Proof. exact tri_jacobian_derivative. Qed.
Print Assumptions C48_triangulation.
Example C48_triangulation_example : v3z (v3add (qrot j_q (V3 1 1 1)%R) (v3scale (V3 0 0 5)%R 1%R)) = 4%R.
Proof. exact j_tri. Qed.

(** C49: every entry of the stacked measurement of a feature, for any scalars and iteration order ... *)
Theorem C49_layout : forall (T : Type) (SO : SOps T) (o : voracle T) b exts (fs : list (frame T)) (f : feature T) k,
  valid_norder (vo_nord o) -> (1 <= b)%Z -> consecutive b fs -> (b + Z.of_nat (length fs) < 4294967296)%Z ->
  ft_first f = (b + Z.of_nat k)%Z -> k + length (ft_obs f) <= length fs -> 1 <= length fs ->
  ft_num f = total_obs (ft_obs f) -> (2 * ft_num f < 4294967296)%Z ->
  Forall (fun o : observe T => forall c z, o !! c = Some z -> (0 <= c < Z.of_nat (length exts))%Z) (ft_obs f) ->
  let ne := length exts in let nf := length fs in
  let ms := track_meas (vo_nord o) k (ft_obs f) in
  Z.of_nat (rows_of f) = (2 * ft_num f)%Z /\ rows_of f = 2 * length ms /\
  exists H, write_track (vo_nord o) exts fs (ft_first f) (ft_pw f) 0 (ft_obs f) 0 (mzero (rows_of f) (hx_cols ne nf + 4)) =
      Ok (Some (H, rows_of f)) /\
    mr H = rows_of f /\ mc H = col_res ne nf + 1 /\
    forall i j, i < rows_of f -> j < col_res ne nf + 1 ->
      exists m, nth_error ms (i / 2) = Some m /\ me H i j = meas_entry ne nf exts fs (ft_pw f) m (i mod 2) j.
Proof. exact @measurement_layout. Qed.
Print Assumptions C49_layout.
Example C49_example : valid_norder (vo_nord l_o) /\ consecutive 4 l_fs /\ ft_first l_f = (4 + Z.of_nat 1)%Z /\
  1 + length (ft_obs l_f) <= length l_fs /\ ft_num l_f = total_obs (ft_obs l_f) /\
  Forall (fun o : observe unit => forall c z, o !! c = Some z -> (0 <= c < Z.of_nat (length l_exts))%Z) (ft_obs l_f).
Proof. exact l_hyp. Qed.
(** ... the blocks of one measurement are disjoint and inside, and different states use different columns. *)
Theorem C49_disjoint : forall ne nf k cam, k < nf -> cam < ne ->
  let blocks := [0; col_pos ne nf k; col_att ne nf k; col_ext cam; col_ext cam + 3] in
  (forall a b x y, nth_error blocks a = Some x -> nth_error blocks b = Some y -> a < b -> x + 3 <= y \/ y + 3 <= x) /\
  Forall (fun x => x + 3 <= col_res ne nf) blocks.
Proof. exact columns_disjoint. Qed.
Print Assumptions C49_disjoint.
Theorem C49_own_columns : forall ne nf, (forall k1 k2, k1 < nf -> k2 < nf -> k1 <> k2 ->
    (forall j, in3 (col_pos ne nf k1) j = true -> in3 (col_pos ne nf k2) j = false /\ in3 (col_att ne nf k2) j = false) /\
    (forall j, in3 (col_att ne nf k1) j = true -> in3 (col_pos ne nf k2) j = false /\ in3 (col_att ne nf k2) j = false)) /\
  (forall c1 c2, c1 <> c2 -> forall j,
     (in3 (col_ext c1) j || in3 (col_ext c1 + 3) j) = true -> (in3 (col_ext c2) j || in3 (col_ext c2 + 3) j) = false).
Proof. exact columns_injective. Qed.
Print Assumptions C49_own_columns.

(** C50: what is selected, for any scalars, solver, random numbers and iteration order. *)
Theorem C50_selection : forall (T : Type) (SO : SOps T) (o : voracle T) c exts (fs : list (frame T)) h nf h' l,
  valid_order (vo_ord o) -> back fs = Ok nf ->
  (forall i j p, fr_feats nf !! i = Some p -> fr_feats nf !! j = Some p -> i = j) ->
  select_good o c exts fs h = Ok (h', l) ->
  let linked p := exists id, fr_feats nf !! id = Some p in
  List.NoDup l /\ length l <= Z.to_nat (vc_maxfeat c) /\
  (forall p, In p l -> linked p /\ solved h' p) /\
  hp_next h' = hp_next h /\ (forall p, ~ linked p -> hp_cells h' !! p = hp_cells h !! p) /\
  (forall p, linked p -> exists f g, hp_cells h !! p = Some f /\ hp_cells h' !! p = Some g /\ same_track f g) /\
  ((forall i j, i < j < size (fr_feats nf) -> (f32_ltb (f32_of_Z (vo_rand o i)) (f32_of_Z (vo_rand o j)) ||
     f32_ltb (f32_of_Z (vo_rand o j)) (f32_of_Z (vo_rand o i))) = true) ->
   size (fr_feats nf) <= Z.to_nat (vc_maxfeat c) -> forall p, linked p -> solved h' p -> In p l).
Proof. exact @selection_exact. Qed.
Print Assumptions C50_selection.
Example C50_example : valid_order (vo_ord l_o) /\ back g_fs = Ok (g_frame 5 g_links) /\
  (forall i j p, fr_feats (g_frame 5 g_links) !! i = Some p -> fr_feats (g_frame 5 g_links) !! j = Some p -> i = j) /\
  exists h', select_good (S := g_ops) l_o g_c l_exts g_fs g_heap = Ok (h', [2; 0]).
Proof. exact g_hyp. Qed.

(** C65: the inverse by eigen-decomposition is the pseudo-inverse above the threshold. *)
Theorem C65_pseudo_inverse : forall (saes : mat R -> eigen_dec R) (a : mat R),
  mr (ed_vec (saes a)) = mr a -> mc (ed_vec (saes a)) = mr a ->
  eigen_of (mr a) (me a) (me (ed_vec (saes a))) (ed_val (saes a)) ->
  let n := mr a in let b := sym_inverse saes a in
  mr b = n /\ mc b = n /\ fpsd n (me b) /\
  feq n n (fmul n (fmul n (me b) (me a)) (me b)) (me b) /\
  feq n n (fmul n (me a) (me b)) (fmul n (me b) (me a)) /\
  (forall i, (i < n)%nat -> forall r, (r < n)%nat ->
     mvec n (me b) (fun k => me (ed_vec (saes a)) k i) r =
     (if Rlt_dec zero_thr (ed_val (saes a) i) then (me (ed_vec (saes a)) r i / ed_val (saes a) i)%R else 0%R)) /\
  ((forall i, (i < n)%nat -> (zero_thr < ed_val (saes a) i)%R) ->
     feq n n (fmul n (me b) (me a)) fid /\ feq n n (fmul n (me a) (me b)) fid).
Proof. exact inverse_pseudo. Qed.
Print Assumptions C65_pseudo_inverse.
Example C65_example : forall x, mr (ed_vec (i_saes x (i_mat x))) = mr (i_mat x) /\ mc (ed_vec (i_saes x (i_mat x))) = mr (i_mat x) /\
  eigen_of (mr (i_mat x)) (me (i_mat x)) (me (ed_vec (i_saes x (i_mat x)))) (ed_val (i_saes x (i_mat x))).
Proof. exact i_hyp. Qed.

(** C71: every state is corrected by its own part of the error vector, the one its Jacobian was written to (C49), for
    any scalars ... *)
Theorem C71_injection : forall (T : Type) (SO : SOps T) (dx : mat T) (s s' : vstate T),
  apply_delta dx s = Ok s' -> newest_alone (wn_frames (vs_win s)) -> corrected dx s s'.
Proof. exact @apply_delta_corrected. Qed.
Print Assumptions C71_injection.
Example C71_injection_example : newest_alone (wn_frames (vs_win u_s)) /\
  exists s', apply_delta u_dx u_s = Ok s' /\ length (wn_frames (vs_win s')) = 2 /\ vs_ext s' <> vs_ext u_s.
Proof. exact (conj u_alone u_apply). Qed.
(** ... and after a successful update the newest frame is the first queued state. *)
Theorem C71_newest : forall (T : Type) (SO : SOps T) (o : voracle T) c s ts thr s' pol,
  vision_update o c s ts thr = Ok (s', true, pol) -> newest_alone (wn_frames (vs_win s)) -> newest_is_head s'.
Proof. exact @vision_update_head. Qed.
Print Assumptions C71_newest.
Example C71_newest_example : newest_alone (wn_frames (vs_win u_s)) /\
  exists s', vision_update n_o u_c u_s (f64_lit 1 0) (f64_lit 1 (-6)) = Ok (s', true, NoMarg).
Proof. exact (conj u_alone u_update). Qed.
