(** Properties C13-C22 and C67: feature manager, frame manager and the sliding window
    (src/data_manager/vision_data, src/backend/backend.cpp 152-196). *)
From Coq Require Import ZArith List Bool.
From stdpp Require Import gmap list.
From Verif Require Import Fp Scalar Base LinAlg Msg FeatureManager FrameManager Window WindowSpec
  FrameFacts FeatureFacts WindowFacts WindowWitness.
Import ListNotations.
Local Open Scope Z_scope.
#[local] Existing Instance ops_one.

(** C13: frame ids stay consecutive and AddNewFrame always reports true. *)
Theorem C13_frame_ids_consecutive : forall (T : Type) (S : SOps T) (ops : list (fr_op T)),
  Forall fr_op_ok ops -> Z.of_nat (fr_adds ops) < 4294967295 ->
  (exists b, consecutive b (fst (fr_run [] ops))) /\ adds_true ops (snd (fr_run [] ops)).
Proof. exact @frame_ids_consecutive. Qed.
Print Assumptions C13_frame_ids_consecutive.
Example C13_example : Forall fr_op_ok (fr_demo (T := unit)) /\ map fr_id (fst (fr_run [] (fr_demo (T := unit)))) = [2; 3] /\
  snd (fr_run [] (fr_demo (T := unit))) = [true; true; true; true; true; true; false].
Proof. exact fr_demo_ok. Qed.

(** C14: GetFrame and GetMaxFrameID. *)
Theorem C14_get_frame : forall (T : Type) (b : Z) (fs : list (frame T)) (id : Z), consecutive b fs ->
  (forall k, get_frame fs id = Some k <-> exists f, nth_error fs k = Some f /\ fr_id f = id) /\
  (get_frame fs id = None <-> forall f, In f fs -> fr_id f <> id) /\
  max_frame_id fs = match rev fs with [] => 0 | f :: _ => fr_id f end.
Proof. exact @get_frame_exact. Qed.
Print Assumptions C14_get_frame.
Example C14_example : consecutive 5 (fr_two (T := unit)) /\ get_frame (fr_two (T := unit)) 6 = Some 1%nat /\
  get_frame (fr_two (T := unit)) 7 = None /\ max_frame_id (fr_two (T := unit)) = 6.
Proof. exact fr_two_consecutive. Qed.

(** C15: RemoveFrame. *)
Theorem C15_remove_frame : forall (T : Type) (fs : list (frame T)) (k : Z), 0 <= k ->
  (Z.of_nat (length fs) <= k -> remove_frame fs k = (fs, false)) /\
  (k < Z.of_nat (length fs) -> exists pre x post, fs = pre ++ x :: post /\ length pre = Z.to_nat k /\
     remove_frame fs k =
       (pre ++ map (fun f => if 0 <? k then with_id f (u32 (fr_id f - 1)) else f) post, true)).
Proof. exact @remove_frame_exact. Qed.
Print Assumptions C15_remove_frame.
Example C15_example : map fr_id (fst (remove_frame (fst (fr_run [] (firstn 4 (fr_demo (T := unit))))) 1)) = [1; 2; 3].
Proof. exact remove_demo. Qed.

(** C16: AddNewFrame. *)
Theorem C16_add_new_frame : forall (T : Type) (S : SOps T) (fs : list (frame T)) (nf : frame T), exists nf',
  fst (add_new_frame fs nf) = fs ++ [nf'] /\ fr_ts nf' = fr_ts nf /\
  match rev fs with
  | [] => fr_id nf' = 1 /\ fr_feats nf' = ∅ /\ fr_q nf' = qid /\ fr_p nf' = v3zero /\ fr_v nf' = v3zero
  | b :: _ => fr_id nf' = u32 (fr_id b + 1) /\ fr_feats nf' = fr_feats nf /\
              fr_q nf' = fr_q b /\ fr_p nf' = fr_p b /\ fr_v nf' = fr_v b
  end.
Proof. exact @add_new_frame_exact. Qed.
Print Assumptions C16_add_new_frame.
Example C16_example : exists nf, fst (add_new_frame (fr_two (T := unit)) (new_frame (T := unit) (f64_lit 9 0))) =
  fr_two (T := unit) ++ [nf] /\ fr_id nf = 7.
Proof. exact (@add_demo unit ops_one). Qed.

(** C17: observeNum is exact, tracks are never empty, and no call sequence is undefined behaviour. *)
Theorem C17_observe_num : forall (T : Type) (S : SOps T) ord (ops : list (ft_op T)), valid_order ord -> Forall ft_op_ok ops ->
  exists h m, ft_run ord (Heap 0 ∅, ∅) ops = Ok (h, m) /\
    forall id f, managed h m id = Some f ->
      ft_id f = id /\ ft_obs f <> [] /\ ft_num f = u32 (total_obs (ft_obs f)).
Proof. exact @observe_num_exact. Qed.
Print Assumptions C17_observe_num.
Example C17_example : Forall ft_op_ok (ft_demo (T := unit)) /\
  num_tbl (ft_run map_to_list (Heap 0 ∅, ∅) (ft_demo (T := unit))) [7; 8; 9] = [Some (5, 4, 2%nat); None; None].
Proof. exact ft_demo_ok. Qed.

(** C18: RemoveByFrameID with renumbering, any frame. *)
Theorem C18_remove_frame_renumber : forall (T : Type) ord frame (h : heap T) m, valid_order ord -> filed h m ->
  (forall id f, managed h m id = Some f -> good_track f) -> 0 <= frame < 4294967296 ->
  exists h' m', remove_by_frame ord frame true h m = Ok (h', m') /\
    (forall id fr cam, 0 <= fr < 4294967295 ->
       lookup_norm h' m' id fr cam = lookup_norm h m id (if fr <? frame then fr else fr + 1) cam) /\
    (forall id f, managed h m id = Some f ->
       (managed h' m' id = None <-> ft_first f = frame /\ length (ft_obs f) = 1%nat)) /\
    (forall id g, managed h' m' id = Some g ->
       exists f, managed h m id = Some f /\ ft_pw g = ft_pw f /\ ft_status g = ft_status f).
Proof. exact @remove_frame_shift_exact. Qed.
Print Assumptions C18_remove_frame_renumber.
(** RemoveByFrameID without renumbering, oldest frame. *)
Theorem C18_remove_frame_oldest : forall (T : Type) ord frame (h : heap T) m, valid_order ord -> filed h m ->
  (forall id f, managed h m id = Some f -> good_track f) -> 0 <= frame < 4294967296 ->
  (forall id f, managed h m id = Some f -> frame <= ft_first f) ->
  exists h' m', remove_by_frame ord frame false h m = Ok (h', m') /\
    (forall id fr cam, 0 <= fr < 4294967296 ->
       lookup_norm h' m' id fr cam = if fr =? frame then None else lookup_norm h m id fr cam) /\
    (forall id f, managed h m id = Some f ->
       (managed h' m' id = None <-> ft_first f = frame /\ length (ft_obs f) = 1%nat)) /\
    (forall id g, managed h' m' id = Some g ->
       exists f, managed h m id = Some f /\ ft_pw g = ft_pw f /\ ft_status g = ft_status f).
Proof. exact @remove_frame_head_exact. Qed.
Print Assumptions C18_remove_frame_oldest.
Example C18_example : 
  filed (h_one (T := unit)) m_one /\ (forall id f, managed (h_one (T := unit)) m_one id = Some f -> good_track f) /\
  (forall id f, managed (h_one (T := unit)) m_one id = Some f -> 5 <= ft_first f) /\ managed (h_one (T := unit)) m_one 7 = Some ft_one /\
  get_norm (ft_one (T := unit)) 6 0 <> None /\ get_norm (ft_one (T := unit)) 6 1 = None /\ get_norm (ft_one (T := unit)) 4 0 = None.
Proof. exact one_ok. Qed.

(** C19: GetNorm. *)
Theorem C19_get_norm : forall (T : Type) (f : feature T) frame cam x, good_track f -> 0 <= frame < 4294967296 ->
  get_norm f frame cam = Some x <->
  exists i o, frame = ft_first f + Z.of_nat i /\ nth_error (ft_obs f) i = Some o /\ o !! cam = Some x.
Proof. exact @get_norm_iff. Qed.
Print Assumptions C19_get_norm.
Example C19_example : good_track (ft_one (T := unit)).
Proof. exact ft_one_good. Qed.

(** C20: for tracks without gaps the window stores exactly what the front end reported... *)
Theorem C20_window_stores_messages : forall (T : Type) (S : SOps T) ord (ops : list (w_op T)), valid_order ord -> good_history ops ->
  exists w, w_run ord window0 ops = Ok w /\ length (wn_frames w) = length (a_run [] ops) /\
    forall i fr m, nth_error (wn_frames w) i = Some fr -> nth_error (a_run [] ops) i = Some m ->
      fr_ts fr = fm_ts m /\
      forall id cam, lookup_norm (wn_heap w) (wn_mgr w) id (fr_id fr) cam =
        match reported m id with Some o => o !! cam | None => None end.
Proof. exact @window_stores_messages. Qed.
Print Assumptions C20_window_stores_messages.
(** ... and with a gap an observation is attributed to the wrong frame. *)
Theorem C20_gap_refuted : forall (T : Type) (S : SOps T), exists (ops : list (w_op T)) w i fr m id cam,
  Forall good_msg (msgs ops) /\ margs_ok [] ops /\ w_run map_to_list window0 ops = Ok w /\
  nth_error (wn_frames w) i = Some fr /\ nth_error (a_run [] ops) i = Some m /\
  reported m id = None /\ lookup_norm (wn_heap w) (wn_mgr w) id (fr_id fr) cam <> None.
Proof. exact @gap_refuted. Qed.
Print Assumptions C20_gap_refuted.
Example C20_example : good_history (demo_hist (T := unit)) /\
  a_run [] (demo_hist (T := unit)) = [wmsg [3; 2] (ob0 (T := unit)) 3].
Proof. exact (conj demo_good demo_left). Qed.

(** C21: a frame links a feature exactly when the manager holds it with a track covering the frame. *)
Theorem C21_links_agree : forall (T : Type) (S : SOps T) ord (ops : list (w_op T)), valid_order ord -> good_history ops ->
  exists w, w_run ord window0 ops = Ok w /\
    forall i fr id p, nth_error (wn_frames w) i = Some fr ->
      fr_feats fr !! id = Some p <->
      wn_mgr w !! id = Some p /\ exists f, hp_cells (wn_heap w) !! p = Some f /\ ft_id f = id /\
        ft_first f <= fr_id fr < ft_first f + Z.of_nat (length (ft_obs f)).
Proof. exact @links_agree. Qed.
Print Assumptions C21_links_agree.
Example C21_example : good_history (demo_hist (T := unit)).
Proof. exact demo_good. Qed.

(** C22: the keyframe rule. *)
Theorem C22_keyframe_rule : forall (T : Type) (S : SOps T) ord (h : heap T) fs minTracked maxTrans, valid_order ord ->
  is_keyframe ord h fs minTracked maxTrans None = Ok false /\
  (forall f, nth_error fs 0 = Some f -> is_keyframe ord h fs minTracked maxTrans (Some 0%nat) = Ok true) /\
  (forall i, (length fs <= i)%nat -> is_keyframe ord h fs minTracked maxTrans (Some i) = Ub UbNull) /\
  (forall i fr pre, nth_error fs i = Some pre -> nth_error fs (Datatypes.S i) = Some fr ->
     live_links h fr -> live_links h pre -> Z.of_nat (size (fr_feats fr)) < 4294967296 ->
     is_keyframe ord h fs minTracked maxTrans (Some (Datatypes.S i)) =
     Ok ((Z.of_nat (length (List.filter (tracked_both h fr pre) (map_to_list (fr_feats fr)))) <? minTracked)
         || sltb maxTrans (v3norm (v3sub (fr_p fr) (fr_p pre))))).
Proof. exact @keyframe_cases. Qed.
Print Assumptions C22_keyframe_rule.
(** The links of every window reached by a good history are live. *)
Theorem C22_links_live : forall (T : Type) (S : SOps T) ord (ops : list (w_op T)) w fr, valid_order ord -> good_history ops ->
  w_run ord window0 ops = Ok w -> In fr (wn_frames w) -> live_links (wn_heap w) fr.
Proof. exact @history_live. Qed.
Print Assumptions C22_links_live.
Example C22_example : good_history (firstn 3 (demo_hist (T := unit))) /\
  match key_win (T := unit) with
  | Ok w => match wn_frames w with
            | [f1; f2; f3] => length (List.filter (tracked_both (wn_heap w) f3 f2) (map_to_list (fr_feats f3))) = 2%nat
            | _ => False end
  | Ub _ => False end.
Proof. exact key_demo_good. Qed.

(** C67: MARG_SUBNEW on a window of two frames loses the remaining frame's observations. *)
Theorem C67_subnew_two_frames_refuted : forall (T : Type) (S : SOps T), exists (ops : list (w_op T)) w i fr m id cam,
  Forall good_msg (msgs ops) /\ contiguous (msgs ops) /\ w_run map_to_list window0 (ops ++ [WMarg MargSubnew]) = Ok w /\
  length (a_run [] ops) = 2%nat /\
  nth_error (wn_frames w) i = Some fr /\ nth_error (a_run [] (ops ++ [WMarg MargSubnew])) i = Some m /\
  match reported m id with Some o => o !! cam <> None | None => False end /\
  lookup_norm (wn_heap w) (wn_mgr w) id (fr_id fr) cam = None.
Proof. exact @subnew_two_refuted. Qed.
Print Assumptions C67_subnew_two_frames_refuted.
