(** The sliding window of the back end: UpdateFeatureFrameManager and MarginalizeFeatureFrameManager
    (src/backend/backend.cpp 152-196). *)
From Coq Require Import ZArith List Bool.
From stdpp Require Import gmap.
From Verif Require Import Fp Scalar Base LinAlg Msg FeatureManager FrameManager.
Import ListNotations.
Local Open Scope Z_scope.

(** MargPolicy (typedef.hpp 54-59). *)
Inductive marg_policy := MargOldest | MargNewest | MargSubnew | NoMarg.

(** Backend::featureManager and Backend::frameManager.frames with the feature objects (backend.hpp 24-25). *)
Record window (T : Type) := Window { wn_heap : heap T; wn_mgr : fmgr; wn_frames : list (frame T) }.
Arguments Window {T}. Arguments wn_heap {T}. Arguments wn_mgr {T}. Arguments wn_frames {T}.

Section Window.
Context {T : Type} {S : SOps T}.

(** Freshly constructed managers (backend.hpp 24-25, feature_manager.hpp 55, frame_manager.hpp 74). *)
Definition window0 : window T := Window (Heap 0 ∅) ∅ [].

(** Replacing the last element ([newFrame->...] after [frames.emplace_back(newFrame)], backend.cpp 158-167). *)
Definition set_last {A} (l : list A) (x : A) : list A := removelast l ++ [x].

(** Backend::UpdateFeatureFrameManager (backend.cpp 153-169) for a non-null message. *)
Definition update_window (w : window T) (m : feat_msg T) : out (window T) :=
  let '(fs, _) := add_new_frame (wn_frames w) (new_frame (fm_ts m)) in
  let! nf := back fs in
  let! r := add_new_features (fm_ids m) (fm_obs m) (fr_id nf) (wn_heap w) (wn_mgr w) in
  let '(h, mg, changed, _) := r in
  let! links := add_links h changed (fr_feats nf) in
  Ok (Window h mg (set_last fs (with_feats nf links))).

(** Backend::MarginalizeFeatureFrameManager (backend.cpp 173-196). The arguments of RemoveFrame are
    size_t expressions converted to uint32_t. *)
Definition marginalize (ord : order) (w : window T) (p : marg_policy) : out (window T) :=
  let n := Z.of_nat (length (wn_frames w)) in
  match p with
  | MargNewest =>
      let! b := back (wn_frames w) in
      let! r := remove_by_frame ord (fr_id b) true (wn_heap w) (wn_mgr w) in
      Ok (Window (fst r) (snd r) (fst (remove_frame (wn_frames w) (u32 (n - 1)))))
  | MargOldest =>
      let! a := front (wn_frames w) in
      let! r := remove_by_frame ord (fr_id a) false (wn_heap w) (wn_mgr w) in
      Ok (Window (fst r) (snd r) (fst (remove_frame (wn_frames w) 0)))
  | MargSubnew =>
      let! b := back (wn_frames w) in
      let! r := remove_by_frame ord (u32 (fr_id b - 1)) true (wn_heap w) (wn_mgr w) in
      Ok (Window (fst r) (snd r) (fst (remove_frame (wn_frames w) (u32 (n - 2)))))
  | NoMarg => Ok w
  end.

End Window.
