(** Features and the feature manager: include/data_manager/vision_data/feature_manager.hpp and
    src/data_manager/vision_data/feature_manager.cpp. *)
From Coq Require Import ZArith List Bool.
From stdpp Require Import gmap.
From Verif Require Import Fp Scalar Base LinAlg Msg.
Import ListNotations.
Local Open Scope Z_scope.

(** Feature::Status (feature_manager.hpp 21-25). *)
Inductive fstatus := FUnsolved | FSolved | FError.

(** Feature (feature_manager.hpp 8-25). *)
Record feature (T : Type) := Feature {
  ft_id : Z;
  ft_first : Z;
  ft_obs : list (observe T);
  ft_num : Z;
  ft_pw : v3 T;
  ft_status : fstatus }.
Arguments Feature {T}. Arguments ft_id {T}. Arguments ft_first {T}. Arguments ft_obs {T}.
Arguments ft_num {T}. Arguments ft_pw {T}. Arguments ft_status {T}.

(** Feature objects are shared between the manager and the frames (std::shared_ptr<Feature>,
    feature_manager.hpp 52, frame_manager.hpp 13): a heap of cells addressed by pointers. Cells are never
    reclaimed (a cell that no pointer reaches any more is unobservable). *)
Record heap (T : Type) := Heap { hp_next : nat; hp_cells : gmap nat (feature T) }.
Arguments Heap {T}. Arguments hp_next {T}. Arguments hp_cells {T}.

(** FeatureManager::features (feature_manager.hpp 52). *)
Notation fmgr := (gmap Z nat) (only parsing).

(** Iteration order of a [std::unordered_map<uint32_t, std::shared_ptr<Feature>>]: unspecified, an oracle
    (for instance feature_manager.cpp 89, 112; frame_manager.cpp 43, 179). *)
Definition order := gmap Z nat -> list (Z * nat).

Section Features.
Context {T : Type} {S : SOps T}.

(** [std::make_shared]-like allocation of a feature (feature_manager.cpp 68). *)
Definition halloc (h : heap T) (f : feature T) : heap T * nat :=
  (Heap (Datatypes.S (hp_next h)) (<[hp_next h := f]> (hp_cells h)), hp_next h).
(** Access through a pointer, e.g. [feature->observes] (feature_manager.cpp 91). *)
Definition hget (h : heap T) (p : nat) : out (feature T) := deref (hp_cells h !! p).
(** Modification through a pointer, e.g. [--feature->firstFrameID] (feature_manager.cpp 106). *)
Definition hset (h : heap T) (p : nat) (f : feature T) : heap T := Heap (hp_next h) (<[p := f]> (hp_cells h)).

(** [norms.size()] (feature_manager.cpp 9). *)
Definition osize (o : observe T) : Z := Z.of_nat (size o).

(** Feature constructor (feature_manager.hpp 29-34) on a one-element observation list
    (feature_manager.cpp 66-68). *)
Definition new_feature (id frame : Z) (o : observe T) : feature T :=
  Feature id frame [o] (u32 (osize o)) v3zero FUnsolved.

(** Feature::AddNewObserve (feature_manager.cpp 8-14). *)
Definition add_observe (f : feature T) (o : observe T) : feature T :=
  if osize o =? 0 then f
  else Feature (ft_id f) (ft_first f) (ft_obs f ++ [o]) (u32 (ft_num f + osize o)) (ft_pw f) (ft_status f).

(** Feature::GetNorm (feature_manager.cpp 18-26); [None] is the result false. *)
Definition get_norm (f : feature T) (frame cam : Z) : option (v2 T) :=
  let idx := u32 (frame - ft_first f) in
  if idx <? Z.of_nat (length (ft_obs f)) then
    match nth_error (ft_obs f) (Z.to_nat idx) with Some o => observe_get o cam | None => None end
  else None.

(** Feature::FinalFrameID (feature_manager.cpp 30-32). *)
Definition final_frame (f : feature T) : Z := u32 (ft_first f + Z.of_nat (length (ft_obs f)) - 1).

(** FeatureManager::AddNewFeatures, loop body and loop (feature_manager.cpp 58-72); returns the heap, the
    map and changedFeatures. *)
Fixpoint add_features_loop (l : list (Z * observe T)) (frame : Z) (h : heap T) (m : fmgr) (acc : list nat)
  : out (heap T * fmgr * list nat) :=
  match l with
  | [] => Ok (h, m, acc)
  | (id, o) :: r =>
      match m !! id with
      | Some p =>
          let! f := hget h p in
          add_features_loop r frame (hset h p (add_observe f o)) m (acc ++ [p])
      | None =>
          let '(h', p) := halloc h (new_feature id frame o) in
          add_features_loop r frame h' (<[id := p]> m) (acc ++ [p])
      end
  end.

(** FeatureManager::AddNewFeatures (feature_manager.cpp 49-74). *)
Definition add_new_features (ids : list Z) (obs : list (observe T)) (frame : Z) (h : heap T) (m : fmgr)
  : out (heap T * fmgr * list nat * bool) :=
  if negb (Nat.eqb (length ids) (length obs)) then Ok (h, m, [], false)
  else
    let! r := add_features_loop (combine ids obs) frame h m [] in
    Ok (r, true).

(** Erasing element [i] of a vector by shifting and [resize(size - 1)] (feature_manager.cpp 100-103, 123-126). *)
Definition erase_at {A} (l : list A) (i : nat) : list A := firstn i l ++ skipn (Datatypes.S i) l.

(** FeatureManager::RemoveByFrameID, body of the loop with offset (feature_manager.cpp 90-107): the modified
    feature and whether it loses all observations. [observes[frameID - firstFrameID]] is bounds-checked. *)
Definition remove_frame_shift (frame : Z) (f : feature T) : out (feature T * bool) :=
  if ((ft_first f <=? frame) && (frame <=? final_frame f))%bool then
    if Nat.eqb (length (ft_obs f)) 1 then
      Ok (Feature (ft_id f) (ft_first f) [] (ft_num f) (ft_pw f) (ft_status f), true)
    else
      let idx := Z.to_nat (u32 (frame - ft_first f)) in
      let! o := at_ (ft_obs f) idx in
      Ok (Feature (ft_id f) (ft_first f) (erase_at (ft_obs f) idx) (u32 (ft_num f - osize o)) (ft_pw f) (ft_status f), false)
  else if frame <? ft_first f then
    Ok (Feature (ft_id f) (u32 (ft_first f - 1)) (ft_obs f) (ft_num f) (ft_pw f) (ft_status f), false)
  else Ok (f, false).

(** Body of the loop without offset (feature_manager.cpp 113-129). *)
Definition remove_frame_head (frame : Z) (f : feature T) : out (feature T * bool) :=
  if ft_first f =? frame then
    if Nat.eqb (length (ft_obs f)) 1 then
      Ok (Feature (ft_id f) (ft_first f) [] (ft_num f) (ft_pw f) (ft_status f), true)
    else
      let! o := at_ (ft_obs f) 0 in
      Ok (Feature (ft_id f) (u32 (ft_first f + 1)) (erase_at (ft_obs f) 0) (u32 (ft_num f - osize o)) (ft_pw f) (ft_status f), false)
  else Ok (f, false).

(** The loop over [this->features] (feature_manager.cpp 89-108, 112-130); collects needDelete. *)
Fixpoint remove_loop (body : feature T -> out (feature T * bool)) (l : list (Z * nat)) (h : heap T) (del : list Z)
  : out (heap T * list Z) :=
  match l with
  | [] => Ok (h, del)
  | (_, p) :: r =>
      let! f := hget h p in
      let! fd := body f in
      remove_loop body r (hset h p (fst fd)) (if snd fd : bool then del ++ [ft_id f] else del)
  end.

(** FeatureManager::RemoveByFrameID (feature_manager.cpp 78-137). *)
Definition remove_by_frame (ord : order) (frame : Z) (offset : bool) (h : heap T) (m : fmgr) : out (heap T * fmgr) :=
  let! r := remove_loop (if offset then remove_frame_shift frame else remove_frame_head frame) (ord m) h [] in
  Ok (fst r, fold_left (fun m' id => delete id m') (snd r) m).

(** FeatureManager::RemoveByID (feature_manager.cpp 141-143). *)
Definition remove_by_id (id : Z) (m : fmgr) : fmgr := delete id m.

End Features.
