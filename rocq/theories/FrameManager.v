(** Frames and the frame manager: include/data_manager/vision_data/frame_manager.hpp and
    src/data_manager/vision_data/frame_manager.cpp. *)
From Coq Require Import ZArith List Bool.
From stdpp Require Import gmap.
From Verif Require Import Fp Scalar Base LinAlg Msg FeatureManager.
Import ListNotations.
Local Open Scope Z_scope.

(** Frame (frame_manager.hpp 9-28). Frames are shared pointers in one deque; nothing else keeps a frame
    across calls, so frames are by value and a frame pointer is a position in the window. *)
Record frame (T : Type) := Frame {
  fr_feats : gmap Z nat;
  fr_q : quat T;
  fr_p : v3 T;
  fr_v : v3 T;
  fr_id : Z;
  fr_ts : f64 }.
Arguments Frame {T}. Arguments fr_feats {T}. Arguments fr_q {T}. Arguments fr_p {T}.
Arguments fr_v {T}. Arguments fr_id {T}. Arguments fr_ts {T}.

(** Extrinsic (frame_manager.hpp 44-55). *)
Record extrinsic (T : Type) := Extrinsic { ex_q : quat T; ex_p : v3 T }.
Arguments Extrinsic {T}. Arguments ex_q {T}. Arguments ex_p {T}.

Section Frames.
Context {T : Type} {S : SOps T}.

(** Constructor [Frame(timeStamp)] (frame_manager.hpp 26-27, default members 13-21). *)
Definition new_frame (ts : f64) : frame T := Frame ∅ qid v3zero v3zero 0 ts.
(** Frame::Initialize (frame_manager.cpp 8-16). *)
Definition frame_init (id : Z) (ts : f64) : frame T := Frame ∅ qid v3zero v3zero id ts.
(** [frame->id = id] and [--frame->id] (frame_manager.cpp 77, 111). *)
Definition with_id (f : frame T) (id : Z) : frame T := Frame (fr_feats f) (fr_q f) (fr_p f) (fr_v f) id (fr_ts f).
(** Assignment of q_wb, p_wb, v_wb (frame_manager.cpp 78-80). *)
Definition with_pose (f : frame T) (q : quat T) (p v : v3 T) : frame T := Frame (fr_feats f) q p v (fr_id f) (fr_ts f).
(** Replacing [frame->features] (frame_manager.cpp 21). *)
Definition with_feats (f : frame T) (m : gmap Z nat) : frame T := Frame m (fr_q f) (fr_p f) (fr_v f) (fr_id f) (fr_ts f).

(** Frame::AddFeatures / AddFeature (frame_manager.cpp 20-36): [insert] keeps an existing entry. *)
Fixpoint add_links (h : heap T) (l : list nat) (m : gmap Z nat) : out (gmap Z nat) :=
  match l with
  | [] => Ok m
  | p :: r =>
      let! f := hget h p in
      add_links h r (match m !! ft_id f with Some _ => m | None => <[ft_id f := p]> m end)
  end.

(** Frame::GetCovisibleFeatures (frame_manager.cpp 40-49); [ord] is the iteration order. *)
Definition covisible (ord : order) (a b : frame T) : list nat :=
  map snd (List.filter (fun kp => match fr_feats b !! fst kp with Some _ => true | None => false end) (ord (fr_feats a))).

(** The id check at the end of AddNewFrame (frame_manager.cpp 85-92). *)
Fixpoint ids_from (i : Z) (l : list (frame T)) : bool :=
  match l with [] => true | f :: r => if fr_id f =? i then ids_from (u32 (i + 1)) r else false end.

(** FrameManager::AddNewFrame (frame_manager.cpp 72-93). *)
Definition add_new_frame (fs : list (frame T)) (nf : frame T) : list (frame T) * bool :=
  let nf' := match back fs with
             | Ub _ => frame_init 1 (fr_ts nf)
             | Ok b => with_pose (with_id nf (u32 (fr_id b + 1))) (fr_q b) (fr_p b) (fr_v b)
             end in
  let fs' := fs ++ [nf'] in
  (fs', match fs' with [] => true | f :: _ => ids_from (fr_id f) fs' end).

(** FrameManager::RemoveFrame (frame_manager.cpp 97-117). *)
Definition remove_frame (fs : list (frame T)) (k : Z) : list (frame T) * bool :=
  if Z.of_nat (length fs) <=? k then (fs, false)
  else
    let i := Z.to_nat k in
    let fs' := if 0 <? k then firstn i fs ++ map (fun f => with_id f (u32 (fr_id f - 1))) (skipn i fs) else fs in
    (erase_at fs' i, true).

(** FrameManager::GetFrame (frame_manager.cpp 121-134): position of the frame, [None] for nullptr. *)
Fixpoint find_frame (fs : list (frame T)) (id : Z) (i : nat) : option nat :=
  match fs with [] => None | f :: r => if fr_id f =? id then Some i else find_frame r id (Datatypes.S i) end.
Definition get_frame (fs : list (frame T)) (id : Z) : option nat :=
  match front fs, back fs with
  | Ok a, Ok b => if ((id <? fr_id a) || (fr_id b <? id))%bool then None else find_frame fs id 0
  | _, _ => None
  end.

(** FrameManager::GetMaxFrameID (frame_manager.cpp 138-144). *)
Definition max_frame_id (fs : list (frame T)) : Z := match back fs with Ok b => fr_id b | Ub _ => 0 end.

(** FrameManager::NeedMarginalize (frame_manager.cpp 148-154). *)
Definition need_marginalize (fs : list (frame T)) (maxw : Z) : bool := maxw <? Z.of_nat (length fs).

(** Counting loop of IsKeyFrame (frame_manager.cpp 177-191): features linked by both frames and seen by
    camera 0 in both; the parallax sum is carried along. *)
Fixpoint tracked_loop (h : heap T) (l : list (Z * nat)) (fr pre : frame T) (n : Z) (par : T) : out (Z * T) :=
  match l with
  | [] => Ok (n, par)
  | (id, p) :: r =>
      match fr_feats pre !! id with
      | None => tracked_loop h r fr pre n par
      | Some pp =>
          let! f := hget h p in
          match get_norm f (fr_id fr) 0 with
          | None => tracked_loop h r fr pre n par
          | Some a =>
              let! pf := hget h pp in
              match get_norm pf (fr_id pre) 0 with
              | None => tracked_loop h r fr pre n par
              | Some b => tracked_loop h r fr pre (u32 (n + 1)) (sadd par (v2norm (v2sub a b)))
              end
          end
      end
  end.

(** FrameManager::IsKeyFrame (frame_manager.cpp 158-206). The frame is given by its position ([None]:
    nullptr); a position outside the window stands for a frame object that is not in the window, for
    which preFrame stays null and is dereferenced (line 180 or 194). *)
Definition is_keyframe (ord : order) (h : heap T) (fs : list (frame T)) (minTracked : Z) (maxTrans : T)
    (pos : option nat) : out bool :=
  match pos with
  | None => Ok false
  | Some i =>
      match nth_error fs i with
      | None => Ub UbNull
      | Some fr =>
          match i with
          | O => Ok true
          | Datatypes.S j =>
              let! pre := at_ fs j in
              let! np := tracked_loop h (ord (fr_feats fr)) fr pre 0 s0 in
              let trans := v3norm (v3sub (fr_p fr) (fr_p pre)) in
              Ok (if fst np <? minTracked then true else if sltb maxTrans trans then true else false)
          end
      end
  end.

End Frames.
