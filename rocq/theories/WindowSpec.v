(** Specification vocabulary for the frame and feature managers (C13-C22). Nothing here is used by the model. *)
From Coq Require Import ZArith List Bool.
From stdpp Require Import gmap list.
From Verif Require Import Fp Scalar Base LinAlg Msg FeatureManager FrameManager Window.
Import ListNotations.
Local Open Scope Z_scope.

(** An iteration order visits every entry of the map exactly once. *)
Definition valid_order (ord : order) : Prop := forall m, ord m ≡ₚ map_to_list m.

Section WindowSpec.
Context {T : Type} {S : SOps T}.

(** ** Frame manager alone *)
Inductive fr_op := FAdd (f : frame T) | FRemove (k : Z).
(** Result of each call and the final window. *)
Fixpoint fr_run (fs : list (frame T)) (ops : list fr_op) : list (frame T) * list bool :=
  match ops with
  | [] => (fs, [])
  | FAdd f :: r => let '(fs', b) := add_new_frame fs f in let '(g, bs) := fr_run fs' r in (g, b :: bs)
  | FRemove k :: r => let '(fs', b) := remove_frame fs k in let '(g, bs) := fr_run fs' r in (g, b :: bs)
  end.
Definition fr_adds (ops : list fr_op) : nat :=
  length (List.filter (fun o => match o with FAdd _ => true | _ => false end) ops).
Definition consecutive (b : Z) (fs : list (frame T)) : Prop :=
  forall i f, nth_error fs i = Some f -> fr_id f = b + Z.of_nat i.
(** Positions passed by callers are 32-bit values. *)
Definition fr_op_ok (o : fr_op) : Prop := match o with FAdd _ => True | FRemove k => 0 <= k < 4294967296 end.
(** Every AddNewFrame call of a run reported true. *)
Fixpoint adds_true (ops : list fr_op) (bs : list bool) : Prop :=
  match ops, bs with
  | FAdd _ :: r, b :: bs' => b = true /\ adds_true r bs'
  | FRemove _ :: r, _ :: bs' => adds_true r bs'
  | _, _ => True
  end.

(** A feature linked from both frames and observed by camera 0 in both. *)
Definition tracked_both (h : heap T) (fr pre : frame T) (kp : Z * nat) : bool :=
  match fr_feats pre !! fst kp with
  | Some pp =>
      match hp_cells h !! snd kp, hp_cells h !! pp with
      | Some f, Some pf =>
          match get_norm f (fr_id fr) 0, get_norm pf (fr_id pre) 0 with Some _, Some _ => true | _, _ => false end
      | _, _ => false
      end
  | None => false
  end.
(** The frame's links point to live features. *)
Definition live_links (h : heap T) (f : frame T) : Prop := forall id p, fr_feats f !! id = Some p -> is_Some (hp_cells h !! p).

(** ** Feature manager alone *)
Inductive ft_op :=
| TAdd (ids : list Z) (obs : list (observe T)) (frame : Z)
| TRemoveFrame (frame : Z) (offset : bool)
| TRemoveId (id : Z).
Definition ft_step (ord : order) (hm : heap T * fmgr) (op : ft_op) : out (heap T * fmgr) :=
  match op with
  | TAdd ids obs frame => let! r := add_new_features ids obs frame (fst hm) (snd hm) in Ok (fst (fst r))
  | TRemoveFrame frame off => remove_by_frame ord frame off (fst hm) (snd hm)
  | TRemoveId id => Ok (fst hm, remove_by_id id (snd hm))
  end.
Fixpoint ft_run (ord : order) (hm : heap T * fmgr) (ops : list ft_op) : out (heap T * fmgr) :=
  match ops with [] => Ok hm | op :: r => let! hm' := ft_step ord hm op in ft_run ord hm' r end.
(** Frame numbers passed by callers are 32-bit values. *)
Definition ft_op_ok (op : ft_op) : Prop :=
  match op with TAdd _ _ f | TRemoveFrame f _ => 0 <= f < 4294967296 | TRemoveId _ => True end.
(** Number of per-camera observations stored in a track. *)
Fixpoint total_obs (l : list (observe T)) : Z := match l with [] => 0 | o :: r => osize o + total_obs r end.

(** The managed feature with a given id. *)
Definition managed (h : heap T) (m : fmgr) (id : Z) : option (feature T) :=
  match m !! id with Some p => hp_cells h !! p | None => None end.
(** What the back end answers for (feature id, frame id, camera). *)
Definition lookup_norm (h : heap T) (m : fmgr) (id frame cam : Z) : option (v2 T) :=
  match managed h m id with Some f => get_norm f frame cam | None => None end.
(** A manager whose entries point to distinct live features filed under their own id. *)
Definition filed (h : heap T) (m : fmgr) : Prop :=
  forall id p, m !! id = Some p -> (p < hp_next h)%nat /\ exists f, hp_cells h !! p = Some f /\ ft_id f = id.
(** Tracks are non-empty and stay below 2^32. *)
Definition good_track (f : feature T) : Prop :=
  ft_obs f <> [] /\ 0 <= ft_first f /\ ft_first f + Z.of_nat (length (ft_obs f)) < 4294967296.

(** ** The whole window *)
Inductive w_op := WMsg (m : feat_msg T) | WMarg (p : marg_policy).
Definition w_step (ord : order) (w : window T) (op : w_op) : out (window T) :=
  match op with WMsg m => update_window w m | WMarg p => marginalize ord w p end.
Fixpoint w_run (ord : order) (w : window T) (ops : list w_op) : out (window T) :=
  match ops with [] => Ok w | op :: r => let! w' := w_step ord w op in w_run ord w' r end.

(** What one message reports about a feature. *)
Fixpoint assoc (id : Z) (l : list (Z * observe T)) : option (observe T) :=
  match l with [] => None | (i, o) :: r => if i =? id then Some o else assoc id r end.
Definition reported (m : feat_msg T) (id : Z) : option (observe T) := assoc id (combine (fm_ids m) (fm_obs m)).
(** The abstract window: the messages of the frames still in the window, oldest first. *)
Definition a_step (a : list (feat_msg T)) (op : w_op) : list (feat_msg T) :=
  match op with
  | WMsg m => a ++ [m]
  | WMarg MargOldest => erase_at a 0
  | WMarg MargNewest => erase_at a (length a - 1)
  | WMarg MargSubnew => erase_at a (length a - 2)
  | WMarg NoMarg => a
  end.
Definition a_run (a : list (feat_msg T)) (ops : list w_op) : list (feat_msg T) := fold_left a_step ops a.

(** Front-end contract. A message lists each feature once, with at least one observation. *)
Definition good_msg (m : feat_msg T) : Prop :=
  length (fm_ids m) = length (fm_obs m) /\ List.NoDup (fm_ids m) /\ Forall (fun o => osize o <> 0) (fm_obs m).
(** A feature seen in two messages is seen in every message between them. *)
Definition contiguous (ms : list (feat_msg T)) : Prop :=
  forall id a b c, [a; b; c] `sublist_of` ms -> reported a id <> None -> reported c id <> None -> reported b id <> None.
Fixpoint msgs (ops : list w_op) : list (feat_msg T) :=
  match ops with [] => [] | WMsg m :: r => m :: msgs r | _ :: r => msgs r end.
(** Marginalizations are applied only to windows that are large enough (two frames are not enough for
    MARG_SUBNEW, see C67). *)
Definition marg_ok (a : list (feat_msg T)) (op : w_op) : Prop :=
  match op with
  | WMarg MargOldest | WMarg MargNewest => (1 <= length a)%nat
  | WMarg MargSubnew => (3 <= length a)%nat
  | _ => True
  end.
Fixpoint margs_ok (a : list (feat_msg T)) (ops : list w_op) : Prop :=
  match ops with [] => True | op :: r => marg_ok a op /\ margs_ok (a_step a op) r end.
Definition good_history (ops : list w_op) : Prop :=
  Forall good_msg (msgs ops) /\ contiguous (msgs ops) /\ margs_ok [] ops /\
  Z.of_nat (length (msgs ops)) < 4294967294.

End WindowSpec.
Arguments fr_op : clear implicits.
Arguments ft_op : clear implicits.
Arguments w_op : clear implicits.
