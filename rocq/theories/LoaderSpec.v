(** Specification vocabulary for DataLoader histories (C01-C12). Nothing here is used by the model. *)
From Coq Require Import ZArith List Bool Sorting.Sorted.
From Verif Require Import Fp Scalar Base LinAlg Msg DataLoader.
Import ListNotations.

(** API calls on the loaders of one process; loaders are numbered. *)
Inductive dl_op (T : Type) :=
| PushF (k : nat) (m : feat_msg T)
| PushI (k : nat) (m : imu_msg T)
| PopOne (k : nat)
| PopPacked (k : nat)
| ClearL (k : nat).
Arguments PushF {T}. Arguments PushI {T}. Arguments PopOne {T}. Arguments PopPacked {T}. Arguments ClearL {T}.

(** What the caller sees of each call. *)
Inductive dl_obs (T : Type) :=
| ObsPushF (k : nat) (m : feat_msg T) (r : bool)
| ObsPushI (k : nat) (m : imu_msg T) (r : bool)
| ObsPop (k : nat) (m : comb_msg T) (r : bool)
| ObsClear (k : nat).
Arguments ObsPushF {T}. Arguments ObsPushI {T}. Arguments ObsPop {T}. Arguments ObsClear {T}.

Record dl_world (T : Type) := DlWorld { w_st : dl_statics; w_ld : nat -> loader T }.
Arguments DlWorld {T}. Arguments w_st {T}. Arguments w_ld {T}.

Section LoaderSpec.
Context {T : Type} {S : SOps T}.

Definition upd (f : nat -> loader T) (k : nat) (l : loader T) : nat -> loader T :=
  fun j => if Nat.eqb j k then l else f j.

(** One API call. *)
Definition dl_step (w : dl_world T) (op : dl_op T) : out (dl_world T * dl_obs T) :=
  match op with
  | PushF k m => let '(st, l, m', r) := dl_push_feat (w_st w) (w_ld w k) m in
                 Ok (DlWorld st (upd (w_ld w) k l), ObsPushF k m' r)
  | PushI k m => let '(st, l, m', r) := dl_push_imu (w_st w) (w_ld w k) m in
                 Ok (DlWorld st (upd (w_ld w) k l), ObsPushI k m' r)
  | PopOne k => let '(l, c, r, _) := dl_pop_one (w_ld w k) in
                Ok (DlWorld (w_st w) (upd (w_ld w) k l), ObsPop k c r)
  | PopPacked k => let! p := dl_pop_packed (w_ld w k) in
                   let '(l, c, r) := p in
                   Ok (DlWorld (w_st w) (upd (w_ld w) k l), ObsPop k c r)
  | ClearL k => Ok (DlWorld (w_st w) (upd (w_ld w) k (dl_clear (w_ld w k))), ObsClear k)
  end.

Fixpoint dl_run (w : dl_world T) (ops : list (dl_op T)) : out (dl_world T * list (dl_obs T)) :=
  match ops with
  | [] => Ok (w, [])
  | op :: r => let! p := dl_step w op in
               let! q := dl_run (fst p) r in
               Ok (fst q, snd p :: snd q)
  end.

(** A freshly constructed loader whose public field imuPeriod was set to [p] afterwards. *)
Definition fresh (p : f64) : loader T := let l : loader T := dl_new in Loader (dl_feat l) (dl_imu l) (dl_offset l) p.

(** Process start: no push happened yet, every loader is fresh. *)
Definition world0 (period : nat -> f64) : dl_world T := DlWorld statics0 (fun k => fresh (period k)).

(** The shifted time: input time plus one second (IEEE double). *)
Definition shift (t : f64) : f64 := f64_add t (f64_of_Z 1).
Definition imu_shifted (m : imu_msg T) : imu_msg T := imu_set_ts m (shift (im_ts m)).
Definition feat_shifted (m : feat_msg T) : feat_msg T := feat_set_ts m (shift (fm_ts m)).

(** A features message whose ids and observations have the same number of entries. *)
Definition well_sized (m : feat_msg T) : bool := Nat.eqb (length (fm_ids m)) (length (fm_obs m)).

(** Acceptance test: the new time against the time pushed just before (None: first push of the process). *)
Definition accepts (prev : option f64) (t : f64) : bool :=
  match prev with
  | None => f64_ltb (f64_sub (shift t) (f64_of_Z 1)) (shift t)
  | Some u => f64_ltb (shift u) (shift t)
  end.

(** Input times pushed on each stream in a history (whatever the loader), oldest first. *)
Fixpoint imu_inputs (ops : list (dl_op T)) : list f64 :=
  match ops with [] => [] | PushI _ m :: r => im_ts m :: imu_inputs r | _ :: r => imu_inputs r end.
Fixpoint feat_inputs (ops : list (dl_op T)) : list f64 :=
  match ops with
  | [] => []
  | PushF _ m :: r => if well_sized m then fm_ts m :: feat_inputs r else feat_inputs r
  | _ :: r => feat_inputs r
  end.
Fixpoint last_opt {A} (l : list A) : option A :=
  match l with [] => None | [x] => Some x | _ :: r => last_opt r end.

(** The messages loader [k] accepts over a history, as a function of the pushes alone. *)
Fixpoint accepted_imu (prev : option f64) (k : nat) (ops : list (dl_op T)) : list (imu_msg T) :=
  match ops with
  | [] => []
  | PushI j m :: r =>
      (if (Nat.eqb k j && accepts prev (im_ts m))%bool then [imu_shifted m] else [])
      ++ accepted_imu (Some (im_ts m)) k r
  | _ :: r => accepted_imu prev k r
  end.
Fixpoint accepted_feat (prev : option f64) (k : nat) (ops : list (dl_op T)) : list (feat_msg T) :=
  match ops with
  | [] => []
  | PushF j m :: r =>
      if well_sized m then
        (if (Nat.eqb k j && accepts prev (fm_ts m))%bool then [feat_shifted m] else [])
        ++ accepted_feat (Some (fm_ts m)) k r
      else accepted_feat prev k r
  | _ :: r => accepted_feat prev k r
  end.

(** The messages delivered by loader [k], in order. *)
Fixpoint delivered_imu (k : nat) (obs : list (dl_obs T)) : list (imu_msg T) :=
  match obs with
  | [] => []
  | ObsPop j c _ :: r => (if Nat.eqb k j then cm_imu c else []) ++ delivered_imu k r
  | _ :: r => delivered_imu k r
  end.
Fixpoint delivered_feat (k : nat) (obs : list (dl_obs T)) : list (feat_msg T) :=
  match obs with
  | [] => []
  | ObsPop j c _ :: r =>
      (if Nat.eqb k j then match cm_feat c with Some f => [f] | None => [] end else [])
      ++ delivered_feat k r
  | _ :: r => delivered_feat k r
  end.

(** Histories made of pushes and PopOneMessage only. *)
Definition push_or_pop_one (op : dl_op T) : Prop :=
  match op with PushF _ _ | PushI _ _ | PopOne _ => True | _ => False end.

(** Time orders. *)
Definition imu_lt (a b : imu_msg T) : Prop := f64_ltb (im_ts a) (im_ts b) = true.
Definition feat_lt (a b : feat_msg T) : Prop := f64_ltb (fm_ts a) (fm_ts b) = true.
Definition sorted_buffers (l : loader T) : Prop :=
  StronglySorted imu_lt (dl_imu l) /\ StronglySorted feat_lt (dl_feat l).
Definition not_nan_buffers (l : loader T) : Prop :=
  Forall (fun m => f64_isnan (im_ts m) = false) (dl_imu l) /\
  Forall (fun m => f64_isnan (fm_ts m) = false) (dl_feat l).

(** Input times never go back (a NaN time breaks this). *)
Definition nondec (ts : list f64) : Prop := Sorted (fun a b => f64_leb a b = true) ts.

(** n successive PopOneMessage calls: final loader and the messages and results in order. *)
Fixpoint pops (n : nat) (l : loader T) : loader T * list (comb_msg T * bool) :=
  match n with
  | O => (l, [])
  | Datatypes.S n' =>
      let '(l1, c, r, _) := dl_pop_one l in
      let '(l2, rest) := pops n' l1 in (l2, (c, r) :: rest)
  end.

(** Times of one delivered message, features first. *)
Definition comb_times (c : comb_msg T) : list f64 :=
  match cm_feat c with Some f => [fm_ts f] | None => [] end ++ map im_ts (cm_imu c).

End LoaderSpec.
