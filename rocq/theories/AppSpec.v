(** Specification vocabulary for the test program (C72-C75). Nothing here is used by the model. *)
From Coq Require Import ZArith Reals List Bool.
From stdpp Require Import gmap.
From Verif Require Import Fp Scalar Base LinAlg Msg DataLoader FeatureManager FrameManager Window MathLib Attitude Propagator VisionUpdate Backend
  LoaderSpec WindowSpec BackendSpec App.
Import ListNotations.
Local Open Scope nat_scope.

Section AppSpec.
Context {T : Type} {S : SOps T}.

(** The lines before the first empty one. *)
Fixpoint file_lines (f : afile T) : list (list (atok T)) :=
  match f with Some l :: r => l :: file_lines r | _ => [] end.
Definition opt_lines (f : option (afile T)) : list (list (atok T)) := match f with Some f => file_lines f | None => [] end.
(** The numbers at the beginning of a line. *)
Fixpoint numbers (l : list (atok T)) : list (f64 * T) :=
  match l with ANum d x :: r => (d, x) :: numbers r | _ => [] end.
(** What a line says, when it has enough numbers: time, attitude (4), position (3), angular rate, acceleration. *)
Definition imu_said (l : list (atok T)) : option (imu_msg T) :=
  match numbers l with
  | (t, _) :: _ :: _ :: _ :: _ :: _ :: _ :: _ :: (_, gx) :: (_, gy) :: (_, gz) :: (_, ax) :: (_, ay) :: (_, az) :: _ =>
      Some (ImuMsg (V3 gx gy gz) (V3 ax ay az) t)
  | _ => None
  end.
(** Time, attitude and position of camera 0. *)
Definition cam_said (l : list (atok T)) : option (f64 * quat T * v3 T) :=
  match numbers l with
  | (t, _) :: (_, w) :: (_, x) :: (_, y) :: (_, z) :: (_, px) :: (_, py) :: (_, pz) :: _ => Some (t, Quat w x y z, V3 px py pz)
  | _ => None
  end.
Definition pt_said (l : list (atok T)) : option (v3 T) :=
  match numbers l with (_, x) :: (_, y) :: (_, z) :: _ => Some (V3 x y z) | _ => None end.
(** What extractions leave in variables, in the order of extraction: numbers are stored; at the first token that is no number the stream stores
    what it stores for such a token (zero or the largest value) and stops; variables not reached keep their values. *)
Fixpoint overlay (l : list (atok T)) (old : list T) : list T :=
  match old, l with
  | _ :: r, ANum _ x :: l' => x :: overlay l' r
  | _ :: r, ABad _ x :: _ => x :: r
  | _, _ => old
  end.
(** Every line changes what the line before has left. *)
Fixpoint overlays (fs : list (list T -> list T)) (old : list T) : list (list T) :=
  match fs with [] => [] | f :: r => f old :: overlays r (f old) end.
(** The same with a time first. *)
Definition overlay_time (l : list (atok T)) (t : f64) (old : list T) : f64 * list T :=
  match l with ANum d _ :: l' => (d, overlay l' old) | ABad d _ :: _ => (d, old) | [] => (t, old) end.
Definition q_list (q : quat T) : list T := [qw q; qx q; qy q; qz q].
Definition v3_list (v : v3 T) : list T := [v3x v; v3y v; v3z v].
(** A file all of whose lines say something. *)
Definition says {A} (said : list (atok T) -> option A) (f : option (afile T)) (l : list A) : Prop := map said (opt_lines f) = map Some l.

(** The part of a list up to and including the first element that is too late. *)
Fixpoint upto {A} (late : A -> bool) (l : list A) : list A :=
  match l with [] => [] | x :: r => x :: if late x then [] else upto late r end.
(** The shifted time of a message is later than 100 seconds. *)
Definition too_late (t : f64) : bool := f64_ltb (f64_of_Z 100) (shift t).

(** The message [m] shows all points [pts] to cameras 0 and 1, and to no other camera, at time [t]. *)
Definition shows (pts : list (v3 T)) (t : f64) (m : feat_msg T) : Prop :=
  fm_ts m = t /\ fm_ids m = map Z.of_nat (seq 0 (length pts)) /\ length (fm_obs m) = length pts /\
  List.Forall (fun o : observe T => forall c, o !! c <> None <-> c = 0%Z \/ c = 1%Z) (fm_obs m).

(** A position that is not a number has been published. *)
Definition nan_published (s : bstate T) : Prop :=
  exists m ba bg t, b_publish_newest s = Some (m, ba, bg, t) /\ sisnan (v3x (mo_p m)) = true.
(** Messages waiting in the buffers. *)
Definition waiting (s : bstate T) : nat := length (dl_imu (b_dl s)) + length (dl_feat (b_dl s)).
End AppSpec.

(** The body pose of a frame puts camera 0, mounted at [e0], at attitude [q] and position [p]. *)
Definition mounted (e0 : extrinsic R) (f : frame R) (q : quat R) (p : v3 R) : Prop :=
  qmul (fr_q f) (ex_q e0) = q /\ v3add (qrot (fr_q f) (ex_p e0)) (fr_p f) = p.
