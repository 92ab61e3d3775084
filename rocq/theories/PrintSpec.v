(** Specification vocabulary for the printed listings (C93, C94): how a reader takes the values out of the lines. *)
From Coq Require Import ZArith List Bool String.
From stdpp Require Import gmap.
From Verif Require Import Fp Scalar Base LinAlg Msg FeatureManager FrameManager Print.
Import ListNotations.
Local Open Scope Z_scope.

Section Read.
Context {T : Type}.
Implicit Types (l : pline T) (ls : list (pline T)).
Local Open Scope string_scope.
(** The line that opens a feature: id, first frame, last frame, number of observations. *)
Definition head_of l : option (Z * Z * Z * Z) :=
  match l with
  | [Txt s; UInt id; Txt _; UInt a; Txt _; UInt b; Txt _; UInt n] => if String.eqb s ">> Feature id " then Some (id, a, b, n) else None
  | _ => None
  end.
(** The line of one observation: frame, camera, coordinates. *)
Definition entry_of l : option (Z * Z * v2 T) :=
  match l with
  | [Txt s; UInt fr; Txt _; UInt cam; Txt _; Sca x; Sca y; Txt _] => if String.eqb s "     frame " then Some (fr, cam, V2 x y) else None
  | _ => None
  end.
(** The headers of a listing; and its observations, each under the feature of the header above it. *)
Definition read_heads ls : list (Z * Z * Z * Z) := flat_map (fun l => match head_of l with Some h => [h] | None => [] end) ls.
Fixpoint read_tracks (cur : option Z) ls : list (Z * Z * Z * v2 T) :=
  match ls with
  | [] => []
  | l :: r =>
    match head_of l, cur, entry_of l with
    | Some (id, _, _, _), _, _ => read_tracks (Some id) r
    | None, Some id, Some (fr, cam, x) => (id, fr, cam, x) :: read_tracks cur r
    | _, _, _ => read_tracks cur r
    end
  end.
(** The same for one message: id, camera, coordinates. *)
Definition msg_head_of l : option Z :=
  match l with [Txt s; UInt id; Txt _] => if String.eqb s "     feature id " then Some id else None | _ => None end.
Definition msg_entry_of l : option (Z * v2 T) :=
  match l with
  | [Txt s; UInt cam; Txt _; Sca x; Sca y; Txt _] => if String.eqb s "       camera id " then Some (cam, V2 x y) else None
  | _ => None
  end.
Fixpoint read_msg (cur : option Z) ls : list (Z * Z * v2 T) :=
  match ls with
  | [] => []
  | l :: r =>
    match msg_head_of l, cur, msg_entry_of l with
    | Some id, _, _ => read_msg (Some id) r
    | None, Some id, Some (cam, x) => (id, cam, x) :: read_msg cur r
    | _, _, _ => read_msg cur r
    end
  end.
(** The IMU samples of a listing: three lines each. *)
Fixpoint read_imu ls : list (imu_msg T) :=
  match ls with
  | [Txt s; Dbl t; Txt _] :: (([Txt _; Sca a; Sca b; Sca c; Txt _] :: [Txt _; Sca d; Sca e; Sca f; Txt _] :: r) as r0) =>
      if String.eqb s ">> IMU Message at time stamp " then ImuMsg (V3 a b c) (V3 d e f) t :: read_imu r else read_imu r0
  | _ :: r => read_imu r
  | [] => []
  end.
(** The frames of a listing: id, time, number of features, attitude, position, velocity. *)
Fixpoint read_frames ls : list (Z * f64 * Z * quat T * v3 T * v3 T) :=
  match ls with
  | [Txt _; UInt id; Txt _; Dbl t; Txt _; UInt n; Txt _] ::
    (([Txt _; Sca qw; Txt _; Sca qx; Txt _; Sca qy; Txt _; Sca qz; Txt _] ::
      [Txt _; Sca p0; Sca p1; Sca p2; Txt _] :: [Txt _; Sca v0; Sca v1; Sca v2; Txt _] :: r) as r0) =>
      (id, t, n, Quat qw qx qy qz, V3 p0 p1 p2, V3 v0 v1 v2) :: read_frames r
  | _ :: r => read_frames r
  | [] => []
  end.
(** The values a listing shows under a name. *)
Definition shown (name : string) ls : list (list (field T)) :=
  flat_map (fun l => match l with Txt s :: r => if String.eqb s name then [r] else [] | _ => [] end) ls.
(** The line of one camera after its name. *)
Definition cam_line (ip : nat * (v3 T * quat T)) : list (field T) :=
  [UInt (Z.of_nat (fst ip)); Txt " p_bc : ["%string; Sca (v3x (fst (snd ip))); Sca (v3y (fst (snd ip))); Sca (v3z (fst (snd ip))); Txt "], q_bc : ["%string;
   Sca (qw (snd (snd ip))); Txt ", "%string; Sca (qx (snd (snd ip))); Txt ", "%string; Sca (qy (snd (snd ip))); Txt ", "%string; Sca (qz (snd (snd ip))); Txt "]"%string].
End Read.
