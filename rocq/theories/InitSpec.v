(** Specification of the geometry of the initialization (C81). Nothing here is used by the model. *)
From Coq Require Import ZArith Reals List Bool.
From stdpp Require Import gmap list.
From Verif Require Import Fp Scalar Base LinAlg MathLib Msg FeatureManager FrameManager Window Pnp VisionUpdate Backend WindowSpec GeoSpec UpdSpec.
Import ListNotations.
Local Open Scope R_scope.

(** Attitude and position of a camera mounted as [e] on a body at (q, p). *)
Definition mount_q (q : quat R) (e : extrinsic R) : quat R := qmul q (ex_q e).
Definition mount_p (q : quat R) (p : v3 R) (e : extrinsic R) : v3 R := v3add p (qrot q (ex_p e)).
(** The camera mounted as [e] on a body at (q, p) sees the point [P], at camera coordinates [c] in front of it, at [z]. *)
Definition seen_from (q : quat R) (p : v3 R) (e : extrinsic R) (P : v3 R) (z : v2 R) : Prop :=
  exists c, P = v3add p (qrot q (v3add (ex_p e) (qrot (ex_q e) c))) /\ 0 < v3z c /\ z = V2 (v3x c / v3z c) (v3y c / v3z c).
(** The observation of a track in a frame. *)
Definition observed (ft : feature R) (frame : Z) : option (observe R) :=
  if (ft_first ft <=? frame)%Z then nth_error (ft_obs ft) (Z.to_nat (frame - ft_first ft)) else None.
(** Every camera of the observation sees [P] exactly ... *)
Definition exact_obs (exts : list (extrinsic R)) (q : quat R) (p P : v3 R) (ob : observe R) : Prop :=
  forall cam z, ob !! cam = Some z -> exists e, nth_error exts (Z.to_nat cam) = Some e /\ seen_from q p e P z.
(** ... and two of them in different directions. *)
Definition two_rays (exts : list (extrinsic R)) (ob : observe R) : Prop :=
  exists c1 z1 e1 c2 z2 e2, ob !! c1 = Some z1 /\ ob !! c2 = Some z2 /\
    nth_error exts (Z.to_nat c1) = Some e1 /\ nth_error exts (Z.to_nat c2) = Some e2 /\
    v3cross (qrot (ex_q e1) (V3 (v2x z1) (v2y z1) 1)) (qrot (ex_q e2) (V3 (v2x z2) (v2y z2) 1)) <> v3zero.
Definition linked (f : frame R) (p : nat) : Prop := exists id, fr_feats f !! id = Some p.

(** Two frames of exact observations of the points [P]: the body is at attitude [q0] and the origin in the first and at
    (q1, p1) in the second. In the first frame every feature is seen in stereo. A feature that was solved before and is not
    seen in the first frame is where it should be. *)
Record exact_pair (exts : list (extrinsic R)) (h : heap R) (fi fj : frame R) (P : nat -> v3 R) (q0 q1 : quat R) (p1 : v3 R) : Prop := {
  xp_q0 : qnorm2 q0 = 1;
  xp_ext : List.Forall (fun e => qnorm2 (ex_q e) = 1) exts;
  xp_ids : (0 <= fr_id fi < 4294967296)%Z /\ (0 <= fr_id fj < 4294967296)%Z;
  xp_first : forall p, linked fi p -> exists ft ob, hp_cells h !! p = Some ft /\ good_track ft /\ observed ft (fr_id fi) = Some ob /\
    exact_obs exts q0 v3zero (P p) ob /\ two_rays exts ob /\ v3dot (P p) (P p) <= 999999 * 999999;
  xp_second : forall p, linked fj p -> exists ft, hp_cells h !! p = Some ft /\ good_track ft /\
    (forall ob z, observed ft (fr_id fj) = Some ob -> ob !! 0%Z = Some z -> exists e, nth_error exts 0 = Some e /\ seen_from q1 p1 e (P p) z) /\
    (ft_status ft = FSolved -> linked fi p \/ ft_pw ft = P p) }.
(** Features that serve to find the second pose: seen by camera 0 in the second frame, and seen in the first frame or solved before. *)
Definition usable (h : heap R) (fi fj : frame R) (id : Z) : Prop :=
  exists p ft ob, fr_feats fj !! id = Some p /\ hp_cells h !! p = Some ft /\ (linked fi p \/ ft_status ft = FSolved) /\
    observed ft (fr_id fj) = Some ob /\ is_Some (ob !! 0%Z).
(** A decomposition that returns the right singular vector of the smallest singular value. *)
Definition exact_svd (svd : mat R -> nat -> R) : Prop := forall m, mc m = 4%nat -> smallest_singular m (svd m).

(** The refinement of the second camera pose, started at the first (specified by C54-C56). *)
Definition refine (o : boracle R) (e : extrinsic R) (q0 : quat R) (p3 : list (v3 R)) (p2 : list (v2 R)) : pnp_out R :=
  pnp_kernel pnp_default (bo_ldlt o) p3 p2 (mount_q q0 e) (mount_p q0 v3zero e).
(** Time between the frames. *)
Definition time_step (fi fj : frame R) : R := sof32 (f64_to_f32 (f64_sub (fr_ts fj) (fr_ts fi))).
