(** Specification of the reprojection error (C95). *)
From Coq Require Import Reals List Arith ZArith.
From stdpp Require Import gmap.
From Verif Require Import Fp Scalar Base LinAlg MathLib MatFacts Msg FeatureManager FrameManager Window Propagator VisionUpdate UpdSpec InjectSpec DerivSpec.
Import ListNotations.
Local Open Scope R_scope.

(** What is left of coordinate [r] of the image point [z] when the predicted image of the world point [pw] is taken off;
    the camera [e] is carried by the frame [f]. *)
Definition reproj (e : extrinsic R) (f : frame R) (pw : v3 R) (z : v2 R) (r : nat) : R :=
  let c := cam_point (fr_q f) (fr_p f) (ex_q e) (ex_p e) pw in
  match r with O => v2x z - v3x c / v3z c | _ => v2y z - v3y c / v3z c end.
(** The same in a state: frame [k] of the window, camera [cam]. *)
Definition reproj_in (s : vstate R) (k cam : nat) (pw : v3 R) (z : v2 R) (r : nat) : R :=
  match nth_error (vs_ext s) cam, nth_error (wn_frames (vs_win s)) k with
  | Some e, Some f => reproj e f pw z r
  | _, _ => 0
  end.
(** The error vector [dx] scaled by [t]. *)
Definition scaled (t : R) (dx : mat R) : mat R := Mat (mr dx) (mc dx) (fun i j => t * me dx i j).
