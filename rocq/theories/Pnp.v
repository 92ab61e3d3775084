(** PnPSolver: src/geometry/perspective_n_point.cpp, include/geometry/perspective_n_point.hpp. *)
From Coq Require Import ZArith List Bool Arith.
From Verif Require Import Fp Scalar Base LinAlg MathLib Triangulate.
Import ListNotations.

Section Pnp.
Context {T : Type} {S : SOps T}.
Local Open Scope sc_scope.

(** Parameters of the solver (perspective_n_point.hpp 12-20). *)
Record pnp_cfg := PnpCfg { pc_iter : nat; pc_eps : T; ra_thr : T; ra_iter : nat; ra_rate : T }.
(** Their default values; the backend never changes them. 1e-6f, 1e-3f, 0.9f. *)
Definition pnp_default : pnp_cfg :=
  PnpCfg 10 (sof32 (f32_lit 0x8637bd (-43))) (sof32 (f32_lit 0x83126f (-33))) 20 (sof32 (f32_lit 0xe66666 (-24))).

(** Huber (perspective_n_point.hpp 56-63). Not called anywhere. *)
Definition huber (param x : T) : T :=
  if param <? x then (s2 * ssqrt x * param - param * param) / x else s1.
(** Cauchy (perspective_n_point.hpp 66-74). *)
Definition cauchy (param x : T) : T :=
  let param2 := param * param in
  if param <? x then param2 * slog (s1 / param2 + s1) / x else s1.

(** p_c = q_wc.inverse() * (pts_3d[i] - p_wc) (perspective_n_point.cpp 32, 125, 157, 190). *)
Definition pnp_pc (q : quat T) (p pt : v3 T) : v3 T := qrot (qinv q) (v3sub pt p).
(** Vector2(p_c(0) / p_c(2), p_c(1) / p_c(2)) - pts_2d[i] (perspective_n_point.cpp 39-40, 126, 158, 197-198). *)
Definition pnp_res (q : quat T) (p pt : v3 T) (obs : v2 T) : v2 T :=
  let c := pnp_pc q p pt in v2sub (V2 (v3x c / v3z c) (v3y c / v3z c)) obs.

(** A row of jacobian_2d_3d times a 3x3 matrix (perspective_n_point.cpp 44-45). *)
Definition row_mul (r : v3 T) (m : m33 T) : v3 T :=
  V3 (v3dot r (m33row0 (m33t m))) (v3dot r (m33row1 (m33t m))) (v3dot r (m33row2 (m33t m))).
(** The 2x6 Jacobian of one point (perspective_n_point.cpp 36-37, 41-45). *)
Definition pnp_jac (q : quat T) (p pt : v3 T) : mat T :=
  let c := pnp_pc q p pt in
  let d := s1 / v3z c in
  let d2 := d * d in
  let r0 := V3 d s0 (- v3x c * d2) in
  let r1 := V3 s0 d (- v3y c * d2) in
  let R := m33opp (qmat (qinv q)) in
  let K := skew c in
  Mat 2 6 (fun i j =>
    let r := match i with O => r0 | _ => r1 end in
    if Nat.ltb j 3 then v3get (row_mul r R) j else v3get (row_mul r K) (j - 3)).

(** Gauss-Newton equations (perspective_n_point.cpp 26-49; with the weight, 184-210). [weight] is [None]
    in EstimatePose and the Cauchy weight of the residual norm in EstimatePoseKernel (205-206). *)
Definition pnp_accum (weight : option (T -> T)) (q : quat T) (p : v3 T) (acc : mat T * mat T) (pt : v3 T * v2 T)
    : mat T * mat T :=
  let '(H, b) := acc in
  if slt64 (sabs (v3z (pnp_pc q p (fst pt)))) d1em6 then acc
  else
    let J := pnp_jac q p (fst pt) in
    let r := pnp_res q p (fst pt) (snd pt) in
    let rm := Mat 2 1 (fun i _ => match i with O => v2x r | _ => v2y r end) in
    let dH := mmul (mtr J) J in
    let db := mmul (mopp (mtr J)) rm in
    match weight with
    | None => (madd H dH, madd b db)
    | Some w => let k := w (v2norm r) in
        (madd H (Mat 6 6 (fun i j => me dH i j * k)), madd b (Mat 6 1 (fun i j => me db i j * k)))
    end.
Definition pnp_normal (weight : option (T -> T)) (q : quat T) (p : v3 T) (pts : list (v3 T * v2 T)) : mat T * mat T :=
  fold_left (pnp_accum weight q p) pts (mzero 6 6, mzero 6 1).

(** dx.norm() of a 6-vector (perspective_n_point.cpp 53, 214). *)
Definition norm6 (x : nat -> T) : T := ssqrt (ssum 6 (fun i => x i * x i)).
(** dx.head<3>() and dx.tail<3>() (perspective_n_point.cpp 59-60, 220-221). *)
Definition head3 (x : nat -> T) : v3 T := V3 (x 0%nat) (x 1%nat) (x 2%nat).
Definition tail3 (x : nat -> T) : v3 T := V3 (x 3%nat) (x 4%nat) (x 5%nat).

(** Result of a refinement: returned boolean, q_wc, p_wc, and the number of loop passes (ghost). *)
Record pnp_out := PnpOut { po_ok : bool; po_q : quat T; po_p : v3 T; po_calls : nat }.

(** The loop of EstimatePose / EstimatePoseKernel (perspective_n_point.cpp 24-68, 182-229). [ldlt] stands
    for H.ldlt().solve(b); [k] is the pass counter. *)
Fixpoint pnp_loop (ldlt : mat T -> mat T -> nat -> T) (weight : option (T -> T)) (eps : T) (pts : list (v3 T * v2 T))
    (iter : nat) (k : nat) (q : quat T) (p : v3 T) : pnp_out :=
  match iter with
  | O => PnpOut true q p k
  | Datatypes.S it =>
    let '(H, b) := pnp_normal weight q p pts in
    let dx := ldlt H b in
    let n := norm6 dx in
    if sisnan n then PnpOut false q p (Datatypes.S k)
    else
      let p' := v3add p (head3 dx) in
      let q' := qnormalize (qmul q (delta_q (tail3 dx))) in
      if n <? eps then PnpOut true q' p' (Datatypes.S k)
      else pnp_loop ldlt weight eps pts it (Datatypes.S k) q' p'
  end.

(** EstimatePose (perspective_n_point.cpp 10-69). *)
Definition pnp_estimate (cfg : pnp_cfg) (ldlt : mat T -> mat T -> nat -> T) (pts_3d : list (v3 T)) (pts_2d : list (v2 T))
    (q : quat T) (p : v3 T) : pnp_out :=
  if (negb (Nat.eqb (length pts_3d) (length pts_2d)) || Nat.eqb (length pts_3d) 0)%bool then PnpOut false q p 0
  else pnp_loop ldlt None (pc_eps cfg) (combine pts_3d pts_2d) (pc_iter cfg) 0 q p.
(** EstimatePoseKernel (perspective_n_point.cpp 168-230). *)
Definition pnp_kernel (cfg : pnp_cfg) (ldlt : mat T -> mat T -> nat -> T) (pts_3d : list (v3 T)) (pts_2d : list (v2 T))
    (q : quat T) (p : v3 T) : pnp_out :=
  if (negb (Nat.eqb (length pts_3d) (length pts_2d)) || Nat.eqb (length pts_3d) 0)%bool then PnpOut false q p 0
  else pnp_loop ldlt (Some (cauchy s1)) (pc_eps cfg) (combine pts_3d pts_2d) (pc_iter cfg) 0 q p.
(** EstimatePoseP3P (perspective_n_point.cpp 73-83): only checks the sizes. *)
Definition pnp_p3p (pts_3d : list (v3 T)) (pts_2d : list (v2 T)) (q : quat T) (p : v3 T) : pnp_out :=
  if (negb (Nat.eqb (length pts_3d) (length pts_2d)) || Nat.ltb (length pts_3d) 3)%bool then PnpOut false q p 0
  else PnpOut true q p 0.

(** ** RANSAC *)
(** std::set<uint32_t>::insert (perspective_n_point.cpp 101, 112): ascending order, no duplicates. *)
Fixpoint set_insert (x : nat) (s : list nat) : list nat :=
  match s with
  | [] => [x]
  | y :: r => if Nat.ltb x y then x :: s else if Nat.eqb x y then s else y :: set_insert x r
  end.
(** The draw of three indices (perspective_n_point.cpp 111-113). [rnd] is the sequence of values of
    std::rand(), [pos] the number of values consumed. [None]: still drawing after [fuel] draws. *)
Fixpoint ra_draw (fuel : nat) (rnd : nat -> nat) (n : nat) (pos : nat) (s : list nat) : option (list nat * nat) :=
  if Nat.ltb (length s) 3 then
    match fuel with
    | O => None
    | Datatypes.S f => ra_draw f rnd n (Datatypes.S pos) (set_insert (Nat.modulo (rnd pos) n) s)
    end
  else Some (s, pos).

(** r.squaredNorm() of a point under a pose (perspective_n_point.cpp 125-127, 157-159). *)
Definition pnp_err (q : quat T) (p : v3 T) (pt : v3 T * v2 T) : T :=
  let r := pnp_res q p (fst pt) (snd pt) in v2dot r r.
(** Number of points below the threshold (perspective_n_point.cpp 123-130). *)
Definition ra_score (thr : T) (pts : list (v3 T * v2 T)) (q : quat T) (p : v3 T) : nat :=
  length (List.filter (fun pt => pnp_err q p pt <? thr) pts).

(** subPts3d / subPts2d (perspective_n_point.cpp 114-117). *)
Fixpoint pick {A} (l : list A) (ix : list nat) : out (list A) :=
  match ix with
  | [] => Ok []
  | i :: r => let! x := at_ l i in let! t := pick l r in Ok (x :: t)
  end.

(** Result of RANSAC: pose left in q_wc / p_wc, the number of random values consumed, and (ghost) the
    models tried, in order. *)
Record ra_out := RaOut { ro_ok : bool; ro_q : quat T; ro_p : v3 T; ro_pos : nat; ro_tried : list (quat T * v3 T) }.

(** The RANSAC loop (perspective_n_point.cpp 106-142); bq, bp, bs are best_q_wc, best_p_wc, best_score. *)
Fixpoint ra_loop (fuel : nat) (cfg : pnp_cfg) (ldlt : mat T -> mat T -> nat -> T) (rnd : nat -> nat)
    (pts_3d : list (v3 T)) (pts_2d : list (v2 T)) (iter : nat) (bq : quat T) (bp : v3 T) (bs : nat)
    (q : quat T) (p : v3 T) (pos : nat) (tried : list (quat T * v3 T)) : out (option ra_out) :=
  match iter with
  | O => Ok (Some (RaOut true q p pos tried))
  | Datatypes.S it =>
    match ra_draw fuel rnd (length pts_3d) pos [] with
    | None => Ok None
    | Some (ix, pos') =>
      let! s3 := pick pts_3d ix in
      let! s2d := pick pts_2d ix in
      let e := pnp_estimate cfg ldlt s3 s2d bq bp in
      let q' := po_q e in let p' := po_p e in
      let score := ra_score (ra_thr cfg) (combine pts_3d pts_2d) q' p' in
      let better := Nat.ltb bs score in
      let bq' := if better then q' else bq in
      let bp' := if better then p' else bp in
      let bs' := if better then score else bs in
      let tried' := tried ++ [(q', p')] in
      let rate := sof32 (f32_of_Z (Z.of_nat score)) / sof32 (f32_of_Z (Z.of_nat (length pts_3d))) in
      if ra_rate cfg <? rate then Ok (Some (RaOut true q' p' pos' tried'))
      else ra_loop fuel cfg ldlt rnd pts_3d pts_2d it bq' bp' bs' q' p' pos' tried'
    end
  end.

(** EstimatePoseRANSAC (perspective_n_point.cpp 87-144); [pos]: random values consumed before the call. *)
Definition pnp_ransac (fuel : nat) (cfg : pnp_cfg) (ldlt : mat T -> mat T -> nat -> T) (rnd : nat -> nat) (pos : nat)
    (pts_3d : list (v3 T)) (pts_2d : list (v2 T)) (q : quat T) (p : v3 T) : out (option ra_out) :=
  if (negb (Nat.eqb (length pts_3d) (length pts_2d)) || Nat.eqb (length pts_3d) 0)%bool
  then Ok (Some (RaOut false q p pos []))
  else ra_loop fuel cfg ldlt rnd pts_3d pts_2d (ra_iter cfg) q p 0 q p pos [].

(** isInlier.resize(n, true) (perspective_n_point.cpp 155): existing elements are kept. *)
Definition resize_true (flags : list bool) (n : nat) : list bool := firstn n flags ++ repeat true (n - length flags).
(** The overload with inlier flags (perspective_n_point.cpp 149-164). *)
Definition pnp_ransac_flags (fuel : nat) (cfg : pnp_cfg) (ldlt : mat T -> mat T -> nat -> T) (rnd : nat -> nat)
    (pos : nat) (pts_3d : list (v3 T)) (pts_2d : list (v2 T)) (q : quat T) (p : v3 T) (flags : list bool)
    : out (option (ra_out * list bool)) :=
  let! r := pnp_ransac fuel cfg ldlt rnd pos pts_3d pts_2d q p in
  Ok (match r with
      | None => None
      | Some o =>
        if ro_ok o then
          Some (o, map (fun x : bool * (v3 T * v2 T) =>
                     if ra_thr cfg <=? pnp_err (ro_q o) (ro_p o) (snd x) then false else fst x)
                   (combine (resize_true flags (length pts_3d)) (combine pts_3d pts_2d)))
        else Some (o, flags)
      end).

End Pnp.
Arguments pnp_cfg : clear implicits. Arguments pnp_out : clear implicits. Arguments ra_out : clear implicits.
