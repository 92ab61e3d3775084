(** Trianglator: src/geometry/trianglation.cpp, include/geometry/trianglation.hpp. *)
From Coq Require Import ZArith List Bool Arith.
From Verif Require Import Fp Scalar Base LinAlg MathLib.
Import ListNotations.

Section Triangulate.
Context {T : Type} {S : SOps T}.
Local Open Scope sc_scope.

(** One observation: q_wc[i], p_wc[i] and norm[i] of the three parallel vectors (trianglation.cpp 21-23). *)
Definition view := (quat T * v3 T * v2 T)%type.

(** The loops run over q_wc.size() and index the other two vectors (trianglation.cpp 30-34, 74-78):
    a shorter p_wc or norm is read out of range. *)
Fixpoint views (q_wc : list (quat T)) (p_wc : list (v3 T)) (norm : list (v2 T)) : out (list view) :=
  match q_wc, p_wc, norm with
  | [], _, _ => Ok []
  | q :: qs, p :: ps, n :: ns => let! r := views qs ps ns in Ok ((q, p, n) :: r)
  | _ :: _, _, _ => Ub UbIndex
  end.

(** pose = TransformMatrix(q_wc[i].inverse(), -(q_wc[i].inverse() * p_wc[i])) (trianglation.cpp 31). *)
Definition tri_pose (v : view) : mat T :=
  let '(q, p, _) := v in transform_matrix (qinv q) (v3opp (qrot (qinv q) p)).
(** A.row(2 * i) and A.row(2 * i + 1) (trianglation.cpp 32-33). *)
Definition tri_row_x (v : view) (j : nat) : T :=
  let '(_, _, n) := v in v2x n * me (tri_pose v) 2 j - me (tri_pose v) 0 j.
Definition tri_row_y (v : view) (j : nat) : T :=
  let '(_, _, n) := v in v2y n * me (tri_pose v) 2 j - me (tri_pose v) 1 j.
(** analyticTemp.A: 2 * num rows, 4 columns (trianglation.cpp 29-34). *)
Definition tri_A (vs : list view) : mat T :=
  Mat (length vs * 2) 4 (fun i j =>
    match nth_error vs (i / 2) with
    | Some v => if Nat.even i then tri_row_x v j else tri_row_y v j
    | None => s0
    end).

(** p_c = q_wc[i].inverse() * (p_w - p_wc[i]) (trianglation.cpp 43). *)
Definition tri_pc (p_w : v3 T) (v : view) : v3 T := let '(q, p, _) := v in qrot (qinv q) (v3sub p_w p).

(** The double 1e-6 (trianglation.cpp 38; perspective_n_point.cpp 33, 191): 0x1.0c6f7a0b5ed8dp-20. *)
Definition d1em6 : f64 := f64_1e_6.

(** TrianglateAnalytic (trianglation.cpp 21-49). [svd] stands for the last column of the matrix V of
    Eigen's jacobiSvd (line 35). Returns the boolean and the value left in p_w: line 41 writes p_w before
    the depth test of lines 42-47. *)
Definition tri_analytic (svd : mat T -> nat -> T) (q_wc : list (quat T)) (p_wc : list (v3 T)) (norm : list (v2 T))
    (p_w : v3 T) : out (bool * v3 T) :=
  if Nat.ltb (length q_wc) 2 then Ok (false, p_w)
  else
    let! vs := views q_wc p_wc norm in
    let x := svd (tri_A vs) in
    if slt64 (sabs (x 3%nat)) d1em6 then Ok (false, p_w)
    else
      let p := v3div (V3 (x 0%nat) (x 1%nat) (x 2%nat)) (x 3%nat) in
      if existsb (fun v => v3z (tri_pc p v) <? s0) vs then Ok (false, p) else Ok (true, p).

(** ComputeResidual (trianglation.cpp 179-186). *)
Definition tri_residual (q_cw : quat T) (p_cw p_w : v3 T) (obs : v2 T) : T :=
  let p_c := v3add (qrot q_cw p_w) p_cw in
  let r := v2sub (V2 (v3x p_c / v3z p_c) (v3y p_c / v3z p_c)) obs in
  v2dot r r.

(** q_cw[i] and p_cw[i] (trianglation.cpp 75-76), with norm[i]. *)
Definition tri_cw (v : view) : view := let '(q, p, n) := v in (qinv q, qrot (qinv q) (v3opp p), n).

(** Sum of the squared residuals in view order (trianglation.cpp 73-78, 112-115). *)
Definition tri_cost (cw : list view) (p_w : v3 T) : T :=
  fold_left (fun acc v => let '(q, p, n) := v in acc + tri_residual q p p_w n) cw s0.

(** (a, b, c) -> (a / c, b / c, 1 / c): both directions of the inverse depth parametrization
    (trianglation.cpp 57, 108-110, 123, 132). The double division 1.0 / c narrowed to float equals the
    float division (a 53-bit intermediate makes the double rounding of a float quotient harmless). *)
Definition inv_depth (x : v3 T) : v3 T := V3 (v3x x / v3z x) (v3y x / v3z x) (s1 / v3z x).

(** Huber threshold 0.01f (trianglation.cpp 145): 0x1.47ae14p-7. *)
Definition huber_eps : T := sof32 (f32_lit 0xa3d70a (-30)).

(** CumputeJacobian (trianglation.cpp 138-176): the two rows of J, r and w. *)
Definition tri_jacobian (q : quat T) (t x : v3 T) (z : v2 T) : v3 T * v3 T * v2 T * T :=
  let R := qmat q in
  let h := v3add (m33mulv R (V3 (v3x x) (v3y x) s1)) (V3 (v3z x * v3x t) (v3z x * v3y t) (v3z x * v3z t)) in
  let h1 := v3x h in let h2 := v3y h in let h3 := v3z h in
  let W0 := V3 (m00 R) (m01 R) (v3x t) in
  let W1 := V3 (m10 R) (m11 R) (v3y t) in
  let W2 := V3 (m20 R) (m21 R) (v3z t) in
  let row a W :=
    V3 (s1 / h3 * v3x W - a / (h3 * h3) * v3x W2)
       (s1 / h3 * v3y W - a / (h3 * h3) * v3y W2)
       (s1 / h3 * v3z W - a / (h3 * h3) * v3z W2) in
  let r := v2sub (V2 (h1 / h3) (h2 / h3)) z in
  let e := v2norm r in
  let w := if e <=? huber_eps then s1 else ssqrtq64 (s2 * huber_eps) e in
  (row h1 W0, row h2 W1, r, w).

(** J^T * J and J^T * r of a 2x3 Jacobian given by its rows, each row of J^T scaled by k first
    (trianglation.cpp 93-98). *)
Definition jtj (k : T -> T) (a b : v3 T) : m33 T :=
  let e x1 y1 x2 y2 := k x1 * x2 + k y1 * y2 in
  M33 (e (v3x a) (v3x b) (v3x a) (v3x b)) (e (v3x a) (v3x b) (v3y a) (v3y b)) (e (v3x a) (v3x b) (v3z a) (v3z b))
      (e (v3y a) (v3y b) (v3x a) (v3x b)) (e (v3y a) (v3y b) (v3y a) (v3y b)) (e (v3y a) (v3y b) (v3z a) (v3z b))
      (e (v3z a) (v3z b) (v3x a) (v3x b)) (e (v3z a) (v3z b) (v3y a) (v3y b)) (e (v3z a) (v3z b) (v3z a) (v3z b)).
Definition jtr (k : T -> T) (a b : v3 T) (r : v2 T) : v3 T :=
  V3 (k (v3x a) * v2x r + k (v3x b) * v2y r)
     (k (v3y a) * v2x r + k (v3y b) * v2y r)
     (k (v3z a) * v2x r + k (v3z b) * v2y r).

(** Normal equations of one outer pass (trianglation.cpp 82-100). [w == 1] is [w <= 1 && 1 <= w]. *)
Definition tri_normal (cw : list view) (sol : v3 T) : m33 T * v3 T :=
  fold_left (fun acc v =>
    let '(q, t, n) := v in
    let '(A, b) := acc in
    let '(j0, j1, r, w) := tri_jacobian q t sol n in
    if ((w <=? s1) && (s1 <=? w))%bool
    then (m33add A (jtj (fun x => x) j0 j1), v3add b (jtr (fun x => x) j0 j1 r))
    else let w2 := w * w in (m33add A (jtj (fun x => w2 * x) j0 j1), v3add b (jtr (fun x => w2 * x) j0 j1 r)))
    cw (M33 s0 s0 s0 s0 s0 s0 s0 s0 s0, v3zero).

(** Variables of the Levenberg-Marquardt loops (trianglation.cpp 57, 66-73). [lm_calls] counts the
    evaluations of the inner body (lines 105-125); it is a ghost counter. *)
Record lm := Lm {
  lm_sol : v3 T; lm_pw : v3 T; lm_lambda : T; lm_cost : T; lm_dnorm : T; lm_reduced : bool; lm_calls : nat
}.

(** 1e-3f, 10.0f, the doubles 1e-10, 1e12, 5e-7 and the floats the first two are narrowed to
    (trianglation.cpp 18, 66, 120, 124): 0x1.0624dep-10, 0x1.b7cdfd9d7bdbbp-34 -> 0x1.b7cdfep-34,
    1e12 -> 0x1.d1a94ap+39, 0x1.0c6f7a0b5ed8dp-21. *)
Definition lambda0 : T := sof32 (f32_lit 0x83126f (-33)).
Definition sten : T := sof32 (f32_lit 10 0).
Definition d1em10 : f64 := f64_lit 7737125245533627 (-86).
Definition s1em10 : T := sof32 (f32_lit 0xdbe6ff (-57)).
Definition d1e12 : f64 := f64_lit 1000000000000 0.
Definition s1e12 : T := sof32 (f32_lit 0xe8d4a5 16).
Definition d5em7 : f64 := f64_lit 4722366482869645 (-73).

(** Body of the inner loop (trianglation.cpp 105-125); [ldlt] stands for A.ldlt().solve(b). *)
Definition lm_body (ldlt : m33 T -> v3 T -> v3 T) (cw : list view) (A : m33 T) (b : v3 T) (s : lm) : lm :=
  let delta := ldlt (m33add A (m33scale (lm_lambda s) m33id)) b in
  let sol' := v3sub (lm_sol s) delta in
  let p := inv_depth sol' in
  let cost' := tri_cost cw p in
  if cost' <? lm_cost s then
    Lm sol' p (if sgt64 (lm_lambda s / sten) d1em10 then lm_lambda s / sten else s1em10)
       cost' (v3norm delta) true (Datatypes.S (lm_calls s))
  else
    Lm (lm_sol s) (inv_depth (lm_sol s)) (if slt64 (lm_lambda s * sten) d1e12 then lm_lambda s * sten else s1e12)
       (lm_cost s) (v3norm delta) false (Datatypes.S (lm_calls s)).

(** Inner do-while (trianglation.cpp 104-126): [cntr] is inner_loop_cntr, the post-increment is in the
    condition. [None]: still running after [fuel] passes. *)
Fixpoint lm_inner (fuel : nat) (ldlt : m33 T -> v3 T -> v3 T) (cw : list view) (A : m33 T) (b : v3 T)
    (cntr : nat) (s : lm) : option lm :=
  match fuel with
  | O => None
  | Datatypes.S f =>
    let s' := lm_body ldlt cw A b s in
    if (Nat.ltb cntr 10 && negb (lm_reduced s'))%bool
    then lm_inner f ldlt cw A b (Datatypes.S cntr) s'
    else Some s'
  end.

(** Outer do-while (trianglation.cpp 81-128); [fi] is the fuel of each inner loop. *)
Fixpoint lm_outer (fuel fi : nat) (ldlt : m33 T -> v3 T -> v3 T) (cw : list view) (cntr : nat) (s : lm) : option lm :=
  match fuel with
  | O => None
  | Datatypes.S f =>
    let '(A, b) := tri_normal cw (lm_sol s) in
    match lm_inner fi ldlt cw A b 0 s with
    | None => None
    | Some s' =>
      if (Nat.ltb cntr 10 && sgt64 (lm_dnorm s') d5em7)%bool
      then lm_outer f fi ldlt cw (Datatypes.S cntr) s'
      else Some s'
    end
  end.

(** TrianglateIterative (trianglation.cpp 53-135). The result is [None] while the loops have not ended
    within the fuel; otherwise the boolean, p_w and the number of inner passes. *)
Definition tri_iterative (fuel : nat) (ldlt : m33 T -> v3 T -> v3 T) (q_wc : list (quat T)) (p_wc : list (v3 T))
    (norm : list (v2 T)) (p_w : v3 T) : out (option (bool * v3 T * nat)) :=
  let! vs := views q_wc p_wc norm in
  let cw := map tri_cw vs in
  Ok (match lm_outer fuel fuel ldlt cw 0 (Lm (inv_depth p_w) p_w lambda0 (tri_cost cw p_w) s0 false 0) with
      | None => None
      | Some s => Some (true, inv_depth (lm_sol s), lm_calls s)
      end).

End Triangulate.
Arguments lm : clear implicits. Arguments view : clear implicits.
