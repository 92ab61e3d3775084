(** The test programs of the geometry module: apps/test_trianglate.cpp and apps/test_pnp.cpp. *)
From Coq Require Import ZArith List Bool Arith.
From Verif Require Import Fp Scalar Base LinAlg MathLib Triangulate Pnp Config.
Import ListNotations.

Section AppGeometry.
Context {T : Type} {S : SOps T}.
(** std::cos and std::sin on Scalar, also those inside Eigen's AngleAxis (test_trianglate.cpp 27-28, 56-57): libm functions. *)
Context (scos ssin : T -> T).
Local Open Scope sc_scope.

(** An integer converted to Scalar (test_trianglate.cpp 17, 22; test_pnp.cpp 21, 28, 41). *)
Definition s_of_Z (z : Z) : T := sof32 (f32_of_Z z).
(** M_PI (test_trianglate.cpp 24, 53): the double 0x1.921fb54442d18p+1. *)
Definition m_pi : f64 := f64_lit 0x1921fb54442d18 (-51).
(** p_w (test_trianglate.cpp 17, 46). *)
Definition tt_pw : v3 T := V3 (s_of_Z 2) (s_of_Z 2) (s_of_Z 2).
(** theta = n * 2 * M_PI / (poseNums * 16) in double, narrowed to Scalar (test_trianglate.cpp 24, 53). *)
Definition tt_theta (n : nat) : T :=
  sof32 (f64_to_f32 (f64_div (f64_mul (f64_of_Z (u32 (Z.of_nat n * 2))) m_pi) (f64_of_Z (u32 (6 * 16))))).
(** R_cw = AngleAxis(theta, UnitZ()) (test_trianglate.cpp 27, 56): Eigen's toRotationMatrix. *)
Definition tt_Rcw (theta : T) : m33 T :=
  let c := scos theta in
  let ux := s0 in let uy := s0 in let uz := s1 in
  let sx := ssin theta * ux in let sy := ssin theta * uy in let sz := ssin theta * uz in
  let cx := (s1 - c) * ux in let cy := (s1 - c) * uy in let cz := (s1 - c) * uz in
  M33 (cx * ux + c) (cx * uy - sz) (cx * uz + sy)
      (cx * uy + sz) (cy * uy + c) (cy * uz - sx)
      (cx * uz - sy) (cy * uz + sx) (cz * uz + c).
(** p_cw (test_trianglate.cpp 22, 28, 51, 57). Should cos and sin resolve to the double versions, the sums are in double and narrowed
    once; over the reals there is no difference. *)
Definition tt_pcw (theta : T) : v3 T :=
  let radius := s_of_Z 8 in
  V3 (radius * scos theta - radius) (radius * ssin theta) (s1 * ssin (s2 * theta)).
(** p_c and what pass n appends to observe_vec, q_wc_vec and p_wc_vec (test_trianglate.cpp 30-33, 58-61). *)
Definition tt_observe (n : nat) : v2 T :=
  let p_c := v3add (m33mulv (tt_Rcw (tt_theta n)) tt_pw) (tt_pcw (tt_theta n)) in
  V2 (v3x p_c / v3z p_c) (v3y p_c / v3z p_c).
Definition tt_qwc (n : nat) : quat T := quat_of_mat (mat_of_m33 (m33t (tt_Rcw (tt_theta n)))).
Definition tt_pwc (n : nat) : v3 T := m33mulv (m33opp (m33t (tt_Rcw (tt_theta n)))) (tt_pcw (tt_theta n)).
(** The loop over the poses (test_trianglate.cpp 23-34, 52-62). *)
Definition tt_ns : list nat := seq 0 6.

(** TestTrianglateAnalytic (test_trianglate.cpp 14-41): the two points printed. [junk] is the content of the uninitialized
    res_p_w of line 36; the boolean returned by the solver is dropped (line 37). *)
Definition app_tri_analytic (svd : mat T -> nat -> T) (junk : v3 T) : out (v3 T * v3 T) :=
  let! r := tri_analytic svd (map tt_qwc tt_ns) (map tt_pwc tt_ns) (map tt_observe tt_ns) junk in
  Ok (tt_pw, snd r).
(** p_w_noise (test_trianglate.cpp 64): the double 0.4 narrowed to Scalar, 0x1.99999ap-2. *)
Definition tt_noise : v3 T := let x := sof32 (f32_lit 0xcccccd (-25)) in V3 x x x.
(** TestTrianglateIterative (test_trianglate.cpp 44-71): the two points printed; both are res_p_w (line 69). *)
Definition app_tri_iterative (fuel : nat) (ldlt : m33 T -> v3 T -> v3 T) : out (option (v3 T * v3 T)) :=
  let! r := tri_iterative fuel ldlt (map tt_qwc tt_ns) (map tt_pwc tt_ns) (map tt_observe tt_ns) (v3add tt_pw tt_noise) in
  Ok (match r with None => None | Some (_, res, _) => Some (res, res) end).

(** ** test_pnp.cpp *)
(** pts_3d (test_pnp.cpp 17-24); k * 2.0 is a double narrowed to Scalar. *)
Definition tp_pts : list (v3 T) :=
  flat_map (fun i => flat_map (fun j => map (fun k =>
    V3 (s_of_Z (Z.of_nat i)) (s_of_Z (Z.of_nat j)) (s_of_Z (Z.of_nat k * 2))) (seq 1 9)) (seq 1 9)) (seq 1 9).
(** R_wc and p_wc (test_pnp.cpp 27-28). *)
Definition tp_R : m33 T := m33id.
Definition tp_p : v3 T := V3 (s_of_Z 1) (s_of_Z (-3)) (s_of_Z 0).
(** The loop over the points (test_pnp.cpp 31-35). *)
Definition tp_image (pt : v3 T) : v2 T :=
  let p_c := m33mulv (m33t tp_R) (v3sub pt tp_p) in V2 (v3x p_c / v3z p_c) (v3y p_c / v3z p_c).
(** pts_2d[idx](0, 0) = 10 (test_pnp.cpp 41). *)
Fixpoint tp_spoil (l : list (v2 T)) (i : nat) : out (list (v2 T)) :=
  match l, i with
  | [], _ => Ub UbIndex
  | o :: r, O => Ok (V2 (s_of_Z 10) (v2y o) :: r)
  | o :: r, Datatypes.S k => let! r' := tp_spoil r k in Ok (o :: r')
  end.
(** The loop over the outliers (test_pnp.cpp 38-43): pts_3d.size() / 100 passes, [rnd] is the sequence of values of rand(), of which
    [pos] are consumed. Returns pts_2d and outliersIndex. *)
Fixpoint tp_outliers (k pos : nat) (rnd : nat -> nat) (n : nat) (obs : list (v2 T)) (ix : list nat) : out (list (v2 T) * list nat) :=
  match k with
  | O => Ok (obs, ix)
  | Datatypes.S k' =>
    let idx := Nat.modulo (rnd pos) n in
    let! obs' := tp_spoil obs idx in
    tp_outliers k' (Datatypes.S pos) rnd n obs' (ix ++ [idx])
  end.
(** pts_2d and outliersIndex before the solvers are called (test_pnp.cpp 31-43). *)
Definition tp_count : nat := length tp_pts / 100.
Definition tp_data (rnd : nat -> nat) : out (list (v2 T) * list nat) :=
  tp_outliers tp_count 0 rnd (length tp_pts) (map tp_image tp_pts) [].
(** main (test_pnp.cpp 45-80): the three poses printed, each refined from the identity at the origin. The booleans are dropped; the
    timer is not modelled. [None]: RANSAC still drawing. *)
Definition app_pnp (fuel : nat) (ldlt : mat T -> mat T -> nat -> T) (rnd : nat -> nat)
    : out (option ((quat T * v3 T) * (quat T * v3 T) * (quat T * v3 T))) :=
  let! d := tp_data rnd in
  let a := pnp_estimate pnp_default ldlt tp_pts (fst d) qid v3zero in
  let b := pnp_kernel pnp_default ldlt tp_pts (fst d) qid v3zero in
  let! r := pnp_ransac fuel pnp_default ldlt rnd tp_count tp_pts (fst d) qid v3zero in
  Ok (match r with
      | None => None
      | Some o => Some ((po_q a, po_p a), (po_q b, po_p b), (ro_q o, ro_p o))
      end).

End AppGeometry.
