(** Configurator and Backend::ConfigParams: include/config/config.hpp, src/config/config.cpp,
    src/backend/backend_config.cpp. *)
From Coq Require Import ZArith List Bool Arith.
From Flocq Require Import IEEE754.BinarySingleNaN.
From stdpp Require Import gmap.
From Verif Require Import Fp Scalar Base LinAlg Msg DataLoader FeatureManager FrameManager Window MathLib Attitude Propagator
  Triangulate Pnp VisionUpdate Backend.
Import ListNotations.
Local Open Scope nat_scope.

(** ** Files *)

(** What [>> x] meets next in a line (config.cpp 122): text that converts to a number, or text that does not, in
    which case the given value is stored (zero, or the largest number on overflow; C++11 num_get) and the stream
    fails for the rest of the line. How text converts is library code: the tokens are the input of the model. *)
Inductive tok (T : Type) := TNum (x : T) | TBad (x : T).
Arguments TNum {T}. Arguments TBad {T}.
(** A line read by std::getline (config.cpp 119): None when it is empty, else its tokens; a line of blanks is
    [Some []]. *)
Definition line (T : Type) := option (list (tok T)).
Definition cfile (T : Type) := list (line T).
(** The names ReadConfigParams opens (config.cpp 20, 25, 33, 39, 47, 56, 61, 66). *)
Inductive fname := FFreq | FNoise | FBias | FGrav | FCam (n : Z) | FWin | FVis | FKey.
(** The directory: file contents, None when the file cannot be opened. The camera files are finitely many. *)
Record cdir (T : Type) := CDir { cd_file : fname -> option (cfile T); cd_cams : gmap Z (cfile T) }.
Arguments CDir {T}. Arguments cd_file {T}. Arguments cd_cams {T}.

(** ** Parameters *)

(** Configurator::imu and Configurator::vision (config.hpp 10-38); [general] is never read. *)
Record config (T : Type) := Config {
  cf_na : T; cf_ng : T; cf_nwa : T; cf_nwg : T; cf_grav : T; cf_ba : v3 T; cf_bg : v3 T; cf_period : T;
  cf_sigma : T; cf_maxframe : Z; cf_maxfeat : Z; cf_ncam : Z; cf_mintrack : Z; cf_minpar : T; cf_maxtrans : T;
  cf_q : list (quat T); cf_p : list (v3 T) }.
Arguments Config {T}. Arguments cf_na {T}. Arguments cf_ng {T}. Arguments cf_nwa {T}. Arguments cf_nwg {T}. Arguments cf_grav {T}.
Arguments cf_ba {T}. Arguments cf_bg {T}. Arguments cf_period {T}. Arguments cf_sigma {T}. Arguments cf_maxframe {T}.
Arguments cf_maxfeat {T}. Arguments cf_ncam {T}. Arguments cf_mintrack {T}. Arguments cf_minpar {T}. Arguments cf_maxtrans {T}.
Arguments cf_q {T}. Arguments cf_p {T}.

(** float to uint32_t (config.cpp 57, 67): truncation; undefined when the result does not fit. *)
Definition f32_u32 (x : f32) : option Z :=
  match x with
  | B754_zero _ => Some 0%Z
  | B754_finite s m e _ =>
      let z := match e with Z0 => Zpos m | Zpos k => (Zpos m * 2 ^ Zpos k)%Z | Zneg k => (Zpos m / 2 ^ Zpos k)%Z end in
      if (if s then (z =? 0)%Z else (z <? 4294967296)%Z) then Some z else None
  | _ => None
  end.

Section Config.
Context {T : Type} {S : SOps T}.
Local Open Scope sc_scope.

(** Default member initialisers (config.hpp 11-34). *)
Definition cfg0 : config T := Config
  (sof32 (f32_lit 0x9ba5e3 (-29))) (sof32 (f32_lit 0xf5c28f (-30))) (sof32 (f32_lit 0x83126f (-33))) (sof32 (f32_lit 0xd1b717 (-37)))
  (sof32 (f32_lit 0x9ccccd (-20))) v3zero v3zero (sof32 (f32_lit 0xa3d70a (-31)))
  (sof32 (f32_lit 0x8e77fd (-32))) 6%Z 30%Z 2%Z 25%Z (sof32 (f32_lit 0xcccccd (-26))) (sof32 (f32_lit 0xcccccd (-27))) [] [].

(** Matrix::resize (Eigen; config.cpp 117): the storage, in column-major order, is kept when the number of entries
    does not change, and new otherwise. *)
Definition mresize (junk : nat -> nat -> T) (rows cols : nat) (m : mat T) : mat T :=
  Mat rows cols (if Nat.eqb (mr m * mc m) (rows * cols)
    then fun i j => let k := (i + j * rows)%nat in me m (Nat.modulo k (mr m)) (Nat.div k (mr m)) else junk).
(** Assignment to one entry (config.cpp 122). *)
Definition mset (m : mat T) (i j : nat) (x : T) : mat T :=
  Mat (mr m) (mc m) (fun a b => if Nat.eqb a i && Nat.eqb b j then x else me m a b).
(** The loop over the columns (config.cpp 121-123) from column [col] on, [n] columns left. The reference
    mat(row, col) is formed even when the stream has already failed; Eigen requires row and col in range. *)
Fixpoint read_row (m : mat T) (row col n : nat) (toks : list (tok T)) : out (mat T) :=
  match n with
  | O => Ok m
  | Datatypes.S n' =>
      if Nat.ltb row (mr m) && Nat.ltb col (mc m) then
        match toks with
        | [] => read_row m row (col + 1) n' []
        | TNum x :: r => read_row (mset m row col x) row (col + 1) n' r
        | TBad x :: _ => read_row (mset m row col x) row (col + 1) n' []
        end
      else Ub UbIndex
  end.
(** The loop over the lines (config.cpp 119-125). *)
Fixpoint read_rows (m : mat T) (row cols : nat) (ls : cfile T) : out (mat T) :=
  match ls with
  | [] | None :: _ => Ok m
  | Some toks :: r => let! m' := read_row m row 0 cols toks in read_rows m' (row + 1) cols r
  end.
(** LoadMatrix (config.cpp 110-127). *)
Definition load_matrix (junk : nat -> nat -> T) (f : option (cfile T)) (rows cols : nat) (m : mat T) : out (mat T * bool) :=
  match f with
  | None => Ok (m, false)
  | Some ls => let! m' := read_rows (mresize junk rows cols m) 0 cols ls in Ok (m', true)
  end.

(** Quaternion(Matrix3) (Eigen, QuaternionBase::operator=, the algorithm of Ken Shoemake; config.cpp 49). *)
Definition quat_of_mat (m : mat T) : quat T :=
  let a i j := me m i j in
  let t := a 0 0 + (a 1 1 + a 2 2) in
  if s0 <? t then
    let r := ssqrt (t + s1) in let k := shalf / r in
    Quat (shalf * r) ((a 2 1 - a 1 2) * k) ((a 0 2 - a 2 0) * k) ((a 1 0 - a 0 1) * k)
  else
    let i := if a 0 0 <? a 1 1 then 1 else 0 in let i := if a i i <? a 2 2 then 2 else i in
    let j := Nat.modulo (i + 1) 3 in let k := Nat.modulo (j + 1) 3 in
    let r := ssqrt (a i i - a j j - a k k + s1) in let h := shalf / r in
    let ci := shalf * r in let cj := (a j i + a i j) * h in let ck := (a k i + a i k) * h in
    let w := (a k j - a j k) * h in
    match i with 0 => Quat w ci cj ck | 1 => Quat w ck ci cj | _ => Quat w cj ck ci end.

(** Assignments to the fields of Configurator (config.cpp 21, 26-29, 34-35, 40, 57, 62, 67-69). *)
Definition set_period (c : config T) (x : T) : config T :=
  Config (cf_na c) (cf_ng c) (cf_nwa c) (cf_nwg c) (cf_grav c) (cf_ba c) (cf_bg c) x (cf_sigma c) (cf_maxframe c) (cf_maxfeat c)
    (cf_ncam c) (cf_mintrack c) (cf_minpar c) (cf_maxtrans c) (cf_q c) (cf_p c).
Definition set_noise (c : config T) (na ng nwa nwg : T) : config T :=
  Config na ng nwa nwg (cf_grav c) (cf_ba c) (cf_bg c) (cf_period c) (cf_sigma c) (cf_maxframe c) (cf_maxfeat c)
    (cf_ncam c) (cf_mintrack c) (cf_minpar c) (cf_maxtrans c) (cf_q c) (cf_p c).
Definition set_bias (c : config T) (ba bg : v3 T) : config T :=
  Config (cf_na c) (cf_ng c) (cf_nwa c) (cf_nwg c) (cf_grav c) ba bg (cf_period c) (cf_sigma c) (cf_maxframe c) (cf_maxfeat c)
    (cf_ncam c) (cf_mintrack c) (cf_minpar c) (cf_maxtrans c) (cf_q c) (cf_p c).
Definition set_grav (c : config T) (x : T) : config T :=
  Config (cf_na c) (cf_ng c) (cf_nwa c) (cf_nwg c) x (cf_ba c) (cf_bg c) (cf_period c) (cf_sigma c) (cf_maxframe c) (cf_maxfeat c)
    (cf_ncam c) (cf_mintrack c) (cf_minpar c) (cf_maxtrans c) (cf_q c) (cf_p c).
Definition set_cams (c : config T) (n : Z) (qs : list (quat T)) (ps : list (v3 T)) : config T :=
  Config (cf_na c) (cf_ng c) (cf_nwa c) (cf_nwg c) (cf_grav c) (cf_ba c) (cf_bg c) (cf_period c) (cf_sigma c) (cf_maxframe c) (cf_maxfeat c)
    n (cf_mintrack c) (cf_minpar c) (cf_maxtrans c) qs ps.
Definition set_window (c : config T) (n : Z) : config T :=
  Config (cf_na c) (cf_ng c) (cf_nwa c) (cf_nwg c) (cf_grav c) (cf_ba c) (cf_bg c) (cf_period c) (cf_sigma c) n (cf_maxfeat c)
    (cf_ncam c) (cf_mintrack c) (cf_minpar c) (cf_maxtrans c) (cf_q c) (cf_p c).
Definition set_sigma (c : config T) (x : T) : config T :=
  Config (cf_na c) (cf_ng c) (cf_nwa c) (cf_nwg c) (cf_grav c) (cf_ba c) (cf_bg c) (cf_period c) x (cf_maxframe c) (cf_maxfeat c)
    (cf_ncam c) (cf_mintrack c) (cf_minpar c) (cf_maxtrans c) (cf_q c) (cf_p c).
Definition set_policy (c : config T) (n : Z) (par tr : T) : config T :=
  Config (cf_na c) (cf_ng c) (cf_nwa c) (cf_nwg c) (cf_grav c) (cf_ba c) (cf_bg c) (cf_period c) (cf_sigma c) (cf_maxframe c) (cf_maxfeat c)
    (cf_ncam c) n par tr (cf_q c) (cf_p c).

(** One camera (config.cpp 48-52): translation from the last column, rotation from the top left corner. *)
Definition add_camera (c : config T) (m : mat T) : config T :=
  set_cams c ((cf_ncam c + 1) mod 4294967296)%Z (cf_q c ++ [quat_of_mat m]) (cf_p c ++ [V3 (me m 0 3) (me m 1 3) (me m 2 3)]).
(** The loop over the camera files (config.cpp 47-53); [fuel] bounds the number of files that can be opened. *)
Fixpoint cam_loop (junk : fname -> nat -> nat -> T) (d : cdir T) (fuel : nat) (c : config T) (m : mat T) : out (config T * mat T) :=
  let n := cf_ncam c in
  let! (m', ok) := load_matrix (junk (FCam n)) (cd_cams d !! n) 4 4 m in
  if ok : bool then match fuel with O => Ub UbIter | Datatypes.S k => cam_loop junk d k (add_camera c m') m' end
  else Ok (c, m').

(** float to uint32_t at the call sites. *)
Variable u32 : T -> option Z.
Definition to_u32 (x : T) : out Z := match u32 x with Some z => Ok z | None => Ub UbConv end.

(** ReadConfigParams (config.cpp 16-72). [m] is the function-local static tempMat; the result is the new
    configuration, the new value of the static and the returned flag. *)
Definition read_config (junk : fname -> nat -> nat -> T) (d : cdir T) (c : config T) (m : mat T) : out (config T * mat T * bool) :=
  let ld n := load_matrix (junk n) (cd_file d n) in
  let! (m, ok) := ld FFreq 1 1 m in
  let c := if ok : bool then set_period c (s1 / me m 0 0) else c in
  let! (m, ok) := ld FNoise 1 4 m in
  let c := if ok : bool then set_noise c (me m 0 0) (me m 0 1) (me m 0 2) (me m 0 3) else c in
  let! (m, ok) := ld FBias 2 3 m in
  let c := if ok : bool then set_bias c (V3 (me m 0 0) (me m 0 1) (me m 0 2)) (V3 (me m 1 0) (me m 1 1) (me m 1 2)) else c in
  let! (m, ok) := ld FGrav 1 1 m in
  let c := if ok : bool then set_grav c (me m 0 0) else c in
  let! (c, m) := cam_loop junk d (size (cd_cams d)) (set_cams c 0 [] []) m in
  let! (m, ok) := ld FWin 1 1 m in
  let! c := if ok : bool then let! n := to_u32 (me m 0 0) in Ok (set_window c n) else Ok c in
  let! (m, ok) := ld FVis 1 1 m in
  let c := if ok : bool then set_sigma c (me m 0 0) else c in
  let! (m, ok) := ld FKey 1 3 m in
  let! c := if ok : bool then let! n := to_u32 (me m 0 0) in Ok (set_policy c n (me m 0 1) (me m 0 2)) else Ok c in
  Ok (c, m, true).

(** Backend::ConfigParams (backend_config.cpp 8-46) on a back end in any state: period, noise, biases and
    extrinsics. The window, the queues, the attitude estimator and the status are not touched. *)
Definition apply_config (wide : T -> f64) (c : config T) (s : bstate T) : bstate T :=
  let l := b_dl s in let q := b_pq s in
  BState (b_st s) (Loader (dl_feat l) (dl_imu l) (dl_offset l) (wide (cf_period c))) (b_win s)
    (zip_with Extrinsic (cf_q c) (cf_p c)) (b_att s)
    (PQueue (pq_items q) (pq_ecc q) (cf_ba c) (cf_bg c) (pq_init q) (pq_F q) (pq_G q) (noise_Q (cf_na c) (cf_ng c) (cf_nwa c) (cf_nwg c)))
    (b_status s).
(** The parameters used by the updater and the keyframe policy, and gravity_w (backend_config.cpp 22, 30-36). *)
Definition apply_vcfg (c : config T) : vcfg T :=
  VCfg (cf_sigma c) (cf_maxfeat c) (cf_maxframe c) (cf_mintrack c) (cf_maxtrans c) (V3 s0 s0 (cf_grav c)).
(** A back end object that was just constructed (backend.hpp 22-37): queues empty, process noise
    zero (sequence_propagator.hpp 36-47). *)
Definition b_blank (st : dl_statics) : bstate T :=
  BState st dl_new window0 [] att_new (PQueue [] (mzero 0 0) v3zero v3zero (Motion v3zero v3zero qid) F_reset G_reset (mzero 12 12)) NeedInit.
End Config.
