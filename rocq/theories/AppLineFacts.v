(** Proofs about extraction from any line of text (C73) and about the conversion of counts (C66). *)
From Coq Require Import ZArith Reals Lra Lia List Bool.
From Flocq Require Import Core BinarySingleNaN.
From Verif Require Import Fp Scalar Base LinAlg Config App AppSpec.
Import ListNotations.

Lemma imu_line_any : forall (T : Type) l (v : imu_vars T), let v' := imu_line l v in
  (iv_ts v', q_list (iv_q v') ++ v3_list (iv_pos v') ++ v3_list (iv_gyr v') ++ v3_list (iv_acc v')) =
  overlay_time l (iv_ts v) (q_list (iv_q v) ++ v3_list (iv_pos v) ++ v3_list (iv_gyr v) ++ v3_list (iv_acc v)).
Proof. intros T l [t [q1 q2 q3 q4] [p1 p2 p3] [g1 g2 g3] [a1 a2 a3]]. do 14 (destruct l as [|[? ?|? ?] l]; [reflexivity| |destruct l as [|[]]; reflexivity]). destruct l as [|[]]; reflexivity. Qed.
Lemma cam_line_any : forall (T : Type) l (v : cam_vars T), let v' := cam_line l v in
  (cv_ts v', q_list (cv_q v') ++ v3_list (cv_p v')) = overlay_time l (cv_ts v) (q_list (cv_q v) ++ v3_list (cv_p v)).
Proof. intros T l [t [q1 q2 q3 q4] [p1 p2 p3]]. do 8 (destruct l as [|[? ?|? ?] l]; [reflexivity| |destruct l as [|[]]; reflexivity]). destruct l as [|[]]; reflexivity. Qed.
Lemma pt_line_any : forall (T : Type) l (v : v3 T), v3_list (snd (get3 (l, false) v)) = overlay l (v3_list v).
Proof. intros T l [p1 p2 p3]. do 3 (destruct l as [|[? ?|? ?] l]; [reflexivity| |destruct l as [|[]]; reflexivity]). destruct l as [|[]]; reflexivity. Qed.
(** One variable set after the other, through all the lines. *)
Lemma pts_any : forall (T : Type) f (v : v3 T), map v3_list (pts_loop f v) = overlays (map (@overlay T) (file_lines f)) (v3_list v).
Proof.
  intros T. induction f as [|[l|] f IH]; intros v; cbn [pts_loop file_lines map overlays]; [reflexivity| |reflexivity].
  pose proof (pt_line_any T l v) as E. destruct (get3 (l, false) v) as [s p]. cbn [snd map] in *. rewrite IH, E. reflexivity.
Qed.

Local Open Scope R_scope.
Lemma floor_pos : forall m e, Zfloor (F2R (Float radix2 (Zpos m) e)) = match e with Z0 => Zpos m | Zpos k => (Zpos m * 2 ^ Zpos k)%Z | Zneg k => (Zpos m / 2 ^ Zpos k)%Z end.
Proof.
  intros m [|k|k]; unfold F2R; cbn [Fnum Fexp].
  - cbn [bpow]. rewrite Rmult_1_r. apply Zfloor_IZR.
  - change (bpow radix2 (Zpos k)) with (IZR (Z.pow_pos 2 k)). rewrite <- mult_IZR. apply Zfloor_IZR.
  - change (bpow radix2 (Zneg k)) with (/ IZR (Z.pow_pos 2 k)). apply (Zfloor_div (Zpos m) (Z.pow_pos 2 k)).
    pose proof (Z.pow_pos_nonneg 2 (Zpos k)). cbn in *. lia.
Qed.
Theorem u32_trunc : forall x z, f32_u32 x = Some z <-> is_finite x = true /\ -1 < B2R x < 4294967296 /\ z = Ztrunc (B2R x).
Proof.
  intros [s|s| |s m e B] z; cbn [f32_u32 is_finite B2R].
  - replace (Ztrunc 0) with 0%Z by (symmetry; apply (Ztrunc_IZR 0)). split; [intros [= <-]; repeat split; lra|intros (_ & _ & ->); reflexivity].
  - split; [discriminate|intros (H & _); discriminate].
  - split; [discriminate|intros (H & _); discriminate].
  - rewrite <- (floor_pos m e). set (y := F2R (Float radix2 (Zpos m) e)). assert (0 < y) as Hy by (apply F2R_gt_0; reflexivity).
    assert (0 <= Zfloor y)%Z as Hf by (apply Zfloor_lub; lra).
    assert (F2R (Float radix2 (cond_Zopp s (Zpos m)) e) = cond_Ropp s y) as E by (destruct s; [apply F2R_Zopp|reflexivity]). rewrite E. pose proof (Zfloor_lb y) as Lb. pose proof (Zfloor_ub y) as Ub.
    destruct s; cbn [cond_Ropp].
    + rewrite Ztrunc_opp, Ztrunc_floor by lra. destruct (Z.eqb_spec (Zfloor y) 0) as [Hz|Hz].
      * split; [intros [= <-]; rewrite Hz in *; repeat split; try lra; reflexivity|]. intros (_ & _ & ->). rewrite Hz. reflexivity.
      * split; [discriminate|]. intros (_ & [H1 _] & _). exfalso. assert (1 <= Zfloor y)%Z as H by lia. apply IZR_le in H. lra.
    + rewrite Ztrunc_floor by lra. destruct (Z.ltb_spec (Zfloor y) 4294967296) as [Hz|Hz].
      * split; [intros [= <-]|intros (_ & _ & ->); reflexivity]. split; [reflexivity|]. split; [|reflexivity]. split; [lra|]. assert (Zfloor y + 1 <= 4294967296)%Z as H by lia. apply IZR_le in H. rewrite plus_IZR in H. lra.
      * split; [discriminate|]. intros (_ & [_ H1] & _). exfalso. apply IZR_le in Hz. lra.
Qed.
Local Close Scope R_scope.

(** Examples: a line with a number, a number, text and a number; a file with a full line and a line of one number; three counts. *)
Local Open Scope nat_scope.
Example broken_line : forall t d : f64,
  imu_line [ANum d 20; ANum d 21; ABad d 0; ANum d 22] (ImuVars t (Quat 1 2 3 4) (V3 5 6 7) (V3 8 9 10) (V3 11 12 13)) =
  ImuVars d (Quat 21 0 3 4) (V3 5 6 7) (V3 8 9 10) (V3 11 12 13).
Proof. reflexivity. Qed.
Example broken_points : forall d : f64, pts_loop [Some [ANum d 20; ANum d 21; ANum d 22; ANum d 23]; Some [ANum d 30]; Some []; None] (V3 1 2 3) = [V3 20 21 22; V3 30 21 22; V3 30 21 22].
Proof. reflexivity. Qed.
Example three_counts : f32_u32 (f32_lit 0xd80000 (-21)) = Some 6%Z /\ f32_u32 (f32_lit (-0x800000) (-24)) = Some 0%Z /\ f32_u32 (f32_lit 0x800000 9) = None.
Proof. vm_compute. repeat split. Qed.
