(** Proofs for C100: the angle helpers of math_lib.hpp over the reals. *)
From Coq Require Import ZArith Reals Lra Lia List Bool Psatz Machin.
From Flocq Require Import Core IEEE754.BinarySingleNaN.
From Verif Require Import Fp FpFacts Scalar Base LinAlg MathLib QuatFacts HelperSpec.
Local Open Scope R_scope.

Lemma half_angle : forall a, cos a = cos (a / 2) * cos (a / 2) - sin (a / 2) * sin (a / 2) /\ sin a = 2 * (sin (a / 2) * cos (a / 2)) /\
  cos (a / 2) * cos (a / 2) = 1 - sin (a / 2) * sin (a / 2).
Proof.
  intros a. pose proof (cos_plus (a / 2) (a / 2)) as Hc. pose proof (sin_plus (a / 2) (a / 2)) as Hs.
  replace (a / 2 + a / 2) with a in Hc, Hs by field. split; [lra|]. split; [lra|].
  pose proof (sin2_cos2 (a / 2)) as H. unfold Rsqr in H. lra.
Qed.

(** C100: the angle of a quaternion. *)
Theorem magnitude_turn : forall n a, v3dot n n = 1 -> 0 <= a <= PI -> rot_magnitude_q (turn n a) = a.
Proof.
  intros [x y z] a Hn Ha. unfold rot_magnitude_q, rot_magnitude, turn. pose proof (half_angle a) as (Hc & _ & H1).
  set (c := cos (a / 2)) in *. set (s := sin (a / 2)) in *.
  match goal with |- sabs (sacos ?e) = _ => assert (E : e = cos a) end.
  { rewrite Hc, H1. vunf. assert (Hz : z * z = 1 - x * x - y * y) by lra. field_simplify_eq. ring [Hz]. }
  rewrite E. cbn [sabs sacos ops_R]. rewrite acos_cos by exact Ha. apply Rabs_pos_eq. lra.
Qed.
(** The longer way round is reported as the shorter one. *)
Theorem magnitude_long : forall n a, v3dot n n = 1 -> PI <= a <= 2 * PI -> rot_magnitude_q (turn n a) = 2 * PI - a.
Proof.
  intros n a Hn Ha. rewrite <- (magnitude_turn (v3opp n) (2 * PI - a)).
  - unfold turn. replace ((2 * PI - a) / 2) with (PI - a / 2) by field. rewrite Rtrigo_facts.cos_pi_minus, Rtrigo_facts.sin_pi_minus.
    unfold rot_magnitude_q, rot_magnitude. f_equal. f_equal. destruct n as [x y z]. vunf. field.
  - destruct n as [x y z]. vunf. lra.
  - lra.
Qed.
(** It is the angle between a vector orthogonal to the axis and its image. *)
Theorem magnitude_between : forall q v, qunit q -> v3dot (qvec q) v = 0 -> v3dot v v = 1 -> cos (rot_magnitude_q q) = v3dot v (qrot q v).
Proof.
  intros [w x y z] [a b c] Hq Hv Hn. unfold rot_magnitude_q, rot_magnitude.
  match goal with |- cos (sabs (sacos ?e)) = _ => assert (E : e = 2 * (w * w) - 1) end.
  { unfold qunit in Hq. vunf. lra. }
  rewrite E. assert (Hb : -1 <= 2 * (w * w) - 1 <= 1). { unfold qunit in Hq. vunf. nra. }
  cbn [sabs sacos ops_R]. pose proof (acos_bound (2 * (w * w) - 1)). rewrite Rabs_pos_eq by lra. rewrite cos_acos by exact Hb.
  unfold qunit in Hq. vunf.
  transitivity ((a * a + b * b + c * c) * (1 - 2 * (x * x + y * y + z * z)) + 2 * (x * a + y * b + z * c) * (x * a + y * b + z * c)).
  - replace (a * a + b * b + c * c) with 1 by lra. replace (x * a + y * b + z * c) with 0 by lra. lra.
  - ring.
Qed.

(** C100: the angle of a small rotation vector. *)
Theorem magnitude_vector : forall d, v3norm d <= 2 -> rot_magnitude_v d = 2 * asin (v3norm d / 2).
Proof.
  intros d Hd. pose proof (v3dot_nonneg d) as Hp. pose proof (sqrt_pos (v3dot d d)) as H0. pose proof (sqrt_sqrt _ Hp) as Hs.
  unfold v3norm in *. change (@ssqrt R ops_R) with sqrt in *. set (m := sqrt (v3dot d d)) in *.
  unfold rot_magnitude_v, rot_magnitude_q, rot_magnitude.
  match goal with |- sabs (sacos ?e) = _ => assert (E : e = cos (2 * asin (m / 2))) end.
  { rewrite cos_2a_sin, sin_asin by lra. transitivity (1 - m * m / 2); [|field]. rewrite Hs. destruct d as [x y z]. unfold shalf. vunf. field. }
  rewrite E. cbn [sabs sacos ops_R]. pose proof (asin_bound (m / 2)). assert (0 <= asin (m / 2)).
  { apply Rnot_lt_le. intros X. pose proof (sin_asin (m / 2) ltac:(lra)) as Y. pose proof (sin_lt_0_var (asin (m / 2)) ltac:(pose proof PI_RGT_0; lra) X). lra. }
  rewrite acos_cos by lra. apply Rabs_pos_eq. lra.
Qed.
Theorem magnitude_vector_two : rot_magnitude_v (V3 2 0 0) = PI /\ v3norm (V3 2 0 0) = 2.
Proof.
  assert (N : v3norm (V3 2 0 0) = 2). { unfold v3norm. change (@ssqrt R ops_R) with sqrt. replace (v3dot (V3 2 0 0) (V3 2 0 0)) with (2 * 2) by (vunf; ring). apply sqrt_square. lra. }
  split; [|exact N]. rewrite magnitude_vector by lra. rewrite N. replace (2 / 2) with 1 by field. rewrite asin_1. field.
Qed.
Theorem magnitude_translation : forall (q : quat R) d, qunit q -> trans_magnitude (qrot q d) = trans_magnitude d /\ trans_magnitude d * trans_magnitude d = v3x d * v3x d + v3y d * v3y d + v3z d * v3z d.
Proof.
  intros q d Hq. unfold trans_magnitude. split; [apply qrot_norm; exact Hq|]. unfold v3norm. change (@ssqrt R ops_R) with sqrt. rewrite sqrt_sqrt by apply v3dot_nonneg. destruct d. vunf. ring.
Qed.

(** std::atan2 recovers the angle. *)
Lemma atan2_polar : forall k a, 0 < k -> - PI < a <= PI -> Ratan2 (k * sin a) (k * cos a) = a.
Proof.
  intros k a Hk Ha. pose proof PI_RGT_0 as Hpi. unfold Ratan2.
  assert (T : cos a <> 0 -> k * sin a / (k * cos a) = tan a). { intros Hc. unfold tan. field. lra. }
  destruct (Rlt_dec 0 (k * cos a)) as [C|C].
  - assert (Hc : 0 < cos a) by nra. rewrite T by lra. apply atan_tan.
    split; apply Rnot_le_lt; intros X.
    + assert (cos a <= 0); [|lra]. rewrite <- cos_neg. apply cos_le_0; lra.
    + assert (cos a <= 0); [|lra]. apply cos_le_0; lra.
  - destruct (Rlt_dec (k * cos a) 0) as [D|D].
    + assert (Hc : cos a < 0) by nra. rewrite T by lra. destruct (Rle_dec 0 (k * sin a)) as [Y|Y].
      * assert (Hs : 0 <= sin a) by nra. assert (H0 : 0 <= a). { apply Rnot_lt_le; intros X. pose proof (sin_lt_0_var a). lra. }
        assert (H1 : PI / 2 < a). { apply Rnot_le_lt; intros X. assert (0 <= cos a) by (apply cos_ge_0; lra). lra. }
        replace (tan a) with (tan (a - PI)). { rewrite atan_tan by lra. lra. }
        unfold tan. rewrite sin_minus, cos_minus, sin_PI, cos_PI. field. lra.
      * assert (Hs : sin a < 0) by nra. assert (H0 : a < 0). { apply Rnot_le_lt; intros X. pose proof (sin_ge_0 a). lra. }
        assert (H1 : a < - (PI / 2)). { apply Rnot_le_lt; intros X. assert (0 <= cos a) by (apply cos_ge_0; lra). lra. }
        replace (tan a) with (tan (a + PI)). { rewrite atan_tan by lra. lra. }
        unfold tan. rewrite neg_sin, neg_cos. field. lra.
    + assert (Hc : cos a = 0) by nra. destruct (Rlt_dec 0 (k * sin a)) as [Y|Y].
      * assert (Hs : 0 < sin a) by nra. assert (0 <= a). { apply Rnot_lt_le; intros X. pose proof (sin_lt_0_var a). lra. }
        symmetry. apply cos_inj; [lra|lra|]. rewrite Hc, cos_PI2. reflexivity.
      * pose proof (sin2_cos2 a) as S2. unfold Rsqr in S2. rewrite Hc in S2.
        destruct (Rlt_dec (k * sin a) 0) as [Z|Z]; [|exfalso; assert (sin a = 0) by nra; nra].
        assert (Hs : sin a < 0) by nra. assert (a < 0). { apply Rnot_le_lt; intros X. pose proof (sin_ge_0 a). lra. }
        assert (- a = PI / 2); [|lra]. apply cos_inj; [lra|lra|]. rewrite cos_neg, Hc, cos_PI2. reflexivity.
Qed.

Lemma turn_unit : forall n a, v3dot n n = 1 -> qunit (turn n a).
Proof.
  intros [x y z] a Hn. unfold qunit, turn. pose proof (half_angle a) as (_ & _ & H1). set (c := cos (a / 2)) in *. set (s := sin (a / 2)) in *.
  vunf. transitivity (s * s * (x * x + y * y + z * z) + c * c); [ring|]. rewrite H1. replace (x * x + y * y + z * z) with 1 by lra. ring.
Qed.
Definition rpy (r p y : R) : quat R := qmul (qmul (turn ez_ y) (turn ey_ p)) (turn ex_ r).
Lemma axes : v3dot ex_ ex_ = 1 /\ v3dot ey_ ey_ = 1 /\ v3dot ez_ ez_ = 1.
Proof. unfold ex_, ey_, ez_. vunf. repeat split; ring. Qed.
Lemma rpy_unit : forall r p y, qunit (rpy r p y).
Proof. intros r p y. destruct axes as (Hx & Hy & Hz). unfold rpy. repeat apply qmul_unit; apply turn_unit; assumption. Qed.
Lemma rpy_attitude : forall r p y v, qrot (rpy r p y) v = attitude r p y v.
Proof.
  intros r p y v. destruct axes as (Hx & Hy & Hz). unfold rpy. rewrite !qrot_mul; try apply qmul_unit; try (apply turn_unit; assumption).
  unfold attitude. cbv zeta. destruct (half_angle r) as (Cr & Sr & Er), (half_angle p) as (Cp & Sp & Ep), (half_angle y) as (Cy & Sy & Ey).
  assert (X : forall a v, qrot (turn ex_ a) v = V3 (v3x v) (cos a * v3y v - sin a * v3z v) (sin a * v3y v + cos a * v3z v)).
  { intros a [x1 x2 x3]. destruct (half_angle a) as (C & S & E). rewrite C, S. unfold turn, ex_. vunf. apply v3_ext; rops; ring [E]. }
  assert (Y : forall a v, qrot (turn ey_ a) v = V3 (cos a * v3x v + sin a * v3z v) (v3y v) (cos a * v3z v - sin a * v3x v)).
  { intros a [x1 x2 x3]. destruct (half_angle a) as (C & S & E). rewrite C, S. unfold turn, ey_. vunf. apply v3_ext; rops; ring [E]. }
  assert (Z : forall a v, qrot (turn ez_ a) v = V3 (cos a * v3x v - sin a * v3y v) (sin a * v3x v + cos a * v3y v) (v3z v)).
  { intros a [x1 x2 x3]. destruct (half_angle a) as (C & S & E). rewrite C, S. unfold turn, ez_. vunf. apply v3_ext; rops; ring [E]. }
  rewrite X, Y, Z. reflexivity.
Qed.
(** Entries of the rotation matrix used by QuaternionToEuler, through the images of the axes. *)
Lemma mat_cols : forall q : quat R, qunit q -> let m := qmat (qinv q) in
  m00 m = v3x (qrot q ex_) /\ m01 m = v3y (qrot q ex_) /\ m02 m = v3z (qrot q ex_) /\ m12 m = v3z (qrot q ey_) /\ m22 m = v3z (qrot q ez_).
Proof. intros q H. rewrite qinv_unit by exact H. destruct q as [w x y z]. unfold ex_, ey_, ez_. vunf. repeat split; ring. Qed.

(** C100: the Euler angles. *)
Theorem euler_angles : forall q r p y, qunit q -> (forall v, qrot q v = attitude r p y v) -> - PI < r <= PI -> - (PI / 2) < p < PI / 2 -> - PI < y <= PI ->
  quat_to_euler q = V3 (r * rad2deg) (p * rad2deg) (y * rad2deg).
Proof.
  intros q r p y Hq Hr Br Bp By. destruct (mat_cols q Hq) as (E00 & E01 & E02 & E12 & E22). unfold quat_to_euler. rewrite E00, E01, E02, E12, E22, !Hr.
  assert (Cp : 0 < cos p) by (apply cos_gt_0; lra). unfold attitude, ex_, ey_, ez_. cbn [v3x v3y v3z].
  cbn [satan2 sasin sopp ops_R].
  replace (cos p * (sin r * 1 + cos r * 0) - sin p * 0) with (cos p * sin r) by ring.
  replace (cos p * (sin r * 0 + cos r * 1) - sin p * 0) with (cos p * cos r) by ring.
  replace (- (cos p * (sin r * 0 + cos r * 0) - sin p * 1)) with (sin p) by ring.
  replace (sin y * (cos p * 1 + sin p * (sin r * 0 + cos r * 0)) + cos y * (cos r * 0 - sin r * 0)) with (cos p * sin y) by ring.
  replace (cos y * (cos p * 1 + sin p * (sin r * 0 + cos r * 0)) - sin y * (cos r * 0 - sin r * 0)) with (cos p * cos y) by ring.
  rewrite !atan2_polar by lra. rewrite asin_sin by lra. reflexivity.
Qed.

(** The factor is the number of degrees in a radian, up to a few parts in 10^8. *)
Lemma rad2deg_val : rad2deg (T := R) = 15019745 / 262144.
Proof.
  unfold rad2deg. cbn [sof32 ops_R].
  assert (E : B2SF (f32_lit 0xe52ee1 (-18)) = SpecFloat.S754_finite false 15019745 (-18)) by (vm_compute; reflexivity).
  destruct (f32_lit 0xe52ee1 (-18)) as [| | |s m e H]; cbn in E; try discriminate. injection E as -> -> ->. cbn [B2R]. unfold F2R. cbn [Fnum Fexp cond_Zopp]. cbn. lra.
Qed.
Lemma pi_low : 3.1415926 < PI < 3.1415927.
Proof.
  pose proof (PI_2_3_7_ineq 4) as [L U]. cbn [Nat.mul Nat.add] in L, U.
  cbv [sum_f_R0 tg_alt PI_2_3_7_tg Ratan_seq Nat.mul Nat.add pow INR] in L, U. lra.
Qed.
Theorem rad2deg_close : Rabs (rad2deg * PI - 180) <= 1 / 100000.
Proof. rewrite rad2deg_val. pose proof pi_low. apply Rabs_le. split; lra. Qed.
