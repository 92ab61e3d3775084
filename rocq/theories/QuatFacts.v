(** Vectors, quaternions and rotations over the reals. *)
From Coq Require Import Reals Lra Lia Arith Bool List Psatz.
From Verif Require Import Fp Scalar Base LinAlg MathLib.
Local Open Scope R_scope.

(** Unfolding of the scalar operations at R. *)
Ltac rops := cbv beta iota zeta delta [sadd ssub smul sdiv sopp s0 s1 sabs ssqrt ops_R v3x v3y v3z qw qx qy qz v2x v2y
  m00 m01 m02 m10 m11 m12 m20 m21 m22] in *.
Ltac vunf := cbv beta iota zeta delta [v3add v3sub v3opp v3scale v3div v3dot v3cross v3zero qrot qmul qconj qdivs qvec
  qmat qid qnorm2 m33mulv m33mul m33row0 m33row1 m33row2 m33t m33id m33scale m33map m33opp m33add m33sub m33zip
  skew delta_q s2 shalf v2sub v2dot v3get m33get sadd ssub smul sdiv sopp s0 s1 sabs ssqrt ops_R v3x v3y v3z qw qx qy qz v2x v2y
  m00 m01 m02 m10 m11 m12 m20 m21 m22] in *.

Lemma v3_ext : forall a b : v3 R, v3x a = v3x b -> v3y a = v3y b -> v3z a = v3z b -> a = b.
Proof. intros [] [] H1 H2 H3. cbn in *. subst. reflexivity. Qed.
Lemma q_ext : forall a b : quat R, qw a = qw b -> qx a = qx b -> qy a = qy b -> qz a = qz b -> a = b.
Proof. intros [] [] H1 H2 H3 H4. cbn in *. subst. reflexivity. Qed.
Lemma m33_ext : forall a b : m33 R, m00 a = m00 b -> m01 a = m01 b -> m02 a = m02 b -> m10 a = m10 b -> m11 a = m11 b ->
  m12 a = m12 b -> m20 a = m20 b -> m21 a = m21 b -> m22 a = m22 b -> a = b.
Proof. intros [] [] H1 H2 H3 H4 H5 H6 H7 H8 H9. cbn in *. subst. reflexivity. Qed.
Ltac vring := vunf; (apply v3_ext || apply q_ext || apply m33_ext || idtac); rops; ring.
Ltac vfield := vunf; (apply v3_ext || apply q_ext || apply m33_ext || idtac); rops; field.

(** A unit quaternion. *)
Definition qunit (q : quat R) : Prop := qnorm2 q = 1.

Lemma qnorm2_nonneg : forall q : quat R, 0 <= qnorm2 q.
Proof. intros [w x y z]. vunf. nra. Qed.
Lemma qnorm2_mul : forall a b : quat R, qnorm2 (qmul a b) = qnorm2 a * qnorm2 b.
Proof. intros [] []. vunf. ring. Qed.
Lemma qnorm2_conj : forall a : quat R, qnorm2 (qconj a) = qnorm2 a.
Proof. intros []. vunf. ring. Qed.
Lemma sltb_R : forall x y : R, sltb x y = true <-> x < y.
Proof. intros x y. cbn. unfold Rltb. destruct (Rlt_dec x y); intuition discriminate. Qed.
Lemma sltb_R_false : forall x y : R, sltb x y = false <-> y <= x.
Proof. intros x y. cbn. unfold Rltb. destruct (Rlt_dec x y); intuition (try discriminate; lra). Qed.
Lemma sleb_R : forall x y : R, sleb x y = true <-> x <= y.
Proof. intros x y. cbn. unfold Rleb. destruct (Rle_dec x y); intuition discriminate. Qed.

Lemma qnormalize_pos : forall q : quat R, 0 < qnorm2 q -> qnormalize q = qdivs q (sqrt (qnorm2 q)).
Proof.
  intros q H. unfold qnormalize. replace (sltb s0 (qnorm2 q)) with true by (symmetry; apply sltb_R; exact H). reflexivity.
Qed.
Lemma qnormalize_unit : forall q : quat R, 0 < qnorm2 q -> qunit (qnormalize q).
Proof.
  intros q H. rewrite qnormalize_pos by exact H. unfold qunit.
  pose proof (sqrt_lt_R0 _ H) as Hs. pose proof (sqrt_sqrt _ (Rlt_le _ _ H)) as Hq.
  set (s := sqrt (qnorm2 q)) in *. replace (qnorm2 (qdivs q s)) with (qnorm2 q / (s * s)).
  - rewrite Hq. field. lra.
  - destruct q. vunf. field. lra.
Qed.
Lemma qnormalize_of_unit : forall q : quat R, qunit q -> qnormalize q = q.
Proof.
  intros q H. rewrite qnormalize_pos by (rewrite H; lra). rewrite H, sqrt_1. destruct q. vunf. apply q_ext; rops; field.
Qed.
Lemma delta_q_norm : forall t : v3 R, qnorm2 (delta_q t) = 1 + (v3dot t t) / 4.
Proof. intros []. vunf. field. Qed.
Lemma v3dot_nonneg : forall a : v3 R, 0 <= v3dot a a.
Proof. intros []. vunf. nra. Qed.
Lemma delta_q_pos : forall t : v3 R, 0 < qnorm2 (delta_q t).
Proof. intros t. rewrite delta_q_norm. pose proof (v3dot_nonneg t). lra. Qed.
Lemma qstep_unit : forall q t, qunit q -> qunit (qnormalize (qmul q (delta_q t))).
Proof.
  intros q t H. apply qnormalize_unit. rewrite qnorm2_mul, H. pose proof (delta_q_pos t). lra.
Qed.
Lemma qid_unit : qunit (qid (T := R)).
Proof. unfold qunit. vunf. ring. Qed.

Lemma qinv_unit : forall q : quat R, qunit q -> qinv q = qconj q.
Proof.
  intros q H. unfold qinv. rewrite H. replace (sltb s0 1) with true by (symmetry; apply sltb_R; cbn; lra).
  destruct q. vunf. apply q_ext; rops; field.
Qed.
Lemma qconj_unit : forall q : quat R, qunit q -> qunit (qconj q).
Proof. intros q H. unfold qunit. rewrite qnorm2_conj. exact H. Qed.
Lemma qmul_unit : forall a b : quat R, qunit a -> qunit b -> qunit (qmul a b).
Proof. intros a b Ha Hb. unfold qunit. rewrite qnorm2_mul, Ha, Hb. ring. Qed.

(** Rotation by a quaternion is its matrix (for any quaternion, as both are Eigen's formulas). *)
Lemma qrot_mat : forall (q : quat R) v, qrot q v = m33mulv (qmat q) v.
Proof. intros [] []. vring. Qed.
Lemma qrot_mul : forall (a b : quat R) v, qunit a -> qunit b -> qrot (qmul a b) v = qrot a (qrot b v).
Proof.
  intros [aw ax ay az] [bw bx by_ bz] [x y z] Ha Hb. unfold qunit in *. vunf.
  assert (Ea : aw * aw = 1 - ax * ax - ay * ay - az * az) by lra.
  assert (Eb : bw * bw = 1 - bx * bx - by_ * by_ - bz * bz) by lra.
  clear Ha Hb. apply v3_ext; rops; ring [Ea Eb].
Qed.
Lemma qrot_id : forall v : v3 R, qrot qid v = v.
Proof. intros []. vring. Qed.
Lemma qmul_conj_l : forall q : quat R, qunit q -> qmul (qconj q) q = qid.
Proof. intros [w x y z] H. unfold qunit in H. vunf. apply q_ext; rops; lra. Qed.
Lemma qmul_conj_r : forall q : quat R, qunit q -> qmul q (qconj q) = qid.
Proof. intros [w x y z] H. unfold qunit in H. vunf. apply q_ext; rops; lra. Qed.
Lemma qrot_inv_l : forall (q : quat R) v, qunit q -> qrot (qinv q) (qrot q v) = v.
Proof.
  intros q v H. rewrite qinv_unit by exact H. rewrite <- qrot_mul by (try apply qconj_unit; exact H).
  rewrite qmul_conj_l by exact H. apply qrot_id.
Qed.
Lemma qrot_inv_r : forall (q : quat R) v, qunit q -> qrot q (qrot (qinv q) v) = v.
Proof.
  intros q v H. rewrite qinv_unit by exact H. rewrite <- qrot_mul by (try apply qconj_unit; exact H).
  rewrite qmul_conj_r by exact H. apply qrot_id.
Qed.
Lemma qrot_dot : forall (q : quat R) a b, qunit q -> v3dot (qrot q a) (qrot q b) = v3dot a b.
Proof.
  intros [w x y z] [a1 a2 a3] [b1 b2 b3] H. unfold qunit in H. vunf.
  assert (E : w * w = 1 - x * x - y * y - z * z) by lra. clear H. ring [E].
Qed.
Lemma qrot_norm : forall (q : quat R) v, qunit q -> v3norm (qrot q v) = v3norm v.
Proof. intros q v H. unfold v3norm. rewrite qrot_dot by exact H. reflexivity. Qed.
Lemma qrot_add : forall (q : quat R) a b, qrot q (v3add a b) = v3add (qrot q a) (qrot q b).
Proof. intros [] [] []. vring. Qed.
Lemma qrot_scale : forall (q : quat R) a k, qrot q (v3scale a k) = v3scale (qrot q a) k.
Proof. intros [] [] k. vring. Qed.

(** Multiplication of a 4-vector (w, x, y, z) by a 4x4 matrix. *)
Definition q4 (q : quat R) (i : nat) : R := match i with O => qw q | 1 => qx q | 2 => qy q | _ => qz q end%nat.
Definition mat_vec4 (m : mat R) (v : nat -> R) (i : nat) : R :=
  me m i 0%nat * v 0%nat + me m i 1%nat * v 1%nat + me m i 2%nat * v 2%nat + me m i 3%nat * v 3%nat.

(** C63 *)
Theorem helper_identities :
  (forall a b : v3 R, m33mulv (skew a) b = v3cross a b) /\
  (forall (a b : quat R) i, (i < 4)%nat ->
     mat_vec4 (qleft_a a) (q4 b) i = q4 (qmul a b) i /\ mat_vec4 (qleft_b a) (q4 b) i = q4 (qmul a b) i /\
     mat_vec4 (qright_a b) (q4 a) i = q4 (qmul a b) i /\ mat_vec4 (qright_b b) (q4 a) i = q4 (qmul a b) i) /\
  (forall (q : quat R) (t v : v3 R) i, (i < 4)%nat ->
     mat_vec4 (transform_matrix q t) (fun k => if Nat.ltb k 3 then v3get v k else 1) i =
     if Nat.ltb i 3 then v3get (v3add (qrot q v) t) i else 1) /\
  (forall (q : quat R) (v : v3 R), qrot q v = m33mulv (qmat q) v) /\
  (forall (q : quat R) (v : v3 R), qunit q -> v3norm (qrot q v) = v3norm v /\
     qrot (qinv q) (qrot q v) = v /\ qrot q (qrot (qinv q) v) = v /\ qmul (qinv q) q = qid) /\
  (forall (a b : quat R) (v : v3 R), qunit a -> qunit b -> qunit (qmul a b) /\ qrot (qmul a b) v = qrot a (qrot b v)).
Proof.
  split; [intros [] []; vring|]. split; [|split; [|split; [apply qrot_mat|split]]].
  - intros [aw ax ay az] [bw bx by_ bz] i Hi. 
    do 4 (destruct i as [|i]; [unfold mat_vec4, qleft_a, qleft_b, qright_a, qright_b; cbn [me Nat.eqb v3get m33get q4]; vunf;
      repeat split; ring|]). lia.
  - intros q t v i Hi. unfold transform_matrix.
    do 4 (destruct i as [|i]; [unfold mat_vec4, set_block, midn, mat_of_m33, mat_of_v3; cbn -[Rplus Rmult qmat qrot v3add];
       rewrite ?qrot_mat; destruct q, t, v; vunf; cbn; ring|]). lia.
  - intros q v H. split; [apply qrot_norm; exact H|]. split; [apply qrot_inv_l; exact H|]. split; [apply qrot_inv_r; exact H|].
    rewrite qinv_unit by exact H. apply qmul_conj_l. exact H.
  - intros a b v Ha Hb. split; [apply qmul_unit; assumption|apply qrot_mul; assumption].
Qed.
