(** Proofs for C103: symmetry of covariances bit for bit. *)
From Coq Require Import ZArith List Bool Arith Lia.
From Flocq Require Import IEEE754.BinarySingleNaN.
From Verif Require Import Fp Scalar Base LinAlg Msg DataLoader FeatureManager FrameManager Window MathLib Attitude Propagator Triangulate Pnp VisionUpdate BackLenFacts SymSpec.
Import ListNotations.
Local Open Scope nat_scope.

Lemma f32_add_comm : forall x y, f32_add x y = f32_add y x.
Proof.
  unfold f32_add. intros [sx|sx| |sx mx ex Hx] [sy|sy| |sy my ey Hy]; cbn [Bplus]; try reflexivity.
  - destruct sx, sy; reflexivity.
  - destruct sx, sy; reflexivity.
  - rewrite (Z.min_comm ey ex). unfold Fplus_naive. rewrite Z.add_comm. reflexivity.
Qed.

Section Gen.
Context {T : Type} {S : SOps T}.
Hypothesis add_comm : forall a b : T, sadd a b = sadd b a.

Lemma kalman_sym : forall saes noise P Hr K dx P', kalman saes noise P Hr = Ok (K, dx, P') -> forall i j, me P' i j = me P' j i.
Proof.
  intros saes noise P Hr K dx P' H i j. unfold kalman in H. destruct (Nat.eqb _ _); [discriminate|].
  binv H. binv H. binv H. binv H. binv H. binv H. binv H. binv H. binv H. unfold maddc in E7. destruct (_ && _)%bool; [|discriminate].
  injection E7 as <-. injection H as _ _ <-. cbn [me mscale madd mtr]. f_equal. apply add_comm.
Qed.
(** Entries of the first fifteen rows and columns. *)
Definition same15 (a b : mat T) : Prop := forall i j, i < 15 -> j < 15 -> me a i j = me b i j.
Lemma set_out15 : forall (a b : mat T) i0 j0 c, 15 <= i0 \/ 15 <= j0 -> setb a i0 j0 b = Ok c -> same15 c a /\ mr c = mr a /\ mc c = mc a.
Proof.
  intros a b i0 j0 c H E. unfold setb in E. destruct (in_block _ _ _ _ _); [|discriminate]. injection E as <-. split; [|split; reflexivity].
  intros i j Hi Hj. cbn [set_block me]. destruct (_ && _)%bool eqn:B; [|reflexivity]. rewrite !andb_true_iff in B. destruct B as [[[B1 _] B2] _].
  apply Nat.leb_le in B1, B2. lia.
Qed.
Lemma setn_out15 : forall (a b : mat T) i0 j0 r k c, 15 <= i0 \/ 15 <= j0 -> setbn a i0 j0 r k b = Ok c -> same15 c a /\ mr c = mr a /\ mc c = mc a.
Proof. intros a b i0 j0 r k c H E. unfold setbn in E. destruct (_ && _)%bool; [|discriminate]. eapply set_out15; eassumption. Qed.
Lemma cresize15 : forall junk (a : mat T) r c, 15 <= mr a -> 15 <= mc a -> same15 (cresize junk a r c) a.
Proof. intros junk a r c Hr Hc i j Hi Hj. cbn [cresize me]. replace (Nat.ltb i (mr a)) with true by (symmetry; apply Nat.ltb_lt; lia). replace (Nat.ltb j (mc a)) with true by (symmetry; apply Nat.ltb_lt; lia). reflexivity. Qed.
Lemma same15_trans : forall a b c, same15 a b -> same15 b c -> same15 a c.
Proof. intros a b c H K i j Hi Hj. rewrite H by assumption. apply K; assumption. Qed.
Lemma block_ok : forall (a : mat T) i j r c b, block a i j r c = Ok b -> b = get_block a i j r c /\ i + r <= mr a /\ j + c <= mc a.
Proof. intros a i j r c b H. unfold block, in_block in H. destruct (_ && _)%bool eqn:B; [|discriminate]. apply andb_true_iff in B as [B1 B2]. apply Nat.leb_le in B1, B2. injection H as <-. auto. Qed.
Lemma expand15 : forall junk ne nf P P', 1 <= ne + nf -> 15 <= mr P -> 15 <= mc P -> expand_cov junk ne nf P = Ok P' -> same15 P' P /\ mr P' = imu_size + (ne + nf) * 6 /\ mc P' = imu_size + (ne + nf) * 6.
Proof.
  intros junk ne nf P P' Hn Hr Hc H. unfold expand_cov in H. unfold imu_size in *.
  binv H. binv H. binv H. binv H. binv H. binv H. binv H. binv H.
  apply set_out15 in E; [|lia]. apply set_out15 in E0; [|lia]. apply setn_out15 in E3; [|lia]. apply setn_out15 in E4; [|lia]. apply setn_out15 in E6; [|lia]. apply setn_out15 in H; [|lia].
  destruct E as (S1 & R1 & C1), E0 as (S2 & R2 & C2), E3 as (S3 & R3 & C3), E4 as (S4 & R4 & C4), E6 as (S5 & R5 & C5), H as (S6 & R6 & C6).
  split; [|cbn [cresize mr mc] in *; split; lia].
  do 5 (eapply same15_trans; [eassumption|]). eapply same15_trans; [eassumption|]. apply cresize15; assumption.
Qed.
Lemma reduce15 : forall junk p ne nf P P', 2 <= nf -> mr P = imu_size + (ne + nf) * 6 -> mc P = imu_size + (ne + nf) * 6 -> reduce_cov junk p ne nf P = Ok P' -> same15 P' P.
Proof.
  intros junk p ne nf P P' Hn Hr Hc H. unfold reduce_cov, imu_size in *. destruct p.
  - binv H. binv H. binv H. binv H. binv H. injection H as <-. apply setn_out15 in E0; [|lia]. apply setn_out15 in E1; [|lia]. apply setn_out15 in E3; [|lia].
    destruct E0 as (S1 & R1 & C1), E1 as (S2 & R2 & C2), E3 as (S3 & R3 & C3). eapply same15_trans; [apply cresize15; lia|]. eapply same15_trans; [eassumption|]. eapply same15_trans; eassumption.
  - injection H as <-. apply cresize15; lia.
  - binv H. binv H. binv H. binv H. binv H. binv H. injection H as <-. apply setn_out15 in E0; [|lia]. apply setn_out15 in E2; [|lia]. apply setn_out15 in E4; [|lia].
    destruct E0 as (S1 & R1 & C1), E2 as (S2 & R2 & C2), E4 as (S3 & R3 & C3). eapply same15_trans; [apply cresize15; lia|]. eapply same15_trans; [eassumption|]. eapply same15_trans; eassumption.
  - injection H as <-. intros i j _ _. reflexivity.
Qed.
Lemma repropagate_front : forall grav (q : pqueue T) it, front (pq_items q) = Ok it -> front (pq_items (pq_repropagate grav q)) = Ok it.
Proof.
  intros grav q it H. unfold pq_repropagate. destruct (pq_items q) as [|it0 r] eqn:E; [discriminate|]. injection H as ->. destruct (reprop_loop _ _ _ _ _ _ _ _) as [[r' F'] G']. reflexivity.
Qed.
Lemma finish15 : forall (o : voracle T) c pol P s s', 1 <= length (wn_frames (vs_win s)) -> (pol <> NoMarg -> 2 <= length (wn_frames (vs_win s))) -> 15 <= mr P -> 15 <= mc P ->
  finish_update o c pol P s = Ok s' -> exists it, front (pq_items (vs_pq s')) = Ok it /\ same15 (pi_cov it) P.
Proof.
  intros o c pol P s s' Hn Hn2 Hr Hc H. unfold finish_update in H. binv H. binv H. binv H. injection H as <-. cbn [vs_pq].
  apply expand15 in E as (S1 & R1 & C1); [|lia|assumption|assumption].
  assert (same15 x0 x) as S2.
  { assert (pol = NoMarg \/ pol <> NoMarg) as [->|Hp] by (destruct pol; [right|right|right|left]; congruence).
    - injection E0 as <-. intros i j _ _. reflexivity.
    - eapply reduce15; [exact (Hn2 Hp)|exact R1|exact C1|exact E0]. }
  unfold update_cov in E1. destruct (Nat.ltb _ _); [discriminate|]. binv E1. binv E1. binv E1. binv E1. binv E1. injection E1 as <-.
  unfold with_head in E5. destruct (pq_items (vs_pq s)) as [|it0 r]; [discriminate|]. injection E5 as <-.
  eexists. split; [apply repropagate_front; reflexivity|]. cbn [pi_cov]. apply block_ok in E2 as (-> & _ & _). eapply same15_trans; [|exact S1]. exact S2.
Qed.
Lemma construct15 : forall ne nf (q : pqueue T) P, construct_cov ne nf q = Ok (Some P) -> exists it, front (pq_items q) = Ok it /\ same15 P (pi_cov it) /\ 15 <= mr P /\ 15 <= mc P.
Proof.
  intros ne nf q P H. unfold construct_cov in H. binv H. exists x. split; [exact E|]. destruct (negb _); [discriminate|]. binv H. binv H. binv H. binv H. injection H as <-. unfold imu_size in *.
  unfold setb in E0. destruct (in_block _ _ _ _ _); [|discriminate]. injection E0 as <-.
  apply setn_out15 in E1; [|lia]. apply setn_out15 in E2; [|lia]. apply setn_out15 in E3; [|lia]. destruct E1 as (S1 & R1 & C1), E2 as (S2 & R2 & C2), E3 as (S3 & R3 & C3). cbn [set_block mr mc mzero] in *.
  split; [|split; lia]. eapply same15_trans; [eassumption|]. eapply same15_trans; [eassumption|]. eapply same15_trans; [eassumption|]. intros i j Hi Hj.
  cbn [set_block me mr mc]. replace (Nat.ltb i 15) with true by (symmetry; apply Nat.ltb_lt; lia). replace (Nat.ltb j 15) with true by (symmetry; apply Nat.ltb_lt; lia). cbn [Nat.leb andb Nat.add].
  rewrite !Nat.sub_0_r. replace (Nat.ltb i 15) with true by (symmetry; apply Nat.ltb_lt; lia). replace (Nat.ltb j 15) with true by (symmetry; apply Nat.ltb_lt; lia). reflexivity.
Qed.
Lemma kalman_dims : forall saes noise (P Hr K dx P' : mat T), kalman saes noise P Hr = Ok (K, dx, P') -> mr P' = mr P /\ mc P' = mc P.
Proof.
  intros saes noise P Hr K dx P' H. unfold kalman in H. destruct (Nat.eqb _ _); [discriminate|]. do 9 binv H. injection H as _ _ <-. unfold mmulc, maddc in *.
  repeat match goal with E : (if ?b then _ else _) = Ok _ |- _ => destruct b; [|discriminate] end.
  repeat match goal with E : Ok _ = Ok ?x |- _ => apply (f_equal (fun r => match r with Ok y => Some y | Ub _ => None end)) in E; injection E as E end. subst. split; reflexivity.
Qed.
Lemma origin_in : forall ts thr (l l' : list (pitem T)), origin_loop ts thr l = Some l' -> incl l' l.
Proof.
  intros ts thr. induction l as [|a r IH]; intros l' H; cbn [origin_loop] in H; [discriminate|]. destruct (f64_ltb _ _); [apply incl_tl; apply IH; exact H|injection H as <-; apply incl_refl].
Qed.
Lemma vision15 : forall (o : voracle T) c s ts thr s' pol, vision_update o c s ts thr = Ok (s', true, pol) -> exists it, front (pq_items (vs_pq s')) = Ok it /\
  ((forall i j, i < 15 -> j < 15 -> me (pi_cov it) i j = me (pi_cov it) j i) \/
   exists q fs h it0, pq_reset_origin (vs_pq s) ts thr = (q, true) /\ update_newest (wn_frames (vs_win s)) q = Ok (Some fs) /\ select_good o c (vs_ext s) fs (wn_heap (vs_win s)) = Ok (h, []) /\
     front (pq_items q) = Ok it0 /\ same15 (pi_cov it) (pi_cov it0)).
Proof.
  intros o c s ts thr s' pol H. pose proof (vision_update_len _ _ _ _ _ _ _ _ H) as (_ & _ & Hpol). specialize (Hpol eq_refl).
  assert (pol <> NoMarg -> 2 <= length (wn_frames (vs_win s))) as Hn2.
  { intros Hp. unfold decide_policy in Hpol. destruct (need_marginalize _ _); [|congruence]. destruct (Nat.ltb_spec (length (wn_frames (vs_win s))) 2); [discriminate|assumption]. }
  unfold vision_update in H. destruct (pq_reset_origin (vs_pq s) ts thr) as [q found] eqn:Er. destruct found; [|discriminate]. cbn [negb] in H. binv H. binv H. destruct x0 as [P|]; [|discriminate]. binv H.
  destruct x0 as [fs|]; [|discriminate]. binv H. destruct x0 as [h l]. cbn [fst snd] in H. destruct (construct15 _ _ _ _ E0) as (it0 & F0 & S0 & D1 & D2).
  assert (length fs = length (wn_frames (vs_win s)) /\ 1 <= length fs) as [Lf Lf1].
  { unfold update_newest in E1. destruct (wn_frames (vs_win s)) as [|f0 r0] eqn:Ef; [discriminate|]. rewrite <- Ef in *. binv E1. binv E1. injection E1 as <-.
    rewrite set_last_len by (rewrite Ef; discriminate). split; [reflexivity|]. rewrite Ef. cbn [length]. lia. }
  destruct l as [|p l].
  - binv H. injection H as <- <-. apply finish15 in E3; [|exact Lf1|cbn [vs_win wn_frames]; rewrite Lf; exact Hn2|exact D1|exact D2]. destruct E3 as (it & F & S1). exists it. split; [exact F|]. right.
    exists q, fs, h, it0. repeat (split; [first [assumption|reflexivity]|]). eapply same15_trans; eassumption.
  - binv H. destruct x0 as [Hr|]; [|discriminate]. binv H. binv H. injection H as <- <-. destruct x0 as [P' s2]. cbn [fst snd] in E5. unfold update_state in E4. binv E4. destruct x0 as [[K dx] P2].
    binv E4. injection E4 as <- <-. pose proof (apply_delta_len _ _ _ E7) as [L1 _]. cbn [vs_win wn_frames] in L1. pose proof (kalman_dims _ _ _ _ _ _ _ E6) as [R1 C1].
    apply finish15 in E5; [|rewrite L1; exact Lf1|rewrite L1, Lf; exact Hn2|rewrite R1; exact D1|rewrite C1; exact D2]. destruct E5 as (it & F & S1). exists it. split; [exact F|]. left.
    intros i j Hi Hj. rewrite !S1 by assumption. eapply kalman_sym. exact E6.
Qed.
End Gen.

Lemma kalman_bits : forall (lm : libm32) saes noise P Hr K dx P', kalman (S := ops_f32 lm) saes noise P Hr = Ok (K, dx, P') -> forall i j, me P' i j = me P' j i.
Proof. intros lm. exact (kalman_sym (S := ops_f32 lm) f32_add_comm). Qed.
Lemma vision_bits : forall (lm : libm32) o c s ts thr s' pol, vision_update (S := ops_f32 lm) o c s ts thr = Ok (s', true, pol) -> some_feature lm o c s ts thr ->
  exists it, front (pq_items (vs_pq s')) = Ok it /\ sym15 (pi_cov it).
Proof.
  intros lm o c s ts thr s' pol H (q & fs & h & p & l & E1 & E2 & E3). destruct (vision15 (S := ops_f32 lm) f32_add_comm _ _ _ _ _ _ _ H) as (it & F & [S1|(q' & fs' & h' & it0 & G1 & G2 & G3 & _)]).
  - exists it. split; [exact F|exact S1].
  - exfalso. rewrite E1 in G1. injection G1 as <-. rewrite E2 in G2. injection G2 as <-. rewrite E3 in G3. discriminate.
Qed.
