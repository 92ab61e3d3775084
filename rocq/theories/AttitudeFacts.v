(** Proofs about the attitude queue (C23-C26). *)
From Coq Require Import ZArith Reals Lra Lia List Bool.
From Flocq Require Import Core BinarySingleNaN.
From Verif Require Import Fp FpFacts Scalar Base LinAlg MathLib Attitude Propagator QueueSpec.
Import ListNotations.
Local Open Scope R_scope.

#[global] Arguments f64_to_f32 : simpl never.
#[global] Arguments f32_ltb : simpl never.

(** ** Distances *)
Ltac fcb := unfold f64_sub, f64_isnan in *; cbn.
Lemma isnan_abs : forall x, f64_isnan (f64_abs x) = f64_isnan x.
Proof. intros [| | |]; reflexivity. Qed.
Lemma ext_abs : forall x, ext (f64_abs x) = Rabs (ext x).
Proof.
  intros x. pose proof big_pos. destruct x as [s|s| |s m e Hb]; unfold f64_abs, ext; cbn [Babs].
  - cbn. rewrite Rabs_R0. reflexivity.
  - destruct s; [rewrite Rabs_left by lra|rewrite Rabs_right by lra]; lra.
  - cbn. rewrite Rabs_R0. reflexivity.
  - exact (B2R_Babs prec64 emax64 (B754_finite s m e Hb)).
Qed.

Lemma rnd64_opp : forall r, rnd64 (- r) = - rnd64 r.
Proof. intros r. unfold rnd64. apply round_NE_opp. Qed.
Lemma clamp64_opp : forall r, clamp64 (- r) = - clamp64 r.
Proof.
  intros r. pose proof big_pos. unfold clamp64.
  destruct (Rle_dec big (- r)), (Rle_dec (- r) (- big)), (Rle_dec big r), (Rle_dec r (- big)); lra.
Qed.

Lemma sub_swap : forall x y : f64, f64_isnan (f64_sub x y) = f64_isnan (f64_sub y x) /\
  (f64_isnan (f64_sub y x) = false -> ext (f64_sub x y) = - ext (f64_sub y x)).
Proof.
  intros x y. destruct (f64_cases x) as [Fx|[->|[->| ->]]]; destruct (f64_cases y) as [Fy|[->|[->| ->]]];
    try (fcb; split; [reflexivity|intros; (discriminate || lra)]).
  - destruct (f64_sub_fin x y Fx Fy) as [-> ->]. destruct (f64_sub_fin y x Fy Fx) as [-> ->].
    split; [reflexivity|intros _]. rewrite <- clamp64_opp, <- rnd64_opp. f_equal. f_equal. lra.
  - destruct x; try discriminate; fcb; (split; [reflexivity|intros; lra]).
  - destruct x; try discriminate; fcb; (split; [reflexivity|intros; lra]).
  - destruct x; try discriminate; fcb; (split; [reflexivity|intros; (discriminate || lra)]).
  - destruct y; try discriminate; fcb; (split; [reflexivity|intros; lra]).
  - destruct y; try discriminate; fcb; (split; [reflexivity|intros; lra]).
  - destruct y; try discriminate; fcb; (split; [reflexivity|intros; (discriminate || lra)]).
Qed.

Lemma sub_nonneg : forall x y, f64_leb x y = true -> f64_isnan (f64_sub y x) = false -> 0 <= ext (f64_sub y x).
Proof.
  intros x y H N. apply f64_leb_iff in H as (Nx & Ny & H). pose proof big_pos.
  destruct (f64_cases x) as [Fx|[->|[->| ->]]]; destruct (f64_cases y) as [Fy|[->|[->| ->]]]; try discriminate.
  - rewrite (proj2 (f64_sub_fin y x Fy Fx)). rewrite !ext_fin in H by assumption.
    replace 0 with (clamp64 (rnd64 0)).
    + apply clamp64_mono, rnd64_mono. lra.
    + rewrite rnd64_0. unfold clamp64. destruct (Rle_dec big 0), (Rle_dec 0 (- big)); lra.
  - rewrite (ext_fin x Fx) in H. pose proof (f64_fin_lt x). cbn in H. lra.
  - destruct x; try discriminate; fcb; lra.
  - destruct y; try discriminate; fcb; lra.
  - fcb. lra.
  - rewrite (ext_fin y Fy) in H. pose proof (f64_fin_lt y). cbn in H. lra.
  - cbn in H. lra.
Qed.

Lemma isnan_tdist : forall t x, f64_isnan (tdist t x) = f64_isnan (f64_sub t x).
Proof. intros. apply isnan_abs. Qed.
Lemma tdist_left : forall t x, f64_leb x t = true -> f64_isnan (f64_sub t x) = false ->
  ext (tdist t x) = ext (f64_sub t x).
Proof.
  intros t x H N. unfold tdist. rewrite ext_abs. apply Rabs_pos_eq. apply sub_nonneg; assumption.
Qed.
Lemma tdist_right : forall t x, f64_leb t x = true -> f64_isnan (f64_sub x t) = false ->
  ext (tdist t x) = ext (f64_sub x t).
Proof.
  intros t x H N. unfold tdist. rewrite ext_abs. destruct (sub_swap t x) as [_ E]. rewrite (E N).
  rewrite Rabs_Ropp. apply Rabs_pos_eq. apply sub_nonneg; assumption.
Qed.
Lemma tdist_ltb_left : forall t x c, f64_leb x t = true -> f64_ltb (tdist t x) c = f64_ltb (f64_sub t x) c.
Proof.
  intros t x c H. destruct (f64_isnan (f64_sub t x)) eqn:N.
  - rewrite !f64_ltb_nan_l; [reflexivity|assumption|rewrite isnan_tdist; assumption].
  - destruct (f64_isnan c) eqn:Nc; [rewrite !f64_ltb_nan_r by assumption; reflexivity|].
    rewrite !f64_ltb_ext by (rewrite ?isnan_tdist; assumption). rewrite tdist_left by assumption. reflexivity.
Qed.
Lemma tdist_ltb_right : forall t x c, f64_leb t x = true -> f64_ltb (tdist t x) c = f64_ltb (f64_sub x t) c.
Proof.
  intros t x c H. destruct (sub_swap x t) as [En _]. destruct (f64_isnan (f64_sub x t)) eqn:N.
  - rewrite !f64_ltb_nan_l; [reflexivity|assumption|]. rewrite isnan_tdist. symmetry. exact En.
  - destruct (f64_isnan c) eqn:Nc; [rewrite !f64_ltb_nan_r by assumption; reflexivity|].
    rewrite !f64_ltb_ext by (rewrite ?isnan_tdist; congruence). rewrite tdist_right by assumption. reflexivity.
Qed.

(** The closer of two times on the same side is not farther. *)
Lemma tdist_mono_left : forall t x y, f64_leb x y = true -> f64_leb y t = true ->
  f64_isnan (f64_sub t x) = false -> f64_isnan (f64_sub t y) = false -> ext (tdist t y) <= ext (tdist t x).
Proof.
  intros t x y H1 H2 N1 N2. rewrite !tdist_left; auto; [|eapply f64_leb_trans; eassumption].
  pose proof (f64_sub_mono_r x y t H1 N1 N2) as H. apply f64_leb_iff in H. tauto.
Qed.
Lemma tdist_mono_right : forall t x y, f64_leb t x = true -> f64_leb x y = true ->
  f64_isnan (f64_sub x t) = false -> f64_isnan (f64_sub y t) = false -> ext (tdist t x) <= ext (tdist t y).
Proof.
  intros t x y H1 H2 N1 N2. rewrite !tdist_right; auto; [|eapply f64_leb_trans; eassumption].
  pose proof (f64_sub_mono_l x y t H2 N1 N2) as H. apply f64_leb_iff in H. tauto.
Qed.
Lemma not_closer : forall t x y, (f64_isnan (f64_sub t x) = false -> f64_isnan (f64_sub t y) = false -> ext (tdist t y) <= ext (tdist t x)) ->
  f64_ltb (tdist t x) (tdist t y) = false.
Proof.
  intros t x y H. destruct (f64_ltb (tdist t x) (tdist t y)) eqn:E; [|reflexivity].
  apply f64_ltb_iff in E as (N1 & N2 & E). rewrite isnan_tdist in N1, N2. specialize (H N1 N2). lra.
Qed.

(** ** Sorted lists *)
Lemma sorted_app : forall a b, time_sorted (a ++ b) <->
  time_sorted a /\ time_sorted b /\ (forall x y, In x a -> In y b -> f64_leb x y = true).
Proof.
  induction a as [|h a IH]; intros b; cbn [app time_sorted].
  - split; [intros H; split; [exact I|split; [exact H|intros x y []]]|intros (_ & H & _); exact H].
  - rewrite IH. split.
    + intros (N & H & Ha & Hb & Hab). split; [|split; [exact Hb|]].
      * split; [exact N|]. split; [|exact Ha]. intros y Hy. apply H. apply in_or_app. left; exact Hy.
      * intros x y [<-|Hx] Hy; [apply H; apply in_or_app; right; exact Hy|apply Hab; assumption].
    + intros ((N & H & Ha) & Hb & Hab). split; [exact N|]. split; [|split; [exact Ha|split; [exact Hb|]]].
      * intros y Hy. apply in_app_or in Hy as [Hy|Hy]; [apply H; exact Hy|apply Hab; [left; reflexivity|exact Hy]].
      * intros x y Hx Hy. apply Hab; [right; exact Hx|exact Hy].
Qed.
Lemma sorted_notnan : forall l x, time_sorted l -> In x l -> f64_isnan x = false.
Proof.
  induction l as [|h l IH]; intros x Hs []; cbn in Hs; destruct Hs as (N & _ & Hs).
  - subst x. exact N.
  - apply IH; assumption.
Qed.
Lemma sorted_snoc : forall l x, time_sorted l -> f64_isnan x = false ->
  (forall y, In y l -> f64_leb y x = true) -> time_sorted (l ++ [x]).
Proof.
  intros l x Hl Hx H. apply sorted_app. split; [exact Hl|]. split.
  - cbn. split; [exact Hx|]. split; [intros y []|exact I].
  - intros a b Ha [<-|[]]. apply H; exact Ha.
Qed.

Section Facts.
Context {T : Type} {S : SOps T}.

Lemma back_snoc : forall (A : Type) (l : list A) x, back (l ++ [x]) = Ok x.
Proof.
  intros A l x. induction l as [|h l IH]; [reflexivity|].
  cbn [app back]. destruct (l ++ [x]) eqn:E; [destruct l; discriminate|exact IH].
Qed.
Lemma back_cases : forall (A : Type) (l : list A), (l = [] /\ back l = Ub UbEmptyFront) \/ exists l' x, l = l' ++ [x] /\ back l = Ok x.
Proof.
  intros A l. destruct (rev l) as [|x r] eqn:E.
  - left. assert (l = []) as -> by (rewrite <- (rev_involutive l), E; reflexivity). split; reflexivity.
  - right. exists (rev r), x. assert (l = rev r ++ [x]) as -> by (rewrite <- (rev_involutive l), E; reflexivity).
    split; [reflexivity|apply back_snoc].
Qed.

(** ** GetAttitude *)
(** The search stops at the newest item not later than the request. *)
Lemma search_spec : forall t thr (l : list (att_item T)) prev,
  (Forall (fun i => f64_leb (ai_ts i) t = false) l /\ att_search t thr prev l = Ok None) \/
  exists a it b, l = a ++ it :: b /\ Forall (fun i => f64_leb (ai_ts i) t = false) a /\ f64_leb (ai_ts it) t = true /\
    forall p, match rev a with x :: _ => Some x | [] => prev end = Some p ->
    att_search t thr prev l =
      (if (f64_ltb (f64_sub (ai_ts p) t) (f64_sub t (ai_ts it)) && f64_ltb (f64_sub (ai_ts p) t) thr)%bool then Ok (Some (ai_q p))
       else if f64_ltb (f64_sub t (ai_ts it)) thr then Ok (Some (ai_q it)) else Ok None).
Proof.
  intros t thr. induction l as [|h l IH]; intros prev.
  - left. split; [constructor|reflexivity].
  - cbn [att_search]. destruct (f64_leb (ai_ts h) t) eqn:E.
    + right. exists [], h, l. split; [reflexivity|]. split; [constructor|]. split; [exact E|].
      cbn [rev]. intros p ->. reflexivity.
    + destruct (IH (Some h)) as [[Hf Hs]|(a & it & b & -> & Ha & Hit & Hs)].
      * left. split; [constructor; assumption|exact Hs].
      * right. exists (h :: a), it, b. split; [reflexivity|]. split; [constructor; assumption|]. split; [exact Hit|].
        intros p Hp. apply Hs. cbn [rev] in Hp. destruct (rev a); [exact Hp|exact Hp].
Qed.

(** What GetAttitude computes, by cases on the position of the request. *)
Lemma att_get_cases : forall (st : att T) t thr,
  (at_items st = [] /\ att_get st t thr = Ok None) \/
  (exists l b, at_items st = l ++ [b] /\ f64_leb (ai_ts b) t = true /\
     att_get st t thr = Ok (if f64_ltb (f64_sub t (ai_ts b)) thr then Some (ai_q b) else None)) \/
  (exists a l b, at_items st = a :: l ++ [b] /\ f64_leb (ai_ts b) t = false /\ f64_leb t (ai_ts a) = true /\
     att_get st t thr = Ok (if f64_ltb (f64_sub (ai_ts a) t) thr then Some (ai_q a) else None)) \/
  (exists pre it p post, at_items st = pre ++ it :: p :: post /\ f64_leb (ai_ts it) t = true /\
     Forall (fun i => f64_leb (ai_ts i) t = false) (p :: post) /\
     (forall a r, at_items st = a :: r -> f64_leb t (ai_ts a) = false) /\
     att_get st t thr =
      (if (f64_ltb (f64_sub (ai_ts p) t) (f64_sub t (ai_ts it)) && f64_ltb (f64_sub (ai_ts p) t) thr)%bool then Ok (Some (ai_q p))
       else if f64_ltb (f64_sub t (ai_ts it)) thr then Ok (Some (ai_q it)) else Ok None)) \/
  (Forall (fun i => f64_leb (ai_ts i) t = false) (at_items st) /\
     (forall a r, at_items st = a :: r -> r <> [] -> f64_leb t (ai_ts a) = false) /\ att_get st t thr = Ok None).
Proof.
  intros st t thr. unfold att_get. destruct (at_items st) as [|x r] eqn:Eit; [left; split; reflexivity|].
  right. destruct (back_cases _ (x :: r)) as [[? _]|(l & b & El & Eb)]; [discriminate|]. rewrite Eb. cbn [obind].
  destruct (f64_leb (ai_ts b) t) eqn:Hb.
  { left. exists l, b. split; [exact El|]. split; [exact Hb|reflexivity]. }
  right. cbn [front obind].
  destruct (Nat.ltb 1 (length (x :: r)) && f64_leb t (ai_ts x))%bool eqn:Hc.
  { left. apply andb_prop in Hc as [Hl Hx]. apply PeanoNat.Nat.ltb_lt in Hl.
    destruct l as [|y l']; [cbn in El; injection El as -> ->; cbn in Hl; lia|].
    cbn in El. injection El as <- ->. exists x, l', b. split; [reflexivity|]. split; [exact Hb|]. split; [exact Hx|reflexivity]. }
  right. destruct (search_spec t thr (rev (x :: r)) None) as [[Hf Hs]|(a & it & c & Er & Ha & Hit & Hs)].
  - right. split; [|split; [|exact Hs]].
    + apply Forall_rev in Hf. rewrite rev_involutive in Hf. exact Hf.
    + intros a r' E Hr. injection E as <- <-. destruct r; [congruence|]. cbn in Hc. exact Hc.
  - left. assert (El2 : x :: r = rev c ++ it :: rev a).
    { rewrite <- (rev_involutive (x :: r)), Er, rev_app_distr. cbn [rev]. rewrite <- app_assoc. reflexivity. }
    destruct (rev a) as [|p post] eqn:Ea.
    { exfalso. rewrite El2 in El. apply app_inj_tail in El as [_ ->]. congruence. }
    exists (rev c), it, p, post. split; [exact El2|]. split; [exact Hit|]. split; [|split].
    + apply Forall_rev in Ha. rewrite Ea in Ha. exact Ha.
    + intros a' r' E. injection E as <- <-. destruct r; [|cbn in Hc; exact Hc].
      destruct (rev c) as [|? [|? ?]]; discriminate.
    + apply Hs. reflexivity.
Qed.

(** C23 *)
Theorem get_attitude_nearest : forall (st : att T) t thr, exists r, att_get st t thr = Ok r /\
  forall q, r = Some q -> exists it, In it (at_items st) /\ ai_q it = q /\ f64_ltb (tdist t (ai_ts it)) thr = true /\
    (time_sorted (map ai_ts (at_items st)) ->
     forall x, In x (at_items st) -> f64_ltb (tdist t (ai_ts x)) (tdist t (ai_ts it)) = false).
Proof.
  intros st t thr. destruct (att_get_cases st t thr) as
    [[E H]|[(l & b & E & Hb & H)|[(a & l & b & E & Hb & Ha & H)|[(pre & it & p & post & E & Hit & Hpost & Hf & H)|(Hf & Hn & H)]]]].
  - exists None. split; [exact H|discriminate].
  - rewrite H. destruct (f64_ltb (f64_sub t (ai_ts b)) thr) eqn:Hd; [|exists None; split; [reflexivity|discriminate]].
    exists (Some (ai_q b)). split; [reflexivity|]. intros q [= <-]. exists b. rewrite E.
    split; [apply in_or_app; right; left; reflexivity|]. split; [reflexivity|]. split.
    + rewrite tdist_ltb_left; assumption.
    + intros Hs x Hx. apply not_closer. intros N1 N2.
      apply in_app_or in Hx as [Hx|[<-|[]]]; [|lra].
      apply tdist_mono_left; auto. rewrite map_app in Hs. apply sorted_app in Hs as (_ & _ & Hs).
      apply Hs; [apply in_map; exact Hx|left; reflexivity].
  - rewrite H. destruct (f64_ltb (f64_sub (ai_ts a) t) thr) eqn:Hd; [|exists None; split; [reflexivity|discriminate]].
    exists (Some (ai_q a)). split; [reflexivity|]. intros q [= <-]. exists a. rewrite E.
    split; [left; reflexivity|]. split; [reflexivity|]. split.
    + rewrite tdist_ltb_right; assumption.
    + intros Hs x [<-|Hx]; [apply not_closer; intros; lra|]. apply not_closer. intros N1 N2.
      rewrite <- (proj1 (sub_swap (ai_ts x) t)) in N1. rewrite <- (proj1 (sub_swap (ai_ts a) t)) in N2.
      apply tdist_mono_right; auto. cbn in Hs. destruct Hs as (_ & Hs & _). apply Hs. apply in_map. exact Hx.
  - assert (Hpin : In p (at_items st)) by (rewrite E; apply in_or_app; right; right; left; reflexivity).
    assert (Hitin : In it (at_items st)) by (rewrite E; apply in_or_app; right; left; reflexivity).
    rewrite H. destruct (f64_ltb (f64_sub (ai_ts p) t) (f64_sub t (ai_ts it)) && f64_ltb (f64_sub (ai_ts p) t) thr)%bool eqn:Hd.
    + apply andb_prop in Hd as [Hd1 Hd2]. exists (Some (ai_q p)). split; [reflexivity|]. intros q [= <-]. exists p.
      split; [exact Hpin|]. split; [reflexivity|].
      assert (Np : f64_isnan (f64_sub (ai_ts p) t) = false) by (apply f64_ltb_iff in Hd2; tauto).
      assert (Hpt : f64_leb t (ai_ts p) = true).
      { inversion Hpost as [|? ? Hp _]; subst. destruct (f64_isnan (ai_ts p)) eqn:N1.
        - destruct (ai_ts p); try discriminate.
        - destruct (f64_isnan t) eqn:N2; [destruct t; try discriminate; rewrite f64_leb_nan_r in Hit by reflexivity; discriminate|].
          apply f64_ltb_leb. apply f64_leb_false_ltb; assumption. }
      split; [rewrite tdist_ltb_right; assumption|].
      intros Hs x Hx. apply not_closer. intros N1 N2.
      rewrite E in Hx. apply in_app_or in Hx as [Hx|[<-|[<-|Hx]]].
      * rewrite E, map_app in Hs. apply sorted_app in Hs as (_ & _ & Hs).
        assert (f64_leb (ai_ts x) (ai_ts it) = true) by (apply Hs; [apply in_map; exact Hx|left; reflexivity]).
        apply f64_ltb_iff in Hd1 as (_ & Nit & Hd1).
        rewrite (tdist_right t (ai_ts p)) by assumption.
        pose proof (tdist_mono_left t (ai_ts x) (ai_ts it) H0 Hit N1 Nit) as Hm.
        rewrite (tdist_left t (ai_ts it)) in Hm by assumption. lra.
      * apply f64_ltb_iff in Hd1 as (_ & Nit & Hd1).
        rewrite (tdist_right t (ai_ts p)) by assumption. rewrite tdist_left by assumption. lra.
      * lra.
      * rewrite E, map_app in Hs. apply sorted_app in Hs as (_ & Hs & _). cbn in Hs. destruct Hs as (_ & _ & (_ & Hs & _)).
        rewrite <- (proj1 (sub_swap (ai_ts x) t)) in N1.
        apply tdist_mono_right; auto. apply Hs. apply in_map. exact Hx.
    + destruct (f64_ltb (f64_sub t (ai_ts it)) thr) eqn:Hd2; [|exists None; split; [reflexivity|discriminate]].
      exists (Some (ai_q it)). split; [reflexivity|]. intros q [= <-]. exists it.
      split; [exact Hitin|]. split; [reflexivity|].
      assert (Nit : f64_isnan (f64_sub t (ai_ts it)) = false) by (apply f64_ltb_iff in Hd2; tauto).
      split; [rewrite tdist_ltb_left; assumption|].
      intros Hs x Hx. apply not_closer. intros N1 N2.
      rewrite E in Hx. apply in_app_or in Hx as [Hx|[<-|Hx]].
      * rewrite E, map_app in Hs. apply sorted_app in Hs as (_ & _ & Hs).
        apply tdist_mono_left; auto. apply Hs; [apply in_map; exact Hx|left; reflexivity].
      * lra.
      * assert (Hxp : f64_leb (ai_ts p) (ai_ts x) = true /\ f64_isnan (ai_ts p) = false).
        { rewrite E, map_app in Hs. apply sorted_app in Hs as (_ & Hs & _). cbn in Hs. destruct Hs as (_ & _ & (Np & Hs & _)).
          split; [|exact Np]. destruct Hx as [<-|Hx]; [apply f64_leb_refl; exact Np|apply Hs; apply in_map; exact Hx]. }
        destruct Hxp as [Hxp Np].
        assert (Nt : f64_isnan t = false) by (apply f64_leb_iff in Hit; tauto).
        assert (Hpt : f64_ltb t (ai_ts p) = true).
        { inversion Hpost as [|? ? Hp _]; subst. apply f64_leb_false_ltb; assumption. }
        rewrite <- (proj1 (sub_swap (ai_ts x) t)) in N1.
        assert (Npt : f64_isnan (f64_sub (ai_ts p) t) = false).
        { destruct (f64_cases (ai_ts p)) as [Fp|[Ep|[Ep|Ep]]]; destruct (f64_cases t) as [Ft|[Et|[Et|Et]]];
            try (rewrite Ep in *); try (rewrite Et in *); try discriminate; try reflexivity.
          - apply (proj1 (f64_sub_fin _ _ Fp Ft)).
          - destruct (ai_ts p); try discriminate; reflexivity.
          - destruct (ai_ts p); try discriminate; reflexivity.
          - destruct t; try discriminate; reflexivity.
          - destruct t; try discriminate; reflexivity. }
        pose proof (f64_ltb_leb _ _ Hpt) as Hpt'.
        pose proof (tdist_mono_right t (ai_ts p) (ai_ts x) Hpt' Hxp Npt N1) as Hm.
        rewrite (tdist_left t (ai_ts it)) by assumption.
        rewrite (tdist_right t (ai_ts p)) in Hm by assumption.
        apply f64_ltb_iff in Hd2 as (_ & Nthr & Hd2).
        apply andb_false_iff in Hd as [Hd|Hd].
        -- apply f64_ltb_false_iff in Hd; auto. lra.
        -- apply f64_ltb_false_iff in Hd; auto. lra.
  - exists None. split; [exact H|discriminate].
Qed.

(** C24 *)
Lemma sub_fin_notnan : forall t y : f64, is_finite t = true -> f64_isnan y = false -> f64_isnan (f64_sub t y) = false.
Proof.
  intros t y Ft Ny. destruct (f64_cases y) as [Fy|[->|[->| ->]]]; try discriminate.
  - apply (proj1 (f64_sub_fin _ _ Ft Fy)).
  - destruct t; try discriminate; reflexivity.
  - destruct t; try discriminate; reflexivity.
Qed.
Lemma tdist_finite : forall t x c, f64_ltb (tdist t x) c = true -> is_finite t = true.
Proof.
  intros t x c H. apply f64_ltb_iff in H as (N & _ & H). pose proof (ext_range c).
  rewrite isnan_tdist in N. unfold tdist in H. rewrite ext_abs in H. pose proof big_pos.
  destruct t as [|[]| |]; try reflexivity; destruct x as [|[]| |]; try discriminate; unfold f64_sub in H; cbn in H;
    first [rewrite Rabs_left in H by lra; lra|rewrite Rabs_right in H by lra; lra].
Qed.

Theorem get_attitude_finds : forall (st : att T) t thr x, time_sorted (map ai_ts (at_items st)) ->
  In x (at_items st) -> f64_ltb (tdist t (ai_ts x)) thr = true ->
  ((1 < length (at_items st))%nat \/ f64_leb (ai_ts x) t = true) ->
  exists q, att_get st t thr = Ok (Some q).
Proof.
  intros st t thr x Hs Hx Hd Hlen.
  assert (Nx : f64_isnan (ai_ts x) = false) by (eapply sorted_notnan; [exact Hs|apply in_map; exact Hx]).
  pose proof Hd as Hd0. apply f64_ltb_iff in Hd0 as (Nd & Nthr & Hd0). rewrite isnan_tdist in Nd.
  assert (Nt : f64_isnan t = false) by (destruct t; try reflexivity; discriminate).
  pose proof (proj1 (sub_swap (ai_ts x) t)) as Esw. rewrite Nd in Esw.
  assert (Ft : is_finite t = true) by (eapply tdist_finite; exact Hd).
  assert (Nsub : forall y, f64_isnan y = false -> f64_isnan (f64_sub t y) = false) by (intros; apply sub_fin_notnan; assumption).
  destruct (att_get_cases st t thr) as
    [[E H]|[(l & b & E & Hb & H)|[(a & l & b & E & Hb & Ha & H)|[(pre & it & p & post & E & Hit & Hpost & Hf & H)|(Hf & Hn & H)]]]].
  - rewrite E in Hx. destruct Hx.
  - rewrite H. assert (Hxb : f64_leb (ai_ts x) (ai_ts b) = true).
    { rewrite E in Hx, Hs. rewrite map_app in Hs. apply sorted_app in Hs as (_ & _ & Hs).
      apply in_app_or in Hx as [Hx|[<-|[]]]; [apply Hs; [apply in_map; exact Hx|left; reflexivity]|apply f64_leb_refl; exact Nx]. }
    assert (Nb : f64_isnan (ai_ts b) = false) by (apply f64_leb_iff in Hb; tauto).
    assert (Hxt : f64_leb (ai_ts x) t = true) by (eapply f64_leb_trans; eassumption).
    assert (Ntb : f64_isnan (f64_sub t (ai_ts b)) = false) by (apply Nsub; exact Nb).
    replace (f64_ltb (f64_sub t (ai_ts b)) thr) with true; [eexists; reflexivity|]. symmetry.
    apply f64_ltb_iff. split; [exact Ntb|]. split; [exact Nthr|].
    pose proof (tdist_mono_left t _ _ Hxb Hb Nd Ntb) as Hm. rewrite <- tdist_left by assumption. lra.
  - rewrite H. assert (Hxa : f64_leb (ai_ts a) (ai_ts x) = true).
    { rewrite E in Hx, Hs. cbn in Hs. destruct Hs as (Na & Hs & _).
      destruct Hx as [<-|Hx]; [apply f64_leb_refl; exact Nx|apply Hs; apply in_map; exact Hx]. }
    assert (Na : f64_isnan (ai_ts a) = false) by (apply f64_leb_iff in Ha; tauto).
    assert (Hxt : f64_leb t (ai_ts x) = true) by (eapply f64_leb_trans; eassumption).
    assert (Nta : f64_isnan (f64_sub t (ai_ts a)) = false) by (apply Nsub; exact Na).
    rewrite <- (proj1 (sub_swap (ai_ts a) t)) in Nta.
    replace (f64_ltb (f64_sub (ai_ts a) t) thr) with true; [eexists; reflexivity|]. symmetry.
    apply f64_ltb_iff. split; [exact Nta|]. split; [exact Nthr|].
    pose proof (tdist_mono_right t _ _ Ha Hxa Nta Esw) as Hm. rewrite <- tdist_right by assumption. lra.
  - rewrite H.
    assert (Hs2 := Hs). rewrite E, map_app in Hs2. apply sorted_app in Hs2 as (_ & Hs2 & Hs3). cbn in Hs2.
    destruct Hs2 as (Nit & Hs2 & (Np & Hs4 & _)).
    assert (Hpt : f64_ltb t (ai_ts p) = true).
    { inversion Hpost as [|? ? Hp _]; subst. apply f64_leb_false_ltb; assumption. }
    pose proof (f64_ltb_leb _ _ Hpt) as Hpt'.
    assert (Hfin : f64_isnan (f64_sub t (ai_ts it)) = false) by (apply Nsub; exact Nit).
    assert (Npt : f64_isnan (f64_sub (ai_ts p) t) = false) by (rewrite (proj1 (sub_swap (ai_ts p) t)); apply Nsub; exact Np).
    assert (Hcase : ext (f64_sub t (ai_ts it)) < ext thr \/ ext (f64_sub (ai_ts p) t) < ext thr).
    { rewrite E in Hx. apply in_app_or in Hx as [Hx|[<-|Hx]].
      - left. assert (Hxi : f64_leb (ai_ts x) (ai_ts it) = true) by (apply Hs3; [apply in_map; exact Hx|left; reflexivity]).
        pose proof (tdist_mono_left t _ _ Hxi Hit Nd Hfin) as Hm. rewrite (tdist_left t (ai_ts it)) in Hm by assumption. lra.
      - left. rewrite tdist_left in Hd0 by assumption. exact Hd0.
      - right. assert (Hpx : f64_leb (ai_ts p) (ai_ts x) = true).
        { destruct Hx as [<-|Hx]; [apply f64_leb_refl; exact Nx|apply Hs4; apply in_map; exact Hx]. }
        pose proof (tdist_mono_right t _ _ Hpt' Hpx Npt Esw) as Hm. rewrite (tdist_right t (ai_ts p)) in Hm by assumption. lra. }
    destruct (f64_ltb (f64_sub (ai_ts p) t) (f64_sub t (ai_ts it)) && f64_ltb (f64_sub (ai_ts p) t) thr)%bool eqn:Hc; [eexists; reflexivity|].
    assert (f64_ltb (f64_sub t (ai_ts it)) thr = true) as ->; [|eexists; reflexivity].
    apply f64_ltb_iff. split; [exact Hfin|]. split; [exact Nthr|]. destruct Hcase as [Hcase|Hcase]; [exact Hcase|].
    apply andb_false_iff in Hc as [Hc|Hc]; apply f64_ltb_false_iff in Hc; auto; lra.
  - exfalso. destruct Hlen as [Hlen|Hlen].
    + destruct (at_items st) as [|a [|a2 r]] eqn:Ea; try (cbn in Hlen; lia).
      specialize (Hn a (a2 :: r) eq_refl ltac:(discriminate)).
      assert (Na : f64_isnan (ai_ts a) = false) by (cbn in Hs; tauto).
      apply f64_leb_false_ltb in Hn; auto. inversion Hf as [|? ? Hf1 _]; subst.
      apply f64_ltb_leb in Hn. congruence.
    + rewrite Forall_forall in Hf. rewrite (Hf x Hx) in Hlen. discriminate.
Qed.

(** ** CleanOldItems (C25) *)
Lemma clean_loop_spec : forall t thr (l : list (att_item T)),
  (Forall (fun i => older32 thr t (ai_ts i)) l /\ clean_loop t thr l = Ub UbEmptyFront) \/
  exists l', clean_loop t thr l = Ok l' /\ l' <> [] /\ drops (fun i => older32 thr t (ai_ts i)) l l'.
Proof.
  intros t thr. induction l as [|h l IH]; cbn [clean_loop].
  - left. split; [constructor|reflexivity].
  - unfold is_old32. destruct (f32_ltb thr (f64_to_f32 (f64_sub t (ai_ts h)))) eqn:E.
    + destruct IH as [[Hf Hs]|(l' & Hs & Hn & pre & -> & Hp & Hl)].
      * left. split; [constructor; assumption|exact Hs].
      * right. exists l'. split; [exact Hs|]. split; [exact Hn|]. exists (h :: pre). split; [reflexivity|]. split; [constructor; assumption|exact Hl].
    + right. exists (h :: l). split; [reflexivity|]. split; [discriminate|]. exists []. split; [reflexivity|]. split; [constructor|].
      unfold older32. congruence.
Qed.

Theorem clean_old_exact : forall (st : att T) t thr,
  (at_items st <> [] /\ Forall (fun i => older32 thr t (ai_ts i)) (at_items st) -> att_clean st t thr = Ub UbEmptyFront) /\
  (~ (at_items st <> [] /\ Forall (fun i => older32 thr t (ai_ts i)) (at_items st)) ->
   exists l', att_clean st t thr = Ok (Att l' (at_ba st) (at_bg st) (at_err st)) /\
     drops (fun i => older32 thr t (ai_ts i)) (at_items st) l' /\ (at_items st <> [] -> l' <> [])).
Proof.
  intros st t thr. unfold att_clean. destruct (at_items st) as [|h l] eqn:E.
  - split; [intros [H _]; congruence|]. intros _. exists []. split; [destruct st; cbn in *; subst; reflexivity|].
    split; [|congruence]. exists []. split; [reflexivity|]. split; [constructor|exact I].
  - destruct (clean_loop_spec t thr (h :: l)) as [[Hf Hs]|(l' & Hs & Hn & Hd)].
    + split; [intros _; rewrite Hs; reflexivity|]. intros H. exfalso. apply H. split; [discriminate|exact Hf].
    + split.
      * intros [_ Hf]. exfalso. destruct Hd as (pre & Heq & _ & Hl). destruct l' as [|x l']; [congruence|].
        rewrite Heq in Hf. apply Forall_app in Hf as [_ Hf]. inversion Hf; subst. apply Hl. assumption.
      * intros _. exists l'. rewrite Hs. split; [reflexivity|]. split; [exact Hd|intros _; exact Hn].
Qed.

(** ** Propagate (C26) *)
Theorem att_propagate_rule : forall grav (st : att T) a g t,
  match rev (at_items st) with
  | [] => if sgt64 (sabs (ssub (v3norm grav) (v3norm (v3sub a (at_ba st))))) f64_0_04
          then att_propagate grav st a g t = (st, false)
          else exists q, att_propagate grav st a g t =
                 (Att [AttItem q (v3sub a (at_ba st)) (v3sub g (at_bg st)) t] (at_ba st) (at_bg st) (at_err st), true)
  | b :: _ => if f64_ltb t (ai_ts b) then att_propagate grav st a g t = (st, false)
              else exists q e, att_propagate grav st a g t =
                 (Att (at_items st ++ [AttItem q (v3sub a (at_ba st)) (v3sub g (at_bg st)) t]) (at_ba st) (at_bg st) e, true)
  end.
Proof.
  intros grav st a g t. destruct (back_cases _ (at_items st)) as [[E Eb]|(l & b & E & Eb)]; unfold att_propagate; rewrite Eb.
  - rewrite E. cbn [rev]. unfold att_gate. destruct (sgt64 _ _); [reflexivity|]. eexists. reflexivity.
  - replace (rev (at_items st)) with (b :: rev l) by (rewrite E, rev_app_distr; reflexivity). cbn iota beta. destruct (f64_ltb t (ai_ts b)); [reflexivity|]. eexists _, _. reflexivity.
Qed.

Lemma att_propagate_sorted : forall grav (st : att T) a g t, f64_isnan t = false ->
  time_sorted (map ai_ts (at_items st)) -> time_sorted (map ai_ts (at_items (fst (att_propagate grav st a g t)))).
Proof.
  intros grav st a g t Nt Hs. pose proof (att_propagate_rule grav st a g t) as H.
  destruct (rev (at_items st)) as [|b r] eqn:E.
  - destruct (sgt64 _ _); [rewrite H; exact Hs|]. destruct H as [q ->]. cbn. split; [exact Nt|]. split; [intros y []|exact I].
  - destruct (f64_ltb t (ai_ts b)) eqn:Ht; [rewrite H; exact Hs|]. destruct H as (q & e & ->). cbn [fst at_items].
    rewrite map_app. apply sorted_snoc; [exact Hs|exact Nt|]. cbn [map].
    assert (El : at_items st = rev r ++ [b]) by (rewrite <- (rev_involutive (at_items st)), E; reflexivity).
    rewrite El, map_app in Hs |- *. pose proof Hs as Hs'. apply sorted_app in Hs as (_ & Hb & Hs). cbn in Hb.
    assert (Hbt : f64_leb (ai_ts b) t = true) by (apply f64_ltb_false_leb; tauto).
    intros y Hy. apply in_app_or in Hy as [Hy|[<-|[]]]; [|exact Hbt].
    eapply f64_leb_trans; [apply Hs; [exact Hy|left; reflexivity]|exact Hbt].
Qed.

Theorem att_queue_ordered : forall grav (st : att T) l, Forall (fun s => f64_isnan (snd s) = false) l ->
  time_sorted (map ai_ts (at_items st)) -> time_sorted (map ai_ts (at_items (att_feed grav st l))).
Proof.
  intros grav st l. revert st. induction l as [|[[a g] t] l IH]; intros st Hl Hs; [exact Hs|].
  inversion Hl as [|? ? Ht Hl']; subst. cbn [att_feed]. apply IH; [exact Hl'|]. apply att_propagate_sorted; [exact Ht|exact Hs].
Qed.

End Facts.
