(** Facts about the printed listings (C93, C94). *)
From Coq Require Import ZArith List Bool String Lia.
From stdpp Require Import gmap list.
From Verif Require Import Fp Scalar Base LinAlg Msg FeatureManager FrameManager Window WindowSpec FrameFacts FeatureFacts WindowFacts UpdSpec Config Print PrintSpec.
Import ListNotations.
Local Open Scope Z_scope.

Lemma nodup_flat : forall {A B} (f : A -> list B) l, List.NoDup l -> (forall x, In x l -> List.NoDup (f x)) ->
  (forall x y b, In x l -> In y l -> In b (f x) -> In b (f y) -> x = y) -> List.NoDup (flat_map f l).
Proof.
  intros A B f l. induction l as [|x l IH]; intros Hn Hf Hd; cbn [flat_map]; [constructor|]. inversion Hn as [|? ? Hx Hn']; subst.
  assert (G : List.NoDup (flat_map f l)). { apply IH; [exact Hn'|intros; apply Hf; right; assumption|]. intros u v b Hu Hv. apply Hd; right; assumption. }
  pose proof (Hf x (or_introl eq_refl)) as Fx.
  assert (D : forall b, In b (f x) -> ~ In b (flat_map f l)).
  { intros b Hb Hin. apply in_flat_map in Hin as (y & Hy & Hby). assert (x = y) by (apply (Hd x y b); [left; reflexivity|right; exact Hy|exact Hb|exact Hby]). subst y. contradiction. }
  clear - G Fx D. induction (f x) as [|b m IHm]; [exact G|]. cbn [app]. inversion Fx; subst. constructor.
  - intros C. apply in_app_or in C as [C|C]; [contradiction|]. apply (D b); [left; reflexivity|exact C].
  - apply IHm; [assumption|]. intros c Hc. apply D. right. exact Hc.
Qed.

Lemma nth_ext_error : forall {A} (l l' : list A), length l = length l' -> (forall i x y, nth_error l i = Some x -> nth_error l' i = Some y -> x = y) -> l = l'.
Proof.
  intros A. induction l as [|a l IH]; intros [|b l'] H G; try discriminate; [reflexivity|]. f_equal; [apply (G O); reflexivity|]. apply IH; [cbn in H; lia|]. intros i x y. apply (G (S i)).
Qed.

Lemma nth_lookup : forall {A} (l : list A) i, nth_error l i = l !! i.
Proof. intros A. induction l as [|a l IH]; intros [|i]; cbn; [reflexivity..|apply IH]. Qed.

Section PrintFacts.
Context {T : Type} {S : SOps T}.
Variable nord : observe T -> list (Z * v2 T).
Hypothesis Hnord : valid_norder nord.
Lemma nord_in : forall o cam x, In (cam, x) (nord o) <-> o !! cam = Some x.
Proof using Hnord. intros o cam x. rewrite <- elem_of_list_In, (Hnord o). apply (elem_of_map_to_list (M := gmap Z) (o : gmap Z (v2 T)) cam x). Qed.
Lemma nord_nodup : forall o, List.NoDup (map fst (nord o)).
Proof using Hnord. intros o. apply NoDup_ListNoDup. rewrite (Permutation_map fst (Hnord o)). apply (NoDup_fst_map_to_list (M := gmap Z) (o : gmap Z (v2 T))). Qed.
Lemma nord_len : forall o, Z.of_nat (length (nord o)) = osize o.
Proof using Hnord. intros o. unfold osize. rewrite (Permutation_length (Hnord o)). reflexivity. Qed.

(** ** Features *)
(** The observations of a track, as the lines show them. *)
Fixpoint track_obs (id first : Z) (i : nat) (obs : list (observe T)) : list (Z * Z * Z * v2 T) :=
  match obs with [] => [] | o :: r => map (fun kv => (id, u32 (first + Z.of_nat i), fst kv, snd kv)) (nord o) ++ track_obs id first (Datatypes.S i) r end.
Definition track_of (f : feature T) := track_obs (ft_id f) (ft_first f) 0 (ft_obs f).
Lemma read_frame : forall id k l t, read_tracks (Some id) (map (fun kv : Z * v2 T => [Txt "     frame "; UInt k; Txt " camera "; UInt (fst kv); Txt " observe ["] ++ pr_v2 (snd kv) ++ [Txt "]"]) l ++ t) =
  map (fun kv => (id, k, fst kv, snd kv)) l ++ read_tracks (Some id) t.
Proof using Type. intros id k l t. induction l as [|[cam [x y]] l IHl]; [reflexivity|]. cbn [map app]. cbn. f_equal. exact IHl. Qed.
Lemma read_obs : forall id first obs i r, read_tracks (Some id) (print_obs nord first i obs ++ r) = track_obs id first i obs ++ read_tracks (Some id) r.
Proof using Type.
  intros id first obs. induction obs as [|o obs IH]; intros i r; [reflexivity|]. cbn [print_obs track_obs]. rewrite <- !app_assoc, <- IH. apply read_frame.
Qed.
Lemma read_feature : forall f cur r, read_tracks cur (print_feature nord f ++ r) = track_of f ++ read_tracks (Some (ft_id f)) r.
Proof using Type. intros f cur r. unfold print_feature. cbn [app]. cbn [read_tracks head_of]. cbn. apply read_obs. Qed.
Lemma heads_obs : forall first obs i, read_heads (print_obs nord first i obs) = [].
Proof using Type.
  intros first obs. induction obs as [|o obs IH]; intros i; [reflexivity|]. cbn [print_obs]. unfold read_heads in *. rewrite flat_map_app, IH, app_nil_r.
  induction (nord o) as [|kv l IHl]; [reflexivity|]. cbn. exact IHl.
Qed.
Lemma heads_feature : forall f, read_heads (print_feature nord f) = [(ft_id f, ft_first f, final_frame f, ft_num f)].
Proof using Type. intros f. unfold print_feature. unfold read_heads. cbn [flat_map]. fold (read_heads (print_obs nord (ft_first f) 0 (ft_obs f))). rewrite heads_obs. reflexivity. Qed.
Lemma print_ptrs_ok : forall h l, (forall k p, In (k, p) l -> exists f, hp_cells h !! p = Some f) -> exists t fs, print_ptrs nord h l = Ok t /\
  Forall2 (fun kp f => hp_cells h !! (snd kp) = Some f) l fs /\ read_heads t = map (fun f => (ft_id f, ft_first f, final_frame f, ft_num f)) fs /\
  forall cur r, read_tracks cur r = [] -> (forall c, read_tracks c r = []) -> read_tracks cur (t ++ r) = flat_map track_of fs.
Proof using Type.
  intros h l. induction l as [|[k p] l IH]; intros H; cbn [print_ptrs].
  - exists [], []. split; [reflexivity|]. split; [constructor|]. split; [reflexivity|]. intros cur r Hr _. exact Hr.
  - destruct (H k p (or_introl eq_refl)) as [f Hf]. cbn [snd]. rewrite (hget_ok _ _ _ Hf). cbn [obind].
    destruct IH as (t & fs & -> & F & Hh & Ht); [intros k' p' Hin; apply (H k' p'); right; exact Hin|]. cbn [obind].
    exists (print_feature nord f ++ t), (f :: fs). split; [reflexivity|]. split; [constructor; assumption|]. split.
    + unfold read_heads. rewrite flat_map_app. fold (read_heads (print_feature nord f)). rewrite heads_feature. fold (read_heads t). rewrite Hh. reflexivity.
    + intros cur r _ Hr. rewrite <- app_assoc, read_feature. cbn [flat_map]. f_equal. apply Ht; [apply Hr|exact Hr].
Qed.
Lemma track_in : forall id first obs i x, In x (track_obs id first i obs) <-> exists j o cam z, nth_error obs j = Some o /\ o !! cam = Some z /\ x = (id, u32 (first + Z.of_nat (i + j)), cam, z).
Proof using Hnord.
  intros id first obs. induction obs as [|o obs IH]; intros i x; cbn [track_obs].
  - split; [intros []|]. intros (j & o & cam & z & E & _). destruct j; discriminate E.
  - rewrite in_app_iff, IH, in_map_iff. split.
    + intros [([cam z] & <- & Hin)|(j & o' & cam & z & E & Hz & ->)].
      * exists 0%nat, o, cam, z. split; [reflexivity|]. split; [apply nord_in, Hin|]. rewrite Nat.add_0_r. reflexivity.
      * exists (Datatypes.S j), o', cam, z. split; [exact E|]. split; [exact Hz|]. rewrite <- plus_n_Sm. reflexivity.
    + intros ([|j] & o' & cam & z & E & Hz & ->).
      * left. cbn in E. injection E as ->. exists (cam, z). rewrite Nat.add_0_r. split; [reflexivity|apply nord_in, Hz].
      * right. exists j, o', cam, z. split; [exact E|]. split; [exact Hz|]. rewrite <- plus_n_Sm. reflexivity.
Qed.
Lemma track_nodup : forall id first obs i, 0 <= first -> first + Z.of_nat (i + length obs) < 4294967296 -> List.NoDup (track_obs id first i obs).
Proof using Hnord.
  intros id first obs. induction obs as [|o obs IH]; intros i H0 Hl; cbn [track_obs length] in *; [constructor|].
  apply NoDup_ListNoDup. apply NoDup_app. split; [|split; [|apply NoDup_ListNoDup, IH; lia]].
  - apply NoDup_ListNoDup. pose proof (nord_nodup o) as N. induction (nord o) as [|[cam z] l IHl]; [constructor|]. cbn [map fst snd] in *. inversion N as [|? ? Hx N']; subst.
    constructor; [|apply IHl, N']. intros C. apply in_map_iff in C as ([cam' z'] & E & C). cbn [fst snd] in E. apply Hx. apply in_map_iff. exists (cam', z'). split; [|exact C]. cbn. congruence.
  - intros x Hx C. apply elem_of_list_In in Hx, C. apply in_map_iff in Hx as ([cam z] & <- & _). apply track_in in C as (j & o' & cam' & z' & E & _ & E'). apply nth_some_lt in E.
    assert (Q : u32 (first + Z.of_nat i) = u32 (first + Z.of_nat (Datatypes.S i + j))) by congruence. rewrite !u32_small in Q by lia. lia.
Qed.
Lemma track_len : forall id first obs i, Z.of_nat (length (track_obs id first i obs)) = total_obs obs.
Proof using Hnord.
  intros id first obs. induction obs as [|o obs IH]; intros i; cbn [track_obs total_obs length]; [reflexivity|]. rewrite app_length, map_length, Nat2Z.inj_add, nord_len, IH. reflexivity.
Qed.

(** A manager whose entries are filed under their ids. *)
Lemma forall2_in_r : forall {A B} (P : A -> B -> Prop) l m y, Forall2 P l m -> In y m -> exists x, In x l /\ P x y.
Proof using Type. intros A B P l m y H. induction H as [|a b l m Hab H IH]; [intros []|]. intros [<-|Hy]; [exists a; split; [left; reflexivity|exact Hab]|]. destruct (IH Hy) as (x & Hx & Px). exists x. split; [right; exact Hx|exact Px]. Qed.
Lemma forall2_in_l : forall {A B} (P : A -> B -> Prop) l m x, Forall2 P l m -> In x l -> exists y, In y m /\ P x y.
Proof using Type. intros A B P l m y H. induction H as [|a b l m Hab H IH]; [intros []|]. intros [<-|Hy]; [exists b; split; [left; reflexivity|exact Hab]|]. destruct (IH Hy) as (x & Hx & Px). exists x. split; [right; exact Hx|exact Px]. Qed.
Theorem features_listing : forall ord h m, valid_order ord -> filed h m -> exists ls fs, print_features nord ord h m = Ok ls /\
  (forall f, In f fs <-> exists id, managed h m id = Some f) /\ List.NoDup (map ft_id fs) /\
  read_heads ls = map (fun f => (ft_id f, ft_first f, final_frame f, ft_num f)) fs /\ read_tracks None ls = flat_map track_of fs.
Proof using Type.
  intros ord h m Ho Hf. unfold print_features. destruct (decide (m = ∅)) as [->|Hne].
  - exists [[Txt ">> Feature manager has no featuers."]], []. split; [reflexivity|]. split; [|split; [constructor|split; reflexivity]].
    intros f. split; [intros []|]. intros [id Hid]. unfold managed in Hid. rewrite lookup_empty in Hid. discriminate Hid.
  - destruct (print_ptrs_ok h (ord m)) as (t & fs & -> & F & Hh & Ht).
    { intros k p Hin. apply elem_of_list_In in Hin. rewrite (Ho m) in Hin. apply elem_of_map_to_list in Hin. destruct (Hf _ _ Hin) as (_ & f & E & _). exists f. exact E. }
    cbn [obind]. exists (t ++ [[Txt ""]]), fs. split; [reflexivity|].
    assert (I : forall f, In f fs -> forall id p, In (id, p) (ord m) -> hp_cells h !! p = Some f -> ft_id f = id /\ managed h m id = Some f).
    { intros f _ id p Hin E. apply elem_of_list_In in Hin. rewrite (Ho m) in Hin. apply elem_of_map_to_list in Hin. destruct (Hf _ _ Hin) as (_ & f' & E' & Hid).
      assert (f' = f) by congruence. subst f'. split; [exact Hid|]. unfold managed. rewrite Hin. exact E. }
    split; [|split; [|split]].
    + intros f. split.
      * intros Hin. destruct (forall2_in_r _ _ _ _ F Hin) as ([id p] & Hip & E). cbn [snd] in E. exists id. apply (I f Hin id p Hip E).
      * intros [id Hid]. unfold managed in Hid. destruct (m !! id) as [p|] eqn:E; [|discriminate Hid].
        assert (Hip : In (id, p) (ord m)) by (apply elem_of_list_In; rewrite (Ho m); apply elem_of_map_to_list; exact E).
        destruct (forall2_in_l _ _ _ _ F Hip) as (f' & Hin & E'). cbn [snd] in E'. assert (f' = f) by congruence. subst f'. exact Hin.
    + assert (E : map ft_id fs = map fst (ord m)).
      { clear Hh Ht. induction F as [|[id p] f l fs0 E F IH]; [reflexivity|]. cbn [map fst]. f_equal; [apply (I f (or_introl eq_refl) id p (or_introl eq_refl) E)|].
        apply IH. intros f' Hf' id' p' Hin. apply I; right; assumption. }
      rewrite E. apply NoDup_ListNoDup. rewrite (Permutation_map fst (Ho m)). apply NoDup_fst_map_to_list.
    + unfold read_heads. rewrite flat_map_app. fold (read_heads t). rewrite Hh. cbn. rewrite app_nil_r. reflexivity.
    + apply Ht; [reflexivity|intros c; destruct c; reflexivity].
Qed.

(** ** The window *)
Theorem window_listing : forall ord ops, valid_order ord -> good_history ops -> exists w ls,
  w_run ord window0 ops = Ok w /\ print_features nord ord (wn_heap w) (wn_mgr w) = Ok ls /\ length (wn_frames w) = length (a_run [] ops) /\
  List.NoDup (read_tracks None ls) /\
  (forall id fr cam x, In (id, fr, cam, x) (read_tracks None ls) <->
    exists i frm m o, nth_error (wn_frames w) i = Some frm /\ nth_error (a_run [] ops) i = Some m /\ fr_id frm = fr /\ reported m id = Some o /\ o !! cam = Some x) /\
  List.NoDup (map (fun h => fst (fst (fst h))) (read_heads ls)) /\
  (forall id a b n, In (id, a, b, n) (read_heads ls) -> a <= b /\ forall fr, a <= fr <= b <->
    exists i frm m, nth_error (wn_frames w) i = Some frm /\ nth_error (a_run [] ops) i = Some m /\ fr_id frm = fr /\ reported m id <> None) /\
  (forall id i m, nth_error (a_run [] ops) i = Some m -> reported m id <> None -> exists a b n, In (id, a, b, n) (read_heads ls)).
Proof using Hnord.
  intros ord ops Ho Hh. destruct (good_history_inv ord ops Ho Hh) as (w & b & E & I & Hb).
  destruct (features_listing ord (wn_heap w) (wn_mgr w) Ho (wi_filed _ _ _ I)) as (ls & fs & Ep & Hfs & Hid & Hh' & Ht).
  exists w, ls. split; [exact E|]. split; [exact Ep|]. split; [exact (wi_len _ _ _ I)|]. rewrite Ht, Hh'.
  assert (G : forall f, In f fs -> managed (wn_heap w) (wn_mgr w) (ft_id f) = Some f /\ good_track f /\ b <= ft_first f /\ ft_first f + Z.of_nat (length (ft_obs f)) <= b + Z.of_nat (length (a_run [] ops))).
  { intros f Hf. apply Hfs in Hf as [id Hm]. pose proof (winv_good _ _ _ Hb I id f Hm) as Hg. destruct (wi_range _ _ _ I id f Hm) as (_ & R1 & R2).
    assert (Hi : ft_id f = id). { apply managed_inv in Hm as (p & Hp & Hc). destruct (wi_filed _ _ _ I _ _ Hp) as (_ & g & Hg' & Hi). congruence. }
    rewrite Hi. repeat split; try apply Hg; assumption. }
  assert (K : forall f, In f fs -> forall fr o, obs_at f fr = Some o <-> exists i frm m, nth_error (wn_frames w) i = Some frm /\ nth_error (a_run [] ops) i = Some m /\ fr_id frm = fr /\ reported m (ft_id f) = Some o).
  { intros f Hf fr o. destruct (G f Hf) as (Hm & Hg & R1 & R2). split.
    - intros Ha. pose proof (obs_at_in _ _ _ Ha) as R. set (i := Z.to_nat (fr - b)).
      destruct (nth_error (a_run [] ops) i) as [m|] eqn:Em; [|apply nth_error_None in Em; lia].
      destruct (nth_error (wn_frames w) i) as [frm|] eqn:Ef; [|apply nth_error_None in Ef; rewrite (wi_len _ _ _ I) in Ef; lia].
      exists i, frm, m. repeat split; try assumption.
      + rewrite (wi_ids _ _ _ I _ _ Ef). lia.
      + rewrite (wi_obs _ _ _ I (ft_id f) _ _ Em). unfold win_managed. rewrite Hm. replace (b + Z.of_nat i) with fr by lia. exact Ha.
    - intros (i & frm & m & Ef & Em & <- & Hr). rewrite (wi_obs _ _ _ I (ft_id f) _ _ Em) in Hr. unfold win_managed in Hr. rewrite Hm in Hr. rewrite (wi_ids _ _ _ I _ _ Ef). exact Hr. }
  assert (U : forall f, In f fs -> forall j o, nth_error (ft_obs f) j = Some o -> u32 (ft_first f + Z.of_nat j) = ft_first f + Z.of_nat j /\ obs_at f (ft_first f + Z.of_nat j) = Some o).
  { intros f Hf j o Hj. destruct (G f Hf) as (_ & (_ & R1 & R2) & _ & _). pose proof (nth_some_lt _ _ _ Hj). split; [apply u32_small; lia|].
    unfold obs_at. rewrite (proj2 (Z.leb_le _ _)) by lia. replace (Z.to_nat (ft_first f + Z.of_nat j - ft_first f)) with j by lia. exact Hj. }
  assert (M : forall i m id, nth_error (a_run [] ops) i = Some m -> reported m id <> None -> exists f, In f fs /\ ft_id f = id).
  { intros i m id Em Hr. rewrite (wi_obs _ _ _ I id _ _ Em) in Hr. unfold win_managed in Hr. destruct (managed (wn_heap w) (wn_mgr w) id) as [f|] eqn:Hm; [|contradiction].
    exists f. split; [apply Hfs; exists id; exact Hm|]. apply managed_inv in Hm as (p & Hp & Hc). destruct (wi_filed _ _ _ I _ _ Hp) as (_ & g & Hg' & Hi). congruence. }
  split; [|split; [|split; [|split]]].
  - apply nodup_flat.
    + clear - Hid. induction fs as [|f fs IH]; [constructor|]. cbn [map] in Hid. inversion Hid; subst. constructor; [|apply IH; assumption]. intros C. match goal with H : ~ In _ _ |- _ => apply H end. apply in_map, C.
    + intros f Hf. destruct (G f Hf) as (_ & (_ & R1 & R2) & _). apply track_nodup; lia.
    + intros f g x Hf Hg Hx Hy. unfold track_of in Hx, Hy. apply track_in in Hx as (j & o & cam & z & _ & _ & ->). apply track_in in Hy as (j' & o' & cam' & z' & _ & _ & E').
      assert (Ei : ft_id f = ft_id g) by congruence. destruct (G f Hf) as (Mf & _). destruct (G g Hg) as (Mg & _). rewrite Ei in Mf. congruence.
  - intros id fr cam x. rewrite in_flat_map. split.
    + intros (f & Hf & Hx). unfold track_of in Hx. apply track_in in Hx as (j & o & cam' & z & Hj & Hz & Ex). cbn [Nat.add] in Ex. destruct (U f Hf j o Hj) as [U1 U2]. rewrite U1 in Ex.
      assert (id = ft_id f /\ fr = ft_first f + Z.of_nat j /\ cam = cam' /\ x = z) as (-> & -> & -> & ->) by (repeat split; congruence).
      apply (K f Hf) in U2 as (i & frm & m & A1 & A2 & A3 & A4). exists i, frm, m, o. repeat split; assumption.
    + intros (i & frm & m & o & Ef & Em & <- & Hr & Hz). destruct (M i m id Em ltac:(congruence)) as (f & Hf & <-). exists f. split; [exact Hf|].
      assert (Ha : obs_at f (fr_id frm) = Some o) by (apply (K f Hf); exists i, frm, m; repeat split; assumption).
      pose proof (obs_at_in _ _ _ Ha) as R. unfold obs_at in Ha. rewrite (proj2 (Z.leb_le _ _)) in Ha by lia. unfold track_of. apply track_in.
      exists (Z.to_nat (fr_id frm - ft_first f)), o, cam, x. split; [exact Ha|]. split; [exact Hz|]. cbn [Nat.add]. destruct (U f Hf _ _ Ha) as [U1 _]. rewrite U1.
      replace (ft_first f + Z.of_nat (Z.to_nat (fr_id frm - ft_first f))) with (fr_id frm) by lia. reflexivity.
  - rewrite map_map. cbn [fst]. exact Hid.
  - intros id a e n Hin. apply in_map_iff in Hin as (f & Ef & Hf). destruct (G f Hf) as (Hm & Hg & R1 & R2).
    assert (id = ft_id f /\ a = ft_first f /\ e = final_frame f) as (-> & -> & ->) by (repeat split; congruence). rewrite (final_exact f Hg). destruct Hg as (Hn & _ & _).
    assert (length (ft_obs f) <> 0%nat) by (destruct (ft_obs f); cbn; congruence). split; [lia|]. intros fr. split.
    + intros R. destruct (obs_at_some f fr ltac:(lia)) as [o Ha]. apply (K f Hf) in Ha as (i & frm & m & A1 & A2 & A3 & A4). exists i, frm, m. repeat split; try assumption. congruence.
    + intros (i & frm & m & A1 & A2 & A3 & A4). destruct (reported m (ft_id f)) as [o|] eqn:Er; [|contradiction].
      assert (Ha : obs_at f fr = Some o) by (apply (K f Hf); exists i, frm, m; repeat split; assumption). apply obs_at_in in Ha. lia.
  - intros id i m Em Hr. destruct (M i m id Em Hr) as (f & Hf & <-). exists (ft_first f), (final_frame f), (ft_num f). apply in_map_iff. exists f. split; [reflexivity|exact Hf].
Qed.

(** The number in a header is the number of lines below it. *)
Theorem listing_number : forall ord ops, valid_order ord -> Forall ft_op_ok ops -> exists h m ls, ft_run ord (Heap 0 ∅, ∅) ops = Ok (h, m) /\
  print_features nord ord h m = Ok ls /\
  forall id a b n, In (id, a, b, n) (read_heads ls) ->
    n = Z.of_nat (length (List.filter (fun e => fst (fst (fst e)) =? id) (read_tracks None ls))) mod 4294967296.
Proof using Hnord.
  intros ord ops Ho Hok. destruct (ft_run_inv ord ops Ho (Heap 0 ∅) ∅ Hok) as (h & m & E & F & HP).
  { intros id p Hp. rewrite lookup_empty in Hp. discriminate. }
  { intros id f Hf. unfold managed in Hf. rewrite lookup_empty in Hf. discriminate. }
  destruct (features_listing ord h m Ho F) as (ls & fs & Ep & Hfs & Hid & Hh & Ht). exists h, m, ls. split; [exact E|]. split; [exact Ep|].
  rewrite Ht, Hh. intros id a b n Hin. apply in_map_iff in Hin as (f & Ef & Hf). assert (ft_id f = id /\ ft_num f = n) as [<- <-] by (split; congruence). clear Ef.
  destruct (proj1 (Hfs f) Hf) as [id' Hm]. destruct (HP _ _ Hm) as (_ & _ & ->). unfold u32. f_equal. rewrite <- (track_len (ft_id f) (ft_first f) (ft_obs f) 0). f_equal. fold (track_of f).
  clear - Hid Hf. revert Hid Hf. induction fs as [|g fs IH]; intros Hid Hf; [destruct Hf|]. cbn [map] in Hid. inversion Hid as [|? ? Hx Hid']; subst. cbn [flat_map]. rewrite List.filter_app, app_length.
  assert (A : forall g id', length (List.filter (fun e : Z * Z * Z * v2 T => fst (fst (fst e)) =? id') (track_of g)) = if ft_id g =? id' then length (track_of g) else 0%nat).
  { clear. intros g id'. unfold track_of.
    enough (Q : forall i, length (List.filter (fun e : Z * Z * Z * v2 T => fst (fst (fst e)) =? id') (track_obs (ft_id g) (ft_first g) i (ft_obs g))) = if ft_id g =? id' then length (track_obs (ft_id g) (ft_first g) i (ft_obs g)) else 0%nat) by apply Q.
    induction (ft_obs g) as [|o obs IH]; intros i; cbn [track_obs length]; [destruct (_ =? _); reflexivity|].
    rewrite List.filter_app, !app_length, IH, map_length. destruct (Z.eqb_spec (ft_id g) id') as [Eq|Ne].
    - f_equal. induction (nord o) as [|kv l IHl]; [reflexivity|]. cbn [map List.filter fst]. rewrite (proj2 (Z.eqb_eq _ _) Eq). cbn [length]. f_equal. exact IHl.
    - rewrite Nat.add_0_r. induction (nord o) as [|kv l IHl]; [reflexivity|]. cbn [map List.filter fst]. rewrite (proj2 (Z.eqb_neq _ _) Ne). exact IHl. }
  rewrite A. destruct Hf as [->|Hf].
  - rewrite Z.eqb_refl. replace (length (List.filter _ (flat_map track_of fs))) with 0%nat; [lia|]. clear - Hx A. induction fs as [|g fs IH]; [reflexivity|]. cbn [flat_map]. rewrite List.filter_app, app_length, A.
    cbn [map In] in Hx. rewrite <- IH by tauto. destruct (Z.eqb_spec (ft_id g) (ft_id f)) as [Eq|]; [exfalso; tauto|reflexivity].
  - destruct (Z.eqb_spec (ft_id g) (ft_id f)) as [Eq|]; [exfalso; apply Hx; rewrite Eq; apply in_map, Hf|]. cbn [Nat.add]. apply IH; assumption.
Qed.

(** ** Messages *)
Definition msg_track (ids : list Z) (obs : list (observe T)) : list (Z * Z * v2 T) :=
  flat_map (fun io => map (fun kv => (fst io, fst kv, snd kv)) (nord (snd io))) (combine ids obs).
Lemma read_msg_cams : forall id (l : list (Z * v2 T)) r,
  read_msg (Some id) (map (fun kv => [Txt "       camera id "%string; UInt (fst kv); Txt " ["%string] ++ pr_v2 (snd kv) ++ [Txt "]"%string]) l ++ r) =
  map (fun kv => (id, fst kv, snd kv)) l ++ read_msg (Some id) r.
Proof. intros id l r. induction l as [|[cam [x y]] l IH]; [reflexivity|]. exact (f_equal (cons (id, cam, V2 x y)) IH). Qed.
Lemma msg_loop : forall ids obs pre cur, (length ids <= length obs)%nat -> exists ls, print_msg_loop nord (length pre) ids (pre ++ obs) = Ok ls /\ read_msg cur ls = msg_track ids obs /\
  Forall (fun l : pline T => match l with Txt _ :: UInt _ :: _ => True | _ => False end) ls.
Proof.
  induction ids as [|id ids IH]; intros obs pre cur H; [exists []; repeat constructor|]. destruct obs as [|o obs]; [cbn in H; lia|]. cbn [length] in H.
  cbn [print_msg_loop]. unfold at_. rewrite nth_error_app2, Nat.sub_diag by lia. cbn [nth_error obind].
  destruct (IH obs (pre ++ [o]) (Some id) ltac:(lia)) as (t & E & R & F). rewrite app_length, Nat.add_1_r, <- app_assoc in E. cbn [app] in E. rewrite E. cbn [obind].
  eexists. split; [reflexivity|]. split.
  - etransitivity; [|etransitivity; [exact (read_msg_cams id (nord o) t)|rewrite R; reflexivity]]. destruct cur; reflexivity.
  - constructor; [exact I|]. apply Forall_app. split; [|exact F]. apply List.Forall_forall. intros l Hl. apply in_map_iff in Hl as (kv & <- & _). exact I.
Qed.
Lemma msg_track_in : forall ids obs id cam x, In (id, cam, x) (msg_track ids obs) <-> exists i o, nth_error ids i = Some id /\ nth_error obs i = Some o /\ o !! cam = Some x.
Proof using Hnord.
  intros ids obs id cam x. unfold msg_track. rewrite in_flat_map. split.
  - intros ([id' o] & Hin & Hx). cbn [fst snd] in Hx. apply in_map_iff in Hx as ([c y] & E & Hy). cbn [fst snd] in E. assert (id' = id /\ c = cam /\ y = x) as (-> & -> & ->) by (repeat split; congruence).
    apply nord_in in Hy. apply In_nth_error in Hin as [i Hi]. exists i, o. split; [|split; [|exact Hy]].
    + clear - Hi. revert obs i Hi. induction ids as [|a ids IH]; intros [|b obs] [|i] Hi; cbn in *; try discriminate; [congruence|apply (IH obs _ Hi)].
    + clear - Hi. revert ids i Hi. induction obs as [|a obs IH]; intros [|b ids] [|i] Hi; cbn in *; try discriminate; [congruence|apply (IH ids _ Hi)].
  - intros (i & o & H1 & H2 & H3). exists (id, o). split; [|apply in_map_iff; exists (cam, x); split; [reflexivity|apply nord_in, H3]].
    clear - H1 H2. revert obs i H1 H2. induction ids as [|a ids IH]; intros [|b obs] [|i] H1 H2; cbn in *; try discriminate; [left; congruence|right; apply (IH obs _ H1 H2)].
Qed.
Theorem msg_listing : forall m : feat_msg T, (length (fm_ids m) <= length (fm_obs m))%nat -> exists ls, print_msg nord m = Ok ls /\
  forall id cam x, In (id, cam, x) (read_msg None ls) <-> exists i o, nth_error (fm_ids m) i = Some id /\ nth_error (fm_obs m) i = Some o /\ o !! cam = Some x.
Proof using Hnord.
  intros m H. unfold print_msg. destruct (msg_loop (fm_ids m) (fm_obs m) [] None H) as (ls & E & R & _). cbn [length app] in E. rewrite E. cbn [obind]. eexists. split; [reflexivity|].
  intros id cam x. rewrite <- msg_track_in, <- R. reflexivity.
Qed.
Lemma msg_ub : forall ids obs i, (length obs < i + length ids)%nat -> ids <> [] -> print_msg_loop nord i ids obs = Ub UbIndex.
Proof.
  induction ids as [|id ids IH]; intros obs i H Hn; [contradiction|]. cbn [print_msg_loop]. unfold at_. destruct (nth_error obs i) as [o|] eqn:E; [|reflexivity]. cbn [obind].
  cbn [length] in H. destruct ids as [|id' ids]; [pose proof (nth_some_lt _ _ _ E); cbn in H; lia|]. rewrite (IH obs (Datatypes.S i)); [reflexivity|lia|discriminate].
Qed.
Theorem msg_safe : forall m : feat_msg T, (exists ls, print_msg nord m = Ok ls) <-> (length (fm_ids m) <= length (fm_obs m))%nat.
Proof using Hnord.
  intros m. split; [|intros H; destruct (msg_listing m H) as (ls & E & _); exists ls; exact E].
  intros [ls E]. destruct (Nat.le_gt_cases (length (fm_ids m)) (length (fm_obs m))) as [H|H]; [exact H|]. unfold print_msg in E. rewrite msg_ub in E; [discriminate|exact H|].
  intros C. rewrite C in H. cbn in H. lia.
Qed.
Theorem made_listing : forall ids obs flag ts, exists ls, print_msg nord (feat_msg_make ids obs flag ts) = Ok ls.
Proof using Hnord.
  intros ids obs flag ts. apply msg_safe. unfold feat_msg_make. destruct (Nat.eqb_spec (length ids) (length obs)) as [E|E]; cbn [negb fm_ids fm_obs length]; lia.
Qed.
Lemma read_imu_skip : forall (ls r : list (pline T)), Forall (fun l : pline T => match l with Txt _ :: UInt _ :: _ => True | _ => False end) ls -> read_imu (ls ++ r) = read_imu r.
Proof.
  intros ls r F. induction F as [|l ls Hl F IH]; [reflexivity|]. cbn [app]. rewrite <- IH. destruct l as [|[] [|[] l]]; try contradiction. reflexivity.
Qed.
Lemma read_imus : forall l : list (imu_msg T), read_imu (flat_map print_imu l) = l.
Proof. induction l as [|[[a b c] [d e f] t] l IH]; [reflexivity|]. cbn [flat_map print_imu app]. cbn - [flat_map print_imu]. f_equal. exact IH. Qed.
Theorem comb_listing : forall m : comb_msg T, (match cm_feat m with Some f => length (fm_ids f) <= length (fm_obs f) | None => True end)%nat ->
  exists ls, print_comb nord m = Ok ls /\ read_imu ls = cm_imu m.
Proof.
  intros [[f|] l] H; unfold print_comb; cbn [cm_feat cm_imu] in *.
  - unfold print_msg. destruct (msg_loop (fm_ids f) (fm_obs f) [] None H) as (ls & E & _ & F). cbn [length app] in E. rewrite E. cbn [obind]. eexists. split; [reflexivity|].
    rewrite <- app_comm_cons. transitivity (read_imu (ls ++ flat_map print_imu l)); [|rewrite read_imu_skip by exact F; apply read_imus].
    destruct ls as [|l0 ls]; [destruct l as [|[[a b c] [d e g] t] l]; reflexivity|]. inversion F as [|? ? H0 F']; subst. destruct l0 as [|[] [|[] l0]]; try contradiction. reflexivity.
  - cbn [obind app]. eexists. split; [reflexivity|]. apply read_imus.
Qed.

(** ** Frames *)
Lemma read_frames_all : forall (fs : list (frame T)) r, read_frames (flat_map print_frame fs ++ r) =
  map (fun f => (fr_id f, fr_ts f, Z.of_nat (size (fr_feats f)), fr_q f, fr_p f, fr_v f)) fs ++ read_frames r.
Proof.
  intros fs r. induction fs as [|[ff [q0 q1 q2 q3] [p0 p1 p2] [v0 v1 v2] id ts] fs IH]; [reflexivity|]. cbn [flat_map]. rewrite <- app_assoc. cbn [print_frame app]. cbn - [flat_map print_frame size]. f_equal. exact IH.
Qed.
Lemma read_frames_ok : forall fs : list (frame T), read_frames (print_frames fs) = map (fun f => (fr_id f, fr_ts f, Z.of_nat (size (fr_feats f)), fr_q f, fr_p f, fr_v f)) fs.
Proof. intros fs. destruct fs as [|f fs]; [reflexivity|]. unfold print_frames. rewrite read_frames_all. cbn [read_frames]. apply app_nil_r. Qed.
Lemma assoc_in : forall id (ids : list Z) (obs : list (observe T)), length ids = length obs -> assoc id (combine ids obs) <> None <-> In id ids.
Proof.
  intros id. induction ids as [|a ids IH]; intros [|o obs] H; cbn in *; try discriminate; [split; [congruence|tauto]|]. injection H as H. destruct (Z.eqb_spec a id) as [->|N]; [split; [auto|discriminate]|].
  rewrite (IH obs H). split; [auto|]. intros [|]; [contradiction|assumption].
Qed.
Lemma a_run_good : forall (ops : list (w_op T)) A, List.Forall good_msg A -> List.Forall good_msg (msgs ops) -> List.Forall good_msg (a_run A ops).
Proof.
  assert (Er : forall (A : list (feat_msg T)) i, List.Forall good_msg A -> List.Forall good_msg (erase_at A i)).
  { intros A i H. apply List.Forall_forall. intros m Hm. apply (proj1 (List.Forall_forall _ _) H). unfold erase_at in Hm. apply in_app_or in Hm as [Hm|Hm].
    - rewrite <- (firstn_skipn i A). apply in_or_app. left. exact Hm.
    - rewrite <- (firstn_skipn (Datatypes.S i) A). apply in_or_app. right. exact Hm. }
  induction ops as [|op ops IH]; intros A HA Hm; [exact HA|]. unfold a_run. cbn [fold_left]. apply IH.
  - destruct op as [m|[]]; cbn [a_step]; try (apply Er; exact HA); [|exact HA]. cbn [msgs] in Hm. inversion Hm; subst. apply Forall_app. split; [exact HA|]. constructor; [assumption|constructor].
  - destruct op; cbn [msgs] in Hm; [inversion Hm; assumption|exact Hm].
Qed.
Theorem frame_listing : forall ord ops, valid_order ord -> good_history ops -> exists w,
  w_run ord window0 ops = Ok w /\
  Forall2 (fun e f => e = (fr_id f, fr_ts f, snd (fst (fst (fst e))), fr_q f, fr_p f, fr_v f)) (read_frames (print_frames (wn_frames w))) (wn_frames w) /\
  Forall2 (fun e m => snd (fst (fst (fst (fst e)))) = fm_ts m /\ snd (fst (fst (fst e))) = Z.of_nat (length (fm_ids m))) (read_frames (print_frames (wn_frames w))) (a_run [] ops).
Proof.
  intros ord ops Ho Hh. destruct (good_history_inv ord ops Ho Hh) as (w & b & E & I & Hb). exists w. split; [exact E|]. rewrite read_frames_ok. split.
  - apply Forall2_fmap_l, Forall_Forall2_diag, List.Forall_forall. intros f _. reflexivity.
  - assert (Gm : List.Forall good_msg (a_run [] ops)). { destruct Hh as (G & _ & _ & _). apply a_run_good; [constructor|exact G]. }
    apply Forall2_fmap_l, Forall2_same_length_lookup_2; [exact (wi_len _ _ _ I)|]. intros i f m Hf Hm.
    rewrite <- nth_lookup in Hf. rewrite <- nth_lookup in Hm. split; [exact (wi_ts _ _ _ I _ _ _ Hf Hm)|]. cbn [fst snd].
    destruct (proj1 (List.Forall_forall _ _) Gm m (nth_error_In _ _ Hm)) as (L & N & _). f_equal. rewrite <- size_dom.
    transitivity (size (list_to_set (fm_ids m) : gset Z)); [f_equal; apply leibniz_equiv|apply size_list_to_set, NoDup_ListNoDup, N].
    intros id. rewrite elem_of_dom, elem_of_list_to_set, elem_of_list_In, <- (assoc_in id _ _ L). rewrite (wi_links _ _ _ I _ _ _ id Hf Hm).
    fold (reported m id). pose proof (wi_obs _ _ _ I id _ _ Hm) as Q. destruct (reported m id) as [o|]; [|split; [intros [? ?]; discriminate|contradiction]].
    split; [discriminate|]. intros _. unfold win_managed, managed in Q. destruct (wn_mgr w !! id) as [p|]; [eexists; reflexivity|discriminate].
Qed.

(** ** Configuration *)
Lemma cams_ok : forall (ps : list (v3 T)) pre qs, (length ps <= length qs)%nat -> exists ls, print_cams (length pre) ps (pre ++ qs) = Ok ls /\ length ls = length ps /\
  (forall j p q, nth_error ps j = Some p -> nth_error qs j = Some q -> nth_error ls j = Some ([Txt "      cam "%string; UInt (Z.of_nat (length pre + j)); Txt " p_bc : ["%string] ++ pr_v3 p ++ [Txt "], q_bc : ["%string] ++ pr_q q ++ [Txt "]"%string])) /\
  (forall l : pline T, In l ls -> exists r, l = Txt "      cam "%string :: r).
Proof.
  clear. induction ps as [|p ps IH]; intros pre qs H; [exists []; repeat split; [intros [|j] ? ? C; discriminate|intros l []]|]. destruct qs as [|q qs]; [cbn in H; lia|]. cbn [length] in H.
  cbn [print_cams]. unfold at_. rewrite nth_error_app2, Nat.sub_diag by lia. cbn [nth_error obind]. destruct (IH (pre ++ [q]) qs ltac:(lia)) as (t & E & L & N & F).
  rewrite app_length, Nat.add_1_r, <- app_assoc in E. cbn [app] in E. rewrite E. cbn [obind]. eexists. split; [reflexivity|]. split; [cbn [length]; congruence|]. split.
  - intros [|j] p' q' Hp Hq; cbn [nth_error] in *.
    + injection Hp as <-. injection Hq as <-. rewrite Nat.add_0_r. reflexivity.
    + rewrite (N j p' q' Hp Hq), app_length, Nat.add_1_r, Nat.add_succ_r. reflexivity.
  - intros l [<-|Hl]; [eexists; reflexivity|apply F, Hl].
Qed.
Lemma shown_app : forall name (a b : list (pline T)), shown name (a ++ b) = shown name a ++ shown name b.
Proof. intros. apply flat_map_app. Qed.
Lemma shown_none : forall name (ls : list (pline T)), name <> "      cam "%string -> (forall l : pline T, In l ls -> exists r, l = Txt "      cam "%string :: r) -> shown name ls = [].
Proof.
  intros name ls N. induction ls as [|l ls IH]; intros H; [reflexivity|]. unfold shown. cbn [flat_map]. destruct (H l (or_introl eq_refl)) as [r ->].
  destruct (String.eqb_spec "      cam " name) as [E|_]; [congruence|]. cbn [app]. apply IH. intros l' Hl. apply H. right. exact Hl.
Qed.
Lemma shown_cams : forall ls : list (pline T), (forall l : pline T, In l ls -> exists r, l = Txt "      cam "%string :: r) -> shown "      cam " ls = map (@tl _) ls.
Proof.
  induction ls as [|l ls IH]; intros H; [reflexivity|]. unfold shown. cbn [flat_map map]. destruct (H l (or_introl eq_refl)) as [r ->]. rewrite (String.eqb_refl "      cam "). cbn [tl app]. f_equal. apply IH. intros l' Hl. apply H. right. exact Hl.
Qed.
Theorem config_listing : forall (c : config T) vis, (length (cf_p c) <= length (cf_q c))%nat -> exists ls, print_config c vis = Ok ls /\
  shown "   [IMU] sigma bias accel : " ls = [[Sca (cf_na c)]] /\
  shown "   [IMU] sigma bias gyro : " ls = [[Sca (cf_ng c)]] /\
  shown "   [IMU] sigma bias accel random walk : " ls = [[Sca (cf_nwa c)]] /\
  shown "   [IMU] sigma bias gyro random walk : " ls = [[Sca (cf_nwg c)]] /\
  shown "   [IMU] gravity norm : " ls = [[Sca (cf_grav c)]] /\
  shown "   [IMU] default bias accel : " ls = [[Sca (v3x (cf_ba c)); Sca (v3y (cf_ba c)); Sca (v3z (cf_ba c))]] /\
  shown "   [IMU] default bias gyro : " ls = [[Sca (v3x (cf_bg c)); Sca (v3y (cf_bg c)); Sca (v3z (cf_bg c))]] /\
  shown "   [IMU] data period : " ls = [[Sca (cf_period c); Txt " s"%string]] /\
  shown "   [VISION] sigma vision : " ls = [[Sca (cf_sigma c)]] /\
  shown "   [VISION] max frame num : " ls = [[UInt (cf_maxframe c)]] /\
  shown "   [VISION] max features num for update : " ls = [[UInt (cf_maxfeat c)]] /\
  shown "   [VISION] min keyframe tracked features num : " ls = [[UInt (cf_mintrack c)]] /\
  shown "   [VISION] min keyframe mean parallax : " ls = [[Sca (cf_minpar c)]] /\
  shown "   [VISION] min keyframe traslation : " ls = [[Sca (cf_maxtrans c)]] /\
  shown "   [VISION] max cameras num : " ls = [[UInt (cf_ncam c)]] /\
  shown "   [GENERAL] use vision update : " ls = [[Flag vis]] /\
  length (shown "      cam " ls) = length (cf_p c) /\
  (forall i p q, nth_error (cf_p c) i = Some p -> nth_error (cf_q c) i = Some q -> nth_error (shown "      cam " ls) i = Some (cam_line (i, (p, q)))).
Proof.
  clear. intros c vis H. destruct (cams_ok (cf_p c) [] (cf_q c) H) as (cs & E & L & N & F). cbn [length app] in E. unfold print_config. rewrite E. cbn [obind]. eexists. split; [reflexivity|].
  repeat match goal with |- shown ?n _ = _ /\ _ => split; [rewrite shown_app, shown_app, (shown_none n cs) by (discriminate || exact F); reflexivity|] end.
  match goal with |- length (shown ?n ?l) = _ /\ _ => assert (X : shown n l = map (@tl _) cs) by (rewrite shown_app, shown_app, (shown_cams cs F); etransitivity; [|apply app_nil_r]; reflexivity) end.
  rewrite X. split; [rewrite map_length; exact L|].
  intros i p q Hp Hq. exact (map_nth_error (@tl _) _ _ (N i p q Hp Hq)).
Qed.
Lemma v3_same : forall u v : v3 T, v3x u = v3x v -> v3y u = v3y v -> v3z u = v3z v -> u = v.
Proof. intros [] []. cbn. intros. subst. reflexivity. Qed.
Lemma config_ext : forall c c' : config T, cf_na c = cf_na c' -> cf_ng c = cf_ng c' -> cf_nwa c = cf_nwa c' -> cf_nwg c = cf_nwg c' -> cf_grav c = cf_grav c' -> cf_ba c = cf_ba c' -> cf_bg c = cf_bg c' -> cf_period c = cf_period c' -> cf_sigma c = cf_sigma c' -> cf_maxframe c = cf_maxframe c' -> cf_maxfeat c = cf_maxfeat c' -> cf_ncam c = cf_ncam c' -> cf_mintrack c = cf_mintrack c' -> cf_minpar c = cf_minpar c' -> cf_maxtrans c = cf_maxtrans c' -> cf_q c = cf_q c' -> cf_p c = cf_p c' -> c = c'.
Proof. intros [] []. cbn. intros. subst. reflexivity. Qed.
Theorem config_injective : forall (c c' : config T) vis vis' ls, length (cf_p c) = length (cf_q c) -> length (cf_p c') = length (cf_q c') ->
  print_config c vis = Ok ls -> print_config c' vis' = Ok ls -> c = c' /\ vis = vis'.
Proof.
  clear. intros c c' vis vis' ls H H' E E'.
  destruct (config_listing c vis ltac:(lia)) as (l1 & E1 & A1 & A2 & A3 & A4 & A5 & A6 & A7 & A8 & A9 & A10 & A11 & A12 & A13 & A14 & A15 & A16 & A17 & A18). rewrite E in E1. injection E1 as <-.
  destruct (config_listing c' vis' ltac:(lia)) as (l2 & E2 & B1 & B2 & B3 & B4 & B5 & B6 & B7 & B8 & B9 & B10 & B11 & B12 & B13 & B14 & B15 & B16 & B17 & B18). rewrite E' in E2. injection E2 as <-.
  assert (L : length (cf_p c) = length (cf_p c')) by congruence.
  assert (P : forall i p q p' q', nth_error (cf_p c) i = Some p -> nth_error (cf_q c) i = Some q -> nth_error (cf_p c') i = Some p' -> nth_error (cf_q c') i = Some q' -> p = p' /\ q = q').
  { intros i [p0 p1 p2] [q0 q1 q2 q3] [p0' p1' p2'] [q0' q1' q2' q3'] Q1 Q2 Q3 Q4. pose proof (A18 _ _ _ Q1 Q2) as X. rewrite (B18 _ _ _ Q3 Q4) in X. unfold cam_line in X. cbn in X. injection X. intros. subst. split; reflexivity. }
  assert (Ep : cf_p c = cf_p c').
  { apply nth_ext_error; [exact L|]. intros i p p' Q1 Q3. pose proof (nth_some_lt _ _ _ Q1). pose proof (nth_some_lt _ _ _ Q3).
    destruct (nth_error (cf_q c) i) as [q|] eqn:Q2; [|apply nth_error_None in Q2; lia]. destruct (nth_error (cf_q c') i) as [q'|] eqn:Q4; [|apply nth_error_None in Q4; lia]. apply (P i p q p' q' Q1 Q2 Q3 Q4). }
  assert (Eq : cf_q c = cf_q c').
  { apply nth_ext_error; [lia|]. intros i q q' Q2 Q4. pose proof (nth_some_lt _ _ _ Q2). pose proof (nth_some_lt _ _ _ Q4).
    destruct (nth_error (cf_p c) i) as [p|] eqn:Q1; [|apply nth_error_None in Q1; lia]. destruct (nth_error (cf_p c') i) as [p'|] eqn:Q3; [|apply nth_error_None in Q3; lia]. apply (P i p q p' q' Q1 Q2 Q3 Q4). }
  split; [|congruence]. apply config_ext; try congruence.
  - rewrite B6 in A6. injection A6 as X1 X2 X3. apply v3_same; congruence.
  - rewrite B7 in A7. injection A7 as X1 X2 X3. apply v3_same; congruence.
Qed.

Lemma cam_loop_len : forall junk (d : cdir T) fuel (c : config T) m c' m', cam_loop junk d fuel c m = Ok (c', m') -> length (cf_q c) = length (cf_p c) -> cf_ncam c = Z.of_nat (length (cf_p c)) mod 4294967296 ->
  length (cf_q c') = length (cf_p c') /\ cf_ncam c' = Z.of_nat (length (cf_p c')) mod 4294967296.
Proof.
  clear. intros junk d fuel. induction fuel as [|fuel IH]; intros c m c' m' E L N; cbn [cam_loop] in E; destruct (load_matrix _ _ 4 4 m) as [[m1 ok]|]; cbn [obind] in E; try discriminate;
    destruct ok; try discriminate; try (injection E as <- <-; split; assumption).
  apply (IH _ _ _ _ E); cbn [add_camera set_cams cf_q cf_p cf_ncam]; rewrite !app_length; cbn [length]; [lia|]. rewrite N, Zplus_mod_idemp_l, Nat2Z.inj_add. reflexivity.
Qed.
Theorem read_listing : forall u junk (d : cdir T) c m c' m' r vis, read_config u junk d c m = Ok (c', m', r) -> exists ls, print_config c' vis = Ok ls /\
  length (cf_q c') = length (cf_p c') /\ shown "   [VISION] max cameras num : " ls = [[UInt (Z.of_nat (length (shown "      cam " ls)) mod 4294967296)]].
Proof.
  clear. intros u junk d c m c' m' r vis E.
  assert (G : length (cf_q c') = length (cf_p c') /\ cf_ncam c' = Z.of_nat (length (cf_p c')) mod 4294967296).
  { unfold read_config in E. cbv zeta in E.
    repeat match type of E with (let! _ := load_matrix _ _ _ _ _ in _) = _ => destruct (load_matrix _ _ _ _ _) as [[? ?]|]; cbn [obind] in E; [|discriminate] end.
    destruct (cam_loop _ _ _ _ _) as [[c1 mc]|] eqn:El; cbn [obind] in E; [|discriminate]. apply cam_loop_len in El; [|reflexivity|reflexivity].
    destruct (load_matrix _ _ _ _ _) as [[? ok1]|]; cbn [obind] in E; [|discriminate].
    match type of E with (let! _ := ?x in _) = _ => destruct x as [c2|] eqn:E2; cbn [obind] in E; [|discriminate] end.
    assert (G2 : cf_q c2 = cf_q c1 /\ cf_p c2 = cf_p c1 /\ cf_ncam c2 = cf_ncam c1). { destruct ok1; [|injection E2 as <-; auto]. destruct (to_u32 _ _) as [n|]; cbn [obind] in E2; [|discriminate]. injection E2 as <-. auto. }
    destruct (load_matrix _ _ _ _ _) as [[? ok2]|]; cbn [obind] in E; [|discriminate]. destruct (load_matrix _ _ _ _ _) as [[? ok3]|]; cbn [obind] in E; [|discriminate].
    match type of E with (let! _ := ?x in _) = _ => destruct x as [c3|] eqn:E3; cbn [obind] in E; [|discriminate] end. injection E as <- <- <-.
    assert (G3 : cf_q c3 = cf_q c2 /\ cf_p c3 = cf_p c2 /\ cf_ncam c3 = cf_ncam c2). { clear - E3. destruct ok2, ok3; try (destruct (to_u32 _ _) as [n|]; cbn [obind] in E3); inversion E3; subst; auto. }
    destruct G2 as (Q1 & Q2 & Q3), G3 as (R1 & R2 & R3). rewrite R1, R2, R3, Q1, Q2, Q3. exact El. }
  destruct G as [G1 G2]. destruct (config_listing c' vis ltac:(lia)) as (ls & E' & _ & _ & _ & _ & _ & _ & _ & _ & _ & _ & _ & _ & _ & _ & A & _ & Lc & _). exists ls. split; [exact E'|]. split; [exact G1|].
  rewrite A, Lc, G2. reflexivity.
Qed.

(** ** Counterexamples *)
Theorem last_refuted : exists (f : feature T) ls id a b n, print_feature nord f = ls /\ In (id, a, b, n) (read_heads ls) /\ b < a.
Proof.
  clear - S. exists (Feature 1 5 [] 0 v3zero FUnsolved), (print_feature nord (Feature 1 5 [] 0 v3zero FUnsolved)), 1, 5, 4, 0. split; [reflexivity|]. split; [left; reflexivity|lia].
Qed.
Theorem short_refuted : exists m : feat_msg T, length (fm_ids m) = 1%nat /\ print_msg nord m = Ub UbIndex.
Proof. clear. exists (FeatMsg [1] [] [] (f64_of_Z 0)). split; reflexivity. Qed.
Theorem cameras_refuted : exists (c : config T) ls, print_config c true = Ok ls /\ shown "   [VISION] max cameras num : " ls = [[UInt 2]] /\ shown "      cam " ls = [].
Proof. clear - S. eexists cfg0, _. split; [reflexivity|]. split; reflexivity. Qed.
End PrintFacts.
