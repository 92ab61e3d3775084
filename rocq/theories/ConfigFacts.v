(** Proofs about the configuration files (C66, C70). *)
From Coq Require Import ZArith List Bool Lia Arith.
From stdpp Require Import gmap list.
From Verif Require Import Fp Scalar Base LinAlg Msg DataLoader FeatureManager FrameManager Window MathLib Attitude Propagator VisionUpdate Backend BackendSpec Config ConfigSpec.
Import ListNotations.
Local Open Scope nat_scope.

Section ConfigFacts.
Context {T : Type} {S : SOps T}.

(** ** One line *)
Lemma nil_entry : forall n, nth_error ([] : list T) n = None.
Proof. intros [|n]; reflexivity. Qed.
Lemma read_row_spec : forall n (m : mat T) row col toks, row < mr m -> col + n <= mc m -> exists m', read_row m row col n toks = Ok m' /\
  mr m' = mr m /\ mc m' = mc m /\
  forall a b, me m' a b = if Nat.eqb a row && Nat.leb col b && Nat.ltb b (col + n)
    then match nth_error (values toks) (b - col) with Some x => x | None => me m a b end else me m a b.
Proof.
  induction n as [|n IH]; intros m row col toks Hr Hc.
  - exists m. split; [reflexivity|]. split; [reflexivity|]. split; [reflexivity|]. intros a b.
    destruct (Nat.leb_spec col b), (Nat.ltb_spec b (col + 0)); rewrite ?andb_false_r; try reflexivity. lia.
  - cbn [read_row]. rewrite (proj2 (Nat.ltb_lt row (mr m)) Hr), (proj2 (Nat.ltb_lt col (mc m))) by lia. cbn [andb].
    assert (K : forall m0 : mat T, mr m0 = mr m -> mc m0 = mc m -> forall l, exists m', read_row m0 row (col + 1) n l = Ok m' /\ mr m' = mr m /\ mc m' = mc m /\
      forall a b, me m' a b = if Nat.eqb a row && Nat.leb (col + 1) b && Nat.ltb b (col + 1 + n)
        then match nth_error (values l) (b - (col + 1)) with Some x => x | None => me m0 a b end else me m0 a b).
    { intros m0 E1 E2 l. destruct (IH m0 row (col + 1) l) as (m' & A & B & C & D); [lia|lia|]. exists m'. rewrite B, C. auto. }
    assert (Cases : forall a b, (a =? row) && (col <=? b) && (b <? col + Datatypes.S n) =
        ((a =? row) && (b =? col)) || ((a =? row) && (col + 1 <=? b) && (b <? col + 1 + n))).
    { intros a b. destruct (Nat.eqb_spec a row), (Nat.leb_spec col b), (Nat.ltb_spec b (col + Datatypes.S n)), (Nat.eqb_spec b col),
        (Nat.leb_spec (col + 1) b), (Nat.ltb_spec b (col + 1 + n)); cbn; try reflexivity; lia. }
    assert (Step : forall x l rest, values toks = x :: rest -> values l = rest -> exists m', read_row (mset m row col x) row (col + 1) n l = Ok m' /\
      mr m' = mr m /\ mc m' = mc m /\ forall a b, me m' a b = if (a =? row) && (col <=? b) && (b <? col + Datatypes.S n)
        then match nth_error (values toks) (b - col) with Some x => x | None => me m a b end else me m a b).
    { intros x l rest Ev El. destruct (K (mset m row col x) eq_refl eq_refl l) as (m' & A & B & C & D). exists m'. split; [exact A|]. split; [exact B|]. split; [exact C|].
      intros a b. rewrite D, Cases, Ev, El. cbn [mset me].
      destruct (Nat.eqb_spec a row) as [->|], (Nat.eqb_spec b col) as [->|]; cbn [andb orb]; try reflexivity.
      - rewrite (proj2 (Nat.leb_gt (col + 1) col)) by lia. cbn [andb]. rewrite Nat.sub_diag. reflexivity.
      - destruct (Nat.leb_spec (col + 1) b), (Nat.ltb_spec b (col + 1 + n)); cbn [andb]; try reflexivity.
        replace (b - col) with (Datatypes.S (b - (col + 1))) by lia. reflexivity. }
    destruct toks as [|[x|x] r].
    + destruct (K m eq_refl eq_refl []) as (m' & A & B & C & D). exists m'. split; [exact A|]. split; [exact B|]. split; [exact C|].
      intros a b. rewrite D. cbn [values]. rewrite !nil_entry. destruct (_ && _ && _), (_ && _ && _); reflexivity.
    + apply (Step x r (values r)); reflexivity.
    + apply (Step x [] []); reflexivity.
Qed.
Lemma read_row_oob : forall n (m : mat T) row col toks, mr m <= row -> 0 < n -> read_row m row col n toks = Ub UbIndex.
Proof. intros [|n] m row col toks H H0; [lia|]. cbn [read_row]. rewrite (proj2 (Nat.ltb_ge row (mr m)) H). reflexivity. Qed.

(** ** All lines *)
Lemma read_rows_spec : forall (f : cfile T) (m : mat T) row cols, cols = mc m -> row + length (data_lines f) <= mr m ->
  exists m', read_rows m row cols f = Ok m' /\ mr m' = mr m /\ mc m' = mc m /\
  forall a b, b < cols -> me m' a b = if Nat.leb row a then match entry f (a - row) b with Some x => x | None => me m a b end else me m a b.
Proof.
  induction f as [|[l|] f IH]; intros m row cols Hc Hr; cbn [data_lines length] in Hr.
  - exists m. repeat split. intros a b _. unfold entry. cbn. destruct (a - row), (row <=? a); reflexivity.
  - cbn [read_rows]. destruct (read_row_spec cols m row 0 l) as (m1 & A & B & C & D); [lia|lia|]. rewrite A. cbn [obind].
    destruct (IH m1 (row + 1) cols) as (m2 & A2 & B2 & C2 & D2); [lia|lia|]. exists m2. split; [exact A2|]. split; [lia|]. split; [lia|].
    intros a b Hb. rewrite (D2 a b Hb), D. unfold entry. cbn [data_lines]. rewrite (proj2 (Nat.ltb_lt b (0 + cols))) by lia. cbn [Nat.leb]. rewrite Nat.sub_0_r, !andb_true_r.
    destruct (Nat.eqb_spec a row) as [->|Hne].
    + rewrite (proj2 (Nat.leb_gt (row + 1) row)) by lia. rewrite Nat.leb_refl, Nat.sub_diag. reflexivity.
    + destruct (Nat.leb_spec (row + 1) a), (Nat.leb_spec row a); try lia; [|reflexivity].
      replace (a - row) with (Datatypes.S (a - (row + 1))) by lia. reflexivity.
  - exists m. repeat split. intros a b _. unfold entry. cbn. destruct (a - row), (row <=? a); reflexivity.
Qed.
Lemma read_rows_oob : forall (f : cfile T) (m : mat T) row cols, cols = mc m -> 0 < cols -> row <= mr m -> mr m < row + length (data_lines f) ->
  read_rows m row cols f = Ub UbIndex.
Proof.
  induction f as [|[l|] f IH]; intros m row cols Hc H0 Hr Hl; cbn [data_lines length] in Hl; try lia. cbn [read_rows].
  destruct (Nat.eq_dec row (mr m)) as [->|Hne]; [rewrite read_row_oob by lia; reflexivity|].
  destruct (read_row_spec cols m row 0 l) as (m1 & A & B & C & D); [lia|lia|]. rewrite A. cbn [obind]. apply IH; lia.
Qed.

(** C66: everything LoadMatrix does with a file. *)
Theorem load_file : forall junk (f : cfile T) rows cols (m : mat T), 0 < cols ->
  if length (data_lines f) <=? rows then
    exists m', load_matrix junk (Some f) rows cols m = Ok (m', true) /\ mr m' = rows /\ mc m' = cols /\
    forall i j, i < rows -> j < cols -> me m' i j =
      match entry f i j with
      | Some x => x
      | None => if mr m * mc m =? rows * cols then me m ((i + j * rows) mod mr m) ((i + j * rows) / mr m) else junk i j
      end
  else load_matrix junk (Some f) rows cols m = Ub UbIndex.
Proof.
  intros junk f rows cols m Hc. unfold load_matrix. destruct (Nat.leb_spec (length (data_lines f)) rows) as [Hl|Hl].
  - destruct (read_rows_spec f (mresize junk rows cols m) 0 cols eq_refl Hl) as (m' & A & B & C & D). rewrite A. exists m'. split; [reflexivity|]. split; [exact B|]. split; [exact C|].
    intros i j Hi Hj. rewrite (D i j Hj). cbn [Nat.leb]. rewrite Nat.sub_0_r. destruct (entry f i j); [reflexivity|]. unfold mresize. cbn [me].
    destruct (mr m * mc m =? rows * cols); reflexivity.
  - rewrite read_rows_oob; [reflexivity|reflexivity|exact Hc|cbn; lia|cbn; lia].
Qed.
Theorem load_missing : forall junk rows cols (m : mat T), load_matrix junk None rows cols m = Ok (m, false).
Proof. reflexivity. Qed.
Theorem load_complete : forall junk (f : cfile T) rows cols t (m : mat T), 0 < cols -> complete rows cols f t ->
  exists m', load_matrix junk (Some f) rows cols m = Ok (m', true) /\ mr m' = rows /\ mc m' = cols /\ forall i j, i < rows -> j < cols -> me m' i j = t i j.
Proof.
  intros junk f rows cols t m Hc [H1 H2]. pose proof (load_file junk f rows cols m Hc) as L. rewrite (proj2 (Nat.leb_le (length (data_lines f)) rows)) in L by lia.
  destruct L as (m' & A & B & C & D). exists m'. split; [exact A|]. split; [exact B|]. split; [exact C|]. intros i j Hi Hj. rewrite (D i j Hi Hj), (H2 i j Hi Hj). reflexivity.
Qed.
Lemma load_told : forall junk (f : option (cfile T)) rows cols t (m : mat T), 0 < cols -> told rows cols f t ->
  exists m' b, load_matrix junk f rows cols m = Ok (m', b) /\ match t with
    | Some t => b = true /\ forall i j, i < rows -> j < cols -> me m' i j = t i j | None => b = false end.
Proof.
  intros junk [f|] rows cols [t|] m Hc Ht; cbn [told] in Ht; try contradiction.
  - destruct (load_complete junk f rows cols t m Hc Ht) as (m' & A & _ & _ & D). exists m', true. auto.
  - exists m, false. auto.
Qed.

(** ** Cameras *)
Lemma quat_of_mat_ext : forall m m' : mat T, (forall i j, i < 3 -> j < 3 -> me m i j = me m' i j) -> quat_of_mat m = quat_of_mat m'.
Proof.
  intros m m' H. unfold quat_of_mat. cbv zeta. rewrite (H 0 0), (H 1 1), (H 2 2), (H 2 1), (H 1 2), (H 0 2), (H 2 0), (H 1 0), (H 0 1) by lia.
  destruct (sltb s0 _); [reflexivity|].
  set (i := if sltb (me m' 0 0) (me m' 1 1) then 1 else 0). assert (Hi : i < 3) by (unfold i; destruct (sltb _ _); lia).
  rewrite (H i i Hi Hi). set (k := if sltb (me m' i i) (me m' 2 2) then 2 else i). assert (Hk : k < 3) by (unfold k; match goal with |- (if ?b then _ else _) < _ => destruct b end; lia).
  assert (A : forall n, n mod 3 < 3) by (intros n; apply Nat.mod_upper_bound; lia).
  rewrite !(H k k), !(H ((k + 1) mod 3) _), !(H (((k + 1) mod 3 + 1) mod 3) _), !(H k _) by (assumption || apply A). reflexivity.
Qed.
Lemma consecutive_size : forall (d : cdir T) n, (forall k, k < n -> is_Some (cd_cams d !! Z.of_nat k)) -> n <= size (cd_cams d).
Proof.
  intros d n H. set (X := (list_to_set (map Z.of_nat (seq 0 n)) : gset Z)).
  assert (E : size X = n).
  { unfold X. rewrite size_list_to_set; [rewrite map_length, seq_length; reflexivity|]. apply NoDup_fmap_2; [intros a b; lia|]. apply NoDup_seq. }
  rewrite <- E. transitivity (size (dom (cd_cams d))); [|rewrite size_dom; lia]. apply subseteq_size. intros z Hz. unfold X in Hz. apply elem_of_list_to_set in Hz.
  apply elem_of_list_In, in_map_iff in Hz as (k & <- & Hk). apply in_seq in Hk. apply elem_of_dom. apply H. lia.
Qed.
Lemma cam_loop_spec : forall junk (d : cdir T) rest pre fuel (c : config T) m, cameras d (pre ++ rest) -> cf_ncam c = Z.of_nat (length pre) -> length rest <= fuel ->
  (Z.of_nat (length (pre ++ rest)) < 4294967296)%Z ->
  exists m', cam_loop junk d fuel c m = Ok (set_cams c (Z.of_nat (length (pre ++ rest))) (cf_q c ++ map (fun t => quat_of_mat (Mat 4 4 t)) rest) (cf_p c ++ map column3 rest), m').
Proof.
  intros junk d rest. induction rest as [|t rest IH]; intros pre fuel c m Hd Hc Hf Hn.
  - rewrite app_nil_r in *. destruct Hd as [_ Hd]. exists m. rewrite <- Hc. cbn [map]. rewrite !app_nil_r.
    destruct fuel; cbn [cam_loop]; rewrite Hc, Hd; cbn [load_matrix obind]; destruct c; cbn [Config.cf_ncam] in Hc; subst; reflexivity.
  - destruct fuel as [|fuel]; [cbn [length] in Hf; lia|]. destruct (proj1 Hd (length pre) t) as (f & Ef & Cf); [rewrite nth_error_app2, Nat.sub_diag by lia; reflexivity|].
    cbn [cam_loop]. rewrite Hc, Ef. destruct (load_complete (junk (FCam (Z.of_nat (length pre)))) f 4 4 t m ltac:(lia) Cf) as (m1 & A & B & C & D). rewrite A. cbn [obind].
    replace (pre ++ t :: rest) with ((pre ++ [t]) ++ rest) in * by (rewrite <- app_assoc; reflexivity).
    destruct (IH (pre ++ [t]) fuel (add_camera c m1) m1) as (m' & E); [exact Hd| |cbn [length] in Hf; lia|exact Hn|].
    { unfold add_camera, set_cams. cbn [cf_ncam]. rewrite Hc, app_length in *. cbn [length]. rewrite app_length in Hn. cbn [length] in Hn.
      rewrite Z.mod_small by lia. lia. }
    exists m'. rewrite E. unfold add_camera, set_cams. cbn. f_equal. f_equal. rewrite <- !app_assoc. cbn [app].
    rewrite (quat_of_mat_ext m1 (Mat 4 4 t)) by (intros i j Hi Hj; apply D; lia). rewrite !D by lia. reflexivity.
Qed.

(** ** All files *)
Variable u32 : T -> option Z.
Lemma keep : forall (b : bool) (t : option (nat -> nat -> T)) (x y z : config T) (e : nat -> nat -> T) r k,
  match t with Some t => b = true /\ forall i j, i < r -> j < k -> e i j = t i j | None => b = false end ->
  match t with Some t => (forall i j, i < r -> j < k -> e i j = t i j) -> x = z | None => y = z end -> (if b then x else y) = z.
Proof. intros b [t|] x y z e r k H E; [destruct H as [-> H]; auto|subst b; exact E]. Qed.
(** C66: complete or missing files. *)
Theorem read_complete : forall junk (d : cdir T) (c : config T) (m : mat T) tf tn tb tg tc tw tv tk,
  told 1 1 (cd_file d FFreq) tf -> told 1 4 (cd_file d FNoise) tn -> told 2 3 (cd_file d FBias) tb -> told 1 1 (cd_file d FGrav) tg ->
  cameras d tc -> (Z.of_nat (length tc) < 4294967296)%Z ->
  told 1 1 (cd_file d FWin) tw -> told 1 1 (cd_file d FVis) tv -> told 1 3 (cd_file d FKey) tk ->
  (forall t, tw = Some t -> u32 (t 0 0) <> None) -> (forall t, tk = Some t -> u32 (t 0 0) <> None) ->
  exists c' m', read_config u32 junk d c m = Ok (c', m', true) /\
    cf_period c' = or_old tf (fun t => sdiv s1 (t 0 0)) (cf_period c) /\
    cf_na c' = or_old tn (fun t => t 0 0) (cf_na c) /\ cf_ng c' = or_old tn (fun t => t 0 1) (cf_ng c) /\
    cf_nwa c' = or_old tn (fun t => t 0 2) (cf_nwa c) /\ cf_nwg c' = or_old tn (fun t => t 0 3) (cf_nwg c) /\
    cf_ba c' = or_old tb (fun t => V3 (t 0 0) (t 0 1) (t 0 2)) (cf_ba c) /\ cf_bg c' = or_old tb (fun t => V3 (t 1 0) (t 1 1) (t 1 2)) (cf_bg c) /\
    cf_grav c' = or_old tg (fun t => t 0 0) (cf_grav c) /\
    cf_ncam c' = Z.of_nat (length tc) /\ cf_p c' = map column3 tc /\ cf_q c' = map (fun t => quat_of_mat (Mat 4 4 t)) tc /\
    Some (cf_maxframe c') = or_old tw (fun t => u32 (t 0 0)) (Some (cf_maxframe c)) /\
    cf_sigma c' = or_old tv (fun t => t 0 0) (cf_sigma c) /\
    Some (cf_mintrack c') = or_old tk (fun t => u32 (t 0 0)) (Some (cf_mintrack c)) /\
    cf_minpar c' = or_old tk (fun t => t 0 1) (cf_minpar c) /\ cf_maxtrans c' = or_old tk (fun t => t 0 2) (cf_maxtrans c) /\
    cf_maxfeat c' = cf_maxfeat c.
Proof.
  intros junk d c m tf tn tb tg tc tw tv tk Hf Hn Hb Hg Hc Hl Hw Hv Hk Uw Uk. unfold read_config. cbv zeta.
  destruct (load_told (junk FFreq) _ 1 1 tf m ltac:(lia) Hf) as (m1 & b1 & E1 & F1). rewrite E1. cbn [obind].
  rewrite (keep b1 tf _ _ (set_period c (or_old tf (fun t => sdiv s1 (t 0 0)) (cf_period c))) (me m1) 1 1 F1)
    by (destruct tf; [intros G; cbn [or_old]; rewrite G by lia; reflexivity|destruct c; reflexivity]). set (c1 := set_period _ _).
  destruct (load_told (junk FNoise) _ 1 4 tn m1 ltac:(lia) Hn) as (m2 & b2 & E2 & F2). rewrite E2. cbn [obind].
  rewrite (keep b2 tn _ _ (set_noise c1 (or_old tn (fun t => t 0 0) (cf_na c)) (or_old tn (fun t => t 0 1) (cf_ng c)) (or_old tn (fun t => t 0 2) (cf_nwa c)) (or_old tn (fun t => t 0 3) (cf_nwg c))) (me m2) 1 4 F2)
    by (destruct tn; [intros G; cbn [or_old]; rewrite !G by lia; reflexivity|destruct c; reflexivity]). set (c2 := set_noise _ _ _ _ _).
  destruct (load_told (junk FBias) _ 2 3 tb m2 ltac:(lia) Hb) as (m3 & b3 & E3 & F3). rewrite E3. cbn [obind].
  rewrite (keep b3 tb _ _ (set_bias c2 (or_old tb (fun t => V3 (t 0 0) (t 0 1) (t 0 2)) (cf_ba c)) (or_old tb (fun t => V3 (t 1 0) (t 1 1) (t 1 2)) (cf_bg c))) (me m3) 2 3 F3)
    by (destruct tb; [intros G; cbn [or_old]; rewrite !G by lia; reflexivity|destruct c; reflexivity]). set (c3 := set_bias _ _ _).
  destruct (load_told (junk FGrav) _ 1 1 tg m3 ltac:(lia) Hg) as (m4 & b4 & E4 & F4). rewrite E4. cbn [obind].
  rewrite (keep b4 tg _ _ (set_grav c3 (or_old tg (fun t => t 0 0) (cf_grav c))) (me m4) 1 1 F4)
    by (destruct tg; [intros G; cbn [or_old]; rewrite !G by lia; reflexivity|destruct c; reflexivity]). set (c4 := set_grav _ _).
  destruct (cam_loop_spec junk d tc [] (size (cd_cams d)) (set_cams c4 0 [] []) m4 Hc eq_refl) as (m5 & E5).
  { apply consecutive_size. intros k Hk'. destruct (nth_error tc k) as [t|] eqn:Et; [|apply nth_error_None in Et; lia].
    destruct (proj1 Hc k t Et) as (f & -> & _). eauto. }
  { exact Hl. }
  rewrite E5. cbn [obind app]. set (c5 := set_cams _ _ _ _).
  destruct (load_told (junk FWin) _ 1 1 tw m5 ltac:(lia) Hw) as (m6 & b6 & E6 & F6). rewrite E6. cbn [obind].
  assert (W : exists w, Some w = or_old tw (fun t => u32 (t 0 0)) (Some (cf_maxframe c)) /\
    (if b6 : bool then let! n := to_u32 u32 (me m6 0 0) in Ok (set_window c5 n) else Ok c5) = Ok (set_window c5 w)).
  { destruct tw as [t|]; cbn [or_old].
    - destruct F6 as [-> F6]. specialize (Uw t eq_refl). destruct (u32 (t 0 0)) as [w|] eqn:Eu; [|contradiction]. exists w. split; [reflexivity|].
      unfold to_u32. rewrite F6, Eu by lia. reflexivity.
    - subst b6. exists (cf_maxframe c). split; [reflexivity|]. destruct c; reflexivity. }
  destruct W as (w & W1 & W2). rewrite W2. cbn [obind]. set (c6 := set_window _ _).
  destruct (load_told (junk FVis) _ 1 1 tv m6 ltac:(lia) Hv) as (m7 & b7 & E7 & F7). rewrite E7. cbn [obind].
  rewrite (keep b7 tv _ _ (set_sigma c6 (or_old tv (fun t => t 0 0) (cf_sigma c))) (me m7) 1 1 F7)
    by (destruct tv; [intros G; cbn [or_old]; rewrite !G by lia; reflexivity|destruct c; reflexivity]). set (c7 := set_sigma _ _).
  destruct (load_told (junk FKey) _ 1 3 tk m7 ltac:(lia) Hk) as (m8 & b8 & E8 & F8). rewrite E8. cbn [obind].
  assert (K : exists k, Some k = or_old tk (fun t => u32 (t 0 0)) (Some (cf_mintrack c)) /\
    (if b8 : bool then let! n := to_u32 u32 (me m8 0 0) in Ok (set_policy c7 n (me m8 0 1) (me m8 0 2)) else Ok c7) =
      Ok (set_policy c7 k (or_old tk (fun t => t 0 1) (cf_minpar c)) (or_old tk (fun t => t 0 2) (cf_maxtrans c)))).
  { destruct tk as [t|]; cbn [or_old].
    - destruct F8 as [-> F8]. specialize (Uk t eq_refl). destruct (u32 (t 0 0)) as [k|] eqn:Eu; [|contradiction]. exists k. split; [reflexivity|].
      unfold to_u32. rewrite !F8, Eu by lia. reflexivity.
    - subst b8. exists (cf_mintrack c). split; [reflexivity|]. destruct c; reflexivity. }
  destruct K as (k & K1 & K2). rewrite K2. cbn [obind]. rewrite <- W1, <- K1. eexists _, _. split; [reflexivity|].
  unfold c7, c6, c5, c4, c3, c2, c1. cbn. repeat split.
Qed.
(** ** Which directories can be read at all *)
Lemma load_fits : forall junk (f : option (cfile T)) rows cols (m : mat T), 0 < cols -> fits rows f ->
  exists m' b, load_matrix junk f rows cols m = Ok (m', b) /\ b = (if f then true else false) /\
    forall i j x, i < rows -> j < cols -> said f i j = Some x -> me m' i j = x.
Proof.
  intros junk [f|] rows cols m Hc Hf; [|exists m, false; repeat split; discriminate]. cbn [fits] in Hf. pose proof (load_file junk f rows cols m Hc) as L.
  rewrite (proj2 (Nat.leb_le _ _) Hf) in L. destruct L as (m' & A & _ & _ & D). exists m', true. split; [exact A|]. split; [reflexivity|].
  intros i j x Hi Hj Hs. cbn [said] in Hs. rewrite (D i j Hi Hj), Hs. reflexivity.
Qed.
Lemma cam_loop_fits : forall junk (d : cdir T) n k fuel (c : config T) m,
  (forall i, i < n -> exists f, cd_cams d !! Z.of_nat i = Some f /\ fits 4 (Some f)) -> cd_cams d !! Z.of_nat n = None ->
  (Z.of_nat n < 4294967296)%Z -> cf_ncam c = Z.of_nat k -> k <= n -> n - k <= fuel -> length (cf_q c) = k -> length (cf_p c) = k ->
  exists c' m', cam_loop junk d fuel c m = Ok (c', m') /\ cf_ncam c' = Z.of_nat n /\ length (cf_q c') = n /\ length (cf_p c') = n.
Proof.
  intros junk d n k fuel. revert k. induction fuel as [|fuel IH]; intros k c m Hp Hd Hn Hc Hk Hf Hq Hv; cbn [cam_loop]; rewrite Hc.
  - replace k with n in * by lia. rewrite Hd. cbn [load_matrix obind]. exists c, m. auto.
  - destruct (Nat.eq_dec k n) as [->|Hne]; [rewrite Hd; cbn [load_matrix obind]; exists c, m; auto|].
    destruct (Hp k ltac:(lia)) as (f & -> & Hfit). destruct (load_fits (junk (FCam (Z.of_nat k))) (Some f) 4 4 m ltac:(lia) Hfit) as (m1 & b & E & -> & _). rewrite E. cbn [obind].
    apply (IH (k + 1)); try assumption; try lia; unfold add_camera, set_cams; cbn [cf_ncam cf_q cf_p].
    + rewrite Hc, Z.mod_small by lia. lia.
    + rewrite app_length. cbn. lia.
    + rewrite app_length. cbn. lia.
Qed.
Theorem read_safe : forall junk (d : cdir T) (c : config T) (m : mat T) n,
  fits 1 (cd_file d FFreq) -> fits 1 (cd_file d FNoise) -> fits 2 (cd_file d FBias) -> fits 1 (cd_file d FGrav) -> fits 1 (cd_file d FWin) ->
  fits 1 (cd_file d FVis) -> fits 1 (cd_file d FKey) ->
  (forall i, i < n -> exists f, cd_cams d !! Z.of_nat i = Some f /\ fits 4 (Some f)) -> cd_cams d !! Z.of_nat n = None -> (Z.of_nat n < 4294967296)%Z ->
  (cd_file d FWin = None \/ exists x z, said (cd_file d FWin) 0 0 = Some x /\ u32 x = Some z) ->
  (cd_file d FKey = None \/ exists x z, said (cd_file d FKey) 0 0 = Some x /\ u32 x = Some z) ->
  exists c' m', read_config u32 junk d c m = Ok (c', m', true) /\ cf_ncam c' = Z.of_nat n /\ length (cf_q c') = n /\ length (cf_p c') = n.
Proof.
  intros junk d c m n H1 H2 H3 H4 H6 H7 H8 Hp Hd Hn Uw Uk. unfold read_config. cbv zeta.
  destruct (load_fits (junk FFreq) _ 1 1 m ltac:(lia) H1) as (m1 & b1 & -> & _). cbn [obind].
  destruct (load_fits (junk FNoise) _ 1 4 m1 ltac:(lia) H2) as (m2 & b2 & -> & _). cbn [obind].
  destruct (load_fits (junk FBias) _ 2 3 m2 ltac:(lia) H3) as (m3 & b3 & -> & _). cbn [obind].
  destruct (load_fits (junk FGrav) _ 1 1 m3 ltac:(lia) H4) as (m4 & b4 & -> & _). cbn [obind].
  match goal with |- context [cam_loop junk d ?fu ?cc m4] => destruct (cam_loop_fits junk d n 0 fu cc m4 Hp Hd Hn eq_refl ltac:(lia)) as (c5 & m5 & -> & K) end;
    [|reflexivity|reflexivity|].
  { rewrite Nat.sub_0_r. apply consecutive_size. intros k Hk. destruct (Hp k Hk) as (f & -> & _). eauto. }
  cbn [obind].
  destruct (load_fits (junk FWin) _ 1 1 m5 ltac:(lia) H6) as (m6 & b6 & -> & B6 & F6). cbn [obind].
  assert (W : exists c6, (if b6 : bool then let! z := to_u32 u32 (me m6 0 0) in Ok (set_window c5 z) else Ok c5) = Ok c6 /\
    cf_ncam c6 = cf_ncam c5 /\ cf_q c6 = cf_q c5 /\ cf_p c6 = cf_p c5).
  { destruct Uw as [e|(x & z & e & u)].
    - rewrite e in B6. subst b6. exists c5. auto.
    - destruct (cd_file d FWin); [|discriminate]. subst b6. rewrite (F6 0 0 x ltac:(lia) ltac:(lia) e). unfold to_u32. rewrite u. eexists. repeat split. }
  destruct W as (c6 & -> & W1 & W2 & W3). cbn [obind].
  destruct (load_fits (junk FVis) _ 1 1 m6 ltac:(lia) H7) as (m7 & b7 & -> & _). cbn [obind].
  destruct (load_fits (junk FKey) _ 1 3 m7 ltac:(lia) H8) as (m8 & b8 & -> & B8 & F8). cbn [obind].
  match goal with |- context [set_policy ?x] => set (c7 := x) end.
  assert (G : cf_ncam c7 = cf_ncam c6 /\ cf_q c7 = cf_q c6 /\ cf_p c7 = cf_p c6) by (unfold c7; destruct b7; repeat split).
  assert (W : exists c8, (if b8 : bool then let! z := to_u32 u32 (me m8 0 0) in Ok (set_policy c7 z (me m8 0 1) (me m8 0 2)) else Ok c7) = Ok c8 /\
    cf_ncam c8 = cf_ncam c7 /\ cf_q c8 = cf_q c7 /\ cf_p c8 = cf_p c7).
  { destruct Uk as [e|(x & z & e & u)].
    - rewrite e in B8. subst b8. exists c7. auto.
    - destruct (cd_file d FKey); [|discriminate]. subst b8. rewrite (F8 0 0 x ltac:(lia) ltac:(lia) e). unfold to_u32. rewrite u. eexists. repeat split. }
  destruct W as (c8 & -> & V1 & V2 & V3). cbn [obind]. exists c8, m8. split; [reflexivity|]. destruct G as (G1 & G2 & G3).
  rewrite V1, V2, V3, G1, G2, G3, W1, W2, W3. exact K.
Qed.
(** ReadConfigParams never reports a failure. *)
Theorem read_true : forall junk (d : cdir T) (c : config T) m c' m' r, read_config u32 junk d c m = Ok (c', m', r) -> r = true.
Proof.
  intros junk d c m c' m' r H. unfold read_config in H. cbv zeta in H.
  repeat match type of H with (let! _ := ?x in _) = _ => destruct x as [y|]; cbn [obind] in H; [|discriminate]; try destruct y end. congruence.
Qed.

(** ** C70 *)
Theorem config_fresh : forall wide (c : config T) st, length (cf_q c) = length (cf_p c) ->
  fresh (apply_config wide c (b_blank st)) /\ length (b_ext (apply_config wide c (b_blank st))) = length (cf_q c) /\
  dl_period (b_dl (apply_config wide c (b_blank st))) = wide (cf_period c).
Proof.
  intros wide c st H. split; [|split; [|reflexivity]].
  - exists st, (wide (cf_period c)), (zip_with Extrinsic (cf_q c) (cf_p c)), (cf_ba c), (cf_bg c), (cf_na c), (cf_ng c), (cf_nwa c), (cf_nwg c). reflexivity.
  - cbn [apply_config b_ext]. rewrite zip_with_length. lia.
Qed.
End ConfigFacts.
