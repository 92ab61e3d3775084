(** Concrete listings (C93, C94). *)
From Coq Require Import ZArith List Bool String Lia.
From stdpp Require Import gmap list.
From Verif Require Import Fp Scalar Base LinAlg Msg FeatureManager FrameManager Window WindowSpec UpdSpec DataLoader WindowFacts WindowWitness Config BackWitness ConfigWitness Print PrintSpec PrintFacts.
Import ListNotations.
Local Open Scope Z_scope.
#[local] Existing Instance ops_one.

Lemma norder_unit : valid_norder (fun o : observe unit => map_to_list o).
Proof. intros o. reflexivity. Qed.
Lemma demo3_good : good_history (firstn 3 (demo_hist (T := unit))).
Proof. destruct (key_demo_good (S := ops_one)) as [H _]; exact H. Qed.
Lemma listing_example : valid_norder (fun o : observe unit => map_to_list o) /\ good_history (firstn 3 (demo_hist (T := unit))) /\
  match w_run map_to_list window0 (firstn 3 (demo_hist (T := unit))) with
  | Ok w => match print_features (fun o => map_to_list o) map_to_list (wn_heap w) (wn_mgr w) with Ok ls => (length (read_heads ls), length (read_tracks None ls)) | Ub _ => (0, 0)%nat end
  | Ub _ => (0, 0)%nat
  end = (3, 12)%nat.
Proof. split; [exact norder_unit|]. split; [exact demo3_good|]. vm_compute. reflexivity. Qed.
Lemma frames_example : good_history (firstn 3 (demo_hist (T := unit))) /\ map (fun m => length (fm_ids m)) (a_run [] (firstn 3 (demo_hist (T := unit)))) = [2; 3; 2]%nat.
Proof. split; [exact demo3_good|reflexivity]. Qed.
Definition comb_demo : comb_msg unit :=
  CombMsg (Some (FeatMsg [7; 9] [ {[0 := V2 tt tt; 1 := V2 tt tt]}; {[0 := V2 tt tt]} ] [1; 1] (f64_of_Z 3))) [ImuMsg (V3 tt tt tt) (V3 tt tt tt) (f64_of_Z 1); ImuMsg (V3 tt tt tt) (V3 tt tt tt) (f64_of_Z 2)].
Lemma comb_example : match cm_feat comb_demo with Some f => (length (fm_ids f), length (fm_obs f), length (cm_imu comb_demo)) | None => (0, 0, 0)%nat end = (2, 2, 2)%nat /\
  match print_comb (fun o => map_to_list o) comb_demo with Ok ls => (length ls, read_msg None ls) | Ub _ => (0%nat, []) end = (12%nat, [(7, 0, V2 tt tt); (7, 1, V2 tt tt); (9, 0, V2 tt tt)]).
Proof. split; vm_compute; reflexivity. Qed.
Lemma read_example : forall junk, exists c m ls, read_config f32_u32 junk repo_dir cfg0 ConfigWitness.m00 = Ok (c, m, true) /\ length (cf_p c) = 2%nat /\ print_config c true = Ok ls.
Proof.
  intros junk. destruct (repo_backend junk (DlStatics None None)) as (c & m & E & L & L2 & _). destruct (read_listing f32_u32 junk repo_dir cfg0 m00 c m true true E) as (ls & Ep & _).
  exists c, m, ls. split; [exact E|]. split; [congruence|exact Ep].
Qed.
