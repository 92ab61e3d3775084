(** Specification vocabulary for the whole back end (C30-C39). Nothing here is used by the model. *)
From Coq Require Import ZArith List Bool.
From stdpp Require Import gmap list.
From Verif Require Import Fp Scalar Base LinAlg Msg DataLoader FeatureManager FrameManager Window MathLib Attitude Propagator
  Triangulate Pnp VisionUpdate Backend LoaderSpec WindowSpec QueueSpec UpdSpec.
Import ListNotations.
Local Open Scope nat_scope.

Section BackendSpec.
Context {T : Type} {S : SOps T}.

(** ** Histories *)

(** The calls a user makes. Every RunOnce comes with its own external behaviour. *)
Inductive b_op :=
| BImu (m : imu_msg T)
| BFeat (m : feat_msg T)
| BRun (o : boracle T)
| BTest
| BReset.
Definition b_step (c : vcfg T) (s : bstate T) (op : b_op) : out (bstate T) :=
  match op with
  | BImu m => Ok (fst (b_imu s m))
  | BFeat m => Ok (fst (b_feat s m))
  | BRun o => let! r := run_once c o s in Ok (fst r)
  | BTest => Ok (fst (run_once_test s))
  | BReset => Ok (b_reset s)
  end.
Fixpoint b_hist (c : vcfg T) (s : bstate T) (ops : list b_op) : out (bstate T) :=
  match ops with [] => Ok s | op :: r => let! s' := b_step c s op in b_hist c s' r end.

(** A configured back end in which nothing has happened yet. *)
Definition fresh (s : bstate T) : Prop :=
  exists st period exts ba bg na ng nwa nwg, s = b_new st period exts ba bg na ng nwa nwg.

(** Messages pushed by the calls, oldest first. *)
Definition pushed_feat (ops : list b_op) : list (feat_msg T) :=
  flat_map (fun op => match op with BFeat m => [m] | _ => [] end) ops.
Definition pushed_imu (ops : list b_op) : list (imu_msg T) :=
  flat_map (fun op => match op with BImu m => [m] | _ => [] end) ops.
(** The external behaviour used by the calls. *)
Definition oracles (ops : list b_op) : list (boracle T) :=
  flat_map (fun op => match op with BRun o => [o] | _ => [] end) ops.

(** ** Contracts *)

(** Cameras of a message are configured. *)
Definition cams_known (ne : nat) (m : feat_msg T) : Prop :=
  List.Forall (fun o : observe T => forall c z, o !! c = Some z -> (0 <= c < Z.of_nat ne)%Z) (fm_obs m).
(** The front end reports each feature once per message, without gaps, with configured cameras. *)
Definition good_tracks (ne : nat) (ms : list (feat_msg T)) : Prop :=
  List.Forall good_msg ms /\ List.Forall (cams_known ne) ms /\ contiguous ms.

(** External behaviour: maps are iterated completely, and the eigen-solver returns a square matrix of the right
    size. Nothing is assumed about numerical results. *)
Definition oracle_ok (o : boracle T) : Prop :=
  valid_order (vo_ord (bo_vis o)) /\ valid_norder (vo_nord (bo_vis o)) /\
  (forall a, mr (ed_vec (vo_saes (bo_vis o) a)) = mr a /\ mc (ed_vec (vo_saes (bo_vis o) a)) = mr a) /\
  valid_order (vo_ord (bo_init o)) /\ valid_norder (vo_nord (bo_init o)) /\
  valid_order (bo_pord o) /\ forall k, valid_order (bo_marg o k).

(** The largest number of frames between two RunOnce calls. *)
Definition win_bound (c : vcfg T) : nat := Nat.max 1 (Z.to_nat (vc_maxwin c)).
(** The configured sizes keep the number of measurement rows of one update below 2^32. *)
Definition sizes_ok (c : vcfg T) (ne : nat) : Prop :=
  (0 <= vc_maxwin c)%Z /\ (0 <= vc_maxfeat c)%Z /\
  (Z.max 1 (vc_maxfeat c) * (2 * (Z.of_nat (win_bound c) + 1) * Z.of_nat (Nat.max 1 ne)) < 4294967296)%Z.

(** Number of frames in the window. *)
Definition n_frames (s : bstate T) : nat := length (wn_frames (b_win s)).
(** The next RunOnce will process this features message. *)
Definition next_feat (s : bstate T) : option (feat_msg T) := cm_feat (snd (fst (fst (dl_pop_one (b_dl s))))).

(** Not initialized, at most one frame, and a propagation queue left over from before whose camera covariances do
    not have the size a new initialization with two frames needs. *)
Definition stuck (s : bstate T) : Prop :=
  b_status s = NeedInit /\ n_frames s <= 1 /\ pq_items (b_pq s) <> [] /\
  exists n, (mr (pq_ecc (b_pq s)) = n /\ mc (pq_ecc (b_pq s)) = n /\ List.Forall (fun it => mc (pi_ecov it) = n) (pq_items (b_pq s))) /\
    n <> 6 * (length (b_ext s) + 1).

End BackendSpec.
Arguments b_op : clear implicits.
