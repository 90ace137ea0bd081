(* Opening trees again: C38, C39, C40. *)
From Coq Require Import String List Arith NArith Bool Lia Init.Byte ZifyBool ZifyNat.
From Verif Require Import Base Element Hash Sizing FS Sched Store VecStore DiskStore MmapStore LevelCache ProofModel Tree ListFacts Spec SpecFacts SizingFacts SchedFacts StoreLaws RowFacts ChunkFacts BuildFacts BuildLoop StoreSpec FileFacts VecFacts MapLayer DiskFacts MmapFacts PopFacts TreeFacts ProofSpec ProofFacts TreeProofs TreeObs Builders BuiltFacts CompactTrees ReopenFacts Cases Props_Build.
Import ListNotations.

(* ---------------- C38 ---------------- *)
(* [fs_file f p]: the bytes at path p.  The second file system f2 is any one in
   which the file of the dropped tree is still what it was; MmapStore also needs
   write permission on it. *)
Theorem C38_reopen : forall E (EO : ElementOps E) A SO np rw en b c leaves f t f1 f2,
  setting EO A SO np en b -> file_store EO SO np rw -> fs_dir f (cfg_path c) = None ->
  cfg_builder EO SO A en b c leaves f (Ok t, f1) ->
  fs_file f2 (cfg_path c) = fs_file f1 (cfg_path c) -> (rw = true -> writable f2 (cfg_path c)) ->
  exists s t2, st_new_from_disk SO (mt_len SO t) b c f2 = (Ok s, f2) /\
    from_data_store SO b 0 0 s (mt_leafs t) f2 = (Ok t2, f2) /\ same_tree SO SO b t f1 t2 f2.
Proof.
  intros E EO A SO np rw en b c leaves f t f1 f2 (EL & AL & _ & Hb & Hch) HS Hp HB Hf Hw.
  destruct (built_file EO EL A AL en b Hb Hch SO np rw c leaves f t f1 HS Hp HB) as (d & els & Hd & Hl & HL & HF & Hfile & _).
  rewrite Hfile in Hf. rewrite (ft_len _ _ _ _ _ _ _ _ HF), (ft_leafs _ _ _ _ _ _ _ _ HF).
  destruct (file_reopen EO EL A b Hb SO np rw f2 c d leaves els HS Hd HL Hf Hw) as (s & t2 & H1 & H2 & H3).
  exists s, t2. split; [exact H1|]. split; [exact H2|]. eapply FullTree_same_tree; eauto.
Qed.

(* DiskStore, same with_config constructor on the same number of leaves: the file wins *)
Definition C38_again_full : Prop := forall E (EO : ElementOps E) A en b c leaves f t f1 f2 r,
  setting EO A (disk_store EO) true en b -> fs_dir f (cfg_path c) = None ->
  cfg_builder EO (disk_store EO) A en b c leaves f (Ok t, f1) ->
  fs_file f2 (cfg_path c) = fs_file f1 (cfg_path c) ->
  cfg_builder EO (disk_store EO) A en b c leaves f2 r ->
  exists t2, r = (Ok t2, f2) /\ same_tree (disk_store EO) (disk_store EO) b t f1 t2 f2.

(* [again]: all with_config constructors but from_byte_slice_with_config *)
Theorem C38_again_partial : forall E (EO : ElementOps E) A en b c leaves f t f1 f2 r,
  setting EO A (disk_store EO) true en b -> fs_dir f (cfg_path c) = None ->
  cfg_builder EO (disk_store EO) A en b c leaves f (Ok t, f1) ->
  fs_file f2 (cfg_path c) = fs_file f1 (cfg_path c) ->
  again EO A en b c (mt_leafs t) f2 r ->
  exists t2, r = (Ok t2, f2) /\ same_tree (disk_store EO) (disk_store EO) b t f1 t2 f2.
Proof.
  intros E EO A en b c leaves f t f1 f2 r (EL & AL & HS & Hb & Hch) Hp HB Hf HA.
  destruct (built_file EO EL A AL en b Hb Hch _ _ _ c leaves f t f1 (fst_disk EO) Hp HB) as (d & els & Hd & Hl & HL & HF & Hfile & _).
  rewrite Hfile in Hf. rewrite (ft_leafs _ _ _ _ _ _ _ _ HF) in HA.
  destruct (again_ok EO EL A en b Hb f2 c d leaves els r Hd HL Hf HA) as (t2 & H1 & H2).
  exists t2. split; [exact H1|]. eapply FullTree_same_tree; eauto.
Qed.

(* from_byte_slice_with_config fails on every existing file, its own included *)
Theorem C38_bytes_refuted : forall E (EO : ElementOps E) A en b c leaves f t f1 f2,
  setting EO A (disk_store EO) true en b -> fs_dir f (cfg_path c) = None ->
  from_byte_slice_with_config EO (disk_store EO) A en b (encode EO leaves) c f = (Ok t, f1) ->
  fs_file f2 (cfg_path c) = fs_file f1 (cfg_path c) ->
  exists e, from_byte_slice_with_config EO (disk_store EO) A en b (encode EO leaves) c f2 = (Err e, f2).
Proof.
  intros E EO A en b c leaves f t f1 f2 (EL & AL & HS & Hb & Hch) Hp HB Hf.
  pose proof (CB_bytes EO (disk_store EO) A en b c leaves f) as HB'. rewrite HB in HB'.
  destruct (built_file EO EL A AL en b Hb Hch _ _ _ c leaves f t f1 (fst_disk EO) Hp HB') as (d & els & _ & _ & _ & _ & Hfile & _).
  rewrite Hfile in Hf. apply file_inv in Hf. destruct Hf as (i & Hi & _).
  exact (disk_bytes_existing EO EL A en b Hb f2 c i leaves Hi).
Qed.

Definition built_bytes := from_byte_slice_with_config BO (disk_store BO) sum_alg env1 2 (encode BO leaves8) cfg0 fs_empty.
Theorem C38_again_refuted : ~ C38_again_full.
Proof.
  intros H. destruct built_bytes as [x f1] eqn:HB. assert (exists t, x = Ok t) as [t ->].
  { revert HB. vm_compute. intros HB. inversion HB. eauto. }
  pose proof (CB_bytes BO (disk_store BO) sum_alg env1 2 cfg0 leaves8 fs_empty) as H1. fold built_bytes in H1. rewrite HB in H1.
  pose proof (setting_intro (disk_store BO) true env1 2 (bs_disk BO) arity_2 ltac:(split; [vm_compute; lia|reflexivity])) as HS.
  destruct (H B1 BO sum_alg env1 2 cfg0 leaves8 fs_empty t f1 f1 _ HS eq_refl H1 eq_refl (CB_bytes BO (disk_store BO) sum_alg env1 2 cfg0 leaves8 f1)) as (t2 & H2 & _).
  destruct (C38_bytes_refuted B1 BO sum_alg env1 2 cfg0 leaves8 fs_empty t f1 f1 HS eq_refl HB eq_refl) as [e He]. congruence.
Qed.

(* after the build, reopen and compare; a DiskStore whose file became read-only too *)
Definition chmod_ro (f : fs) (p : string) : fs := {|
  fs_dir := fs_dir f;
  fs_ino := fun k => match fs_dir f p with
                     | Some i => if k =? i then {| i_data := fs_data f i; i_ro := true |} else fs_ino f k
                     | None => fs_ino f k
                     end;
  fs_next := fs_next f
|}.
Definition show_tree {SO : StoreOps B1} (r : res (mtree (st_t SO) B1) * fs) : option (nat * nat * nat * nat * list nat * nat) :=
  match r with
  | (Ok t, f) => match mt_read_range SO t f 0 (mt_len SO t), gen_proof SO 2 0 0 t f 5 with
      | Ok l, Ok p => Some (val (mt_root t), mt_leafs t, mt_len SO t, mt_row_count t, map val l, List.length (pf_lemma p))
      | _, _ => None end
  | _ => None
  end.
Definition reopen_case (SO : StoreOps B1) (g : fs -> fs) :=
  match mt_new_with_config BO SO sum_alg env1 2 leaves8 cfg0 fs_empty with
  | (Ok t, f1) =>
      let f2 := g f1 in
      match st_new_from_disk SO (mt_len SO t) 2 cfg0 f2 with
      | (Ok s, f3) => (show_tree (Ok t, f1), show_tree (from_data_store SO 2 0 0 s (mt_leafs t) f3))
      | _ => (None, None)
      end
  | _ => (None, None)
  end.
Example C38_case :
  let same (x : option (nat * nat * nat * nat * list nat * nat) * option (nat * nat * nat * nat * list nat * nat)) := fst x = snd x /\ fst x <> None in
  same (reopen_case (disk_store BO) (fun f => f)) /\ same (reopen_case (mmap_store_ops BO) (fun f => f)) /\
  same (reopen_case (disk_store BO) (fun f => chmod_ro f (cfg_path cfg0))).
Proof. vm_compute. repeat split; discriminate. Qed.

(* ---------------- C39 ---------------- *)
(* a construction that failed on the way, then one that succeeds *)
Definition C39_full : Prop := forall E (EO : ElementOps E) A SO np rw en b c n items f x f1 leaves t f2,
  setting EO A SO np en b -> file_store EO SO np rw -> fs_dir f (cfg_path c) = None ->
  try_from_iter_with_config EO SO A en b (Some n) items c f = (x, f1) -> (forall t, x <> Ok t) ->
  cfg_builder EO SO A en b c leaves f1 (Ok t, f2) ->
  exists d, MRoot (h_node A) b d leaves (mt_root t).

(* MmapStore: whatever file is there, a tree that is returned is the tree of the data *)
Theorem C39_mmap_partial : forall E (EO : ElementOps E) A en b c leaves f t f',
  setting EO A (mmap_store_ops EO) false en b ->
  cfg_builder EO (mmap_store_ops EO) A en b c leaves f (Ok t, f') ->
  exists d els, List.length leaves = b ^ d /\ FullTree (mmap_store_ops EO) A b t f' d leaves els.
Proof.
  intros E EO A en b c leaves f t f' (EL & AL & HS & Hb & Hch) HB.
  destruct (fs_dir f (cfg_path c)) as [i|] eqn:Hi.
  - remember (Ok t, f') as r eqn:Hr. destruct HB.
    + exfalso. exact (mmap_iter_existing EO EL A en b Hb _ _ c f i Hi _ _ Hr).
    + exfalso. exact (mmap_par_existing EO EL A en b Hb _ c f i Hi _ _ Hr).
    + exfalso. exact (mmap_iter_existing EO EL A en b Hb _ _ c f i Hi _ _ Hr).
    + exact (mmap_bytes_existing EO EL A en b Hb Hch els c f i t f' Hi Hr).
  - destruct (built_file EO EL A AL en b Hb Hch _ _ _ c leaves f t f' (fst_mmap EO) Hi HB) as (d & els & _ & Hl & _ & HF & _). eauto.
Qed.

(* DiskStore: the byte-slice constructor never takes over a file *)
Theorem C39_bytes_partial : forall E (EO : ElementOps E) A en b c els f t f',
  setting EO A (disk_store EO) true en b ->
  from_byte_slice_with_config EO (disk_store EO) A en b (encode EO els) c f = (Ok t, f') ->
  exists d rows, List.length els = b ^ d /\ FullTree (disk_store EO) A b t f' d els rows.
Proof.
  intros E EO A en b c els f t f' (EL & AL & HS & Hb & Hch) H.
  destruct (fs_dir f (cfg_path c)) as [i|] eqn:Hi.
  - destruct (disk_bytes_existing EO EL A en b Hb f c i els Hi) as [e He]. congruence.
  - pose proof (CB_bytes EO (disk_store EO) A en b c els f) as HB. rewrite H in HB.
    destruct (built_file EO EL A AL en b Hb Hch _ _ _ c els f t f' (fst_disk EO) Hi HB) as (d & rows & _ & Hl & _ & HF & _). eauto.
Qed.

(* DiskStore, the other constructors: a file that does not have the length of the
   finished tree (no set_len yet) is refused and left alone *)
Theorem C39_size_partial : forall E (EO : ElementOps E) A en b c d data f r,
  setting EO A (disk_store EO) true en b -> 1 <= d ->
  fs_file f (cfg_path c) = Some data -> List.length data <> geom b d * e_byte_len EO ->
  again EO A en b c (b ^ d) f r -> exists e, r = (Err e, f).
Proof.
  intros E EO A en b c d data f r (EL & AL & HS & Hb & Hch) Hd Hf Hn HA.
  apply file_inv in Hf. destruct Hf as (i & Hi & Hdt). rewrite <- Hdt in Hn.
  exact (again_wrong_size EO EL A en b Hb f c d i r Hd Hi Hn HA).
Qed.

(* ... but a file of that length is believed.  Here the third item of the iterator
   is an error; the second call gets all eight leaves and returns root 0. *)
Definition cut_items : list (res B1) := map Ok (firstn 2 leaves8) ++ [Err "io"%string].
Definition cut_build := try_from_iter_with_config BO (disk_store BO) sum_alg env1 2 (Some 8) cut_items cfg0 fs_empty.
Definition root_of {SO : StoreOps B1} (r : res (mtree (st_t SO) B1) * fs) : option nat :=
  match r with (Ok t, _) => Some (val (mt_root t)) | _ => None end.
Lemma cut_fails : exists m, fst cut_build = Panic m.
Proof. vm_compute. eexists. reflexivity. Qed.
Lemma cut_again : root_of (mt_new_with_config BO (disk_store BO) sum_alg env1 2 leaves8 cfg0 (snd cut_build)) = Some 0 /\
  root_of (mt_new BO (disk_store BO) sum_alg env1 2 leaves8 fs_empty) = Some 190.
Proof. vm_compute. split; reflexivity. Qed.

Theorem C39_refuted : ~ C39_full.
Proof.
  intros H. destruct cut_fails as [m Hm]. destruct cut_again as [R1 R2].
  pose proof (setting_intro (disk_store BO) true env1 2 (bs_disk BO) arity_2 ltac:(split; [vm_compute; lia|reflexivity])) as HS.
  destruct cut_build as [x f1] eqn:HC. cbn [fst snd] in *. subst x.
  pose proof (CB_new BO (disk_store BO) sum_alg env1 2 cfg0 leaves8 f1) as HB.
  destruct (mt_new_with_config BO (disk_store BO) sum_alg env1 2 leaves8 cfg0 f1) as [[t| | |] f2]; [|discriminate R1|discriminate R1|discriminate R1].
  destruct (H B1 BO sum_alg (disk_store BO) true false env1 2 cfg0 8 cut_items fs_empty (Panic m) f1 _ t f2 HS (fst_disk BO) eq_refl HC (fun t0 X => ltac:(discriminate X)) HB) as [d HM].
  pose proof (B_new BO (disk_store BO) sum_alg env1 2 leaves8 fs_empty) as HB0.
  destruct (mt_new BO (disk_store BO) sum_alg env1 2 leaves8 fs_empty) as [[t0| | |] f0]; [|discriminate R2|discriminate R2|discriminate R2].
  destruct (builder_tree BO BL sum_alg sum_laws env1 2 (disk_store BO) true (bs_disk BO) _ _ t0 f0 arity_2 ltac:(split; [vm_compute; lia|reflexivity]) HB0) as (d0 & els & Hl & HF).
  pose proof (FullTree_root _ _ _ _ _ _ _ _ arity_2 HF) as HM0.
  assert (d = d0) as <-.
  { apply MRoot_length in HM. apply (same_leaves_pow 2); [exact arity_2|rewrite <- HM; exact Hl]. }
  pose proof (MRoot_fun _ _ _ _ _ HM _ HM0) as Hr. unfold root_of in R1, R2. rewrite Hr in R1. rewrite R1 in R2. discriminate R2.
Qed.

(* the MmapStore theorem's hypotheses on a file left by a failed build: the byte
   constructor overwrites it *)
Example C39_case :
  let f1 := snd (try_from_iter_with_config BO (mmap_store_ops BO) sum_alg env1 2 (Some 8) cut_items cfg0 fs_empty) in
  fs_file f1 (cfg_path cfg0) <> None /\
  root_of (from_byte_slice_with_config BO (mmap_store_ops BO) sum_alg env1 2 (encode BO leaves8) cfg0 f1)
    = root_of (from_byte_slice BO (vec_store BO) sum_alg env1 2 (encode BO leaves8) fs_empty) /\
  root_of (mt_new_with_config BO (mmap_store_ops BO) sum_alg env1 2 leaves8 cfg0 f1) = None.
Proof. vm_compute. repeat split; discriminate. Qed.

(* ---------------- C40 ---------------- *)
(* the serialised tree, read back into any of the three stores *)
Theorem C40_roundtrip : forall E (EO : ElementOps E) A SO np SO' np' en en' b leaves f t f1 all f0,
  setting EO A SO np en b -> setting EO A SO' np' en' b ->
  builder EO SO A en b leaves f (Ok t, f1) ->
  mt_read_range SO t f1 0 (mt_len SO t) = Ok all ->
  exists t2 f2, from_tree_slice EO SO' b 0 0 (encode EO all) (mt_leafs t) f0 = (Ok t2, f2) /\ same_tree SO SO' b t f1 t2 f2.
Proof.
  intros E EO A SO np SO' np' en en' b leaves f t f1 all f0 (EL & AL & HS & Hb & Hch) (_ & _ & HS' & _ & _) HB Hall.
  destruct (builder_tree EO EL A AL en b SO np HS leaves f t f1 Hb Hch HB) as (d & els & Hl & HF).
  pose proof (ft_layout _ _ _ _ _ _ _ _ HF) as HL. pose proof HL as (_ & L2 & _). pose proof (ft_d _ _ _ _ _ _ _ _ HF) as Hd.
  rewrite (ft_len _ _ _ _ _ _ _ _ HF) in Hall. rewrite (ft_read_range _ _ _ _ _ _ _ _ HF) in Hall by (pose proof (geom_pos b d); lia).
  rewrite Nat.sub_0_r, <- L2, sub_all in Hall. inversion Hall; subst all. rewrite (ft_leafs _ _ _ _ _ _ _ _ HF).
  destruct (basic_laws EO EL SO' np' HS') as (owner & W & Rep & SL).
  destruct (from_tree_slice_ok EO EL SO' owner W Rep np' SL A b Hb d leaves els f0 Hd HL) as (t2 & s & f2 & H1 & H2 & _).
  exists t2, f2. split; [exact H1|].
  eapply FullTree_same_tree; [exact Hb|exact HF|]. eapply (TreeAt_Full EO SO' owner W Rep np' SL A b Hb); exact H2.
Qed.

Theorem C40_roundtrip_config : forall E (EO : ElementOps E) A SO np SO' np' en en' b leaves f t f1 all c f0,
  setting EO A SO np en b -> setting EO A SO' np' en' b ->
  builder EO SO A en b leaves f (Ok t, f1) ->
  mt_read_range SO t f1 0 (mt_len SO t) = Ok all ->
  fs_dir f0 (cfg_path c) = None ->
  exists t2 f2, from_tree_slice_with_config EO SO' b 0 0 (encode EO all) (mt_leafs t) c f0 = (Ok t2, f2) /\ same_tree SO SO' b t f1 t2 f2.
Proof.
  intros E EO A SO np SO' np' en en' b leaves f t f1 all c f0 (EL & AL & HS & Hb & Hch) (_ & _ & HS' & _ & _) HB Hall Hp.
  destruct (builder_tree EO EL A AL en b SO np HS leaves f t f1 Hb Hch HB) as (d & els & Hl & HF).
  pose proof (ft_layout _ _ _ _ _ _ _ _ HF) as HL. pose proof HL as (_ & L2 & _). pose proof (ft_d _ _ _ _ _ _ _ _ HF) as Hd.
  rewrite (ft_len _ _ _ _ _ _ _ _ HF) in Hall. rewrite (ft_read_range _ _ _ _ _ _ _ _ HF) in Hall by (pose proof (geom_pos b d); lia).
  rewrite Nat.sub_0_r, <- L2, sub_all in Hall. inversion Hall; subst all. rewrite (ft_leafs _ _ _ _ _ _ _ _ HF).
  destruct (basic_laws EO EL SO' np' HS') as (owner & W & Rep & SL).
  destruct (from_tree_slice_wc_ok EO EL SO' owner W Rep np' SL A b Hb d leaves els c f0 Hd HL Hp) as (t2 & s & f2 & H1 & H2 & _).
  exists t2, f2. split; [exact H1|].
  eapply FullTree_same_tree; [exact Hb|exact HF|]. eapply (TreeAt_Full EO SO' owner W Rep np' SL A b Hb); exact H2.
Qed.

(* any store object at all with the same contents *)
Theorem C40_equal_store : forall E (EO : ElementOps E) A SO np en b leaves f t f1 all (SO' : StoreOps E) s f0,
  setting EO A SO np en b ->
  builder EO SO A en b leaves f (Ok t, f1) ->
  mt_read_range SO t f1 0 (mt_len SO t) = Ok all ->
  store_shows SO' s f0 all ->
  exists t2, from_data_store SO' b 0 0 s (mt_leafs t) f0 = (Ok t2, f0) /\ same_tree SO SO' b t f1 t2 f0.
Proof.
  intros E EO A SO np en b leaves f t f1 all SO' s f0 (EL & AL & HS & Hb & Hch) HB Hall Hs.
  destruct (builder_tree EO EL A AL en b SO np HS leaves f t f1 Hb Hch HB) as (d & els & Hl & HF).
  pose proof (ft_layout _ _ _ _ _ _ _ _ HF) as HL. pose proof HL as (_ & L2 & _). pose proof (ft_d _ _ _ _ _ _ _ _ HF) as Hd.
  rewrite (ft_len _ _ _ _ _ _ _ _ HF) in Hall. rewrite (ft_read_range _ _ _ _ _ _ _ _ HF) in Hall by (pose proof (geom_pos b d); lia).
  rewrite Nat.sub_0_r, <- L2, sub_all in Hall. inversion Hall; subst all. rewrite (ft_leafs _ _ _ _ _ _ _ _ HF).
  destruct (shown_data_store SO' A b Hb s f0 d leaves els Hd HL Hs) as (t2 & H1 & H2).
  exists t2. split; [exact H1|]. eapply FullTree_same_tree; eauto.
Qed.

(* rejection *)
Definition fits {E} (EO : ElementOps E) (b : nat) (data : list byte) (leafs : nat) : Prop :=
  exists d, 1 <= d /\ leafs = b ^ d /\ List.length data = geom b d * e_byte_len EO.
Definition C40_reject_full : Prop := forall E (EO : ElementOps E) A SO np en b sub_ top data leafs c f t f1,
  setting EO A SO np en b ->
  from_tree_slice EO SO b sub_ top data leafs f = (Ok t, f1) \/ from_tree_slice_with_config EO SO b sub_ top data leafs c f = (Ok t, f1) ->
  fits EO b data leafs.

(* DiskStore and MmapStore *)
Theorem C40_reject_files_partial : forall E (EO : ElementOps E) A SO np rw en b sub_ top data leafs c f t f1,
  setting EO A SO np en b -> file_store EO SO np rw ->
  from_tree_slice EO SO b sub_ top data leafs f = (Ok t, f1) \/ from_tree_slice_with_config EO SO b sub_ top data leafs c f = (Ok t, f1) ->
  fits EO b data leafs.
Proof.
  intros E EO A SO np rw en b sub_ top data leafs c f t f1 (EL & AL & HS & Hb & Hch) HF H. pose proof (arity_ge b Hb) as H2. pose proof (bl_pos EO EL) as Hbl.
  destruct H as [H|H].
  - destruct (from_tree_slice_inv EO SO b Hb _ _ _ _ _ _ _ ltac:(lia) H) as (d & s & D1 & D2 & D3 & D4). exists d. repeat split; auto.
    pose proof (file_slice_mult EO SO np rw data s f f1 _ HF D4). rewrite <- D3.
    pose proof (Nat.div_mod (List.length data) (e_byte_len EO) ltac:(lia)). lia.
  - destruct (from_tree_slice_wc_inv EO SO b Hb _ _ _ _ _ _ _ _ ltac:(lia) H) as (d & s & D1 & D2 & D3 & D4). exists d. repeat split; auto.
    pose proof (file_slicec_mult EO b SO np rw data s f f1 _ c HF D4). rewrite <- D3.
    pose proof (Nat.div_mod (List.length data) (e_byte_len EO) ltac:(lia)). lia.
Qed.

(* all stores, up to less than one element of surplus bytes *)
Theorem C40_reject_partial : forall E (EO : ElementOps E) A SO np en b sub_ top data leafs c f t f1,
  setting EO A SO np en b ->
  from_tree_slice EO SO b sub_ top data leafs f = (Ok t, f1) \/ from_tree_slice_with_config EO SO b sub_ top data leafs c f = (Ok t, f1) ->
  exists d, 1 <= d /\ leafs = b ^ d /\ geom b d * e_byte_len EO <= List.length data < (geom b d + 1) * e_byte_len EO.
Proof.
  intros E EO A SO np en b sub_ top data leafs c f t f1 (EL & AL & HS & Hb & Hch) H. pose proof (arity_ge b Hb) as H2. pose proof (bl_pos EO EL) as Hbl.
  assert (X : exists d, 1 <= d /\ leafs = b ^ d /\ List.length data / e_byte_len EO = geom b d).
  { destruct H as [H|H].
    - destruct (from_tree_slice_inv EO SO b Hb _ _ _ _ _ _ _ ltac:(lia) H) as (d & s & D1 & D2 & D3 & D4). eauto.
    - destruct (from_tree_slice_wc_inv EO SO b Hb _ _ _ _ _ _ _ _ ltac:(lia) H) as (d & s & D1 & D2 & D3 & D4). eauto. }
  destruct X as (d & D1 & D2 & D3). exists d. split; [exact D1|]. split; [exact D2|]. rewrite <- D3.
  pose proof (Nat.div_mod (List.length data) (e_byte_len EO) ltac:(lia)). pose proof (Nat.mod_upper_bound (List.length data) (e_byte_len EO) ltac:(lia)).
  rewrite Nat.mul_add_distr_r. lia.
Qed.

(* VecStore drops the surplus *)
Theorem C40_tail_refuted : forall E (EO : ElementOps E) A en b d leaves els junk f,
  setting EO A (vec_store EO) true en b -> 1 <= d -> Layout (h_node A) b d leaves els ->
  List.length junk < e_byte_len EO ->
  exists t f1, from_tree_slice EO (vec_store EO) b 0 0 (encode EO els ++ junk) (b ^ d) f = (Ok t, f1).
Proof.
  intros E EO A en b d leaves els junk f (EL & AL & HS & Hb & Hch) Hd HL Hj. pose proof (bl_pos EO EL) as Hbl.
  destruct (from_tree_slice_ok EO EL (vec_store EO) vec_owner vec_W vec_rep true (vec_laws EO EL) A b Hb d leaves els f Hd HL) as (t & s & f' & H1 & _).
  exists t, f'. rewrite <- H1. unfold from_tree_slice.
  replace (tree_slice_checks EO b 0 0 (encode EO els ++ junk) (b ^ d)) with (tree_slice_checks EO b 0 0 (encode EO els) (b ^ d)).
  - unfold sbind at 1. unfold sbind at 3. unfold slift. destruct (tree_slice_checks EO b 0 0 (encode EO els) (b ^ d)) as [n| | |]; auto.
    unfold sbind. cbn [st_new_from_slice vec_store]. rewrite (vec_slice_tail EO EL els junk n f Hj). reflexivity.
  - unfold tree_slice_checks. rewrite app_length, (encode_length EO EL), Nat.div_mul by lia.
    rewrite (Nat.add_comm (_ * _)), Nat.div_add, (Nat.div_small _ _ Hj) by lia. reflexivity.
Qed.

(* two-byte elements, a three-element tree and one byte too many *)
Definition el2 (n : nat) : barray 2 :=
  @mk_barray 2 (match Byte.of_nat (n mod 256) with Some x => [x; x] | None => [x00; x00] end)
    (match Byte.of_nat (n mod 256) as o return ((List.length match o with Some x => [x; x] | None => [x00; x00] end =? 2) = true) with Some _ => eq_refl | None => eq_refl end).
Theorem C40_reject_refuted : ~ C40_reject_full.
Proof.
  intros H.
  assert (X : exists t f1, from_tree_slice (ba_ops 2) (vec_store (ba_ops 2)) 2 0 0 (repeat x01 7) 2 fs_empty = (Ok t, f1)) by (vm_compute; eauto).
  destruct X as (t & f1 & X).
  pose (A2 := default_alg (ba_ops 2) (list byte) [] (fun s bs => s ++ bs) (fun s => (el2 (poly s), s))).
  destruct (H _ (ba_ops 2) A2 (vec_store (ba_ops 2)) true env1 2 0 0 (repeat x01 7) 2 cfg0 fs_empty t f1) as (d & D1 & D2 & D3).
  - split; [apply ba_laws; lia|]. split; [intros s; reflexivity|]. split; [constructor|]. split; [exact arity_2|]. split; [vm_compute; lia|reflexivity].
  - left. exact X.
  - cbn [e_byte_len ba_ops] in D3. rewrite repeat_length in D3. lia.
Qed.

Example C40_case :
  match mt_new BO (disk_store BO) sum_alg env1 2 leaves8 fs_empty with
  | (Ok t, f) => match mt_read_range (disk_store BO) t f 0 15 with
      | Ok all => show_tree (from_tree_slice BO (mmap_store_ops BO) 2 0 0 (encode BO all) 8 fs_empty) = show_tree (SO := disk_store BO) (Ok t, f)
          /\ show_tree (SO := disk_store BO) (Ok t, f) <> None
          /\ root_of (from_tree_slice BO (mmap_store_ops BO) 2 0 0 (encode BO (firstn 14 all)) 8 fs_empty) = None
      | _ => False end
  | _ => False
  end.
Proof. vm_compute. repeat split; discriminate. Qed.

Print Assumptions C38_reopen.
Print Assumptions C38_again_partial.
Print Assumptions C38_bytes_refuted.
Print Assumptions C38_again_refuted.
Print Assumptions C39_mmap_partial.
Print Assumptions C39_bytes_partial.
Print Assumptions C39_size_partial.
Print Assumptions C39_refuted.
Print Assumptions C40_roundtrip.
Print Assumptions C40_roundtrip_config.
Print Assumptions C40_equal_store.
Print Assumptions C40_reject_files_partial.
Print Assumptions C40_reject_partial.
Print Assumptions C40_tail_refuted.
Print Assumptions C40_reject_refuted.
