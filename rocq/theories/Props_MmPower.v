(* C94: a power loss after a MmapStore build has returned. *)
From Coq Require Import String List Arith NArith Bool Lia Init.Byte ZifyBool ZifyNat.
From Verif Require Import Base Element Hash Sizing FS Sched Store VecStore DiskStore MmapStore LevelCache ProofModel Tree Faults Stop MmStop ListFacts Spec SpecFacts SizingFacts SchedFacts StoreLaws RowFacts ChunkFacts BuildFacts BuildLoop StoreSpec FileFacts ByteFacts VecFacts MapLayer DiskFacts MmapFacts PopFacts TreeFacts ProofSpec ProofFacts TreeProofs TreeObs Builders BuiltFacts CompactTrees ReopenFacts StopFacts MmStopFacts Cases Props_Build Props_Reopen Props_Delete Props_Stop Props_Power Props_MmStop.
Import ListNotations.

(* MmapStore has the trait's sync, which does nothing (store/mod.rs 254-258), and never
   flushes its map: anything since the creation of the file may be lost. *)
Inductive mm_since {E} (EO : ElementOps E) (A : AlgOps E) (en : env) (b : nat) (c : StoreConfig) (leaves : list E) (f : fs)
  : list byte -> Prop :=
| MS_kill kp e f' data : cfg_builder EO (mstop_store EO kp) A en b c leaves f (Panic e, f') ->
    fs_file f' (cfg_path c) = Some data -> mm_since EO A en b c leaves f data
| MS_done t f' data : cfg_builder EO (mmap_store_ops EO) A en b c leaves f (Ok t, f') ->
    fs_file f' (cfg_path c) = Some data -> mm_since EO A en b c leaves f data.

(* empty, or of full length with every byte zero or that of the finished tree *)
Definition patchy (whole data : list byte) : Prop :=
  data = [] \/
  List.length data = List.length whole /\ forall p x, nth_error data p = Some x -> x = x00 \/ nth_error whole p = Some x.

Lemma mm_since_patchy {E} (EO : ElementOps E) A en b c leaves els d f data :
  setting EO A (mmap_store_ops EO) false en b -> 1 <= d -> Layout (h_node A) b d leaves els -> fs_dir f (cfg_path c) = None ->
  mm_since EO A en b c leaves f data -> patchy (encode EO els) data.
Proof.
  intros HS Hd HL Hp HX. pose proof HS as (EL & AL & _ & Hb & Hch). pose proof HL as (L1 & _).
  destruct HX as [kp e f' data HB Hf|t f' data HB Hf].
  - destruct (C75_killed E EO A en b c leaves els d kp f e f' HS Hd HL Hp HB) as (data2 & Hf2 & _ & HR).
    rewrite Hf in Hf2. injection Hf2 as <-. destruct kp as [|i ps]; [left; exact HR|right].
    destruct HR as (r & _ & _ & U1 & _ & U3). split; [exact U1|]. intros p x Hx. destruct (U3 p x Hx) as [G|[_ G]]; auto.
  - destruct (built_file EO EL A AL en b Hb Hch _ _ _ c leaves f t f' (fst_mmap EO) Hp HB) as (d' & els' & _ & Hl & HL' & _ & HF & _).
    assert (d' = d) by (apply (same_leaves_pow b); [auto|congruence]). subst d'.
    assert (els' = els) by (eapply Layout_fun; eauto). subst els'.
    rewrite Hf in HF. injection HF as ->. right. auto.
Qed.

(* the wish: the tree survives *)
Definition C94_full : Prop := forall E (EO : ElementOps E) A en b c leaves els d f t f1 data,
  setting EO A (mmap_store_ops EO) false en b -> 1 <= d -> Layout (h_node A) b d leaves els -> fs_dir f (cfg_path c) = None ->
  cfg_builder EO (mmap_store_ops EO) A en b c leaves f (Ok t, f1) ->
  power_loss (mm_since EO A en b c leaves f) data -> data = encode EO els.

Theorem C94_left_partial : forall E (EO : ElementOps E) A en b c leaves els d f data,
  setting EO A (mmap_store_ops EO) false en b -> 1 <= d -> Layout (h_node A) b d leaves els -> fs_dir f (cfg_path c) = None ->
  power_loss (mm_since EO A en b c leaves f) data ->
  data = [] \/
  List.length data = List.length (encode EO els) /\ forall p x, nth_error data p = Some x -> x = x00 \/ nth_error (encode EO els) p = Some x.
Proof.
  intros E EO A en b c leaves els d f data HS Hd HL Hp ((D & HD & Hlen) & HX).
  destruct (mm_since_patchy EO A en b c leaves els d f D HS Hd HL Hp HD) as [->|[G _]]; [left; destruct data; [reflexivity|discriminate Hlen]|right].
  split; [congruence|]. intros p x Hx. destruct (HX p x Hx) as (D' & HD' & Hx').
  destruct (mm_since_patchy EO A en b c leaves els d f D' HS Hd HL Hp HD') as [->|[_ G']]; [destruct p; discriminate Hx'|auto].
Qed.

(* Later constructions at the path do not believe it: with items they fail, and
   from_byte_slice_with_config writes everything anew and succeeds for as many leaves, but
   at an empty file it fails as well. *)
Theorem C94_again : forall E (EO : ElementOps E) A en en' b c leaves leaves' els d f f2 data,
  setting EO A (mmap_store_ops EO) false en b -> chunk_ok en' b -> 1 <= d -> Layout (h_node A) b d leaves els -> fs_dir f (cfg_path c) = None ->
  power_loss (mm_since EO A en b c leaves f) data ->
  fs_file f2 (cfg_path c) = Some data -> writable f2 (cfg_path c) ->
  (forall t f3, ~ item_builder EO (mmap_store_ops EO) A en' b c leaves' f2 (Ok t, f3)) /\
  (List.length leaves' = b ^ d -> data <> [] ->
     exists t f3, from_byte_slice_with_config EO (mmap_store_ops EO) A en' b (encode EO leaves') c f2 = (Ok t, f3) /\ MRoot (h_node A) b d leaves' (mt_root t)) /\
  (List.length leaves' = b ^ d -> data = [] ->
     exists m, from_byte_slice_with_config EO (mmap_store_ops EO) A en' b (encode EO leaves') c f2 = (Err m, f2)).
Proof.
  intros E EO A en en' b c leaves leaves' els d f f2 data HS Hch' Hd HL Hp HX HF HW. pose proof HS as (EL & AL & HS0 & Hb & Hch). pose proof HL as (L1 & L2 & _). split; [|split].
  - intros t f3 HI. apply file_inv in HF. destruct HF as (i & Hi & _). remember (Ok t, f3) as r eqn:Hr. destruct HI.
    + exact (mmap_iter_existing EO EL A en' b Hb _ _ _ _ i Hi _ _ Hr).
    + exact (mmap_par_existing EO EL A en' b Hb _ _ _ i Hi _ _ Hr).
    + exact (mmap_iter_existing EO EL A en' b Hb _ _ _ _ i Hi _ _ Hr).
  - intros Hl' Hne. destruct (C94_left_partial E EO A en b c leaves els d f data HS Hd HL Hp HX) as [G|[U1 _]]; [contradiction|].
    rewrite (encode_length EO EL), L2 in U1.
    destruct (refill EO EL A en' b Hb Hch' f2 c d data leaves' Hd HF HW U1 Hl') as (t & f3 & G). exists t, f3. split; [exact G|].
    pose proof (CB_bytes EO (mmap_store_ops EO) A en' b c leaves' f2) as HB2. rewrite G in HB2.
    destruct (C39_mmap_partial E EO A en' b c leaves' f2 t f3 (conj EL (conj AL (conj HS0 (conj Hb Hch')))) HB2) as (d' & els' & Hd' & HFT).
    assert (d' = d) by (apply (same_leaves_pow b); [auto|congruence]). subst d'. exact (FullTree_root _ _ _ _ _ _ _ _ Hb HFT).
  - intros Hl' ->. pose proof (bl_pos EO EL) as Hbl. apply file_inv in HF. destruct HF as (i & Hi & Hdt). unfold from_byte_slice_with_config.
    rewrite encode_length, Nat.mod_mul, Nat.eqb_refl, Nat.div_mul by (auto; lia).
    unfold ensure at 1. rewrite (sbind_ok _ _ f2 tt f2) by reflexivity. rewrite Hl'.
    rewrite leafs_checks_full by auto. rewrite (sbind_ok _ _ f2 (geom b d, S d) f2) by reflexivity.
    eexists. apply sbind_err. cbn [st_new_from_slice_with_config mmap_store_ops]. unfold mmap_new_from_slice_with_config.
    rewrite encode_length, Nat.mod_mul, Nat.eqb_refl by (auto; lia). cbn [ensure]. rewrite (sbind_ok _ _ f2 tt f2) by reflexivity.
    apply sbind_err. rewrite (mmap_newc_existing EO b f2 c i _ Hi).
    unfold mmap_new_from_disk, fs_exists, fs_open_rw. rewrite Hi, (HW i Hi). cbn [ensure rbind h_ino]. unfold fs_size. cbn [h_ino]. rewrite Hdt.
    pose proof (geom_pos b d). pose proof (Nat.mul_pos_pos (geom b d) (e_byte_len EO)). cbn [List.length]. replace (0 =? geom b d * e_byte_len EO) with false by lia. reflexivity.
Qed.

(* new_from_disk and from_data_store believe whatever has the full length *)
Theorem C94_open_believes : forall E (EO : ElementOps E) A en b c leaves els d f f2 data,
  setting EO A (mmap_store_ops EO) false en b -> 1 <= d -> Layout (h_node A) b d leaves els -> fs_dir f (cfg_path c) = None ->
  power_loss (mm_since EO A en b c leaves f) data -> data <> [] ->
  fs_file f2 (cfg_path c) = Some data -> writable f2 (cfg_path c) ->
  exists s t, mmap_new_from_disk EO (geom b d) b c f2 = (Ok s, f2) /\ from_data_store (mmap_store_ops EO) b 0 0 s (b ^ d) f2 = (Ok t, f2) /\
    e_from_slice EO (sub data ((geom b d - 1) * e_byte_len EO) (e_byte_len EO)) = Ok (mt_root t) /\
    forall j, j < geom b d -> mt_read_at (mmap_store_ops EO) 0 0 t f2 j = e_from_slice EO (sub data (j * e_byte_len EO) (e_byte_len EO)).
Proof.
  intros E EO A en b c leaves els d f f2 data HS Hd HL Hp HX Hne HF HW. pose proof HS as (EL & AL & HS0 & Hb & Hch). pose proof HL as (L1 & L2 & _).
  destruct (C94_left_partial E EO A en b c leaves els d f data HS Hd HL Hp HX) as [G|[U1 _]]; [contradiction|].
  rewrite (encode_length EO EL), L2 in U1.
  destruct (open_any EO EL b Hb f2 c d data Hd HF HW U1) as (s & t & T1 & T2 & T3 & T4 & T5). exists s, t. auto.
Qed.

(* the build of eight leaves may leave an empty file, or zeros only *)
Lemma mm_power_states :
  fst (mm_killed M_create) = Panic "killed"%string /\ fs_file (snd (mm_killed M_create)) (cfg_path cfg0) = Some [] /\
  fst (mm_killed (M_store 0 [])) = Panic "killed"%string /\ fs_file (snd (mm_killed (M_store 0 []))) (cfg_path cfg0) = Some (repeat x00 15).
Proof. vm_compute. repeat split. Qed.
Lemma mm_killed_build kp : cfg_builder BO (mstop_store BO kp) sum_alg env1 2 cfg0 (map (h_leaf sum_alg) leaves8) fs_empty (mm_killed kp).
Proof. unfold mm_killed. exact (CB_new BO (mstop_store BO kp) sum_alg env1 2 cfg0 leaves8 fs_empty). Qed.
Theorem C94_lost :
  power_loss (mm_since BO sum_alg env1 2 cfg0 (map (h_leaf sum_alg) leaves8) fs_empty) [] /\
  power_loss (mm_since BO sum_alg env1 2 cfg0 (map (h_leaf sum_alg) leaves8) fs_empty) (repeat x00 15).
Proof.
  destruct mm_power_states as (K1 & K2 & K3 & K4).
  pose proof (mm_killed_build M_create) as H1. pose proof (mm_killed_build (M_store 0 [])) as H2.
  destruct (mm_killed M_create) as [y1 f1]. destruct (mm_killed (M_store 0 [])) as [y2 f2]. cbn [fst snd] in *. subst y1 y2. split.
  - split; [exists []; split; [exact (MS_kill BO sum_alg env1 2 cfg0 _ fs_empty _ _ f1 [] H1 K2)|reflexivity]|]. intros p x Hx. destruct p; discriminate Hx.
  - split; [eexists|intros p x Hx; eexists]; (split; [exact (MS_kill BO sum_alg env1 2 cfg0 _ fs_empty _ _ f2 _ H2 K4)|auto]).
Qed.
Theorem C94_refuted : ~ C94_full.
Proof.
  intros H. assert (Hch : chunk_ok env1 2) by (split; [vm_compute; lia|reflexivity]).
  pose proof (setting_intro (mmap_store_ops BO) false env1 2 (bs_mmap BO) arity_2 Hch) as HS.
  pose proof (all_rows_Layout sum_alg 2 ltac:(lia) (map (h_leaf sum_alg) leaves8) 3 eq_refl) as HL.
  pose proof (CB_new BO (mmap_store_ops BO) sum_alg env1 2 cfg0 leaves8 fs_empty) as HB.
  destruct (builder_full BO BL sum_alg sum_laws env1 2 (mmap_store_ops BO) false (bs_mmap BO) (map (h_leaf sum_alg) leaves8) fs_empty 3 _ arity_2 Hch
    (B_new_config BO (mmap_store_ops BO) sum_alg env1 2 leaves8 cfg0 fs_empty eq_refl) ltac:(lia) eq_refl) as (t & f1 & els & Ht & _).
  rewrite Ht in HB.
  pose proof (H B1 BO sum_alg env1 2 cfg0 _ _ 3 fs_empty t f1 [] HS ltac:(lia) HL eq_refl HB (proj1 C94_lost)) as HE.
  apply (f_equal (@List.length byte)) in HE. rewrite (encode_length BO BL), (proj1 (proj2 HL)) in HE. discriminate HE.
Qed.
(* the file systems of C94_lost: zeros are opened with root 0, refused by new_with_config and
   repaired from bytes; an empty file is refused by all *)
Example C94_case :
  mm_opened (M_store 0 []) = Some 0 /\ root_of (mm_bytes (M_store 0 [])) = Some 190 /\
  root_of (mt_new_with_config BO (mmap_store_ops BO) sum_alg env1 2 leaves8 cfg0 (snd (mm_killed (M_store 0 [])))) = None /\
  mm_opened M_create = None /\ root_of (mm_bytes M_create) = None /\
  root_of (mt_new_with_config BO (mmap_store_ops BO) sum_alg env1 2 leaves8 cfg0 (snd (mm_killed M_create))) = None.
Proof. vm_compute. repeat split. Qed.
Print Assumptions C94_left_partial.
Print Assumptions C94_again.
Print Assumptions C94_open_believes.
Print Assumptions C94_lost.
Print Assumptions C94_refuted.
