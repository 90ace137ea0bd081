(* C75: a MmapStore build whose process is killed, and the file it leaves. *)
From Coq Require Import String List Arith NArith Bool Lia Init.Byte ZifyBool ZifyNat.
From Verif Require Import Base Element Hash Sizing FS Sched Store VecStore DiskStore MmapStore LevelCache ProofModel Tree Faults Stop MmStop ListFacts Spec SpecFacts SizingFacts SchedFacts StoreLaws RowFacts ChunkFacts BuildFacts BuildLoop StoreSpec FileFacts ByteFacts VecFacts MapLayer DiskFacts MmapFacts PopFacts TreeFacts ProofSpec ProofFacts TreeProofs TreeObs Builders BuiltFacts CompactTrees ReopenFacts StopFacts MmStopFacts Cases Props_Build Props_Reopen Props_Delete Props_Stop.
Import ListNotations.

(* [unfinished]: Props_Stop.v.  The element at whose copy the process dies lies in some
   row; all rows below it are in the file, nothing after it. *)
Definition mremains (bl b d : nat) (kp : mkill) (whole data : list byte) : Prop :=
  match kp with
  | M_create => data = []
  | M_store i _ => exists r, r <= d /\ row_off b d r <= i < row_off b d (r + 1) /\
      unfinished whole data (row_off b d r * bl) (row_off b d (r + 1) * bl)
  end.

(* The build with the kill point either never reaches it, and then is the ordinary
   build, or it ends with the file at the path of its configuration and no other path
   changed. *)
Theorem C75_left : forall E (EO : ElementOps E) A en b c leaves els d kp f r,
  setting EO A (mmap_store_ops EO) false en b -> 1 <= d -> Layout (h_node A) b d leaves els ->
  fs_dir f (cfg_path c) = None ->
  cfg_builder EO (mstop_store EO kp) A en b c leaves f r ->
  cfg_builder EO (mmap_store_ops EO) A en b c leaves f r \/
  exists e f' data, r = (Panic e, f') /\ fs_file f' (cfg_path c) = Some data /\ writable f' (cfg_path c) /\
    mremains (e_byte_len EO) b d kp (encode EO els) data /\
    fs_ext f f' /\ forall q, q <> cfg_path c -> fs_dir f' q = fs_dir f q.
Proof.
  intros E EO A en b c leaves els d kp f r (EL & AL & HS & Hb & Hch) Hd HL Hp HB. pose proof (arity_ge b Hb) as H2.
  pose proof HL as (L1 & L2 & _).
  destruct (mstop_cases EO EL A AL en b Hb Hch kp leaves d Hd L1 c f r Hp HB) as [G|(e & f' & i & -> & HC & HF)]; [left; exact G|right].
  assert (els = all_rows A b leaves d) by (eapply Layout_fun; [exact HL|apply all_rows_Layout; [lia|exact L1]]). subst els.
  destruct HC as (C1 & C2 & C3 & C4 & C5 & C6).
  exists e, f', (fs_data f' i). split; [reflexivity|]. split; [unfold fs_file; rewrite (C5 _ eq_refl); reflexivity|].
  split; [intros j Hj; rewrite (C5 _ eq_refl) in Hj; injection Hj as <-; exact (C6 i eq_refl)|].
  split; [|split; [split; auto|intros q Hq; apply C4; congruence]].
  pose proof (encode_length EO EL (all_rows A b leaves d)) as He. rewrite L2 in He.
  unfold mleft_file in HF. unfold mremains, unfinished. destruct kp as [|j ps].
  - exact HF.
  - destruct HF as (k & F0 & F1 & F2 & F3 & F4). exists k. replace (k + 1) with (S k) by lia.
    split; [exact F0|]. split; [exact F1|]. split; [congruence|]. split; [exact F4|exact F3].
Qed.

Lemma C75_killed : forall E (EO : ElementOps E) A en b c leaves els d kp f e f',
  setting EO A (mmap_store_ops EO) false en b -> 1 <= d -> Layout (h_node A) b d leaves els ->
  fs_dir f (cfg_path c) = None ->
  cfg_builder EO (mstop_store EO kp) A en b c leaves f (Panic e, f') ->
  exists data, fs_file f' (cfg_path c) = Some data /\ writable f' (cfg_path c) /\ mremains (e_byte_len EO) b d kp (encode EO els) data.
Proof.
  intros E EO A en b c leaves els d kp f e f' HS Hd HL Hp HB. pose proof HS as (EL & AL & HS0 & Hb & Hch). pose proof HL as (L1 & _).
  destruct (C75_left E EO A en b c leaves _ d kp f _ HS Hd HL Hp HB) as [G|(e' & f2 & data & Q & HF & HW & HR & _)].
  - exfalso. assert (HBu : builder EO (mmap_store_ops EO) A en b leaves f (Panic e, f')).
    { remember (Panic e, f') as q. destruct G; subst; constructor; auto. }
    destruct (builder_full EO EL A AL en b (mmap_store_ops EO) false HS0 leaves f d _ Hb Hch HBu Hd L1) as (t & f3 & ? & Ht & _). discriminate Ht.
  - injection Q as -> ->. eauto.
Qed.

(* Calling again: unlike DiskStore (C71_retry_refuted) no with_config constructor, for
   whatever number of leaves, returns a tree that is not the tree of its own data. *)
Theorem C75_retry : forall E (EO : ElementOps E) A en en' b c leaves leaves' d kp f e f' r,
  setting EO A (mmap_store_ops EO) false en b -> chunk_ok en' b -> 1 <= d -> List.length leaves = b ^ d ->
  fs_dir f (cfg_path c) = None ->
  cfg_builder EO (mstop_store EO kp) A en b c leaves f (Panic e, f') ->
  cfg_builder EO (mmap_store_ops EO) A en' b c leaves' f' r ->
  match r with
  | (Ok t, f2) => exists d' els, FullTree (mmap_store_ops EO) A b t f2 d' leaves' els
  | _ => True
  end.
Proof.
  intros E EO A en en' b c leaves leaves' d kp f e f' [[t| | |] f2] (EL & AL & HS & Hb & Hch) Hch' Hd Hl Hp HB HB2; auto.
  destruct (C39_mmap_partial E EO A en' b c leaves' f' t f2 (conj EL (conj AL (conj HS (conj Hb Hch')))) HB2) as (d' & els & _ & HF). eauto.
Qed.

(* the constructors that take items never succeed on what is left, *)
Theorem C75_items_retry : forall E (EO : ElementOps E) A en en' b c leaves leaves' d kp f e f' t f2,
  setting EO A (mmap_store_ops EO) false en b -> 1 <= d -> List.length leaves = b ^ d ->
  fs_dir f (cfg_path c) = None ->
  cfg_builder EO (mstop_store EO kp) A en b c leaves f (Panic e, f') ->
  ~ item_builder EO (mmap_store_ops EO) A en' b c leaves' f' (Ok t, f2).
Proof.
  intros E EO A en en' b c leaves leaves' d kp f e f' t f2 HS Hd Hl Hp HB HI. pose proof HS as (EL & AL & _ & Hb & Hch). pose proof (arity_ge b Hb) as H2.
  destruct (C75_killed E EO A en b c leaves _ d kp f e f' HS Hd (all_rows_Layout A b ltac:(lia) leaves d Hl) Hp HB) as (data & HF & _).
  apply file_inv in HF. destruct HF as (i & Hi & _). remember (Ok t, f2) as r eqn:Hr. destruct HI.
  - exact (mmap_iter_existing EO EL A en' b Hb _ _ _ _ i Hi _ _ Hr).
  - exact (mmap_par_existing EO EL A en' b Hb _ _ _ i Hi _ _ Hr).
  - exact (mmap_iter_existing EO EL A en' b Hb _ _ _ _ i Hi _ _ Hr).
Qed.

(* from_byte_slice_with_config does for as many leaves, and repairs the file; unless the
   process died before set_len *)
Theorem C75_bytes_repair : forall E (EO : ElementOps E) A en en' b c leaves leaves' d kp f e f',
  setting EO A (mmap_store_ops EO) false en b -> chunk_ok en' b -> 1 <= d -> List.length leaves = b ^ d -> List.length leaves' = b ^ d ->
  fs_dir f (cfg_path c) = None ->
  cfg_builder EO (mstop_store EO kp) A en b c leaves f (Panic e, f') ->
  match kp with
  | M_create => exists m, from_byte_slice_with_config EO (mmap_store_ops EO) A en' b (encode EO leaves') c f' = (Err m, f')
  | M_store _ _ => exists t f2, from_byte_slice_with_config EO (mmap_store_ops EO) A en' b (encode EO leaves') c f' = (Ok t, f2) /\
      MRoot (h_node A) b d leaves' (mt_root t)
  end.
Proof.
  intros E EO A en en' b c leaves leaves' d kp f e f' HS Hch' Hd Hl Hl' Hp HB. pose proof HS as (EL & AL & HS0 & Hb & Hch). pose proof (arity_ge b Hb) as H2.
  destruct (C75_killed E EO A en b c leaves _ d kp f e f' HS Hd (all_rows_Layout A b ltac:(lia) leaves d Hl) Hp HB) as (data & HF & HW & HR).
  destruct kp as [|i ps].
  - cbn in HR. subst data. pose proof (bl_pos EO EL) as Hbl. apply file_inv in HF. destruct HF as (i & Hi & Hdt). unfold from_byte_slice_with_config.
    rewrite encode_length, Nat.mod_mul, Nat.eqb_refl, Nat.div_mul by (auto; lia).
    unfold ensure at 1. rewrite (sbind_ok _ _ f' tt f') by reflexivity. rewrite Hl'.
    rewrite leafs_checks_full by auto. rewrite (sbind_ok _ _ f' (geom b d, S d) f') by reflexivity.
    eexists. apply sbind_err. cbn [st_new_from_slice_with_config mmap_store_ops]. unfold mmap_new_from_slice_with_config.
    rewrite encode_length, Nat.mod_mul, Nat.eqb_refl by (auto; lia). cbn [ensure]. rewrite (sbind_ok _ _ f' tt f') by reflexivity.
    apply sbind_err. rewrite (mmap_newc_existing EO b f' c i _ Hi).
    unfold mmap_new_from_disk, fs_exists, fs_open_rw. rewrite Hi, (HW i Hi). cbn [ensure rbind h_ino]. unfold fs_size. cbn [h_ino]. rewrite Hdt.
    pose proof (geom_pos b d). pose proof (Nat.mul_pos_pos (geom b d) (e_byte_len EO)). cbn [List.length]. replace (0 =? geom b d * e_byte_len EO) with false by lia. reflexivity.
  - destruct HR as (r & _ & _ & U1 & _). rewrite (encode_length EO EL) in U1.
    assert (Hrl : List.length (all_rows A b leaves d) = geom b d) by exact (proj1 (proj2 (all_rows_Layout A b ltac:(lia) leaves d Hl))). rewrite Hrl in U1.
    destruct (refill EO EL A en' b Hb Hch' f' c d data leaves' Hd HF HW U1 Hl') as (t & f2 & G). exists t, f2. split; [exact G|].
    pose proof (CB_bytes EO (mmap_store_ops EO) A en' b c leaves' f') as HB2. rewrite G in HB2.
    destruct (C39_mmap_partial E EO A en' b c leaves' f' t f2 (conj EL (conj AL (conj HS0 (conj Hb Hch')))) HB2) as (d' & els & Hd' & HFT).
    assert (d' = d) by (apply (same_leaves_pow b); [auto|congruence]). subst d'. exact (FullTree_root _ _ _ _ _ _ _ _ Hb HFT).
Qed.

(* Opening it with new_from_disk and from_data_store, though, is believed: if the
   process did not get to the last row the root is what Element::from_slice makes of
   zeros. *)
Theorem C75_open_believes : forall E (EO : ElementOps E) A en b c leaves els d i ps f e f',
  setting EO A (mmap_store_ops EO) false en b -> 1 <= d -> Layout (h_node A) b d leaves els ->
  fs_dir f (cfg_path c) = None ->
  cfg_builder EO (mstop_store EO (M_store i ps)) A en b c leaves f (Panic e, f') ->
  exists s t r, mmap_new_from_disk EO (geom b d) b c f' = (Ok s, f') /\
    from_data_store (mmap_store_ops EO) b 0 0 s (b ^ d) f' = (Ok t, f') /\
    r <= d /\ row_off b d r <= i < row_off b d (r + 1) /\
    (r < d -> e_from_slice EO (repeat x00 (e_byte_len EO)) = Ok (mt_root t)) /\
    forall j, j < row_off b d r -> mt_read_at (mmap_store_ops EO) 0 0 t f' j = rnth els j.
Proof.
  intros E EO A en b c leaves els d i ps f e f' HS Hd HL Hp HB. pose proof HS as (EL & AL & _ & Hb & Hch). pose proof (arity_ge b Hb) as H2.
  pose proof HL as (L1 & L2 & _). pose proof (bl_pos EO EL) as Hbl. pose proof (geom_pos b d) as Hg.
  destruct (C75_killed E EO A en b c leaves els d _ f e f' HS Hd HL Hp HB) as (data & HF & HW & (r & Hr & Hi & U1 & U2 & U3)).
  pose proof (encode_length EO EL els) as He. rewrite L2 in He. set (bl := e_byte_len EO) in *. rewrite He in U1.
  destruct (open_any EO EL b Hb f' c d data Hd HF HW U1) as (s & t & T1 & T2 & T3 & T4 & T5). fold bl in T4, T5.
  exists s, t, r. split; [exact T1|]. split; [exact T2|]. split; [exact Hr|]. split; [exact Hi|]. split.
  - intros Hrd. pose proof (geom_row_off b d (r + 1) ltac:(lia)) as Gr. pose proof (geom_pos b (d - (r + 1))) as Gp.
    rewrite <- T4. f_equal.
    pose proof (Nat.mul_sub_distr_r (geom b d) 1 bl) as M. pose proof (Nat.mul_le_mono_r 1 (geom b d) bl ltac:(lia)) as M1.
    assert (Hlen : List.length (sub data ((geom b d - 1) * bl) bl) = bl) by (rewrite sub_length, U1; lia).
    apply nth_error_ext. intros q. destruct (Nat.lt_ge_cases q bl) as [Hq|Hq].
    + rewrite nth_error_repeat, nth_error_sub. replace (q <? bl) with true by lia.
      destruct (nth_error data ((geom b d - 1) * bl + q)) as [x|] eqn:Hx.
      * destruct (U3 _ _ Hx) as [->|[Hc _]]; [reflexivity|]. exfalso. pose proof (Nat.mul_le_mono_r (row_off b d (r + 1)) (geom b d - 1) bl ltac:(lia)). lia.
      * exfalso. apply nth_error_None in Hx. rewrite U1 in Hx. lia.
    + transitivity (@None byte); [|symmetry]; apply nth_error_None; [rewrite repeat_length; exact Hq|rewrite Hlen; exact Hq].
  - pose proof (geom_row_off b d r Hr) as Gr. intros j Hj. rewrite T5 by lia. destruct (nth_error_ex els j ltac:(lia)) as [x Hx]. unfold rnth. rewrite Hx.
    assert (Hs : sub data (j * bl) bl = e_as_ref EO x).
    { pose proof (Nat.mul_le_mono_r (S j) (row_off b d r) bl Hj) as Hm. cbn [Nat.mul] in Hm.
      transitivity (sub (firstn (row_off b d r * bl) data) (j * bl) bl); [|rewrite U2].
      - rewrite <- sub_0, sub_sub by lia. reflexivity.
      - transitivity (sub (encode EO els) (j * bl) bl); [rewrite <- sub_0, sub_sub by lia; reflexivity|].
        exact (encode_nth EO EL els j x Hx). }
    rewrite Hs. apply (el_round EO EL).
Qed.

(* Delete is no way out: MmapStore::delete leaves the file where it is (mmap.rs 282-284). *)
Theorem C75_delete_keeps : forall E (EO : ElementOps E) c f, mt_delete (mmap_store_ops EO) c f = (Ok tt, f).
Proof. reflexivity. Qed.

(* concrete kill points: eight leaves, blocks of three, rows hashed in chunks of two *)
Definition mm_killed (kp : mkill) := mt_new_with_config BO (mstop_store BO kp) sum_alg env1 2 leaves8 cfg0 fs_empty.
Definition mm_left (kp : mkill) := file_vals (snd (mm_killed kp)).
Definition mm_bytes (kp : mkill) := from_byte_slice_with_config BO (mmap_store_ops BO) sum_alg env1 2 (encode BO (map (h_leaf sum_alg) leaves8)) cfg0 (snd (mm_killed kp)).
Definition mm_opened (kp : mkill) :=
  match mmap_new_from_disk BO 15 2 cfg0 (snd (mm_killed kp)) with
  | (Ok s, f) => root_of (from_data_store (mmap_store_ops BO) 2 0 0 s 8 f)
  | _ => None
  end.
Example C75_case :
  mm_left M_create = Some [] /\ root_of (mm_bytes M_create) = None /\
  (* the third and the first byte of the second block of leaves *)
  mm_left (M_store 3 [2; 0]) = Some [21; 19; 22; 19; 0; 27; 0; 0; 0; 0; 0; 0; 0; 0; 0] /\ root_of (mm_bytes (M_store 3 [2; 0])) = Some 190 /\
  mm_opened (M_store 3 [2; 0]) = Some 0 /\
  root_of (mt_new_with_config BO (mmap_store_ops BO) sum_alg env1 2 leaves8 cfg0 (snd (mm_killed (M_store 3 [2; 0])))) = None /\
  (* no copy starts at element 4 *)
  mm_left (M_store 4 [0]) = Some [21; 19; 22; 19; 23; 27; 20; 24; 219; 236; 10; 207; 37; 220; 190] /\
  root_of (mm_killed (M_store 4 [0])) = Some 190 /\
  (* the second node of the first chunk of a row; the second chunk was hashed before *)
  mm_left (M_store 8 [1]) = Some [21; 19; 22; 19; 23; 27; 20; 24; 0; 236; 10; 207; 0; 0; 0] /\
  mm_left (M_store 12 []) = Some [21; 19; 22; 19; 23; 27; 20; 24; 219; 236; 10; 207; 0; 0; 0] /\
  root_of (mm_bytes (M_store 12 [])) = Some 190.
Proof. vm_compute. repeat split. Qed.

Print Assumptions C75_left.
Print Assumptions C75_killed.
Print Assumptions C75_retry.
Print Assumptions C75_items_retry.
Print Assumptions C75_bytes_repair.
Print Assumptions C75_open_believes.
Print Assumptions C75_delete_keeps.
