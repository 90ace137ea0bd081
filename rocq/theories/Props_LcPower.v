(* C93: a power loss after a LevelCacheStore build has returned. *)
From Coq Require Import String List Arith NArith Bool Lia Init.Byte ZifyBool ZifyNat.
From Verif Require Import Base Element Hash Sizing FS Sched Store VecStore DiskStore MmapStore LevelCache ProofModel Tree Faults Stop LcStop ListFacts Spec SpecFacts SizingFacts SchedFacts StoreLaws RowFacts ChunkFacts BuildFacts BuildLoop StoreSpec FileFacts ByteFacts VecFacts MapLayer DiskFacts MmapFacts PopFacts TreeFacts ProofSpec ProofFacts TreeProofs TreeObs Builders BuiltFacts CachedFacts CachedTrees LcReads LcTrees FrameFacts CompactFacts CompactTrees LcBuild LcCreate ReopenFacts StopFacts LcStopFacts Cases Props_Build Props_Compact Props_Reopen Props_Delete Props_LC Props_Check Props_Stop Props_LcStop Props_Power.
Import ListNotations.

(* The only sync of a build from items is at the end of populate_data or populate_data_par
   (merkle.rs 2047, 2082-2085); LevelCacheStore::build has none.  From then on the file goes
   through the contents it has at that call, at any step of the workers on any row, at any
   piece of the removal of a row, and when the build has returned. *)
Inductive lc_since_sync {E} (EO : ElementOps E) (A : AlgOps E) (en : env) (b : nat) (c : StoreConfig) (leaves : list E) (f : fs)
  : list byte -> Prop :=
| LS_kill kp e f' data : kp = L_sync \/ (exists k sched, kp = L_layer k sched) \/ (exists k n sizes, kp = L_trunc k n sizes) ->
    item_builder EO (lstop_store EO kp) A en b c leaves f (Panic e, f') ->
    fs_file f' (cfg_path c) = Some data -> lc_since_sync EO A en b c leaves f data
| LS_done t f' data : item_builder EO (lc_store EO) A en b c leaves f (Ok t, f') ->
    fs_file f' (cfg_path c) = Some data -> lc_since_sync EO A en b c leaves f data.

(* what the file can look like: it has lost k rows, and each byte is zero or a byte of the
   tree at the place it has, had or will have when j rows are lost *)
Definition moved (bl b d R : nat) (whole data : list byte) : Prop :=
  (exists k, k <= R + 1 /\ List.length data = geom b (d - k) * bl) /\
  forall p x, nth_error data p = Some x -> x = x00 \/ exists j, j <= R + 1 /\ nth_error whole (row_off b d j * bl + p) = Some x.

Lemma remains_moved bl b d R kp whole data : R < d -> List.length whole = geom b d * bl -> kp <> L_create ->
  lc_remains bl b d R kp whole data -> moved bl b d R whole data.
Proof.
  intros HR Hw Hk HL. pose proof (remains_len bl b d R kp whole data HR Hw HL) as Hlen. unfold lc_remains, unfinished in HL. unfold moved.
  destruct kp as [|j p| |k sched|k n sizes]; cbn [left_len] in Hlen.
  - congruence.
  - split; [exists 0; rewrite Nat.sub_0_r; split; [lia|exact Hlen]|]. intros p' x Hx. destruct HL as (_ & _ & HL).
    destruct (HL p' x Hx) as [G|[_ G]]; [left; exact G|right; exists 0]. split; [lia|exact G].
  - split; [exists 0; rewrite Nat.sub_0_r; split; [lia|exact Hlen]|]. intros p' x Hx. destruct HL as (_ & _ & HL).
    destruct (HL p' x Hx) as [G|[_ G]]; [left; exact G|right; exists 0]. split; [lia|exact G].
  - split; [exists (Nat.min k (R + 1)); split; [lia|exact Hlen]|]. intros p' x Hx. destruct HL as (_ & _ & _ & HL).
    destruct (HL p' x Hx) as [G|[_ G]]; [left; exact G|right]. rewrite nth_error_skipn in G. exists (Nat.min k (R + 1)). split; [lia|exact G].
  - destruct HL as (Hk' & _ & HL). split; [exists k; split; [lia|exact Hlen]|]. intros p' x Hx.
    destruct (HL p' x Hx) as [G|[G|G]]; [left; exact G|right; exists k|right; exists (k + 1)]; (split; [lia|exact G]).
Qed.

Lemma lc_done_bytes {E} (EO : ElementOps E) A en b c leaves els d f t f' :
  ElementLaws EO -> AlgLaws A -> arity b -> chunk_ok en b ->
  sc_rows_to_discard c < d -> Layout (h_node A) b d leaves els -> fs_dir f (cfg_path c) = None ->
  item_builder EO (lc_store EO) A en b c leaves f (Ok t, f') ->
  fs_file f' (cfg_path c) = Some (encode EO (skipn (row_off b d (S (sc_rows_to_discard c))) els)).
Proof.
  intros EL AL Hb Hch HR HL Hp HB. pose proof HL as (L1 & _).
  assert (HC : lc_call EO A en b c leaves (Ok t, f')).
  { split; [exact EL|]. split; [exact AL|]. split; [exact Hb|]. split; [exact Hch|]. exists f. split; [exact Hp|]. apply item_cfg. exact HB. }
  destruct (C27_build E EO A en b c leaves _ HC) as (d' & top & D1 & D2 & _ & _ & _ & _ & D3 & D4 & _).
  assert (d' = d). { rewrite L1 in D1. apply Nat.pow_inj_r in D1; [congruence|]. pose proof (arity_ge b Hb). lia. } subst d'.
  rewrite D4. do 2 f_equal. apply (top_rows_unique (h_node A) b d (S (sc_rows_to_discard c)) leaves); [lia|exact D3|].
  apply Layout_top_rows; [exact HL|lia].
Qed.

Lemma encode_skipn {E} (EO : ElementOps E) (EL : ElementLaws EO) n l : encode EO (skipn n l) = skipn (n * e_byte_len EO) (encode EO l).
Proof.
  revert l. induction n as [|n IH]; intros l; [reflexivity|]. destruct l as [|x l]; [rewrite skipn_nil; symmetry; apply skipn_nil|].
  cbn [skipn]. rewrite IH. change (encode EO (x :: l)) with (e_as_ref EO x ++ encode EO l).
  rewrite skipn_app. pose proof (el_len EO EL x) as Hx. rewrite (skipn_all2 (e_as_ref EO x)) by (cbn [Nat.mul]; lia). cbn [app]. f_equal. cbn [Nat.mul]. lia.
Qed.

Lemma since_moved {E} (EO : ElementOps E) A en b c leaves els d f data :
  ElementLaws EO -> AlgLaws A -> arity b -> chunk_ok en b ->
  sc_rows_to_discard c < d -> Layout (h_node A) b d leaves els -> fs_dir f (cfg_path c) = None ->
  lc_since_sync EO A en b c leaves f data -> moved (e_byte_len EO) b d (sc_rows_to_discard c) (encode EO els) data.
Proof.
  intros EL AL Hb Hch HR HL Hp HX. pose proof HL as (L1 & L2 & _).
  pose proof (encode_length EO EL els) as He. rewrite L2 in He.
  destruct HX as [kp e f' data Hk HB Hf|t f' data HB Hf].
  - assert (HK : killed_at EO A en b c leaves d kp f').
    { split; [exact EL|]. split; [exact AL|]. split; [exact Hb|]. split; [exact Hch|]. split; [exact HR|]. split; [exact L1|].
      exists f, e. split; [exact Hp|]. apply item_cfg. exact HB. }
    destruct (killed_left EO A en b c leaves els d kp f' HK HL) as (data2 & Hf2 & HRm). rewrite Hf in Hf2. injection Hf2 as <-.
    apply (remains_moved _ b d _ kp); auto. destruct Hk as [->|[(k & s & ->)|(k & n & s & ->)]]; discriminate.
  - rewrite (lc_done_bytes EO A en b c leaves els d f t f' EL AL Hb Hch HR HL Hp HB) in Hf. injection Hf as <-.
    pose proof (geom_row_off b d (S (sc_rows_to_discard c)) ltac:(lia)) as HG.
    split.
    + exists (S (sc_rows_to_discard c)). split; [lia|]. rewrite encode_length by exact EL. rewrite skipn_length, L2, HG, Nat.add_comm, Nat.add_sub. reflexivity.
    + intros p x Hx. right. exists (S (sc_rows_to_discard c)). split; [lia|]. rewrite encode_skipn, nth_error_skipn in Hx by exact EL. exact Hx.
Qed.

(* the wish: the cached rows survive *)
Definition C93_full : Prop := forall E (EO : ElementOps E) A en b c leaves els d f t f1 data,
  ElementLaws EO -> AlgLaws A -> arity b -> chunk_ok en b ->
  sc_rows_to_discard c < d -> Layout (h_node A) b d leaves els -> fs_dir f (cfg_path c) = None ->
  item_builder EO (lc_store EO) A en b c leaves f (Ok t, f1) ->
  power_loss (lc_since_sync EO A en b c leaves f) data ->
  data = encode EO (skipn (row_off b d (S (sc_rows_to_discard c))) els).

Theorem C93_left_partial : forall E (EO : ElementOps E) A en b c leaves els d f data,
  ElementLaws EO -> AlgLaws A -> arity b -> chunk_ok en b ->
  sc_rows_to_discard c < d -> Layout (h_node A) b d leaves els -> fs_dir f (cfg_path c) = None ->
  power_loss (lc_since_sync EO A en b c leaves f) data ->
  (exists k, k <= sc_rows_to_discard c + 1 /\ List.length data = geom b (d - k) * e_byte_len EO) /\
  forall p x, nth_error data p = Some x ->
    x = x00 \/ exists j, j <= sc_rows_to_discard c + 1 /\ nth_error (encode EO els) (row_off b d j * e_byte_len EO + p) = Some x.
Proof.
  intros E EO A en b c leaves els d f data EL AL Hb Hch HR HL Hp ((D & HD & Hlen) & HX). split.
  - destruct (since_moved EO A en b c leaves els d f D EL AL Hb Hch HR HL Hp HD) as [(k & K1 & K2) _]. exists k. split; [exact K1|congruence].
  - intros p x Hx. destruct (HX p x Hx) as (D' & HD' & Hx'). exact (proj2 (since_moved EO A en b c leaves els d f D' EL AL Hb Hch HR HL Hp HD') p x Hx').
Qed.

(* Of such a file is_consistent looks at the length only, and so does the constructor that
   opens it: a file that has not lost all its R + 1 rows is refused. *)
Theorem C93_noticed_partial : forall E (EO : ElementOps E) A en b c leaves els d f f2 data rd,
  ElementLaws EO -> AlgLaws A -> arity b -> chunk_ok en b ->
  sc_rows_to_discard c < d -> Layout (h_node A) b d leaves els -> fs_dir f (cfg_path c) = None ->
  power_loss (lc_since_sync EO A en b c leaves f) data -> fs_file f2 (cfg_path c) = Some data ->
  exists k, k <= sc_rows_to_discard c + 1 /\ List.length data = geom b (d - k) * e_byte_len EO /\
    lc_is_consistent EO (geom b d) b c f2 = Ok (k =? sc_rows_to_discard c + 1) /\
    if k =? sc_rows_to_discard c + 1
    then exists s, lc_new_from_disk_with_reader EO (geom b d) b c rd f2 = (Ok s, f2)
    else exists m, lc_new_from_disk_with_reader EO (geom b d) b c rd f2 = (Err m, f2).
Proof.
  intros E EO A en b c leaves els d f f2 data rd EL AL Hb Hch HR HL Hp HX HF. pose proof (bl_pos EO EL) as Hbl. pose proof (arity_ge b Hb) as H2.
  destruct (C93_left_partial E EO A en b c leaves els d f data EL AL Hb Hch HR HL Hp HX) as [(k & K1 & K2) _].
  exists k. split; [exact K1|]. split; [exact K2|].
  assert (HQ : (geom b (d - k) =? geom b (d - 1 - sc_rows_to_discard c)) = (k =? sc_rows_to_discard c + 1)).
  { apply eq_true_iff_eq. rewrite !Nat.eqb_eq. split; [|intros ->; f_equal; lia]. intros G.
    destruct (Nat.eq_dec k (sc_rows_to_discard c + 1)) as [|Hne]; [assumption|]. exfalso.
    assert (geom b (d - 1 - sc_rows_to_discard c) < geom b (d - k)) by (apply geom_strict; lia). lia. }
  split.
  { pose proof (checks_file EO b c f2 d data Hb HR HF) as HC. cbv zeta in HC. unfold checks in HC. injection HC as _ _ ->.
    rewrite K2, eqb_mul by exact Hbl. f_equal. exact HQ. }
  apply file_inv in HF. destruct HF as (i & Hi & Hd).
  unfold lc_new_from_disk_with_reader, fs_exists. rewrite Hi. cbn [ensure rbind].
  assert (Ho : exists h, lc_open f2 (cfg_path c) = Ok h /\ h_ino h = i).
  { unfold lc_open, fs_open_rw, fs_open_ro. rewrite Hi. destruct (i_ro (fs_ino f2 i)); eexists; split; reflexivity. }
  destruct Ho as (h & Ho & Hh). rewrite Ho. cbn [rbind]. rewrite get_merkle_tree_leafs_full by (auto; lia). cbn [rbind].
  replace (b ^ d =? next_pow2 (b ^ d)) with true by (symmetry; apply next_pow2_eqb', pow2_pow, arity_pow2; auto). cbn [ensure rbind].
  rewrite cache_size_full by auto. cbn [rbind].
  pose proof (geom_row_off b d (S (sc_rows_to_discard c)) ltac:(lia)) as HG. replace (d - S (sc_rows_to_discard c)) with (d - 1 - sc_rows_to_discard c) in HG by lia.
  rewrite checked_sub_ok by (apply Nat.mul_le_mono_r; lia). cbn [rbind].
  unfold fs_size. rewrite Hh, Hd, K2, eqb_mul by exact Hbl. rewrite HQ.
  destruct (k =? sc_rows_to_discard c + 1); cbn [ensure rbind]; eexists; reflexivity.
Qed.

(* The rest is not: eight leaves, one row to discard (beside the leaves).  The build has
   returned.  The file may have its final length and hold three leaves instead of the last
   two rows; is_consistent accepts it, it is opened, and a leaf is its root. *)
Definition lc_power_file : list byte := encode BO (firstn 3 (map (h_leaf sum_alg) leaves8)).
Definition lc_power_fs : fs :=
  {| fs_dir := fun q => if String.eqb q (cfg_path (cfg_r 1)) then Some 0 else None;
     fs_ino := fun _ => {| i_data := lc_power_file; i_ro := false |}; fs_next := 1 |}.
Definition lc_finished := mt_new_with_config BO (lc_store BO) sum_alg env1 2 leaves8 (cfg_r 1) fs_empty.
Lemma lc_finished_build : item_builder BO (lc_store BO) sum_alg env1 2 (cfg_r 1) (map (h_leaf sum_alg) leaves8) fs_empty lc_finished.
Proof. unfold lc_finished. exact (IB_new BO (lc_store BO) sum_alg env1 2 (cfg_r 1) leaves8 fs_empty). Qed.
Lemma lc_power_states :
  fst (lc_killed 1 L_sync) = Panic "killed"%string /\
  match fs_file (snd (lc_killed 1 L_sync)) (cfg_path (cfg_r 1)) with Some D => firstn 3 D = lc_power_file | None => False end /\
  is_ok (fst lc_finished) = true /\
  match fs_file (snd lc_finished) (cfg_path (cfg_r 1)) with Some D => List.length D = 3 /\ D <> lc_power_file | None => False end.
Proof. vm_compute. split; [reflexivity|]. split; [reflexivity|]. split; [reflexivity|]. split; [reflexivity|discriminate]. Qed.

Lemma lc_power_case : power_loss (lc_since_sync BO sum_alg env1 2 (cfg_r 1) (map (h_leaf sum_alg) leaves8) fs_empty) lc_power_file.
Proof.
  destruct lc_power_states as (K1 & K2 & K3 & K4).
  pose proof (IB_new BO (lstop_store BO L_sync) sum_alg env1 2 (cfg_r 1) leaves8 fs_empty) as HK.
  change (mt_new_with_config BO (lstop_store BO L_sync) sum_alg env1 2 leaves8 (cfg_r 1) fs_empty) with (lc_killed 1 L_sync) in HK.
  pose proof lc_finished_build as HD.
  destruct (lc_killed 1 L_sync) as [y f1]. destruct lc_finished as [[t|e|e|] f2]; try discriminate K3. cbn [fst snd] in *. subst y.
  destruct (fs_file f1 (cfg_path (cfg_r 1))) as [D1|] eqn:H1; [|contradiction]. destruct (fs_file f2 (cfg_path (cfg_r 1))) as [D2|] eqn:H2; [|contradiction].
  destruct K4 as [K4 _]. split.
  - exists D2. split; [eapply LS_done; [exact HD|exact H2]|]. rewrite K4. reflexivity.
  - intros p x Hx. exists D1. split; [eapply LS_kill; [left; reflexivity|exact HK|exact H1]|].
    rewrite <- K2, nth_error_firstn in Hx. destruct (p <? 3); [exact Hx|discriminate Hx].
Qed.

Theorem C93_refuted : ~ C93_full.
Proof.
  intros H. pose proof lc_power_case as HP. destruct lc_power_states as (_ & _ & K3 & K4).
  assert (Hch : chunk_ok env1 2) by (split; [vm_compute; lia|reflexivity]).
  pose proof (all_rows_Layout sum_alg 2 ltac:(lia) (map (h_leaf sum_alg) leaves8) 3 eq_refl) as HL.
  pose proof lc_finished_build as HD.
  destruct lc_finished as [[t|e|e|] f2]; try discriminate K3. cbn [fst snd] in *.
  pose proof (H B1 BO sum_alg env1 2 (cfg_r 1) _ _ 3 fs_empty t f2 lc_power_file BL sum_laws arity_2 Hch ltac:(cbn; lia) HL eq_refl HD HP) as HE.
  pose proof (lc_done_bytes BO sum_alg env1 2 (cfg_r 1) _ _ 3 fs_empty t f2 BL sum_laws arity_2 Hch ltac:(cbn; lia) HL eq_refl HD) as HF.
  rewrite HF in K4. destruct K4 as [_ K4]. apply K4. symmetry. exact HE.
Qed.

Theorem C93_wrong_cache :
  power_loss (lc_since_sync BO sum_alg env1 2 (cfg_r 1) (map (h_leaf sum_alg) leaves8) fs_empty) lc_power_file /\
  fs_file lc_power_fs (cfg_path (cfg_r 1)) = Some lc_power_file /\
  lc_is_consistent BO 15 2 (cfg_r 1) lc_power_fs = Ok true /\
  match lc_new_from_disk_with_reader BO 15 2 (cfg_r 1) leaf_reader lc_power_fs with
  | (Ok s, f) => match from_data_store (lc_store BO) 2 0 0 s 8 f with
                 | (Ok t, _) => Some (mt_root t) = nth_error (map (h_leaf sum_alg) leaves8) 2 /\ root_of lc_finished <> Some (val (mt_root t))
                 | _ => False end
  | _ => False end.
Proof. split; [exact lc_power_case|]. vm_compute. split; [reflexivity|]. split; [reflexivity|]. split; [reflexivity|discriminate]. Qed.

(* from_byte_slice_with_config never syncs: the kill point L_sync is not reached, and the
   zeros of set_len or an empty file may be all that is left *)
Lemma C93_bytes_never_syncs :
  let build kp := from_byte_slice_with_config BO (lstop_store BO kp) sum_alg env1 2 (encode BO leaves8) (cfg_r 1) fs_empty in
  root_of (build L_sync) = root_of (from_byte_slice_with_config BO (lc_store BO) sum_alg env1 2 (encode BO leaves8) (cfg_r 1) fs_empty) /\
  root_of (build L_sync) <> None /\
  match fs_file (snd (build (L_copy 0 0))) (cfg_path (cfg_r 1)) with Some D => D = repeat x00 15 | None => False end /\
  match fs_file (snd (build L_create)) (cfg_path (cfg_r 1)) with Some D => D = [] | None => False end.
Proof. vm_compute. split; [reflexivity|]. split; [discriminate|]. split; reflexivity. Qed.

Print Assumptions C93_left_partial.
Print Assumptions C93_noticed_partial.
Print Assumptions C93_refuted.
Print Assumptions C93_wrong_cache.
Print Assumptions C93_bytes_never_syncs.
