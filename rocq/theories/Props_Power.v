(* C73: a power loss after a DiskStore build has returned. *)
From Coq Require Import String List Arith NArith Bool Lia Init.Byte ZifyBool ZifyNat.
From Verif Require Import Base Element Hash Sizing FS Sched Store VecStore DiskStore MmapStore LevelCache ProofModel Tree Faults Stop ListFacts Spec SpecFacts SizingFacts SchedFacts StoreLaws RowFacts ChunkFacts BuildFacts BuildLoop StoreSpec FileFacts ByteFacts VecFacts MapLayer DiskFacts MmapFacts PopFacts TreeFacts ProofSpec ProofFacts TreeProofs TreeObs Builders BuiltFacts CompactTrees ReopenFacts StopFacts Cases Props_Build Props_Compact Props_Reopen Props_Delete Props_Stop.
Import ListNotations.

(* The last sync of a build from items is at the end of populate_data or
   populate_data_par.  From then on the file goes through the contents it has at that
   call, at any step of the workers on any row, and when the build has returned. *)
Inductive since_sync {E} (EO : ElementOps E) (A : AlgOps E) (en : env) (b : nat) (c : StoreConfig) (leaves : list E) (f : fs)
  : list byte -> Prop :=
| SS_sync e f' data : item_builder EO (stop_store EO K_sync) A en b c leaves f (Panic e, f') ->
    fs_file f' (cfg_path c) = Some data -> since_sync EO A en b c leaves f data
| SS_layer k sched e f' data : item_builder EO (stop_store EO (K_layer k sched)) A en b c leaves f (Panic e, f') ->
    fs_file f' (cfg_path c) = Some data -> since_sync EO A en b c leaves f data
| SS_done t f' data : item_builder EO (disk_store EO) A en b c leaves f (Ok t, f') ->
    fs_file f' (cfg_path c) = Some data -> since_sync EO A en b c leaves f data.

(* After a power loss every byte is one that the file held there at or after the
   last sync, and so is the length; which ones is up to the operating system. *)
Definition power_loss (seen : list byte -> Prop) (data : list byte) : Prop :=
  (exists D, seen D /\ List.length data = List.length D) /\
  forall p x, nth_error data p = Some x -> exists D, seen D /\ nth_error D p = Some x.

(* the sync is reached, and what it makes durable holds all leaves *)
Theorem C73_synced : forall E (EO : ElementOps E) A en b c leaves els d f r,
  setting EO A (disk_store EO) true en b -> 1 <= d -> Layout (h_node A) b d leaves els ->
  fs_dir f (cfg_path c) = None ->
  item_builder EO (stop_store EO K_sync) A en b c leaves f r ->
  exists e f' data, r = (Panic e, f') /\ fs_file f' (cfg_path c) = Some data /\
    data = encode EO leaves ++ repeat x00 ((geom b d - b ^ d) * e_byte_len EO).
Proof.
  intros E EO A en b c leaves els d f r (EL & AL & HS & Hb & Hch) Hd HL Hp HB. pose proof (arity_ge b Hb) as H2.
  pose proof HL as (L1 & L2 & _).
  destruct (sync_reached EO EL A AL en b Hb Hch K_sync leaves d Hd L1 c f r eq_refl Hp HB) as (e & f' & i & -> & HC & HF).
  destruct HC as (C1 & C2 & C3 & C4 & C5 & C6).
  exists e, f', (fs_data f' i). split; [reflexivity|]. split; [unfold fs_file; rewrite (C5 _ eq_refl); reflexivity|].
  destruct HF as (F1 & F2 & F3). pose proof (geom_gt b d) as Hg.
  pose proof (Nat.mul_le_mono_r _ _ (e_byte_len EO) Hg) as Hgb.
  assert (HP : firstn (b ^ d * e_byte_len EO) (fs_data f' i) = encode EO leaves).
  { unfold Exact in F3. rewrite !sub_0 in F3. rewrite F3.
    pose proof (all_rows_Layout A b ltac:(lia) leaves d L1) as HL2.
    assert (leaves = firstn (b ^ d) (all_rows A b leaves d)) as Hpre.
    { apply (Layout_prefix (h_node A)); [lia|exact HL2]. }
    rewrite Hpre at 2. rewrite <- !sub_0. change 0 with (0 * e_byte_len EO) at 1. apply encode_sub. exact EL. }
  rewrite <- HP. apply nth_error_ext. intros p. rewrite nth_error_app, firstn_length, F1.
  replace (Nat.min _ _) with (b ^ d * e_byte_len EO) by lia.
  rewrite nth_error_firstn. destruct (p <? b ^ d * e_byte_len EO) eqn:Q; [reflexivity|].
  rewrite nth_error_repeat, Nat.mul_sub_distr_r.
  destruct (nth_error (fs_data f' i) p) as [x|] eqn:Hx.
  - assert (p < geom b d * e_byte_len EO) by (rewrite <- F1; apply nth_error_Some; congruence).
    destruct (F2 p x Hx) as [->|[Hc _]]; [|lia]. replace (_ <? _) with true by lia. reflexivity.
  - apply nth_error_None in Hx. rewrite F1 in Hx. replace (_ <? _) with false by lia. reflexivity.
Qed.

(* [leaves_in data]: the file has its full length and begins with the leaves *)
Definition leaves_in {E} (EO : ElementOps E) (b d : nat) (leaves : list E) (data : list byte) : Prop :=
  List.length data = geom b d * e_byte_len EO /\ firstn (b ^ d * e_byte_len EO) data = encode EO leaves.

Lemma since_leaves {E} (EO : ElementOps E) A en b c leaves els d f data :
  setting EO A (disk_store EO) true en b -> 1 <= d -> Layout (h_node A) b d leaves els ->
  fs_dir f (cfg_path c) = None -> since_sync EO A en b c leaves f data -> leaves_in EO b d leaves data.
Proof.
  intros HS Hd HL Hp HX. pose proof HS as (EL & AL & HS0 & Hb & Hch). pose proof (arity_ge b Hb) as H2. pose proof HL as (L1 & L2 & _).
  pose proof (geom_gt b d) as Hg. pose proof (Nat.mul_le_mono_r _ _ (e_byte_len EO) Hg) as Hgb.
  pose proof (encode_length EO EL leaves) as He. rewrite L1 in He.
  assert (Hpre : firstn (b ^ d * e_byte_len EO) (encode EO els) = encode EO leaves).
  { pose proof (Layout_prefix (h_node A) b d leaves els ltac:(lia) HL) as HQ. rewrite HQ. rewrite <- !sub_0. change 0 with (0 * e_byte_len EO) at 1. apply encode_sub. exact EL. }
  destruct HX as [e f' data HB Hf|k sched e f' data HB Hf|t f' data HB Hf].
  - destruct (C73_synced E EO A en b c leaves els d f _ HS Hd HL Hp HB) as (e2 & f2 & data2 & Q & Hf2 & ->). injection Q as -> ->.
    rewrite Hf in Hf2. injection Hf2 as ->. split; [rewrite app_length, repeat_length, He, Nat.mul_sub_distr_r; lia|].
    rewrite firstn_app, He, Nat.sub_diag, <- He, firstn_all. apply app_nil_r.
  - destruct (C71_left E EO A en b c leaves els d _ f _ HS Hd HL Hp (item_cfg _ _ _ _ _ _ _ _ _ HB)) as [G|(e2 & f2 & data2 & Q & Hf2 & HR & _)].
    + exfalso. assert (HBu : builder EO (disk_store EO) A en b leaves f (Panic e, f')).
      { remember (Panic e, f') as q. destruct G; subst; constructor; auto. }
      destruct (builder_full EO EL A AL en b (disk_store EO) true HS0 leaves f d _ Hb Hch HBu Hd L1) as (t & f3 & ? & Ht & _). discriminate Ht.
    + injection Q as -> ->. rewrite Hf in Hf2. injection Hf2 as ->. cbn [remains] in HR. destruct HR as (Hk & U1 & U2 & _).
      rewrite encode_length, L2 in U1 by auto. split; [exact U1|]. rewrite <- Hpre.
      pose proof (row_off_mono b d 1 (k + 1) ltac:(lia)) as M. cbn [row_off] in M. rewrite Nat.sub_0_r in M.
      apply (f_equal (firstn (b ^ d * e_byte_len EO))) in U2. rewrite !firstn_firstn in U2.
      pose proof (Nat.mul_le_mono_r _ _ (e_byte_len EO) M). replace (Nat.min _ _) with (b ^ d * e_byte_len EO) in U2 by lia. exact U2.
  - assert (HT : disk_tree EO A en b (cfg_path c) leaves t f').
    { split; [exact EL|]. split; [exact AL|]. split; [exact Hb|]. split; [exact Hch|]. exists c, f. split; [reflexivity|]. split; [exact Hp|].
      apply item_cfg. exact HB. }
    destruct (disk_tree_at _ _ _ _ _ _ _ _ HT) as (d' & s & i & els' & Hd' & Hl' & HD).
    assert (d' = d) by (apply (Nat.pow_inj_r b); [lia|congruence]). subst d'.
    pose proof (dt_layout EO A b t s f' c i d leaves els' HD) as HL'.
    assert (els' = els) by (eapply Layout_fun; eauto). subst els'.
    pose proof (dt_rep _ _ _ _ _ _ _ _ _ _ _ HD) as (_ & _ & _ & HRep). cbn [snd fst] in HRep.
    rewrite (dt_file _ _ _ _ _ _ _ _ _ _ _ HD), <- L2 in HRep. apply DRep_full in HRep; auto.
    unfold fs_file in Hf. rewrite (dt_path _ _ _ _ _ _ _ _ _ _ _ HD) in Hf. injection Hf as <-. rewrite HRep.
    split; [rewrite encode_length, L2 by auto; reflexivity|exact Hpre].
Qed.

(* the wish: the tree survives *)
Definition C73_full : Prop := forall E (EO : ElementOps E) A en b c leaves els d f t f1 data,
  setting EO A (disk_store EO) true en b -> 1 <= d -> Layout (h_node A) b d leaves els ->
  fs_dir f (cfg_path c) = None ->
  item_builder EO (disk_store EO) A en b c leaves f (Ok t, f1) ->
  power_loss (since_sync EO A en b c leaves f) data -> data = encode EO els.

(* the leaves do *)
Theorem C73_leaves_partial : forall E (EO : ElementOps E) A en b c leaves els d f data,
  setting EO A (disk_store EO) true en b -> 1 <= d -> Layout (h_node A) b d leaves els ->
  fs_dir f (cfg_path c) = None ->
  power_loss (since_sync EO A en b c leaves f) data ->
  List.length data = geom b d * e_byte_len EO /\ firstn (b ^ d * e_byte_len EO) data = encode EO leaves.
Proof.
  intros E EO A en b c leaves els d f data HS Hd HL Hp ((D & HD & Hlen) & HX). pose proof HS as (EL & AL & HS0 & Hb & Hch). pose proof HL as (L1 & L2 & _).
  pose proof (since_leaves EO A en b c leaves els d f D HS Hd HL Hp HD) as [D1 D2]. rewrite D1 in Hlen. split; [exact Hlen|].
  apply nth_error_ext. intros p. rewrite nth_error_firstn. pose proof (encode_length EO EL leaves) as He. rewrite L1 in He.
  pose proof (Nat.mul_le_mono_r _ _ (e_byte_len EO) (geom_gt b d)) as Hgb.
  destruct (p <? b ^ d * e_byte_len EO) eqn:Q; [|symmetry; apply nth_error_None; lia].
  destruct (nth_error_ex data p ltac:(lia)) as [x Hx]. rewrite Hx. destruct (HX p x Hx) as (D' & HD' & Hx').
  destruct (since_leaves EO A en b c leaves els d f D' HS Hd HL Hp HD') as [_ E2].
  rewrite <- E2, nth_error_firstn, Q, Hx'. reflexivity.
Qed.

(* so a later construction at the path reads the right leaves, whatever data it is given *)
Theorem C73_reopen_partial : forall E (EO : ElementOps E) A en b c leaves els d f f2 data r,
  setting EO A (disk_store EO) true en b -> 1 <= d -> Layout (h_node A) b d leaves els ->
  fs_dir f (cfg_path c) = None ->
  power_loss (since_sync EO A en b c leaves f) data ->
  fs_file f2 (cfg_path c) = Some data -> again EO A en b c (b ^ d) f2 r ->
  exists t, r = (Ok t, f2) /\ forall j, j < b ^ d -> mt_read_at (disk_store EO) 0 0 t f2 j = rnth leaves j.
Proof.
  intros E EO A en b c leaves els d f f2 data r HS Hd HL Hp HX Hf HA. pose proof HS as (EL & AL & HS0 & Hb & Hch). pose proof HL as (L1 & L2 & _).
  destruct (C73_leaves_partial E EO A en b c leaves els d f data HS Hd HL Hp HX) as [H1 H2].
  destruct (again_any EO EL A en b Hb f2 c d data r Hd Hf H1 HA) as (t & -> & T1 & T2 & T3 & T4).
  exists t. split; [reflexivity|]. intros j Hj. pose proof (geom_gt b d) as Hg. rewrite T4 by lia.
  destruct (nth_error_ex leaves j ltac:(lia)) as [x Hx]. unfold rnth. rewrite Hx.
  assert (Hs : sub data (j * e_byte_len EO) (e_byte_len EO) = e_as_ref EO x).
  { pose proof (Nat.mul_le_mono_r (S j) (b ^ d) (e_byte_len EO) Hj) as Hm. cbn [Nat.mul] in Hm.
    transitivity (sub (firstn (b ^ d * e_byte_len EO) data) (j * e_byte_len EO) (e_byte_len EO)); [rewrite <- sub_0, sub_sub by lia; reflexivity|].
    rewrite H2. exact (encode_nth EO EL leaves j x Hx). }
  rewrite Hs. apply (el_round EO EL).
Qed.

(* The nodes do not: only the leaves were synced.  And after from_byte_slice_with_config,
   which never syncs, nothing need be left: the kill point K_sync is not reached. *)
Definition power_file : list byte := match fs_file (snd (killed_build K_sync)) (cfg_path cfg0) with Some d => d | None => [] end.
Lemma power_case : fst (killed_build K_sync) = Panic "killed"%string /\
  fs_file (snd (killed_build K_sync)) (cfg_path cfg0) = Some power_file /\ nth_error power_file 14 = Some x00 /\
  exists x, nth_error (encode BO (all_rows sum_alg 2 (map (h_leaf sum_alg) leaves8) 3)) 14 = Some x /\ x <> x00.
Proof. vm_compute. split; [reflexivity|]. split; [reflexivity|]. split; [reflexivity|]. eexists. split; [reflexivity|discriminate]. Qed.
Theorem C73_refuted : ~ C73_full.
Proof.
  intros H. destruct power_case as (K1 & K2 & K3 & x & K4 & K5).
  assert (Hch : chunk_ok env1 2) by (split; [vm_compute; lia|reflexivity]).
  pose proof (setting_intro (disk_store BO) true env1 2 (bs_disk BO) arity_2 Hch) as HS.
  pose proof (all_rows_Layout sum_alg 2 ltac:(lia) (map (h_leaf sum_alg) leaves8) 3 eq_refl) as HL.
  pose proof (IB_new BO (disk_store BO) sum_alg env1 2 cfg0 leaves8 fs_empty) as HB.
  destruct (builder_full BO BL sum_alg sum_laws env1 2 (disk_store BO) true (bs_disk BO) (map (h_leaf sum_alg) leaves8) fs_empty 3 _ arity_2 Hch
    (B_new_config BO (disk_store BO) sum_alg env1 2 leaves8 cfg0 fs_empty eq_refl) ltac:(lia) eq_refl) as (t & f1 & els & Ht & _).
  rewrite Ht in HB.
  pose proof (IB_new BO (stop_store BO K_sync) sum_alg env1 2 cfg0 leaves8 fs_empty) as HK.
  change (mt_new_with_config BO (stop_store BO K_sync) sum_alg env1 2 leaves8 cfg0 fs_empty) with (killed_build K_sync) in HK.
  destruct (killed_build K_sync) as [y f2]. cbn [fst snd] in *. subst y.
  assert (HP : power_loss (since_sync BO sum_alg env1 2 cfg0 (map (h_leaf sum_alg) leaves8) fs_empty) power_file).
  { split; [exists power_file|intros p z Hz; exists power_file]; (split; [exact (SS_sync BO sum_alg env1 2 cfg0 _ fs_empty _ f2 power_file HK K2)|auto]). }
  pose proof (H B1 BO sum_alg env1 2 cfg0 _ _ 3 fs_empty t f1 power_file HS ltac:(lia) HL eq_refl HB HP) as HE.
  rewrite HE, K4 in K3. injection K3 as K3. exact (K5 K3).
Qed.

Lemma C73_bytes_never_syncs :
  let build kp := from_byte_slice_with_config BO (stop_store BO kp) sum_alg env1 2 (encode BO leaves8) cfg0 fs_empty in
  root_of (build K_sync) = root_of (from_byte_slice_with_config BO (disk_store BO) sum_alg env1 2 (encode BO leaves8) cfg0 fs_empty) /\
  root_of (build K_sync) <> None /\
  (* so the contents before the first byte was written may be all that is left *)
  file_vals (snd (build (K_copy 0 0))) = Some (repeat 0 15).
Proof. vm_compute. split; [reflexivity|]. split; [discriminate|reflexivity]. Qed.

(* two contents since the sync; a power loss may also mix them byte by byte *)
Example C73_case :
  left_vals K_sync = Some [21; 19; 22; 19; 23; 27; 20; 24; 0; 0; 0; 0; 0; 0; 0] /\
  left_vals (K_layer 0 second_worker) = Some [21; 19; 22; 19; 23; 27; 20; 24; 0; 0; 0; 207; 0; 0; 0].
Proof. vm_compute. split; reflexivity. Qed.
Print Assumptions C73_synced.
Print Assumptions C73_leaves_partial.
Print Assumptions C73_reopen_partial.
Print Assumptions C73_refuted.
