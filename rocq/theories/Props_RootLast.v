(* C90: the root is written last, so the root shows whether a build was cut off. *)
From Coq Require Import String List Arith NArith Bool Lia Init.Byte ZifyBool ZifyNat.
From Verif Require Import Base Element Hash Sizing FS Sched Store VecStore DiskStore MmapStore LevelCache ProofModel Tree Faults Stop LcStop MmStop ListFacts Spec SpecFacts SizingFacts SchedFacts StoreLaws RowFacts ChunkFacts BuildFacts BuildLoop StoreSpec FileFacts ByteFacts VecFacts MapLayer DiskFacts MmapFacts PopFacts TreeFacts ProofSpec ProofFacts TreeProofs TreeObs Builders BuiltFacts CompactTrees ReopenFacts StopFacts LcStopFacts MmStopFacts Cases Props_Build Props_Reopen Props_Delete Props_Stop Props_LcStop Props_MmStop Props_Power Props_PowerExact.
Import ListNotations.

Lemma root_at {E} (A : AlgOps E) b d leaves els x : arity b -> Layout (h_node A) b d leaves els -> MRoot (h_node A) b d leaves x ->
  rnth els (geom b d - 1) = Ok x.
Proof.
  intros Hb HL HM. pose proof (arity_ge b Hb) as H2. pose proof (geom_pos b d) as Hg. pose proof HL as (_ & L2 & _).
  destruct (nth_error_ex els (geom b d - 1) ltac:(lia)) as [y Hy]. unfold rnth. rewrite Hy. f_equal.
  symmetry. exact (MRoot_fun (h_node A) b d leaves x HM y (Layout_root b ltac:(lia) (h_node A) d leaves els y HL Hy)).
Qed.

(* the root of a tree over a store is the last element of the store *)
Lemma opened_root {E} (SO : StoreOps E) b s n L f t f2 : get_merkle_tree_len n b = Ok L -> from_data_store SO b 0 0 s n f = (Ok t, f2) ->
  mt_read_at SO 0 0 t f2 (L - 1) = Ok (mt_root t).
Proof.
  intros HL. unfold from_data_store, sbind, slift, sreads, store_last, ensure. cbn [Nat.eqb].
  destruct (next_pow2 n =? n); [|discriminate]. destruct (next_pow2 b =? b); [|discriminate].
  rewrite HL. destruct (L =? st_len SO s) eqn:Q; [|discriminate].
  destruct (is_merkle_tree_size_valid n b) as [v| | |]; try discriminate. destruct v; [|discriminate].
  unfold checked_sub. destruct (1 <=? st_len SO s); [|discriminate]. cbn [rbind].
  destruct (st_read_at SO (s, f) (st_len SO s - 1)) as [x| | |] eqn:R; try discriminate. intros H. injection H as <- <-.
  apply Nat.eqb_eq in Q. rewrite Q. exact R.
Qed.

(* ---- DiskStore ---- *)
(* whatever of the calls that find the file again, with any data, returns a tree with
   the root of the leaves the killed build was given *)
Theorem C90_disk : forall E (EO : ElementOps E) A en b c leaves els d kp f e f' t f2,
  setting EO A (disk_store EO) true en b -> 1 <= d -> Layout (h_node A) b d leaves els ->
  fs_dir f (cfg_path c) = None ->
  cfg_builder EO (stop_store EO kp) A en b c leaves f (Panic e, f') ->
  again EO A en b c (b ^ d) f' (Ok t, f2) ->
  MRoot (h_node A) b d leaves (mt_root t) -> e_from_slice EO (repeat x00 (e_byte_len EO)) <> Ok (mt_root t) ->
  f2 = f' /\ forall j, j < geom b d -> mt_read_at (disk_store EO) 0 0 t f' j = rnth els j.
Proof.
  intros E EO A en b c leaves els d kp f e f' t f2 HS Hd HL Hp HB HA HM HZ. pose proof HS as (EL & AL & HS0 & Hb & Hch).
  pose proof HL as (L1 & L2 & _). pose proof (root_at A b d leaves els _ Hb HL HM) as HR.
  assert (Hk : kp = K_create \/ kp <> K_create) by (destruct kp; [left; reflexivity|right; discriminate|right; discriminate|right; discriminate]).
  destruct Hk as [->|Hk].
  { destruct (C71_create_retry_partial E EO A en b c leaves d f e f' _ HS Hd L1 Hp HB HA) as [m Q]. discriminate Q. }
  destruct (C71_retry_believes E EO A en b c leaves els d kp f e f' _ HS Hd HL Hp Hk HB HA) as (t' & Q & _ & H0 & Hj).
  assert (t' = t /\ f2 = f') as [-> ->] by (split; congruence). split; [reflexivity|].
  destruct kp as [|i p| |k sched]; [congruence|exfalso; apply HZ, H0; exact I|exfalso; apply HZ, H0; exact I|].
  cbn [before_root finished_rows] in *. destruct (Nat.lt_ge_cases (k + 1) d) as [Hlt|Hge]; [exfalso; apply HZ, H0; exact Hlt|].
  destruct (C71_left E EO A en b c leaves _ d _ f _ HS Hd HL Hp HB) as [G|(e' & f3 & data & Q' & HF & (Hkd & (U1 & _)) & _)].
  { exfalso. assert (HBu : builder EO (disk_store EO) A en b leaves f (Panic e, f')).
    { remember (Panic e, f') as q. destruct G; subst; constructor; auto. }
    destruct (builder_full EO EL A AL en b (disk_store EO) true HS0 leaves f d _ Hb Hch HBu Hd L1) as (t0 & f3 & ? & Ht & _). discriminate Ht. }
  injection Q' as <- <-. rewrite encode_length, L2 in U1 by exact EL.
  destruct (again_any EO EL A en b Hb f' c d data _ Hd HF U1 HA) as (t2 & Q2 & _ & _ & T3 & T4).
  assert (t2 = t) as -> by congruence.
  assert (k + 1 = d) as Hkd' by lia. rewrite Hkd' in Hj. pose proof (geom_row_off b d d ltac:(lia)) as G. rewrite Nat.sub_diag in G. change (geom b 0) with 1 in G.
  intros j Hjlt. destruct (Nat.lt_ge_cases j (row_off b d d)) as [Hl|Hg]; [exact (Hj j Hl)|].
  assert (j = geom b d - 1) as -> by lia. rewrite T4 by lia. rewrite HR. exact T3.
Qed.

(* ---- LevelCacheStore, opened with any reader of the leaves ---- *)
Theorem C90_level_cache : forall E (EO : ElementOps E) A en b c leaves els d kp f' rd s t f2,
  killed_at EO A en b c leaves d kp f' -> Layout (h_node A) b d leaves els ->
  lc_new_from_disk_with_reader EO (geom b d) b c rd f' = (Ok s, f') ->
  from_data_store (lc_store EO) b 0 0 s (b ^ d) f' = (Ok t, f2) ->
  MRoot (h_node A) b d leaves (mt_root t) -> e_from_slice EO (repeat x00 (e_byte_len EO)) <> Ok (mt_root t) ->
  f2 = f' /\ forall j, row_off b d (sc_rows_to_discard c + 1) <= j -> j < geom b d -> mt_read_at (lc_store EO) 0 0 t f' j = rnth els j.
Proof.
  intros E EO A en b c leaves els d kp f' rd s t f2 HK HL HO HT HM HZ. pose proof HK as (EL & AL & Hb & Hch & HR & Hl & _).
  pose proof (root_at A b d leaves els _ Hb HL HM) as HRt.
  pose proof (C74_open E EO A en b c leaves d kp f' rd HK) as H. destruct (cache_sized (sc_rows_to_discard c) kp) eqn:HC; [|destruct H as [m H]; congruence].
  destruct kp as [|i p| |k sched|k n sizes]; cbn [cache_sized] in HC; try discriminate HC. apply Nat.ltb_lt in HC.
  destruct (C74_open_believes E EO A en b c leaves els d k sched f' rd HK HC HL) as (s' & t' & O1 & O2 & _ & O3 & O4).
  assert (s' = s) as -> by congruence. assert (t' = t /\ f2 = f') as [-> ->] by (split; congruence). split; [reflexivity|].
  destruct (killed_left EO A en b c leaves els d _ f' HK HL) as (data & HF & (Hkd & _)).
  destruct (Nat.lt_ge_cases (k + 1) d) as [Hlt|Hge]; [exfalso; apply HZ, O3; exact Hlt|].
  assert (k + 1 = d) as Hkd' by lia. rewrite Hkd' in O4. pose proof (geom_row_off b d d ltac:(lia)) as G. rewrite Nat.sub_diag in G. change (geom b 0) with 1 in G.
  pose proof (opened_root (lc_store EO) b s (b ^ d) (geom b d) f' t f' (get_merkle_tree_len_full b d Hb ltac:(lia)) HT) as HX.
  intros j Hj1 Hj2. replace (sc_rows_to_discard c + 1) with (S (sc_rows_to_discard c)) in Hj1 by lia.
  destruct (Nat.lt_ge_cases j (row_off b d d)) as [H1|H1]; [exact (O4 j Hj1 H1)|].
  assert (j = geom b d - 1) as -> by lia. rewrite HX, HRt. reflexivity.
Qed.

(* ---- MmapStore, opened ---- *)
Theorem C90_mmap : forall E (EO : ElementOps E) A en b c leaves els d i ps f e f' s t f2,
  setting EO A (mmap_store_ops EO) false en b -> 1 <= d -> Layout (h_node A) b d leaves els ->
  fs_dir f (cfg_path c) = None ->
  cfg_builder EO (mstop_store EO (M_store i ps)) A en b c leaves f (Panic e, f') ->
  mmap_new_from_disk EO (geom b d) b c f' = (Ok s, f') ->
  from_data_store (mmap_store_ops EO) b 0 0 s (b ^ d) f' = (Ok t, f2) ->
  MRoot (h_node A) b d leaves (mt_root t) -> e_from_slice EO (repeat x00 (e_byte_len EO)) <> Ok (mt_root t) ->
  f2 = f' /\ forall j, j < geom b d -> mt_read_at (mmap_store_ops EO) 0 0 t f' j = rnth els j.
Proof.
  intros E EO A en b c leaves els d i ps f e f' s t f2 HS Hd HL Hp HB HO HT HM HZ. pose proof HS as (EL & AL & HS0 & Hb & Hch).
  pose proof (root_at A b d leaves els _ Hb HL HM) as HRt.
  destruct (C75_open_believes E EO A en b c leaves els d i ps f e f' HS Hd HL Hp HB) as (s' & t' & r & O1 & O2 & O3 & O4 & O5 & O6).
  assert (s' = s) as -> by congruence. assert (t' = t /\ f2 = f') as [-> ->] by (split; congruence). split; [reflexivity|].
  destruct (Nat.lt_ge_cases r d) as [Hlt|Hge]; [exfalso; apply HZ, O5; exact Hlt|]. assert (r = d) as -> by lia.
  pose proof (geom_row_off b d d ltac:(lia)) as G. rewrite Nat.sub_diag in G. change (geom b 0) with 1 in G.
  pose proof (opened_root (mmap_store_ops EO) b s (b ^ d) (geom b d) f' t f' (get_merkle_tree_len_full b d Hb ltac:(lia)) HT) as HX.
  intros j Hj. destruct (Nat.lt_ge_cases j (row_off b d d)) as [H1|H1]; [exact (O6 j H1)|].
  assert (j = geom b d - 1) as -> by lia. rewrite HX, HRt. reflexivity.
Qed.

(* ---- a power loss ---- *)
(* After a power loss the root may be on the disk and other nodes not: C73_exact. *)
Definition C90_power_full : Prop := forall E (EO : ElementOps E) A en b c leaves els d f t f1 data f2 t2 f3,
  setting EO A (disk_store EO) true en b -> 1 <= d -> Layout (h_node A) b d leaves els -> fs_dir f (cfg_path c) = None ->
  item_builder EO (disk_store EO) A en b c leaves f (Ok t, f1) ->
  power_loss (since_sync EO A en b c leaves f) data ->
  fs_file f2 (cfg_path c) = Some data -> again EO A en b c (b ^ d) f2 (Ok t2, f3) ->
  mt_root t2 = mt_root t -> e_from_slice EO (repeat x00 (e_byte_len EO)) <> Ok (mt_root t) ->
  forall j, j < geom b d -> mt_read_at (disk_store EO) 0 0 t2 f2 j = rnth els j.

(* a file with the given values at the path of cfg0 *)
Definition lost_vals : list nat := [21; 19; 22; 19; 23; 27; 20; 24; 0; 0; 0; 0; 0; 0; 190].
Definition lost_data : list byte := map (fun n => match Byte.of_N (N.of_nat n) with Some x => x | None => x00 end) lost_vals.
Definition lost_fs : fs := snd (sbind (fs_create_new (cfg_path cfg0)) (fun h => fs_write_all_at h 0 lost_data) fs_empty).

(* eight leaves: their hashes and the root are on the disk, the six nodes between are zero *)
Theorem C90_power_refuted : ~ C90_power_full.
Proof.
  intros H. set (lv := map (h_leaf sum_alg) leaves8). set (rows := all_rows sum_alg 2 lv 3).
  assert (Hch : chunk_ok env1 2) by (split; [vm_compute; lia|reflexivity]).
  pose proof (setting_intro (disk_store BO) true env1 2 (bs_disk BO) arity_2 Hch) as HS.
  pose proof (all_rows_Layout sum_alg 2 ltac:(lia) lv 3 eq_refl) as HL.
  pose proof (IB_new BO (disk_store BO) sum_alg env1 2 cfg0 leaves8 fs_empty) as HB.
  destruct (builder_full BO BL sum_alg sum_laws env1 2 (disk_store BO) true (bs_disk BO) lv fs_empty 3 _ arity_2 Hch
    (B_new_config BO (disk_store BO) sum_alg env1 2 leaves8 cfg0 fs_empty eq_refl) ltac:(lia) eq_refl) as (t & f1 & els & Ht & HF).
  rewrite Ht in HB. clear Ht. pose proof (FullTree_root _ _ _ _ _ _ _ _ arity_2 HF) as HM. clear HF els.
  pose proof (root_at sum_alg 2 3 lv rows _ arity_2 HL HM) as HR. clear HM.
  assert (HX : power_loss (since_sync BO sum_alg env1 2 cfg0 lv fs_empty) lost_data).
  { apply (C73_exact B1 BO sum_alg env1 2 cfg0 _ _ 3 fs_empty t f1 HS ltac:(lia) HL eq_refl HB).
    split; [vm_compute; reflexivity|]. split; [vm_compute; reflexivity|].
    assert (HX : forallb (fun q => match nth_error lost_data q, nth_error (encode BO rows) q with
        | Some x, Some y => Byte.eqb x x00 || Byte.eqb x y | _, _ => false end) (seq 0 15) = true) by (vm_compute; reflexivity).
    intros p x Hx. fold rows. assert (Hp : p < 15) by (replace 15 with (List.length lost_data) by (vm_compute; reflexivity); apply nth_error_Some; congruence).
    rewrite forallb_forall in HX. specialize (HX p ltac:(apply in_seq; lia)). rewrite Hx in HX.
    destruct (nth_error (encode BO rows) p) as [y|]; [|discriminate HX]. apply orb_true_iff in HX. destruct HX as [HX|HX]; apply Byte.byte_dec_bl in HX; subst; auto. }
  assert (Hf : fs_file lost_fs (cfg_path cfg0) = Some lost_data) by (vm_compute; reflexivity).
  pose proof (Ag_new BO sum_alg env1 2 cfg0 8 lost_fs leaves8 eq_refl) as HA.
  destruct (C73_believed B1 BO sum_alg env1 2 cfg0 lv rows 3 fs_empty t f1 lost_data lost_fs _ HS ltac:(lia) HL eq_refl HB HX Hf HA) as (t2 & Q & _ & _ & T1 & T2).
  rewrite Q in HA. clear Q.
  assert (E14 : e_from_slice BO (sub lost_data ((geom 2 3 - 1) * e_byte_len BO) (e_byte_len BO)) = rnth rows (geom 2 3 - 1)) by (vm_compute; reflexivity).
  assert (Hroot : mt_root t2 = mt_root t) by congruence.
  assert (E0 : e_from_slice BO (repeat x00 (e_byte_len BO)) <> rnth rows (geom 2 3 - 1)) by (vm_compute; discriminate).
  assert (E8 : e_from_slice BO (sub lost_data (8 * e_byte_len BO) (e_byte_len BO)) <> rnth rows 8) by (vm_compute; discriminate).
  apply E8. rewrite <- T2 by (vm_compute; lia).
  refine (H B1 BO sum_alg env1 2 cfg0 lv rows 3 fs_empty t f1 lost_data lost_fs t2 lost_fs HS ltac:(lia) HL eq_refl HB HX Hf HA Hroot _ 8 ltac:(vm_compute; lia)).
  rewrite <- HR. exact E0.
Qed.

(* killed after the root is written: the theorems apply; killed just before: root 0.
   A schedule that runs all steps of the last row leaves the whole tree. *)
Definition last_row : list (nat * nat) := [(0, 0); (0, 0); (0, 1); (0, 0); (0, 0)].
Example C90_case :
  (* DiskStore *)
  fst (killed_build (K_layer 2 last_row)) = Panic "killed"%string /\ root_of (tried_again (K_layer 2 last_row)) = Some 190 /\
  left_vals (K_layer 2 last_row) = Some [21; 19; 22; 19; 23; 27; 20; 24; 219; 236; 10; 207; 37; 220; 190] /\
  root_of (tried_again (K_layer 2 [])) = Some 0 /\
  (* LevelCacheStore, one row besides the leaves discarded *)
  fst (lc_killed 1 (L_layer 2 last_row)) = Panic "killed"%string /\ root_of (lc_reopened 1 (L_layer 2 last_row) leaf_reader) = Some 190 /\
  root_of (lc_reopened 1 (L_layer 2 []) leaf_reader) = Some 0 /\
  (* MmapStore: one byte of the root, which has one *)
  fst (mm_killed (M_store 14 [0])) = Panic "killed"%string /\ mm_opened (M_store 14 [0]) = Some 190 /\ mm_opened (M_store 14 []) = Some 0.
Proof. vm_compute. repeat split. Qed.

Print Assumptions C90_disk.
Print Assumptions C90_level_cache.
Print Assumptions C90_mmap.
Print Assumptions C90_power_refuted.
