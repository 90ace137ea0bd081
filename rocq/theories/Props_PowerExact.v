(* C73: exactly which files a power loss after a build can leave. *)
From Coq Require Import String List Arith NArith Bool Lia Init.Byte ZifyBool ZifyNat.
From Verif Require Import Base Element Hash Sizing FS Sched Store VecStore DiskStore MmapStore LevelCache ProofModel Tree Faults Stop ListFacts Spec SpecFacts SizingFacts SchedFacts StoreLaws RowFacts ChunkFacts BuildFacts BuildLoop StoreSpec FileFacts ByteFacts VecFacts MapLayer DiskFacts MmapFacts PopFacts TreeFacts ProofSpec ProofFacts TreeProofs TreeObs Builders BuiltFacts CompactTrees ReopenFacts StopFacts Cases Props_Build Props_Compact Props_Reopen Props_Delete Props_Stop Props_Power.
Import ListNotations.

(* the finished build *)
Lemma done_bytes {E} (EO : ElementOps E) A en b c leaves els d f t f' :
  setting EO A (disk_store EO) true en b -> 1 <= d -> Layout (h_node A) b d leaves els -> fs_dir f (cfg_path c) = None ->
  item_builder EO (disk_store EO) A en b c leaves f (Ok t, f') -> fs_file f' (cfg_path c) = Some (encode EO els).
Proof.
  intros (EL & AL & HS0 & Hb & Hch) Hd HL Hp HB. pose proof (arity_ge b Hb) as H2. pose proof HL as (L1 & L2 & _).
  assert (HT : disk_tree EO A en b (cfg_path c) leaves t f').
  { split; [exact EL|]. split; [exact AL|]. split; [exact Hb|]. split; [exact Hch|]. exists c, f. split; [reflexivity|]. split; [exact Hp|].
    apply item_cfg. exact HB. }
  destruct (disk_tree_at _ _ _ _ _ _ _ _ HT) as (d' & s & i & els' & Hd' & Hl' & HD).
  assert (d' = d) by (apply (Nat.pow_inj_r b); [lia|congruence]). subst d'.
  pose proof (dt_layout EO A b t s f' c i d leaves els' HD) as HL'.
  assert (els' = els) by (eapply Layout_fun; eauto). subst els'.
  pose proof (dt_rep _ _ _ _ _ _ _ _ _ _ _ HD) as (_ & _ & _ & HRep). cbn [snd fst] in HRep.
  rewrite (dt_file _ _ _ _ _ _ _ _ _ _ _ HD), <- L2 in HRep. apply DRep_full in HRep; auto.
  unfold fs_file. rewrite (dt_path _ _ _ _ _ _ _ _ _ _ _ HD), HRep. reflexivity.
Qed.

(* since the sync every byte is zero or that of the finished tree *)
Lemma since_zero {E} (EO : ElementOps E) A en b c leaves els d f data :
  setting EO A (disk_store EO) true en b -> 1 <= d -> Layout (h_node A) b d leaves els -> fs_dir f (cfg_path c) = None ->
  since_sync EO A en b c leaves f data ->
  forall p x, nth_error data p = Some x -> x = x00 \/ nth_error (encode EO els) p = Some x.
Proof.
  intros HS Hd HL Hp HX p x Hx. pose proof HS as (EL & AL & HS0 & Hb & Hch). pose proof HL as (L1 & L2 & _).
  destruct HX as [e f' data HB Hf|k sched e f' data HB Hf|t f' data HB Hf].
  - pose proof (C71_left E EO A en b c leaves els d _ f _ HS Hd HL Hp (item_cfg _ _ _ _ _ _ _ _ _ HB)) as [G|(e2 & f2 & data2 & Q & Hf2 & HR & _)].
    + exfalso. assert (HBu : builder EO (disk_store EO) A en b leaves f (Panic e, f')).
      { remember (Panic e, f') as q. destruct G; subst; constructor; auto. }
      destruct (builder_full EO EL A AL en b (disk_store EO) true HS0 leaves f d _ Hb Hch HBu Hd L1) as (t & f3 & ? & Ht & _). discriminate Ht.
    + injection Q as -> ->. rewrite Hf in Hf2. injection Hf2 as ->. cbn [remains] in HR. destruct HR as (U1 & U2 & U3).
      destruct (U3 p x Hx) as [U|U]; [auto|right; apply U].
  - pose proof (C71_left E EO A en b c leaves els d _ f _ HS Hd HL Hp (item_cfg _ _ _ _ _ _ _ _ _ HB)) as [G|(e2 & f2 & data2 & Q & Hf2 & HR & _)].
    + exfalso. assert (HBu : builder EO (disk_store EO) A en b leaves f (Panic e, f')).
      { remember (Panic e, f') as q. destruct G; subst; constructor; auto. }
      destruct (builder_full EO EL A AL en b (disk_store EO) true HS0 leaves f d _ Hb Hch HBu Hd L1) as (t & f3 & ? & Ht & _). discriminate Ht.
    + injection Q as -> ->. rewrite Hf in Hf2. injection Hf2 as ->. cbn [remains] in HR. destruct HR as (_ & U1 & U2 & U3).
      destruct (U3 p x Hx) as [U|U]; [auto|right; apply U].
  - rewrite (done_bytes EO A en b c leaves els d f t f' HS Hd HL Hp HB) in Hf. injection Hf as <-. auto.
Qed.

(* ---------------- C73 ---------------- *)
(* The files a power loss can leave are exactly those of the full length that begin with
   the leaves and in which every other byte is zero or the byte of the finished tree. *)
Theorem C73_exact : forall E (EO : ElementOps E) A en b c leaves els d f t f1,
  setting EO A (disk_store EO) true en b -> 1 <= d -> Layout (h_node A) b d leaves els -> fs_dir f (cfg_path c) = None ->
  item_builder EO (disk_store EO) A en b c leaves f (Ok t, f1) ->
  forall data,
  power_loss (since_sync EO A en b c leaves f) data <->
  List.length data = List.length (encode EO els) /\
  firstn (b ^ d * e_byte_len EO) data = encode EO leaves /\
  forall p x, nth_error data p = Some x -> x = x00 \/ nth_error (encode EO els) p = Some x.
Proof.
  intros E EO A en b c leaves els d f t f1 HS Hd HL Hp HB data. pose proof HS as (EL & AL & HS0 & Hb & Hch). pose proof HL as (L1 & L2 & _).
  rewrite encode_length, L2 by exact EL. split.
  - intros HX. pose proof (C73_leaves_partial E EO A en b c leaves els d f data HS Hd HL Hp HX) as [H1 H2].
    split; [exact H1|]. split; [exact H2|]. destruct HX as [_ HX]. intros p x Hx. destruct (HX p x Hx) as (D & HD & HDx).
    exact (since_zero EO A en b c leaves els d f D HS Hd HL Hp HD p x HDx).
  - intros (H1 & H2 & H3).
    assert (HDone : since_sync EO A en b c leaves f (encode EO els)).
    { eapply SS_done; [exact HB|]. exact (done_bytes EO A en b c leaves els d f t f1 HS Hd HL Hp HB). }
    assert (HSync : since_sync EO A en b c leaves f (encode EO leaves ++ repeat x00 ((geom b d - b ^ d) * e_byte_len EO))).
    { assert (HK : exists r, item_builder EO (stop_store EO K_sync) A en b c leaves f r).
      { remember (Ok t, f1) as q. destruct HB; eexists; [apply IB_new|apply IB_par; assumption|apply IB_data]. }
      destruct HK as [r HK]. destruct (C73_synced E EO A en b c leaves els d f r HS Hd HL Hp HK) as (e & f' & D & -> & Hf & ->).
      eapply SS_sync; eauto. }
    split; [exists (encode EO els); split; [exact HDone|rewrite encode_length, L2 by exact EL; exact H1]|].
    intros p x Hx. destruct (H3 p x Hx) as [->|Hx']; [|eauto].
    pose proof (encode_length EO EL leaves) as He. rewrite L1 in He.
    eexists. split; [exact HSync|]. rewrite nth_error_app, He.
    destruct (p <? b ^ d * e_byte_len EO) eqn:Q.
    + rewrite <- H2, nth_error_firstn, Q. exact Hx.
    + rewrite nth_error_repeat, Nat.mul_sub_distr_r. pose proof (nth_error_lt _ _ _ Hx). replace (_ <? _) with true by lia. reflexivity.
Qed.

(* Opened again, with any data, such a file gives a tree with exactly the root that is in
   its last element, so the tree is noticed to be wrong only by its root. *)
Theorem C73_believed : forall E (EO : ElementOps E) A en b c leaves els d f t f1 data f2 r,
  setting EO A (disk_store EO) true en b -> 1 <= d -> Layout (h_node A) b d leaves els -> fs_dir f (cfg_path c) = None ->
  item_builder EO (disk_store EO) A en b c leaves f (Ok t, f1) ->
  power_loss (since_sync EO A en b c leaves f) data ->
  fs_file f2 (cfg_path c) = Some data -> again EO A en b c (b ^ d) f2 r ->
  exists t2, r = (Ok t2, f2) /\ mt_leafs t2 = b ^ d /\ mt_row_count t2 = S d /\
    e_from_slice EO (sub data ((geom b d - 1) * e_byte_len EO) (e_byte_len EO)) = Ok (mt_root t2) /\
    forall j, j < geom b d -> mt_read_at (disk_store EO) 0 0 t2 f2 j = e_from_slice EO (sub data (j * e_byte_len EO) (e_byte_len EO)).
Proof.
  intros E EO A en b c leaves els d f t f1 data f2 r HS Hd HL Hp HB HX Hf HA. pose proof HS as (EL & AL & HS0 & Hb & Hch). pose proof HL as (L1 & L2 & _).
  pose proof (proj1 (C73_exact E EO A en b c leaves els d f t f1 HS Hd HL Hp HB data) HX) as (H1 & _). rewrite encode_length, L2 in H1 by exact EL.
  destruct (again_any EO EL A en b Hb f2 c d data r Hd Hf H1 HA) as (t2 & -> & T1 & T2 & T3 & T4).
  exists t2. split; [reflexivity|]. split; [exact T1|]. split; [rewrite T2; lia|]. split; [exact T3|exact T4].
Qed.

(* 8 leaves: the leaves and any of the other bytes, here the second node above the leaves
   and not the rest. *)
Example C73_exact_case :
  let rows := all_rows sum_alg 2 (map (h_leaf sum_alg) leaves8) 3 in
  let data := firstn 8 (encode BO rows) ++ x00 :: sub (encode BO rows) 9 1 ++ repeat x00 5 in
  (exists t f1, item_builder BO (disk_store BO) sum_alg env1 2 cfg0 (map (h_leaf sum_alg) leaves8) fs_empty (Ok t, f1)) /\
  power_loss (since_sync BO sum_alg env1 2 cfg0 (map (h_leaf sum_alg) leaves8) fs_empty) data /\ data <> encode BO rows.
Proof.
  intros rows data.
  assert (Hch : chunk_ok env1 2) by (split; [vm_compute; lia|reflexivity]).
  pose proof (setting_intro (disk_store BO) true env1 2 (bs_disk BO) arity_2 Hch) as HS.
  pose proof (all_rows_Layout sum_alg 2 ltac:(lia) (map (h_leaf sum_alg) leaves8) 3 eq_refl) as HL.
  pose proof (IB_new BO (disk_store BO) sum_alg env1 2 cfg0 leaves8 fs_empty) as HB.
  destruct (builder_full BO BL sum_alg sum_laws env1 2 (disk_store BO) true (bs_disk BO) (map (h_leaf sum_alg) leaves8) fs_empty 3 _ arity_2 Hch
    (B_new_config BO (disk_store BO) sum_alg env1 2 leaves8 cfg0 fs_empty eq_refl) ltac:(lia) eq_refl) as (t & f1 & els & Ht & _).
  rewrite Ht in HB. split; [eauto|]. split.
  - apply (C73_exact B1 BO sum_alg env1 2 cfg0 _ _ 3 fs_empty t f1 HS ltac:(lia) HL eq_refl HB).
    split; [vm_compute; reflexivity|]. split; [vm_compute; reflexivity|].
    assert (HX : forallb (fun q => match nth_error data q, nth_error (encode BO rows) q with
        | Some x, Some y => Byte.eqb x x00 || Byte.eqb x y | _, _ => false end) (seq 0 15) = true) by (vm_compute; reflexivity).
    intros p x Hx. fold rows. assert (Hp : p < 15) by (replace 15 with (List.length data) by (vm_compute; reflexivity); apply nth_error_Some; congruence).
    rewrite forallb_forall in HX. specialize (HX p ltac:(apply in_seq; lia)). rewrite Hx in HX.
    destruct (nth_error (encode BO rows) p) as [y|]; [|discriminate HX]. apply orb_true_iff in HX. destruct HX as [HX|HX]; apply Byte.byte_dec_bl in HX; subst; auto.
  - vm_compute. discriminate.
Qed.
Print Assumptions C73_exact.
Print Assumptions C73_believed.
