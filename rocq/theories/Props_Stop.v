(* C71: a DiskStore build whose process is killed, and the file it leaves. *)
From Coq Require Import String List Arith NArith Bool Lia Init.Byte ZifyBool ZifyNat.
From Verif Require Import Base Element Hash Sizing FS Sched Store VecStore DiskStore MmapStore LevelCache ProofModel Tree Faults Stop ListFacts Spec SpecFacts SizingFacts SchedFacts StoreLaws RowFacts ChunkFacts BuildFacts BuildLoop StoreSpec FileFacts ByteFacts VecFacts MapLayer DiskFacts MmapFacts PopFacts TreeFacts ProofSpec ProofFacts TreeProofs TreeObs Builders BuiltFacts CompactTrees ReopenFacts StopFacts Cases Props_Build Props_Reopen Props_Delete.
Import ListNotations.

(* What a killed build may leave of a file that was to hold [whole]: the full
   length, the first [n] bytes finished, nothing but zeros from byte [edge] on,
   and in between bytes that are finished or still zero. *)
Definition unfinished (whole data : list byte) (n edge : nat) : Prop :=
  List.length data = List.length whole /\
  firstn n data = firstn n whole /\
  (forall p x, nth_error data p = Some x -> x = x00 \/ p < edge /\ nth_error whole p = Some x).

(* where the process died, and what that means for the file *)
Definition remains (bl b d : nat) (kp : kill) (whole data : list byte) : Prop :=
  match kp with
  | K_create => data = []
  | K_copy _ _ => unfinished whole data 0 (b ^ d * bl)
  | K_sync => unfinished whole data (b ^ d * bl) (b ^ d * bl)
  | K_layer k _ => k < d /\ unfinished whole data (row_off b d (k + 1) * bl) (row_off b d (k + 2) * bl)
  end.

(* [els]: all nodes of the finished tree, by Layout.  The build with the kill point
   either never reaches it, and then is the ordinary build, or it ends with the file
   at the path of its configuration and no other path changed. *)
Theorem C71_left : forall E (EO : ElementOps E) A en b c leaves els d kp f r,
  setting EO A (disk_store EO) true en b -> 1 <= d -> Layout (h_node A) b d leaves els ->
  fs_dir f (cfg_path c) = None ->
  cfg_builder EO (stop_store EO kp) A en b c leaves f r ->
  cfg_builder EO (disk_store EO) A en b c leaves f r \/
  exists e f' data, r = (Panic e, f') /\ fs_file f' (cfg_path c) = Some data /\
    remains (e_byte_len EO) b d kp (encode EO els) data /\
    fs_ext f f' /\ forall q, q <> cfg_path c -> fs_dir f' q = fs_dir f q.
Proof.
  intros E EO A en b c leaves els d kp f r (EL & AL & HS & Hb & Hch) Hd HL Hp HB. pose proof (arity_ge b Hb) as H2.
  pose proof HL as (L1 & L2 & _).
  destruct (stop_cases EO EL A AL en b Hb Hch kp leaves d Hd L1 c f r Hp HB) as [G|(e & f' & i & -> & HC & HF)]; [left; exact G|right].
  assert (els = all_rows A b leaves d) by (eapply Layout_fun; [exact HL|apply all_rows_Layout; [lia|exact L1]]). subst els.
  destruct HC as (C1 & C2 & C3 & C4 & C5 & C6).
  exists e, f', (fs_data f' i). split; [reflexivity|]. split; [unfold fs_file; rewrite (C5 _ eq_refl); reflexivity|].
  split; [|split; [split; auto|intros q Hq; apply C4; congruence]].
  pose proof (encode_length EO EL (all_rows A b leaves d)) as He. rewrite L2 in He.
  unfold left_file in HF. unfold remains, unfinished. destruct kp as [|j p| |k sched].
  - exact HF.
  - destruct HF as [F1 F2]. split; [congruence|]. split; [reflexivity|exact F2].
  - destruct HF as (F1 & F2 & F3). split; [congruence|]. split; [exact F3|exact F2].
  - destruct HF as (F0 & F1 & F2 & F3). replace (k + 1) with (S k) by lia. replace (k + 2) with (S (S k)) by lia.
    split; [exact F0|]. split; [congruence|]. split; [exact F3|exact F2].
Qed.

(* A second call at the same configuration: [again] is any with_config constructor
   but from_byte_slice_with_config, for as many leaves and with any data. *)
(* the wish: it fails or gives the tree *)
Definition C71_retry_full : Prop := forall E (EO : ElementOps E) A en b c leaves d kp f e f' r,
  setting EO A (disk_store EO) true en b -> 1 <= d -> List.length leaves = b ^ d ->
  fs_dir f (cfg_path c) = None ->
  cfg_builder EO (stop_store EO kp) A en b c leaves f (Panic e, f') ->
  cfg_builder EO (disk_store EO) A en b c leaves f' r ->
  match r with
  | (Ok t, _) => MRoot (h_node A) b d leaves (mt_root t)
  | _ => True
  end.

(* killed before set_len: refused, nothing changed *)
Theorem C71_create_retry_partial : forall E (EO : ElementOps E) A en b c leaves d f e f' r,
  setting EO A (disk_store EO) true en b -> 1 <= d -> List.length leaves = b ^ d ->
  fs_dir f (cfg_path c) = None ->
  cfg_builder EO (stop_store EO K_create) A en b c leaves f (Panic e, f') ->
  again EO A en b c (b ^ d) f' r -> exists m, r = (Err m, f').
Proof.
  intros E EO A en b c leaves d f e f' r HS Hd Hl Hp HB HA. pose proof HS as (EL & AL & _ & Hb & Hch). pose proof (arity_ge b Hb) as H2.
  pose proof (all_rows_Layout A b ltac:(lia) leaves d Hl) as HL.
  destruct (C71_left E EO A en b c leaves _ d K_create f _ HS Hd HL Hp HB) as [G|(e' & f2 & data & Q & HF & HR & _)].
  - exfalso. assert (HBu : builder EO (disk_store EO) A en b leaves f (Panic e, f')).
    { remember (Panic e, f') as q. destruct G; subst; constructor; auto. }
    destruct (builder_full EO EL A AL en b (disk_store EO) true (proj1 (proj2 (proj2 HS))) leaves f d _ Hb Hch HBu Hd Hl) as (t & f3 & ? & Ht & _). discriminate Ht.
  - injection Q as -> ->. cbn in HR. subst data.
    apply (C39_size_partial E EO A en b c d [] f2 r HS Hd HF); [|exact HA].
    pose proof (bl_pos EO EL). pose proof (geom_pos b d). cbn [List.length]. pose proof (Nat.mul_pos_pos (geom b d) (e_byte_len EO)). lia.
Qed.

(* from_byte_slice_with_config refuses whatever is there *)
Theorem C71_bytes_retry_partial : forall E (EO : ElementOps E) A en b c els data f,
  setting EO A (disk_store EO) true en b -> fs_file f (cfg_path c) = Some data ->
  exists m, from_byte_slice_with_config EO (disk_store EO) A en b (encode EO els) c f = (Err m, f).
Proof.
  intros E EO A en b c els data f (EL & AL & HS & Hb & Hch) Hf. apply file_inv in Hf. destruct Hf as (i & Hi & _).
  exact (disk_bytes_existing EO EL A en b Hb f c i els Hi).
Qed.

(* killed later: the call succeeds, whatever its data.  Its tree is the file's: the
   rows that were finished are right, and unless the last row was being hashed the
   root is what Element::from_slice makes of zeros. *)
Definition finished_rows (b d : nat) (kp : kill) : nat := match kp with K_sync => b ^ d | K_layer k _ => row_off b d (k + 1) | _ => 0 end.
Definition before_root (d : nat) (kp : kill) : Prop := match kp with K_layer k _ => k + 1 < d | _ => True end.
Theorem C71_retry_believes : forall E (EO : ElementOps E) A en b c leaves els d kp f e f' r,
  setting EO A (disk_store EO) true en b -> 1 <= d -> Layout (h_node A) b d leaves els ->
  fs_dir f (cfg_path c) = None -> kp <> K_create ->
  cfg_builder EO (stop_store EO kp) A en b c leaves f (Panic e, f') ->
  again EO A en b c (b ^ d) f' r ->
  exists t, r = (Ok t, f') /\ mt_leafs t = b ^ d /\
    (before_root d kp -> e_from_slice EO (repeat x00 (e_byte_len EO)) = Ok (mt_root t)) /\
    forall j, j < finished_rows b d kp -> mt_read_at (disk_store EO) 0 0 t f' j = rnth els j.
Proof.
  intros E EO A en b c leaves els d kp f e f' r HS Hd HL Hp Hk HB HA. pose proof HS as (EL & AL & _ & Hb & Hch). pose proof (arity_ge b Hb) as H2.
  pose proof HL as (L1 & L2 & _). pose proof (bl_pos EO EL) as Hbl. pose proof (geom_pos b d) as Hg.
  destruct (C71_left E EO A en b c leaves _ d kp f _ HS Hd HL Hp HB) as [G|(e' & f2 & data & Q & HF & HR & _)].
  { exfalso. assert (HBu : builder EO (disk_store EO) A en b leaves f (Panic e, f')).
    { remember (Panic e, f') as q. destruct G; subst; constructor; auto. }
    destruct (builder_full EO EL A AL en b (disk_store EO) true (proj1 (proj2 (proj2 HS))) leaves f d _ Hb Hch HBu Hd L1) as (t & f3 & ? & Ht & _). discriminate Ht. }
  injection Q as -> ->. pose proof (encode_length EO EL els) as He. rewrite L2 in He. set (bl := e_byte_len EO) in *.
  assert (HU : exists n edge, unfinished (encode EO els) data (n * bl) (edge * bl) /\ n = finished_rows b d kp /\ n <= geom b d /\ (before_root d kp -> edge <= geom b d - 1)).
  { destruct kp as [|i p| |k sched]; [congruence| | |].
    - exists 0, (b ^ d). split; [exact HR|]. split; [reflexivity|]. split; [lia|]. intros _.
      pose proof (geom_row_off b d 1 ltac:(lia)) as G. cbn [row_off] in G. rewrite Nat.sub_0_r in G. pose proof (geom_pos b (d - 1)). lia.
    - pose proof (geom_row_off b d 1 ltac:(lia)) as G. cbn [row_off] in G. rewrite Nat.sub_0_r in G. pose proof (geom_pos b (d - 1)).
      exists (b ^ d), (b ^ d). split; [exact HR|]. split; [reflexivity|]. split; [lia|]. intros _. lia.
    - destruct HR as [HR1 HR2]. exists (row_off b d (k + 1)), (row_off b d (k + 2)). split; [exact HR2|]. split; [reflexivity|].
      split; [pose proof (geom_row_off b d (k + 1) ltac:(lia)); lia|]. cbn [before_root]. intros Hk1.
      pose proof (geom_row_off b d (k + 2) ltac:(lia)) as G. pose proof (geom_pos b (d - (k + 2))). lia. }
  destruct HU as (n & edge & (U1 & U2 & U3) & Hn & Hn2 & Hedge). rewrite He in U1.
  destruct (again_any EO EL A en b Hb f2 c d data r Hd HF U1 HA) as (t & -> & T1 & T2 & T3 & T4).
  exists t. split; [reflexivity|]. split; [exact T1|]. rewrite <- Hn. split.
  - intros Hbr. specialize (Hedge Hbr). rewrite <- T3. f_equal. fold bl.
    assert (Hlen : List.length (sub data ((geom b d - 1) * bl) bl) = bl).
    { rewrite sub_length, U1. pose proof (Nat.mul_sub_distr_r (geom b d) 1 bl). pose proof (Nat.mul_le_mono_r 1 (geom b d) bl ltac:(lia)). lia. }
    apply nth_error_ext. intros q. destruct (Nat.lt_ge_cases q bl) as [Hq|Hq].
    + rewrite nth_error_repeat, nth_error_sub. replace (q <? bl) with true by lia.
      destruct (nth_error data ((geom b d - 1) * bl + q)) as [x|] eqn:Hx.
      * destruct (U3 _ _ Hx) as [->|[Hc _]]; [reflexivity|]. exfalso. pose proof (Nat.mul_le_mono_r _ _ bl Hedge). lia.
      * exfalso. apply nth_error_None in Hx. rewrite U1 in Hx. pose proof (Nat.mul_sub_distr_r (geom b d) 1 bl). pose proof (Nat.mul_le_mono_r 1 (geom b d) bl ltac:(lia)). lia.
    + transitivity (@None byte); [|symmetry]; apply nth_error_None; [rewrite repeat_length; exact Hq|rewrite Hlen; exact Hq].
  - intros j Hj. rewrite T4 by lia. fold bl. destruct (nth_error_ex els j ltac:(lia)) as [x Hx]. unfold rnth. rewrite Hx.
    assert (Hs : sub data (j * bl) bl = e_as_ref EO x).
    { pose proof (Nat.mul_le_mono_r (S j) n bl Hj) as Hm. cbn [Nat.mul] in Hm.
      transitivity (sub (firstn (n * bl) data) (j * bl) bl); [|rewrite U2].
      - rewrite <- sub_0, sub_sub by lia. reflexivity.
      - transitivity (sub (encode EO els) (j * bl) bl); [rewrite <- sub_0, sub_sub by lia; reflexivity|].
        exact (encode_nth EO EL els j x Hx). }
    rewrite Hs. apply (el_round EO EL).
Qed.

(* recovery: delete, then build *)
Theorem C71_recover : forall E (EO : ElementOps E) A en en' b c leaves leaves' d kp f e f' r,
  setting EO A (disk_store EO) true en b -> chunk_ok en' b -> 1 <= d -> List.length leaves = b ^ d ->
  fs_dir f (cfg_path c) = None ->
  cfg_builder EO (stop_store EO kp) A en b c leaves f (Panic e, f') ->
  exists f2, mt_delete (disk_store EO) c f' = (Ok tt, f2) /\
    (cfg_builder EO (disk_store EO) A en' b c leaves' f2 r ->
     match r with
     | (Ok t, f3) => MRoot (h_node A) b (mt_row_count t - 1) leaves' (mt_root t)
     | _ => forall d', 1 <= d' -> List.length leaves' <> b ^ d'
     end).
Proof.
  intros E EO A en en' b c leaves leaves' d kp f e f' r HS Hch' Hd Hl Hp HB. pose proof HS as (EL & AL & HS0 & Hb & Hch). pose proof (arity_ge b Hb) as H2.
  pose proof (all_rows_Layout A b ltac:(lia) leaves d Hl) as HL.
  destruct (C71_left E EO A en b c leaves _ d kp f _ HS Hd HL Hp HB) as [G|(e' & f2 & data & Q & HF & _)].
  { exfalso. assert (HBu : builder EO (disk_store EO) A en b leaves f (Panic e, f')).
    { remember (Panic e, f') as q. destruct G; subst; constructor; auto. }
    destruct (builder_full EO EL A AL en b (disk_store EO) true HS0 leaves f d _ Hb Hch HBu Hd Hl) as (t & f3 & ? & Ht & _). discriminate Ht. }
  injection Q as -> ->. pose proof (C63_disk_removes E EO c f2) as HD. rewrite HF in HD. destruct HD as (f3 & D1 & _).
  exists f3. split; [exact D1|]. intros HB2.
  pose proof (C63_rebuild E EO A en' b c f2 f3 leaves' r (conj EL (conj AL (conj HS0 (conj Hb Hch')))) D1 HB2) as HR.
  destruct r as [[t| | |] f4]; auto. exact (proj1 HR).
Qed.

(* The wish is false: eight leaves written, no node hashed; the second call, with all
   eight leaves at hand, returns a tree with root 0 instead of 190. *)
Definition killed_build (kp : kill) := mt_new_with_config BO (stop_store BO kp) sum_alg env1 2 leaves8 cfg0 fs_empty.
Definition tried_again (kp : kill) := mt_new_with_config BO (disk_store BO) sum_alg env1 2 leaves8 cfg0 (snd (killed_build kp)).
Lemma killed_case : fst (killed_build (K_layer 0 [])) = Panic "killed"%string /\
  root_of (tried_again (K_layer 0 [])) = Some 0 /\
  root_of (mt_new BO (disk_store BO) sum_alg env1 2 leaves8 fs_empty) = Some 190.
Proof. vm_compute. repeat split. Qed.

Theorem C71_retry_refuted : ~ C71_retry_full.
Proof.
  intros H. destruct killed_case as (K1 & K2 & K3).
  pose proof (setting_intro (disk_store BO) true env1 2 (bs_disk BO) arity_2 ltac:(split; [vm_compute; lia|reflexivity])) as HS.
  pose proof (CB_new BO (stop_store BO (K_layer 0 [])) sum_alg env1 2 cfg0 leaves8 fs_empty) as HB.
  change (mt_new_with_config BO (stop_store BO (K_layer 0 [])) sum_alg env1 2 leaves8 cfg0 fs_empty) with (killed_build (K_layer 0 [])) in HB.
  unfold tried_again in K2. destruct (killed_build (K_layer 0 [])) as [x f1]. cbn [fst snd] in *. subst x.
  pose proof (CB_new BO (disk_store BO) sum_alg env1 2 cfg0 leaves8 f1) as HB2.
  destruct (mt_new_with_config BO (disk_store BO) sum_alg env1 2 leaves8 cfg0 f1) as [[t| | |] f2]; [|discriminate K2|discriminate K2|discriminate K2].
  pose proof (H B1 BO sum_alg env1 2 cfg0 (map (h_leaf sum_alg) leaves8) 3 _ fs_empty _ f1 _ HS ltac:(lia) eq_refl eq_refl HB HB2) as HM. cbn beta iota in HM.
  pose proof (B_new BO (disk_store BO) sum_alg env1 2 leaves8 fs_empty) as HB0.
  destruct (mt_new BO (disk_store BO) sum_alg env1 2 leaves8 fs_empty) as [[t0| | |] f0]; [|discriminate K3|discriminate K3|discriminate K3].
  destruct (builder_full BO BL sum_alg sum_laws env1 2 (disk_store BO) true (bs_disk BO) (map (h_leaf sum_alg) leaves8) _ 3 _ arity_2 ltac:(split; [vm_compute; lia|reflexivity]) HB0 ltac:(lia) eq_refl) as (t1 & f3 & els & Ht & HF).
  injection Ht as <- <-. pose proof (FullTree_root _ _ _ _ _ _ _ _ arity_2 HF) as HM0.
  pose proof (MRoot_fun _ _ _ _ _ HM _ HM0) as Hr. unfold root_of in K2, K3. rewrite Hr in K2. rewrite K2 in K3. discriminate K3.
Qed.

(* the theorems on concrete kill points: inside a copy of leaves, and while the first
   row is hashed *)
Definition file_vals (f : fs) : option (list nat) := option_map (map (fun x => N.to_nat (Byte.to_N x))) (fs_file f (cfg_path cfg0)).
Definition left_vals (kp : kill) := file_vals (snd (killed_build kp)).
Definition second_worker : list (nat * nat) := [(1, 0); (1, 0); (1, 3); (1, 2); (1, 1); (1, 0); (1, 1)].
Example C71_case :
  left_vals K_create = Some [] /\ root_of (tried_again K_create) = None /\
  (* two of the second block's three leaves *)
  left_vals (K_copy 3 2) = Some [21; 19; 22; 19; 23; 0; 0; 0; 0; 0; 0; 0; 0; 0; 0] /\ root_of (tried_again (K_copy 3 2)) = Some 0 /\
  (* no block starts at element 4: the build is not killed *)
  left_vals (K_copy 4 2) = Some [21; 19; 22; 19; 23; 27; 20; 24; 219; 236; 10; 207; 37; 220; 190] /\
  (* the second worker of the first row has written its second node *)
  left_vals (K_layer 0 second_worker) = Some [21; 19; 22; 19; 23; 27; 20; 24; 0; 0; 0; 207; 0; 0; 0] /\
  root_of (tried_again (K_layer 0 second_worker)) = Some 0 /\
  left_vals (K_layer 2 []) = Some [21; 19; 22; 19; 23; 27; 20; 24; 219; 236; 10; 207; 37; 220; 0] /\
  root_of (from_byte_slice_with_config BO (disk_store BO) sum_alg env1 2 (encode BO leaves8) cfg0 (snd (killed_build (K_layer 2 [])))) = None /\
  root_of (mt_new_with_config BO (disk_store BO) sum_alg env1 2 leaves8 cfg0 (snd (mt_delete (disk_store BO) cfg0 (snd (killed_build (K_layer 2 [])))))) = Some 190.
Proof. vm_compute. repeat split. Qed.

Print Assumptions C71_left.
Print Assumptions C71_create_retry_partial.
Print Assumptions C71_bytes_retry_partial.
Print Assumptions C71_retry_believes.
Print Assumptions C71_recover.
Print Assumptions C71_retry_refuted.
