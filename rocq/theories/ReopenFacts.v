(* Opening the file of a finished or unfinished DiskStore or MmapStore tree again. *)
From Coq Require Import String List Arith Bool Lia Init.Byte ZifyBool ZifyNat.
From Verif Require Import Base Element Hash Sizing FS Sched Store VecStore DiskStore MmapStore LevelCache ProofModel Tree ListFacts Spec SpecFacts SizingFacts SchedFacts StoreLaws RowFacts ChunkFacts BuildFacts BuildLoop StoreSpec FileFacts VecFacts MapLayer DiskFacts MmapFacts PopFacts TreeFacts ProofSpec ProofFacts TreeProofs TreeObs Builders BuiltFacts FrameFacts CompactTrees.
Import ListNotations.

(* the file-backed stores; [rw]: opening needs write permission *)
Inductive file_store {E} (EO : ElementOps E) : StoreOps E -> bool -> bool -> Prop :=
| fst_disk : file_store EO (disk_store EO) true false
| fst_mmap : file_store EO (mmap_store_ops EO) false true.

Lemma file_store_basic {E} (EO : ElementOps E) SO np rw : file_store EO SO np rw -> basic_store EO SO np.
Proof. intros []; constructor. Qed.

(* the file at path p can be written *)
Definition writable (f : fs) (p : string) : Prop := forall i, fs_dir f p = Some i -> i_ro (fs_ino f i) = false.

Lemma geom_gt1 b d : 1 <= d -> b ^ d < geom b d.
Proof. intros H. destruct d; [lia|]. cbn [geom]. pose proof (geom_pos b d). lia. Qed.

Lemma with_store_err {E} (SO : StoreOps E) {X Y} (m : SM (st_t SO * fs) X) (k : X * st_t SO -> SM fs Y) s f e :
  m (s, f) = (Err e, (s, f)) -> sbind (with_store s m) k f = (Err e, f).
Proof. intros H. unfold sbind, with_store. rewrite H. reflexivity. Qed.

Lemma with_store_same {T X} (m : SM (T * fs) X) (s : T) f x :
  m (s, f) = (Ok x, (s, f)) -> with_store s m f = (Ok (x, s), f).
Proof. intros H. unfold with_store. rewrite H. reflexivity. Qed.
Lemma with_store_same_expect {T X} (m : SM (T * fs) X) msg (s : T) f x :
  m (s, f) = (Ok x, (s, f)) -> with_store s (sexpect m msg) f = (Ok (x, s), f).
Proof. intros H. apply with_store_same. unfold sexpect. rewrite H. reflexivity. Qed.

Section Reopen.
  Context {E : Type} (EO : ElementOps E) (EL : ElementLaws EO) (A : AlgOps E) (AL : AlgLaws A).
  Variables (en : env) (b : nat).
  Hypothesis Hb : arity b.
  Hypothesis Hch : chunk_ok en b.
  Local Notation bl := (e_byte_len EO).
  Local Notation DO := (disk_store EO).
  Local Notation MO := (mmap_store_ops EO).

  Lemma built_file SO np rw c leaves f t f1 : file_store EO SO np rw -> fs_dir f (cfg_path c) = None ->
    cfg_builder EO SO A en b c leaves f (Ok t, f1) ->
    exists d els, 1 <= d /\ List.length leaves = b ^ d /\ Layout (h_node A) b d leaves els /\
      FullTree SO A b t f1 d leaves els /\ fs_file f1 (cfg_path c) = Some (encode EO els) /\ writable f1 (cfg_path c).
  Proof.
    intros HS Hp HB. destruct HS.
    - destruct (cfg_builder_built EO EL DO disk_owner disk_W (disk_rep EO) true (disk_laws EO EL) A AL en b Hb Hch c leaves f t f1 Hp HB)
        as (d & Hd & Hl & HBt).
      destruct (built_at DO disk_owner disk_W (disk_rep EO) A b f _ d leaves t f1 HBt) as (s & els & HT & HW & HR & HC).
      pose proof (ta_layout _ _ _ _ _ _ _ _ _ _ HT) as HL. pose proof HL as (L1 & L2 & L3).
      destruct HC as (_ & _ & _ & _ & C5 & C6). specialize (C5 (cfg_path c) eq_refl). cbn [disk_owner] in C5.
      exists d, els. split; [exact Hd|]. split; [exact Hl|]. split; [exact HL|].
      split; [exact (TreeAt_Full EO DO disk_owner disk_W (disk_rep EO) true (disk_laws EO EL) A b Hb t s f1 d leaves els HT)|].
      destruct HR as (_ & _ & _ & HD). cbn [fst snd] in HD.
      split.
      + unfold fs_file. unfold disk_owner in C5. rewrite C5. f_equal. rewrite <- L2 in HD. exact (DRep_full EO els _ HD).
      + intros i Hi. unfold disk_owner in C5. rewrite C5 in Hi. inversion Hi. apply C6. unfold disk_owner. congruence.
    - destruct (cfg_builder_built EO EL MO mmap_owner mmap_W (mmap_rep EO) false (mmap_laws EO EL) A AL en b Hb Hch c leaves f t f1 Hp HB)
        as (d & Hd & Hl & HBt).
      destruct (built_at MO mmap_owner mmap_W (mmap_rep EO) A b f _ d leaves t f1 HBt) as (s & els & HT & HW & HR & HC).
      pose proof (ta_layout _ _ _ _ _ _ _ _ _ _ HT) as HL. pose proof HL as (L1 & L2 & L3).
      destruct HC as (_ & _ & _ & _ & C5 & C6). specialize (C5 (cfg_path c) eq_refl).
      exists d, els. split; [exact Hd|]. split; [exact Hl|]. split; [exact HL|].
      split; [exact (TreeAt_Full EO MO mmap_owner mmap_W (mmap_rep EO) false (mmap_laws EO EL) A b Hb t s f1 d leaves els HT)|].
      destruct HR as (_ & _ & _ & HD). cbn [fst snd] in HD.
      split.
      + unfold fs_file. unfold mmap_owner in C5. rewrite C5. f_equal. rewrite <- L2 in HD. exact (DRep_full EO els _ HD).
      + intros i Hi. unfold mmap_owner in C5. rewrite C5 in Hi. inversion Hi. apply C6. unfold mmap_owner. congruence.
  Qed.

  (* what new_from_disk does with any file *)
  Lemma disk_open f c i size : fs_dir f (cfg_path c) = Some i ->
    (List.length (fs_data f i) = size * bl -> exists s, disk_new_from_disk EO size b c f = (Ok s, f) /\ ds_loaded s = true /\
       ds_len s = size /\ ds_size s = size * bl /\ h_ino (ds_file s) = i) /\
    (List.length (fs_data f i) <> size * bl -> exists e, disk_new_from_disk EO size b c f = (Err e, f)).
  Proof.
    intros Hi. unfold disk_new_from_disk, disk_new_from_disk_with_path, fs_exists, fs_open_rw, fs_open_ro. rewrite Hi.
    cbn [ensure rbind]. unfold fs_size.
    destruct (i_ro (fs_ino f i)); cbn [rbind h_ino]; split; intros H.
    - replace (_ =? _) with true by lia. cbn [ensure rbind]. eexists. split; [reflexivity|]. cbn. auto.
    - replace (_ =? _) with false by lia. cbn [ensure rbind]. eexists. reflexivity.
    - replace (_ =? _) with true by lia. cbn [ensure rbind]. eexists. split; [reflexivity|]. cbn. auto.
    - replace (_ =? _) with false by lia. cbn [ensure rbind]. eexists. reflexivity.
  Qed.

  Lemma mmap_open f c i size : fs_dir f (cfg_path c) = Some i ->
    (exists s, mmap_new_from_disk EO size b c f = (Ok s, f) /\ List.length (fs_data f i) = size * bl /\ mmap_rep EO size size (fun _ => None) (s, f) /\
       (h_ino (mm_file s) = i /\ mmap_W s)) \/
    (exists r, mmap_new_from_disk EO size b c f = (r, f) /\ failed false r /\
       (i_ro (fs_ino f i) = true \/ List.length (fs_data f i) <> size * bl)).
  Proof.
    intros Hi. unfold mmap_new_from_disk, fs_exists, fs_open_rw. rewrite Hi. cbn [ensure rbind].
    destruct (i_ro (fs_ino f i)) eqn:Hro.
    - right. eexists. split; [reflexivity|]. split; [reflexivity|]. auto.
    - cbn [rbind h_ino]. unfold fs_size. cbn [h_ino]. destruct (List.length (fs_data f i) =? size * bl) eqn:G; cbn [ensure rbind fs_map_mut h_write].
      + left. eexists. split; [reflexivity|]. split; [lia|]. split; [|split; reflexivity].
        apply Nat.eqb_eq in G. split; [reflexivity|]. split; [lia|]. cbn [fst snd mm_map mm_file h_ino]. split; [congruence|].
        split; [exact G|discriminate].
      + right. eexists. split; [reflexivity|]. split; [exact I|]. right. lia.
  Qed.

  Lemma file_inv f p data : fs_file f p = Some data -> exists i, fs_dir f p = Some i /\ fs_data f i = data.
  Proof. unfold fs_file. destruct (fs_dir f p) as [i|]; [|discriminate]. intros H. inversion H. eauto. Qed.

  Lemma disk_open_full f c els : fs_file f (cfg_path c) = Some (encode EO els) ->
    exists s, disk_new_from_disk EO (List.length els) b c f = (Ok s, f) /\ ds_loaded s = true /\
      disk_rep EO (List.length els) (List.length els) (nth_error els) (s, f).
  Proof.
    intros H. apply file_inv in H. destruct H as (i & Hi & Hd).
    destruct (disk_open f c i (List.length els) Hi) as [H _]. destruct H as (s & H1 & H2 & H3 & H4 & H5).
    - rewrite Hd. apply encode_length. exact EL.
    - exists s. split; [exact H1|]. split; [exact H2|]. split; [exact H3|]. split; [lia|]. split; [exact H4|].
      cbn [fst snd]. rewrite H5, Hd. apply DRep_encode. exact EL.
  Qed.

  Lemma mmap_open_full f c els : fs_file f (cfg_path c) = Some (encode EO els) -> writable f (cfg_path c) ->
    exists s, mmap_new_from_disk EO (List.length els) b c f = (Ok s, f) /\
      mmap_rep EO (List.length els) (List.length els) (nth_error els) (s, f).
  Proof.
    intros H Hw. apply file_inv in H. destruct H as (i & Hi & Hd).
    destruct (mmap_open f c i (List.length els) Hi) as [(s & H1 & H2 & H3 & H4 & _)|(r & _ & _ & [H|H])].
    - exists s. split; [exact H1|]. destruct H3 as (R1 & R2 & R3 & R4). split; [exact R1|]. split; [lia|]. split; [exact R3|].
      cbn [fst snd] in *. rewrite H4, Hd. apply DRep_encode. exact EL.
    - rewrite (Hw i Hi) in H. discriminate.
    - exfalso. apply H. rewrite Hd. apply encode_length. exact EL.
  Qed.

  Lemma file_reopen SO np rw f c d leaves els : file_store EO SO np rw -> 1 <= d -> Layout (h_node A) b d leaves els ->
    fs_file f (cfg_path c) = Some (encode EO els) -> (rw = true -> writable f (cfg_path c)) ->
    exists s t, st_new_from_disk SO (geom b d) b c f = (Ok s, f) /\
      from_data_store SO b 0 0 s (b ^ d) f = (Ok t, f) /\ FullTree SO A b t f d leaves els.
  Proof.
    intros HS Hd HL Hf Hw. pose proof HL as (_ & L2 & _). destruct HS.
    - destruct (disk_open_full f c els Hf) as (s & H1 & H2 & H3). rewrite L2 in *.
      destruct (from_data_store_ok EO DO disk_owner disk_W (disk_rep EO) true (disk_laws EO EL) A b Hb s f d leaves els (geom b d) Hd HL H3) as (t & T1 & T2).
      exists s, t. split; [exact H1|]. split; [exact T1|].
      exact (TreeAt_Full EO DO disk_owner disk_W (disk_rep EO) true (disk_laws EO EL) A b Hb t s f d leaves els T2).
    - destruct (mmap_open_full f c els Hf (Hw eq_refl)) as (s & H1 & H3). rewrite L2 in *.
      destruct (from_data_store_ok EO MO mmap_owner mmap_W (mmap_rep EO) false (mmap_laws EO EL) A b Hb s f d leaves els (geom b d) Hd HL H3) as (t & T1 & T2).
      exists s, t. split; [exact H1|]. split; [exact T1|].
      exact (TreeAt_Full EO MO mmap_owner mmap_W (mmap_rep EO) false (mmap_laws EO EL) A b Hb t s f d leaves els T2).
  Qed.

  (* ---- calling a with_config constructor on a file that is already there ---- *)
  Lemma disk_newc_existing f c i size : fs_dir f (cfg_path c) = Some i ->
    disk_new_with_config EO size b c f = disk_new_from_disk EO size b c f.
  Proof. intros H. unfold disk_new_with_config, sbind, sget, fs_exists. rewrite H. reflexivity. Qed.
  Lemma mmap_newc_existing f c i size : fs_dir f (cfg_path c) = Some i ->
    mmap_new_with_config EO size b c f = mmap_new_from_disk EO size b c f.
  Proof. intros H. unfold mmap_new_with_config, sbind, sget, fs_exists. rewrite H. reflexivity. Qed.

  (* the constructors that look at a loaded file instead of their data, called for n leaves *)
  Inductive again (c : StoreConfig) (n : nat) (f : fs) : res (mtree (st_t DO) E) * fs -> Prop :=
  | Ag_iter items : again c n f (try_from_iter_with_config EO DO A en b (Some n) items c f)
  | Ag_new xs : List.length xs = n -> again c n f (mt_new_with_config EO DO A en b xs c f)
  | Ag_data xs : List.length xs = n -> again c n f (from_data_with_config EO DO A en b xs c f)
  | Ag_par xs : List.length xs = n -> again c n f (from_par_iter_with_config EO DO A en b xs c f)
  | Ag_slice bytes d : n = b ^ d -> List.length bytes = geom b d * bl ->
      again c n f (from_tree_slice_with_config EO DO b 0 0 bytes n c f).

  Lemma again_ok f c d leaves els r : 1 <= d -> Layout (h_node A) b d leaves els ->
    fs_file f (cfg_path c) = Some (encode EO els) -> again c (b ^ d) f r ->
    exists t, r = (Ok t, f) /\ FullTree DO A b t f d leaves els.
  Proof.
    intros Hd HL Hf HA. pose proof HL as (_ & L2 & _). pose proof (geom_pos b d) as Hg. pose proof (bl_pos EO EL) as Hbl.
    pose proof (file_inv _ _ _ Hf) as (i & Hi & _).
    destruct (disk_open_full f c els Hf) as (s & H1 & H2 & H3). rewrite L2 in *.
    rewrite <- (disk_newc_existing f c i (geom b d) Hi) in H1.
    destruct (nth_error_ex els (geom b d - 1) ltac:(lia)) as [root Hroot].
    assert (Hlt : geom b d - 1 < geom b d) by lia.
    assert (Hlast : sreads (store_last DO s) f = (Ok root, f)).
    { unfold sreads, store_last. pose proof (proj1 H3) as G. cbn [fst] in G. cbn [st_len disk_store]. unfold disk_store. cbn [st_len]. rewrite G.
      rewrite checked_sub_ok by lia. cbn [rbind]. f_equal.
      exact (cl_read_at _ _ _ _ _ _ _ _ _ _ (sl_core _ _ _ _ _ _ (disk_laws EO EL)) _ _ _ _ _ _ H3 Hlt Hroot). }
    assert (HT : FullTree DO A b (mk_base DO s (b ^ d) (geom b d) (S d) root) f d leaves els).
    { apply (TreeAt_Full EO DO disk_owner disk_W (disk_rep EO) true (disk_laws EO EL) A b Hb _ s f d leaves els).
      constructor; auto. exists (geom b d). exact H3. }
    assert (HI : forall items, try_from_iter_with_config EO DO A en b (Some (b ^ d)) items c f = (Ok (mk_base DO s (b ^ d) (geom b d) (S d) root), f)).
    { intros items. unfold try_from_iter_with_config. rewrite (sbind_ok _ _ f (b ^ d) f) by reflexivity.
      rewrite leafs_checks_full by auto. rewrite (sbind_ok _ _ f (geom b d, S d) f) by reflexivity.
      etransitivity; [exact (sbind_ok _ _ _ _ _ H1)|]. cbn [st_loaded_from_disk disk_store]. rewrite H2.
      rewrite (sbind_ok _ _ _ _ _ Hlast). reflexivity. }
    remember (b ^ d) as n eqn:Hn. destruct HA as [items|xs Hx|xs Hx|xs Hx|bytes d0 Hd0 Hx].
    - eexists. split; [apply HI|exact HT].
    - unfold mt_new_with_config. rewrite Hx. eexists. split; [apply HI|exact HT].
    - unfold from_data_with_config. rewrite Hx. eexists. split; [apply HI|exact HT].
    - eexists. split; [|exact HT]. unfold from_par_iter_with_config. cbv zeta. rewrite Hx, Hn.
      rewrite leafs_checks_full by auto. rewrite (sbind_ok _ _ f (geom b d, S d) f) by reflexivity.
      etransitivity; [exact (sbind_ok _ _ _ _ _ H1)|]. cbn [st_loaded_from_disk disk_store]. rewrite H2.
      rewrite (sbind_ok _ _ _ _ _ Hlast). reflexivity.
    - assert (d0 = d) by (apply (same_leaves_pow b); [auto|congruence]). subst d0.
      eexists. split; [|exact HT]. unfold from_tree_slice_with_config. rewrite Hn. unfold tree_slice_checks. change (0 =? 0) with true. cbn [ensure rbind].
      rewrite get_merkle_tree_len_full by auto. cbn [rbind]. rewrite Hx, Nat.div_mul, Nat.eqb_refl by lia. cbn [ensure rbind].
      rewrite size_valid_full by auto. cbn [rbind ensure]. rewrite (sbind_ok _ _ f (geom b d) f) by reflexivity.
      assert (Hs : st_new_from_slice_with_config DO (geom b d) b bytes c f = (Ok s, f)).
      { cbn [st_new_from_slice_with_config disk_store]. unfold disk_new_from_slice_with_config. rewrite Hx, Nat.mod_mul, Nat.eqb_refl by lia.
        cbn [ensure]. rewrite (sbind_ok _ _ f tt f) by reflexivity. rewrite (sbind_ok _ _ _ _ _ H1), H2. reflexivity. }
      rewrite (sbind_ok _ _ _ _ _ Hs). rewrite (sbind_ok _ _ _ _ _ Hlast). rewrite row_count_full by auto. reflexivity.
  Qed.

  (* the byte-slice constructor builds over the loaded file and finds it full *)
  Lemma disk_bytes_existing f c i els : fs_dir f (cfg_path c) = Some i ->
    exists e, from_byte_slice_with_config EO DO A en b (encode EO els) c f = (Err e, f).
  Proof.
    intros Hi. pose proof (bl_pos EO EL) as Hbl. unfold from_byte_slice_with_config.
    rewrite encode_length, Nat.mod_mul, Nat.eqb_refl, Nat.div_mul by (auto; lia).
    unfold ensure at 1. rewrite (sbind_ok _ _ f tt f) by reflexivity.
    destruct (leafs_checks_cases b Hb (List.length els)) as [[e He]|(m & q & Hm & Hmb & Hq & Hn & Hc)].
    - rewrite He. eexists. reflexivity.
    - rewrite Hc. rewrite (sbind_ok _ _ f (m * geom b q, S q) f) by reflexivity.
      assert (Hnew : forall r, disk_new_from_disk EO (m * geom b q) b c f = (r, f) ->
        st_new_from_slice_with_config DO (m * geom b q) b (encode EO els) c f =
        match r with Ok s => if ds_loaded s then (Ok s, f) else disk_fill EO (encode EO els) s f | Err e => (Err e, f) | Panic e => (Panic e, f) | Diverge => (Diverge, f) end).
      { intros r Hr. cbn [st_new_from_slice_with_config disk_store]. unfold disk_new_from_slice_with_config.
        rewrite encode_length, Nat.mod_mul, Nat.eqb_refl by (auto; lia). cbn [ensure]. rewrite (sbind_ok _ _ f tt f) by reflexivity.
        unfold sbind. rewrite (disk_newc_existing f c i _ Hi), Hr. destruct r as [s| | |]; auto. destruct (ds_loaded s); reflexivity. }
      destruct (disk_open f c i (m * geom b q) Hi) as [O1 O2].
      destruct (Nat.eq_dec (List.length (fs_data f i)) (m * geom b q * bl)) as [G|G].
      + destruct (O1 G) as (s & S1 & S2 & S3 & S4 & S5). specialize (Hnew _ S1). cbn beta iota in Hnew. rewrite S2 in Hnew.
        rewrite (sbind_ok _ _ _ _ _ Hnew).
        destruct (sl_build_len _ _ _ _ _ _ (disk_laws EO EL) en A b (List.length els) (S q) (Some c) (s, f) Hb) as [e He].
        { cbn [fst]. change (st_len DO s) with (ds_len s). rewrite S3, Hn. pose proof (geom_gt1 b q Hq). intros X. apply Nat.mul_cancel_l in X; lia. }
        exists e. exact (with_store_err DO _ _ _ _ _ He).
      + destruct (O2 G) as [e He]. specialize (Hnew _ He). cbn beta iota in Hnew. unfold sbind at 1. rewrite Hnew. eexists. reflexivity.
  Qed.

  (* a file of the wrong length is refused *)
  Lemma again_wrong_size f c d i r : 1 <= d -> fs_dir f (cfg_path c) = Some i -> List.length (fs_data f i) <> geom b d * bl ->
    again c (b ^ d) f r -> exists e, r = (Err e, f).
  Proof.
    intros Hd Hi Hs HA. pose proof (bl_pos EO EL) as Hbl.
    destruct (disk_open f c i (geom b d) Hi) as [_ O2]. destruct (O2 Hs) as [e He]. exists e.
    rewrite <- (disk_newc_existing f c i (geom b d) Hi) in He.
    assert (HI : forall items, try_from_iter_with_config EO DO A en b (Some (b ^ d)) items c f = (Err e, f)).
    { intros items. unfold try_from_iter_with_config. rewrite (sbind_ok _ _ f (b ^ d) f) by reflexivity.
      rewrite leafs_checks_full by auto. rewrite (sbind_ok _ _ f (geom b d, S d) f) by reflexivity.
      unfold sbind at 1. cbn [st_new_with_config disk_store]. rewrite He. reflexivity. }
    remember (b ^ d) as n eqn:Hn. destruct HA as [items|xs Hx|xs Hx|xs Hx|bytes d0 Hd0 Hx].
    - apply HI.
    - unfold mt_new_with_config. rewrite Hx. apply HI.
    - unfold from_data_with_config. rewrite Hx. apply HI.
    - unfold from_par_iter_with_config. cbv zeta. rewrite Hx, Hn.
      rewrite leafs_checks_full by auto. rewrite (sbind_ok _ _ f (geom b d, S d) f) by reflexivity.
      unfold sbind at 1. cbn [st_new_with_config disk_store]. rewrite He. reflexivity.
    - assert (d0 = d) by (apply (same_leaves_pow b); [auto|congruence]). subst d0.
      unfold from_tree_slice_with_config. rewrite Hn. unfold tree_slice_checks. change (0 =? 0) with true. cbn [ensure rbind].
      rewrite get_merkle_tree_len_full by auto. cbn [rbind]. rewrite Hx, Nat.div_mul, Nat.eqb_refl by lia. cbn [ensure rbind].
      rewrite size_valid_full by auto. cbn [rbind ensure]. rewrite (sbind_ok _ _ f (geom b d) f) by reflexivity.
      unfold sbind at 1. cbn [st_new_from_slice_with_config disk_store]. unfold disk_new_from_slice_with_config. rewrite Hx, Nat.mod_mul, Nat.eqb_refl by lia.
      cbn [ensure]. rewrite (sbind_ok _ _ f tt f) by reflexivity. unfold sbind. rewrite He. reflexivity.
  Qed.

  (* ---- MmapStore: a file that is already there is never taken for a finished tree ---- *)
  Lemma mmap_iter_existing n items c f i : fs_dir f (cfg_path c) = Some i ->
    forall t f', try_from_iter_with_config EO MO A en b (Some n) items c f <> (Ok t, f').
  Proof.
    intros Hi t f'. unfold try_from_iter_with_config. rewrite (sbind_ok _ _ f n f) by reflexivity.
    destruct (leafs_checks_cases b Hb n) as [[e He]|(m & q & Hm & Hmb & Hq & Hn & Hc)]; [rewrite He; discriminate|].
    rewrite Hc. rewrite (sbind_ok _ _ f (m * geom b q, S q) f) by reflexivity.
    assert (Hsz : 0 < m * geom b q) by (pose proof (geom_pos b q); apply Nat.mul_pos_pos; lia).
    unfold sbind at 1. cbn [st_new_with_config mmap_store_ops]. rewrite (mmap_newc_existing f c i _ Hi).
    destruct (mmap_open f c i (m * geom b q) Hi) as [(s & S1 & S2 & S3 & S4 & S5)|(r & R1 & R2 & _)].
    - rewrite S1. cbn [st_loaded_from_disk mmap_store_ops]. pose proof (proj1 S3) as Hl. cbn [fst] in Hl.
      assert (HP : populate_data EO MO A en items (s, f) = (Ok tt, (s, f))).
      { unfold populate_data. rewrite (sbind_ok _ _ (s, f) (s, f) (s, f)) by reflexivity. cbn [fst].
        change (st_is_empty MO s) with (mm_len s =? 0). rewrite Hl. replace (_ =? 0) with false by lia. reflexivity. }
      rewrite (sbind_ok _ _ f (tt, s) f) by exact (with_store_same_expect _ _ _ _ _ HP).
      destruct (sl_build_len _ _ _ _ _ _ (mmap_laws EO EL) en A b n (S q) (Some c) (s, f) Hb) as [e He].
      { cbn [fst]. change (st_len MO s) with (mm_len s). rewrite Hl, Hn. pose proof (geom_gt1 b q Hq). intros X. apply Nat.mul_cancel_l in X; lia. }
      intros X. pose proof (eq_trans (eq_sym (with_store_err MO _ _ _ _ _ He)) X) as Y. discriminate Y.
    - rewrite R1. destruct r; cbn in R2; try contradiction; discriminate.
  Qed.

  Lemma mmap_par_existing xs c f i : fs_dir f (cfg_path c) = Some i ->
    forall t f', from_par_iter_with_config EO MO A en b xs c f <> (Ok t, f').
  Proof.
    intros Hi t f'. unfold from_par_iter_with_config. cbv zeta. remember (List.length xs) as n eqn:Hxs.
    destruct (leafs_checks_cases b Hb n) as [[e He]|(m & q & Hm & Hmb & Hq & Hn & Hc)]; [rewrite He; discriminate|].
    rewrite Hc. rewrite (sbind_ok _ _ f (m * geom b q, S q) f) by reflexivity.
    assert (Hsz : 0 < m * geom b q) by (pose proof (geom_pos b q); apply Nat.mul_pos_pos; lia).
    unfold sbind at 1. cbn [st_new_with_config mmap_store_ops]. rewrite (mmap_newc_existing f c i _ Hi).
    destruct (mmap_open f c i (m * geom b q) Hi) as [(s & S1 & S2 & S3 & S4 & S5)|(r & R1 & R2 & _)].
    - rewrite S1. cbn [st_loaded_from_disk mmap_store_ops]. pose proof (proj1 S3) as Hl. cbn [fst] in Hl.
      assert (HP : populate_data_par EO MO A en xs (s, f) = (Ok tt, (s, f))).
      { unfold populate_data_par. rewrite (sbind_ok _ _ (s, f) (s, f) (s, f)) by reflexivity. cbn [fst].
        change (st_is_empty MO s) with (mm_len s =? 0). rewrite Hl. replace (_ =? 0) with false by lia. reflexivity. }
      rewrite (sbind_ok _ _ f (tt, s) f) by exact (with_store_same _ _ _ _ HP).
      destruct (sl_build_len _ _ _ _ _ _ (mmap_laws EO EL) en A b n (S q) (Some c) (s, f) Hb) as [e He].
      { cbn [fst]. change (st_len MO s) with (mm_len s). rewrite Hl, Hn. pose proof (geom_gt1 b q Hq). intros X. apply Nat.mul_cancel_l in X; lia. }
      intros X. pose proof (eq_trans (eq_sym (with_store_err MO _ _ _ _ _ He)) X) as Y. discriminate Y.
    - rewrite R1. destruct r; cbn in R2; try contradiction; discriminate.
  Qed.

  Lemma mmap_bytes_existing els c f i t f' : fs_dir f (cfg_path c) = Some i ->
    from_byte_slice_with_config EO MO A en b (encode EO els) c f = (Ok t, f') ->
    exists d rows, List.length els = b ^ d /\ FullTree MO A b t f' d els rows.
  Proof.
    intros Hi. pose proof (bl_pos EO EL) as Hbl. unfold from_byte_slice_with_config.
    rewrite encode_length, Nat.mod_mul, Nat.eqb_refl, Nat.div_mul by (auto; lia).
    unfold ensure at 1. rewrite (sbind_ok _ _ f tt f) by reflexivity.
    destruct (leafs_checks_cases b Hb (List.length els)) as [[e He]|(m & q & Hm & Hmb & Hq & Hn & Hc)]; [rewrite He; discriminate|].
    rewrite Hc. rewrite (sbind_ok _ _ f (m * geom b q, S q) f) by reflexivity.
    destruct (mmap_open f c i (m * geom b q) Hi) as [(s & S1 & S2 & S3 & S4 & S5)|(r & R1 & R2 & _)].
    - destruct (mmap_fill_ok EO EL (m * geom b q) els s f _ S3) as (s' & f1 & F1 & F2 & (F3 & F5) & F4); [rewrite Hn; apply Nat.mul_le_mono_l, geom_gt|].
      assert (Hs : st_new_from_slice_with_config MO (m * geom b q) b (encode EO els) c f = (Ok s', f1)).
      { cbn [st_new_from_slice_with_config mmap_store_ops]. unfold mmap_new_from_slice_with_config.
        rewrite encode_length, Nat.mod_mul, Nat.eqb_refl by (auto; lia). cbn [ensure]. rewrite (sbind_ok _ _ f tt f) by reflexivity.
        unfold sbind. rewrite (mmap_newc_existing f c i _ Hi), S1. exact F1. }
      rewrite (sbind_ok _ _ _ _ _ Hs). rewrite Hn in F2 |- *. intros HB.
      destruct (Nat.eq_dec m 1) as [->|Hm1].
      + rewrite !Nat.mul_1_l in *.
        destruct (finish_ok EO MO mmap_owner mmap_W (mmap_rep EO) false (mmap_laws EO EL) A b Hb en Hch q els (nth_error els) s' f1 (Some c) Hq Hn ltac:(unfold mmap_W; cbn [fst]; rewrite F5; exact S5) F2 ltac:(intros k Hk; reflexivity))
          as (root & s2 & f2 & B1 & B2 & _).
        rewrite (sbind_ok _ _ _ _ _ B1) in HB. inversion HB; subst. eexists q, _. split; [reflexivity|].
        eapply (TreeAt_Full EO MO mmap_owner mmap_W (mmap_rep EO) false (mmap_laws EO EL) A b Hb); eauto.
      + exfalso. destruct (build_bad_with EO MO mmap_owner mmap_W (mmap_rep EO) false (mmap_laws EO EL) A b Hb en Hch m q els (nth_error els) s' f1 (Some c) ltac:(lia) Hq Hn ltac:(unfold mmap_W; cbn [fst]; rewrite F5; exact S5) F2 ltac:(intros k Hk; reflexivity)) as (r & f2 & B1 & B2).
        rewrite B1 in HB. inversion HB; subst. exact B2.
    - unfold sbind at 1. cbn [st_new_from_slice_with_config mmap_store_ops]. unfold mmap_new_from_slice_with_config.
      rewrite encode_length, Nat.mod_mul, Nat.eqb_refl by (auto; lia). cbn [ensure]. rewrite (sbind_ok _ _ f tt f) by reflexivity.
      unfold sbind at 1. rewrite (mmap_newc_existing f c i _ Hi), R1. destruct r; cbn in R2; try contradiction; discriminate.
  Qed.
End Reopen.

(* ---- any store at all that holds the nodes of a tree ---- *)
(* the store object s in file system f holds exactly [els] *)
Definition store_shows {E} (SO : StoreOps E) (s : st_t SO) (f : fs) (els : list E) : Prop :=
  st_len SO s = List.length els /\
  (forall i x, nth_error els i = Some x -> st_read_at SO (s, f) i = Ok x) /\
  (forall i e, i < e -> e <= List.length els -> st_read_range SO (s, f) i e = Ok (sub els i (e - i))).

Section AnyStore.
  Context {E : Type} (EO : ElementOps E) (SO : StoreOps E) (A : AlgOps E) (b : nat).
  Hypothesis Hb : arity b.
  Local Notation T := (st_t SO).

  Lemma shown_full t (s : T) f d leaves els root : 1 <= d -> Layout (h_node A) b d leaves els -> store_shows SO s f els ->
    nth_error els (geom b d - 1) = Some root -> t = mk_base SO s (b ^ d) (geom b d) (S d) root ->
    FullTree SO A b t f d leaves els.
  Proof.
    intros Hd HL (S1 & S2 & S3) Hr ->. pose proof (arity_ge b Hb) as H2. pose proof HL as (L1 & L2 & L3).
    assert (Hlen : mt_len SO (mk_base SO s (b ^ d) (geom b d) (S d) root) = geom b d).
    { unfold mk_base, mt_len. cbn [mt_data]. rewrite S1. exact L2. }
    constructor; cbn [mk_base mt_leafs mt_row_count mt_root mt_data]; auto.
    - lia.
    - intros i Hi. unfold mt_read_at. cbn [mt_read_at_n mk_base mt_data].
      destruct (nth_error_ex els i ltac:(lia)) as [x Hx]. unfold rnth. rewrite Hx. auto.
    - intros i e Hi He. unfold mt_read_range, mt_store. cbn [mk_base mt_data]. replace (i <? e) with true by lia. cbn [ensure rbind].
      apply S3; lia.
    - intros i Hi. unfold gen_proof. cbn [gen_proof_n mk_base mt_data]. unfold gen_proof_base. rewrite Hlen.
      cbn [mk_base mt_leafs mt_row_count mt_root]. replace (i <? b ^ d) with true by lia. cbn [ensure rbind].
      replace (b ^ d =? next_pow2 (b ^ d)) with true by (symmetry; apply next_pow2_eqb', pow2_pow, arity_pow2; auto).
      rewrite (arity_next b Hb), Nat.eqb_refl. cbn [ensure rbind].
      rewrite lemma_len_ok by lia. cbn [rbind]. rewrite checked_sub_ok by lia. cbn [rbind Nat.eqb ensure].
      pose proof (geom_gt b d).
      destruct (nth_error_ex els i ltac:(lia)) as [x Hx]. rewrite (S2 i x Hx). cbn [rbind].
      pose proof (proof_loop_spec b Hb d leaves els _ HL (fun _ idx => st_read_at SO (s, f) idx) i) as PL.
      specialize (PL (fun _ k x Hk => S2 k x Hk) Hi d 0 (S (geom b d)) eq_refl).
      cbn [row_off] in PL. change (b ^ 0) with 1 in PL. rewrite Nat.div_1_r in PL.
      rewrite PL.
      2:{ pose proof (Nat.pow_gt_lin_r b d ltac:(lia)). lia. }
      cbn [rbind]. rewrite <- (lemma_of_eq b d els i x root Hi Hx Hr).
      rewrite (lemma_of_length b Hb d leaves els _ HL i Hi). replace (S d - 1) with d by lia. rewrite Nat.eqb_refl. cbn [ensure rbind].
      fold (path_of b d i). rewrite path_of_length, Nat.eqb_refl. cbn [ensure rbind].
      unfold proof_new. cbn [Nat.eqb andb]. rewrite (lemma_of_length b Hb d leaves els _ HL i Hi).
      replace (2 <? 2 + (b - 1) * d) with true.
      2:{ symmetry. apply Nat.ltb_lt. assert (1 * 1 <= (b - 1) * d) by (apply Nat.mul_le_mono; lia). lia. }
      cbn [ensure rbind]. rewrite path_of_length, lemma_len_ok by lia. cbn [rbind].
      rewrite Nat.add_sub, Nat.eqb_refl. reflexivity.
    - eexists. reflexivity.
  Qed.

  Lemma shown_data_store (s : T) f d leaves els : 1 <= d -> Layout (h_node A) b d leaves els -> store_shows SO s f els ->
    exists t, from_data_store SO b 0 0 s (b ^ d) f = (Ok t, f) /\ FullTree SO A b t f d leaves els.
  Proof.
    intros Hd HL HS. pose proof HS as (S1 & S2 & S3). pose proof HL as (L1 & L2 & L3). pose proof (geom_pos b d) as Hg.
    destruct (nth_error_ex els (geom b d - 1) ltac:(lia)) as [root Hroot].
    exists (mk_base SO s (b ^ d) (geom b d) (S d) root). split; [|eapply shown_full; eauto].
    unfold from_data_store. change (0 =? 0) with true. cbn [ensure].
    rewrite (sbind_ok _ _ f tt f) by reflexivity. rewrite (sbind_ok _ _ f tt f) by reflexivity.
    replace (next_pow2 (b ^ d) =? b ^ d) with true by (symmetry; apply next_pow2_eqb, pow2_pow, arity_pow2; auto).
    rewrite (arity_next b Hb), Nat.eqb_refl. cbn [ensure].
    rewrite (sbind_ok _ _ f tt f) by reflexivity. rewrite (sbind_ok _ _ f tt f) by reflexivity.
    rewrite get_merkle_tree_len_full by auto. rewrite (sbind_ok _ _ f (geom b d) f) by reflexivity.
    rewrite S1, L2, Nat.eqb_refl. cbn [ensure]. rewrite (sbind_ok _ _ f tt f) by reflexivity.
    rewrite size_valid_full by auto. rewrite (sbind_ok _ _ f true f) by reflexivity. cbn [ensure].
    rewrite (sbind_ok _ _ f tt f) by reflexivity.
    assert (Hlast : sreads (store_last SO s) f = (Ok root, f)).
    { unfold sreads, store_last. rewrite S1, L2. rewrite checked_sub_ok by lia. cbn [rbind]. f_equal. auto. }
    rewrite (sbind_ok _ _ _ _ _ Hlast). rewrite row_count_full by auto. reflexivity.
  Qed.

  (* what the checks let through *)
  Lemma tree_slice_checks_inv sub_ top data leafs n : b <> 1 -> tree_slice_checks EO b sub_ top data leafs = Ok n ->
    exists d, 1 <= d /\ leafs = b ^ d /\ n = geom b d /\ List.length data / e_byte_len EO = geom b d.
  Proof.
    intros H1 H. unfold tree_slice_checks in H. destruct (sub_ =? 0); [|discriminate]. destruct (top =? 0); [|discriminate]. cbn [ensure rbind] in H.
    destruct (get_merkle_tree_len leafs b) as [l| | |] eqn:EL; try discriminate. cbn [rbind] in H.
    destruct (l =? List.length data / e_byte_len EO) eqn:G; [|discriminate]. cbn [ensure rbind] in H.
    destruct (size_valid_spec b leafs H1) as (v & V1 & V2). rewrite V1 in H. cbn [rbind] in H.
    destruct v; [|discriminate]. destruct (proj1 V2 eq_refl) as (_ & d & ->). cbn in H. inversion H; subst n.
    pose proof (arity_ge b Hb) as Hb2. destruct d as [|d].
    - destruct (get_merkle_tree_len_small (b ^ 0) b) as [e He]; [cbn; lia|]. congruence.
    - rewrite get_merkle_tree_len_full in EL by (auto; lia). inversion EL; subst l. exists (S d). apply Nat.eqb_eq in G. repeat split; auto; lia.
  Qed.

  Lemma file_slice_mult SO' np rw data s f f' n : file_store EO SO' np rw -> st_new_from_slice SO' n data f = (Ok s, f') ->
    List.length data mod e_byte_len EO = 0.
  Proof.
    intros HS H. destruct HS.
    - cbn [st_new_from_slice disk_store] in H. unfold disk_new_from_slice in H.
      destruct (List.length data mod e_byte_len EO =? 0) eqn:G; [lia|]. discriminate.
    - cbn [st_new_from_slice mmap_store_ops] in H. unfold mmap_new_from_slice in H.
      destruct (List.length data mod e_byte_len EO =? 0) eqn:G; [lia|]. discriminate.
  Qed.
  Lemma file_slicec_mult SO' np rw data s f f' n c : file_store EO SO' np rw -> st_new_from_slice_with_config SO' n b data c f = (Ok s, f') ->
    List.length data mod e_byte_len EO = 0.
  Proof.
    intros HS H. destruct HS.
    - cbn [st_new_from_slice_with_config disk_store] in H. unfold disk_new_from_slice_with_config in H.
      destruct (List.length data mod e_byte_len EO =? 0) eqn:G; [lia|]. discriminate.
    - cbn [st_new_from_slice_with_config mmap_store_ops] in H. unfold mmap_new_from_slice_with_config in H.
      destruct (List.length data mod e_byte_len EO =? 0) eqn:G; [lia|]. discriminate.
  Qed.
  Lemma from_tree_slice_inv sub_ top data leafs f t f' : b <> 1 -> from_tree_slice EO SO b sub_ top data leafs f = (Ok t, f') ->
    exists d s, 1 <= d /\ leafs = b ^ d /\ List.length data / e_byte_len EO = geom b d /\ st_new_from_slice SO (geom b d) data f = (Ok s, f').
  Proof.
    intros H1 H. unfold from_tree_slice in H. apply sbind_inv in H. destruct H as (n & f1 & Hn & H).
    unfold slift in Hn. inversion Hn as [[Hc Hf]]. subst f1. destruct (tree_slice_checks_inv _ _ _ _ _ H1 Hc) as (d & D1 & D2 & D3 & D4). subst n leafs.
    apply sbind_inv in H. destruct H as (s & f1 & Hs & H). apply sbind_inv in H. destruct H as (root & f2 & Hr & H).
    unfold sreads in Hr. inversion Hr; subst f2. inversion H; subst f1. exists d, s. auto.
  Qed.
  Lemma from_tree_slice_wc_inv sub_ top data leafs c f t f' : b <> 1 -> from_tree_slice_with_config EO SO b sub_ top data leafs c f = (Ok t, f') ->
    exists d s, 1 <= d /\ leafs = b ^ d /\ List.length data / e_byte_len EO = geom b d /\ st_new_from_slice_with_config SO (geom b d) b data c f = (Ok s, f').
  Proof.
    intros H1 H. unfold from_tree_slice_with_config in H. apply sbind_inv in H. destruct H as (n & f1 & Hn & H).
    unfold slift in Hn. inversion Hn as [[Hc Hf]]. subst f1. destruct (tree_slice_checks_inv _ _ _ _ _ H1 Hc) as (d & D1 & D2 & D3 & D4). subst n leafs.
    apply sbind_inv in H. destruct H as (s & f1 & Hs & H). apply sbind_inv in H. destruct H as (root & f2 & Hr & H).
    unfold sreads in Hr. inversion Hr; subst f2. inversion H; subst f1. exists d, s. auto.
  Qed.
End AnyStore.

(* VecStore reads whole elements and drops the rest *)
Lemma vec_slice_tail {E} (EO : ElementOps E) (EL : ElementLaws EO) els junk size f : List.length junk < e_byte_len EO ->
  vec_new_from_slice EO size (encode EO els ++ junk) f = vec_new_from_slice EO size (encode EO els) f.
Proof.
  intros Hj. pose proof (bl_pos EO EL) as Hbl. unfold vec_new_from_slice, decode_exact, chunks_exact.
  rewrite app_length, (encode_length EO EL).
  replace ((List.length els * e_byte_len EO + List.length junk) / e_byte_len EO) with (List.length els).
  2:{ rewrite Nat.add_comm, Nat.div_add by lia. rewrite (Nat.div_small _ _ Hj). lia. }
  rewrite Nat.div_mul by lia.
  rewrite firstn_app, (encode_length EO EL), Nat.sub_diag, firstn_O, app_nil_r. reflexivity.
Qed.
