(* C26, sharpened, and C88: the states a file goes through while it is compacted, and what a
   process sees that has the tree open meanwhile. *)
From Coq Require Import String List Arith NArith Bool Lia Init.Byte ZifyBool ZifyNat.
From Verif Require Import Base Element Hash Sizing FS Sched Store VecStore DiskStore MmapStore LevelCache ProofModel Tree ListFacts Spec SpecFacts SizingFacts SchedFacts StoreLaws RowFacts ChunkFacts BuildFacts BuildLoop StoreSpec FileFacts VecFacts MapLayer DiskFacts MmapFacts PopFacts TreeFacts ProofSpec ProofFacts TreeProofs TreeObs Builders BuiltFacts CompoundFacts CompoundTrees CompoundGroups CompoundBuilt CachedFacts CachedTrees LcReads LcTrees CachedBuilt FrameFacts CompactFacts CompactTrees LcBuild LcCreate ReopenFacts ReplicaFacts RebuildFacts Recompact Cases Props_Build Props_Proof Props_Compact Props_Recompact Props_Power Props_Replica Props_PowerCompact Props_Untrusted StopFacts.
Import ListNotations.

(* one piece of m bytes, then stopped *)
Lemma copy_one r w D w0 r0 m f : h_ino r = h_ino w -> h_write w = true -> fs_data f (h_ino w) = D -> w0 <= r0 -> r0 + S m <= List.length D ->
  exists f', copy_loop 1 (fun _ => m) 0 r w r0 w0 0 f = (Diverge, f') /\ fs_data f' (h_ino w) = moved D w0 r0 (S m).
Proof.
  intros Hr Hw Hd Hle Hm. cbn [copy_loop]. rewrite Hr, Hd.
  replace (List.length (sub D r0 (S m)) =? 0) with false by (rewrite sub_length_le by lia; reflexivity).
  unfold sbind, fs_write_all_at. rewrite Hw.
  destruct (List.length (sub D r0 (S m)) =? 0) eqn:Q; [rewrite sub_length_le in Q by lia; discriminate Q|].
  rewrite Hd. eexists. split; [reflexivity|]. rewrite fs_set_data_data, sub_length_le by lia.
  replace (Nat.max (List.length D) (w0 + S m)) with (List.length D) by lia. rewrite resize_same.
  replace (h_ino w =? h_ino w) with true by lia. reflexivity.
Qed.

Section Seen.
  Context {E : Type} (EO : ElementOps E) (EL : ElementLaws EO) (b : nat) (Hb : arity b) (c : StoreConfig) (d v : nat).
  Hypothesis Hd : 1 <= d.
  Hypothesis HR : sc_rows_to_discard c < d.
  Local Notation bl := (e_byte_len EO).
  Local Notation R := (sc_rows_to_discard c).
  Local Notation src := (row_off b d (S R) * bl).
  Local Notation dst := (CompactFacts.start b d v * bl).
  Local Notation cnt := (geom b (d - 1 - R) * bl).
  Variable old : list byte.
  Hypothesis Hold : List.length old = geom b d * bl.

  Lemma moved_between m : m <= cnt ->
    moved old dst src m = firstn (dst + m) (packed EO b c d v old) ++ skipn (dst + m) old.
  Proof.
    intros Hm. pose proof (dst_le EO b c d v Hd HR) as L. pose proof (total EO b c d Hd HR) as T.
    pose proof (packed_len EO b c d v Hd HR old Hold) as PL.
    apply nth_error_ext. intros q. rewrite moved_nth by lia. rewrite nth_error_app, firstn_length, nth_error_firstn, nth_error_skipn.
    replace (Nat.min (dst + m) (List.length (packed EO b c d v old))) with (dst + m) by lia.
    destruct (q <? dst + m) eqn:Q2.
    - destruct (dst <=? q) eqn:Q1; cbn [andb].
      + replace q with (dst + (q - dst)) at 2 by lia. rewrite (packed_nth' EO b c d v Hd HR old Hold). reflexivity.
      + rewrite (packed_nth EO b c d v Hd HR old Hold) by lia. reflexivity.
    - rewrite andb_false_r. f_equal. lia.
  Qed.

  (* the kept rows are untouched at their old places *)
  Lemma moved_kept m j : m <= cnt -> src <= j -> nth_error (moved old dst src m) j = nth_error old j.
  Proof.
    intros Hm Hj. pose proof (moved_keeps EO b Hb c d v Hd HR old m Hold Hm) as [_ K].
    replace j with (src + (j - src)) by lia. rewrite <- !nth_error_skipn, K. reflexivity.
  Qed.

  Variables (s : disk_t) (f : fs) (i : nat).
  Hypothesis Hlen : ds_len s = geom b d.
  Hypothesis Hsize : ds_size s = geom b d * bl.
  Hypothesis Hpath : fs_dir f (cfg_path c) = Some i.
  Hypothesis Hro : i_ro (fs_ino f i) = false.
  Hypothesis HD : fs_data f i = old.

  Lemma not_yet sizes : snd (snd (disk_compact_stopped EO 0 sizes b c v (s, f))) = f.
  Proof.
    assert (HDl : List.length (fs_data f i) = geom b d * bl) by congruence.
    unfold disk_compact_stopped. rewrite (any_prefix EO EL b Hb c d v Hd HR s f i Hlen Hsize Hpath Hro HDl). reflexivity.
  Qed.

  Lemma reach m : m <= cnt -> exists k sizes, let f' := snd (snd (disk_compact_stopped EO k sizes b c v (s, f))) in
    fs_data f' i = moved old dst src m.
  Proof.
    intros Hm. pose proof (dst_le EO b c d v Hd HR) as L. pose proof (total EO b c d Hd HR) as T.
    assert (HDl : List.length (fs_data f i) = geom b d * bl) by congruence.
    destruct m as [|m].
    - exists 0, (fun _ => 0). cbv zeta. unfold disk_compact_stopped. rewrite (any_prefix EO EL b Hb c d v Hd HR s f i Hlen Hsize Hpath Hro HDl).
      unfold rest_of, sbind at 1, on_fs. cbn [copy_loop fst snd]. rewrite moved_0. exact HD.
    - exists 1, (fun _ => m). cbv zeta. unfold disk_compact_stopped. rewrite (any_prefix EO EL b Hb c d v Hd HR s f i Hlen Hsize Hpath Hro HDl).
      destruct (copy_one {| h_ino := i; h_write := false |} {| h_ino := i; h_write := true |} old dst src m f eq_refl eq_refl HD L ltac:(lia)) as (f' & C1 & C2).
      unfold rest_of. unfold sbind at 1. unfold on_fs at 1. cbn [fst snd]. rewrite C1. cbn [fst snd]. exact C2.
  Qed.
End Seen.

(* old: the bytes of the file before, good: those of the finished compaction, keep: where the
   copy starts to write.  The states of the file are exactly: for every p between keep and the
   end of good, good up to p and old from there on; and good. *)
Theorem C26_exact : forall E (EO : ElementOps E) A en b leaves t f1 c v,
  disk_tree EO A en b (cfg_path c) leaves t f1 ->
  sc_rows_to_discard c < mt_row_count t - 1 ->
  let keep := if v =? 1 then List.length leaves * e_byte_len EO else 0 in
  exists old good, fs_file f1 (cfg_path c) = Some old /\
    Props_PowerCompact.compacted EO A b c v (mt_row_count t) leaves good /\ keep <= List.length good /\
    forall D, (exists k sizes, fs_file (stopped EO b k sizes c v t f1) (cfg_path c) = Some D) <->
              D = good \/ exists p, keep <= p <= List.length good /\ D = firstn p good ++ skipn p old.
Proof.
  intros E EO A en b leaves t f1 c v HT HR keep.
  destruct (disk_tree_at _ _ _ _ _ _ _ _ HT) as (d & s & i & els & Hd & Hl & HD).
  pose proof HT as (EL & AL & Hb & Hch & _).
  pose proof (dt_full EO EL A b Hb t s f1 c i d leaves els HD) as HF. pose proof (ft_rows _ _ _ _ _ _ _ _ HF) as Hrows.
  assert (HRd : sc_rows_to_discard c < d) by lia.
  destruct (power_setup EO A en b leaves t f1 c v (fun _ => 0) HT HR) as (d' & i' & P & E1 & _ & _ & _ & _ & E2 & E3 & E4 & E5 & E6 & E7 & _).
  assert (d' = d) by lia. subst d'. pose proof (dt_path _ _ _ _ _ _ _ _ _ _ _ HD) as Hp. assert (i' = i) by congruence. subst i'.
  pose proof (packed_len EO b c d v Hd HRd (fs_data f1 i) E5) as PL.
  assert (Hk : keep = CompactFacts.start b d v * e_byte_len EO).
  { unfold keep, CompactFacts.start. rewrite Hl. destruct (v =? 1); reflexivity. }
  pose proof (dt_rep _ _ _ _ _ _ _ _ _ _ _ HD) as (R1 & _ & R3 & _). cbn [fst snd] in R1, R3.
  exists (fs_data f1 i), P. split; [unfold fs_file; rewrite Hp; reflexivity|]. split; [exact E7|].
  rewrite <- E6 in *. split; [lia|].
  assert (Hst : forall k sizes, stopped EO b k sizes c v t f1 = snd (snd (disk_compact_stopped EO k sizes b c v (s, f1)))).
  { intros k sizes. unfold stopped. destruct (disk_compact_stopped EO k sizes b c v (s, f1)) as [x [s' f']] eqn:Q.
    rewrite (mt_on_store_base (disk_store EO) _ t s f1 x s' f' (ta_data _ _ _ _ _ _ _ _ _ _ (dt_at _ _ _ _ _ _ _ _ _ _ _ HD)) Q). reflexivity. }
  assert (Hdir : forall k sizes, fs_dir (stopped EO b k sizes c v t f1) (cfg_path c) = Some i).
  { intros k sizes. rewrite Hst. pose proof (any_stopped EO EL b Hb c d v Hd HRd s f1 i R1 R3 Hp E4 E5 k sizes) as [(F1 & _) _].
    rewrite F1. exact Hp. }
  intros D. split.
  - intros (k & sizes & H).
    pose proof (any_stopped EO EL b Hb c d v Hd HRd s f1 i R1 R3 Hp E4 E5 k sizes) as [_ HS].
    unfold fs_file in H. rewrite Hdir, Hst in H. assert (D = fs_data (snd (snd (disk_compact_stopped EO k sizes b c v (s, f1)))) i) as -> by congruence.
    destruct HS as [HS|(m & Hm & HS)]; rewrite HS; [left; reflexivity|right].
    exists (CompactFacts.start b d v * e_byte_len EO + m). split; [lia|]. apply (moved_between EO b c d v Hd HRd _ E5 m Hm).
  - intros [->|(p & Hpp & ->)].
    + exists (S (fs_size f1 (ds_file s))), (fun _ => 0).
      pose proof (dt_file _ _ _ _ _ _ _ _ _ _ _ HD) as Hfi.
      destruct (any_compact EO EL b Hb c d v Hd HRd s f1 i R1 R3 Hp E4 E5 (fun _ => 0)) as (s' & f' & C1 & C2 & (C3 & _)).
      pose proof (C26_stopped_late E EO b (fun _ => 0) c v t f1 s (ta_data _ _ _ _ _ _ _ _ _ _ (dt_at _ _ _ _ _ _ _ _ _ _ _ HD)) ltac:(congruence)) as Q1.
      pose proof (f_equal (fun z => snd (snd z)) (mt_compact_eq EO A b t s f1 c i d leaves els HD (fun _ => 0) v _ _ _ C1)) as Q2. cbn [snd] in Q2.
      pose proof (eq_trans Q1 Q2) as Q3. unfold fs_file. rewrite Q3, C3, Hp, C2. reflexivity.
    + destruct (reach EO EL b Hb c d v Hd HRd (fs_data f1 i) E5 s f1 i R1 R3 Hp E4 eq_refl (p - keep) ltac:(lia)) as (k & sizes & H).
      exists k, sizes. unfold fs_file. rewrite Hdir, Hst. cbv zeta in H. rewrite H. f_equal.
      rewrite (moved_between EO b c d v Hd HRd _ E5 (p - keep) ltac:(lia)). f_equal; f_equal; lia.
Qed.

(* ---------------- C88 ---------------- *)
(* A tree over the same file in another process, opened before the compaction began: its own
   copies of the counts and the root, its own handle on the file. *)
Definition other_process {E} (EO : ElementOps E) (path : string) (t : mtree (st_t (disk_store EO)) E) (f1 : fs) (t2 : mtree (st_t (disk_store EO)) E) : Prop :=
  exists s2, mt_data t2 = BaseTree s2 /\ ds_len s2 = mt_len (disk_store EO) t /\ fs_dir f1 path = Some (h_ino (ds_file s2)) /\
    mt_leafs t2 = mt_leafs t /\ mt_row_count t2 = mt_row_count t /\ mt_root t2 = mt_root t.

(* such trees come from new_from_disk and from_data_store, as the README does; t itself is one *)
Theorem C88_opened : forall E (EO : ElementOps E) A en b leaves t f1 c s2 t2,
  disk_tree EO A en b (cfg_path c) leaves t f1 ->
  disk_new_from_disk EO (mt_len (disk_store EO) t) b c f1 = (Ok s2, f1) ->
  from_data_store (disk_store EO) b 0 0 s2 (mt_leafs t) f1 = (Ok t2, f1) ->
  other_process EO (cfg_path c) t f1 t2 /\ other_process EO (cfg_path c) t f1 t.
Proof.
  intros E EO A en b leaves t f1 c s2 t2 HT H1 H2. pose proof HT as (EL & AL & Hb & Hch & _).
  destruct (disk_tree_at _ _ _ _ _ _ _ _ HT) as (d & s & i & els & Hd & Hl & HD).
  pose proof (dt_full EO EL A b Hb t s f1 c i d leaves els HD) as HF.
  pose proof (dt_path _ _ _ _ _ _ _ _ _ _ _ HD) as Hp. pose proof (dt_file _ _ _ _ _ _ _ _ _ _ _ HD) as Hfi.
  pose proof (dt_rep _ _ _ _ _ _ _ _ _ _ _ HD) as HRep. pose proof HRep as (R1 & _ & R3 & R4). cbn [fst snd] in R1, R3, R4.
  pose proof (dt_layout EO A b t s f1 c i d leaves els HD) as HL. pose proof HL as (L1 & L2 & _).
  assert (HE : fs_data f1 i = encode EO els) by (rewrite Hfi, <- L2 in R4; apply DRep_full; auto).
  rewrite (ft_len _ _ _ _ _ _ _ _ HF), (ft_leafs _ _ _ _ _ _ _ _ HF) in *.
  split.
  2:{ exists s. split; [exact (ta_data _ _ _ _ _ _ _ _ _ _ (dt_at _ _ _ _ _ _ _ _ _ _ _ HD))|]. rewrite (ft_len _ _ _ _ _ _ _ _ HF), Hfi. auto. }
  destruct (disk_open EO b f1 c i (geom b d) Hp) as [O1 _]. destruct (O1 ltac:(rewrite HE, encode_length, L2 by auto; reflexivity)) as (s' & G1 & G2 & G3 & G4 & G5).
  rewrite G1 in H1. assert (s' = s2) as -> by congruence.
  destruct (newc_holds EO EL A b Hb (disk_store EO) true false (fst_disk EO) f1 c d leaves els Hd HL) as (s3 & t3 & Q1 & Q2 & Q3).
  { split; [unfold fs_file; rewrite Hp, HE; reflexivity|discriminate]. }
  cbn [st_new_with_config disk_store] in Q1. rewrite (disk_newc_existing EO b f1 c i (geom b d) Hp) in Q1. assert (s3 = s2) as -> by congruence.
  assert (t3 = t2) as -> by congruence. exists s2.
  assert (HB : mt_data t2 = BaseTree s2).
  { clear - H2. unfold from_data_store in H2.
    do 9 (apply sbind_inv in H2; destruct H2 as (? & ? & _ & H2)). injection H2 as <- _. reflexivity. }
  split; [exact HB|]. rewrite (ft_len _ _ _ _ _ _ _ _ HF), (ft_leafs _ _ _ _ _ _ _ _ HF). split; [exact G3|]. split; [congruence|].
  split; [apply (ft_leafs _ _ _ _ _ _ _ _ Q3)|]. split; [rewrite (ft_rows _ _ _ _ _ _ _ _ HF); apply (ft_rows _ _ _ _ _ _ _ _ Q3)|].
  pose proof (ft_root _ _ _ _ _ _ _ _ HF). pose proof (ft_root _ _ _ _ _ _ _ _ Q3). congruence.
Qed.

(* Every read is decided by what the file holds at that moment. *)
Theorem C88_reads : forall E (EO : ElementOps E) A en b leaves t f1 c v k sizes t2 j,
  disk_tree EO A en b (cfg_path c) leaves t f1 -> sc_rows_to_discard c < mt_row_count t - 1 ->
  other_process EO (cfg_path c) t f1 t2 -> j < mt_len (disk_store EO) t ->
  let f2 := stopped EO b k sizes c v t f1 in
  exists D, fs_file f2 (cfg_path c) = Some D /\
    mt_read_at (disk_store EO) 0 0 t2 f2 j =
      if j * e_byte_len EO + e_byte_len EO <=? List.length D then e_from_slice EO (sub D (j * e_byte_len EO) (e_byte_len EO))
      else Err "failed to fill whole buffer"%string.
Proof.
  intros E EO A en b leaves t f1 c v k sizes t2 j HT HR (s2 & S1 & S2 & S3 & _) Hj f2.
  pose proof HT as (EL & AL & Hb & Hch & _). pose proof (bl_pos EO EL) as Hbl.
  destruct (stopped_data EO A en b leaves t f1 c HT k sizes v HR) as (d & i & els & _ & _ & _ & _ & _ & Hp & _).
  fold f2 in Hp.
  assert (Hi : h_ino (ds_file s2) = i).
  { destruct (disk_tree_at _ _ _ _ _ _ _ _ HT) as (d' & s & i' & els' & Hd' & Hl & HD).
    pose proof (dt_full EO EL A b Hb t s f1 c i' d' leaves els' HD) as HF. pose proof (ft_rows _ _ _ _ _ _ _ _ HF) as Hrows.
    pose proof (dt_path _ _ _ _ _ _ _ _ _ _ _ HD) as Hp1. pose proof (dt_rep _ _ _ _ _ _ _ _ _ _ _ HD) as (R1 & _ & R3 & R4). cbn [fst snd] in R1, R3, R4.
    pose proof (dt_ro _ _ _ _ _ _ _ _ _ _ _ HD) as Hro. pose proof (dt_file _ _ _ _ _ _ _ _ _ _ _ HD) as Hfi.
    pose proof (dt_layout EO A b t s f1 c i' d' leaves els' HD) as (L1 & L2 & _).
    assert (HE : fs_data f1 i' = encode EO els') by (rewrite Hfi, <- L2 in R4; apply DRep_full; auto).
    pose proof (any_stopped EO EL b Hb c d' v Hd' ltac:(lia) s f1 i' R1 R3 Hp1 Hro ltac:(rewrite HE, encode_length, L2 by auto; reflexivity) k sizes) as [(F1 & _) _].
    assert (Hs : f2 = snd (snd (disk_compact_stopped EO k sizes b c v (s, f1)))).
    { unfold f2, stopped. destruct (disk_compact_stopped EO k sizes b c v (s, f1)) as [x [s' f']] eqn:Q.
      rewrite (mt_on_store_base (disk_store EO) _ t s f1 x s' f' (ta_data _ _ _ _ _ _ _ _ _ _ (dt_at _ _ _ _ _ _ _ _ _ _ _ HD)) Q). reflexivity. }
    rewrite Hs, F1 in Hp. congruence. }
  exists (fs_data f2 i). split; [unfold fs_file; rewrite Hp; reflexivity|].
  assert (Hrd : mt_read_at (disk_store EO) 0 0 t2 f2 j = disk_read_at EO (s2, f2) j).
  { unfold mt_read_at. cbn [mt_read_at_n]. rewrite S1. reflexivity. }
  rewrite Hrd. clear Hrd. pose proof (Nat.mul_le_mono_r (S j) (mt_len (disk_store EO) t) (e_byte_len EO) Hj) as Hm. cbn [Nat.mul] in Hm.
  unfold disk_read_at, disk_check, disk_store_read_range, fs_read_exact_at, fs_size. cbn [fst snd]. rewrite S2, Hi.
  replace (j * e_byte_len EO <? mt_len (disk_store EO) t * e_byte_len EO) with true by lia. cbn [ensure rbind].
  replace (j * e_byte_len EO + e_byte_len EO <=? mt_len (disk_store EO) t * e_byte_len EO) with true by lia. cbn [ensure rbind].
  rewrite checked_sub_ok by lia. cbn [rbind]. replace (j * e_byte_len EO + e_byte_len EO - j * e_byte_len EO) with (e_byte_len EO) by lia.
  replace (e_byte_len EO =? 0) with false by lia.
  destruct (j * e_byte_len EO + e_byte_len EO <=? List.length (fs_data f2 i)); reflexivity.
Qed.

(* The full statement: at every moment every node reads right or as an error. *)
Definition right_or_error {E} (SO : StoreOps E) (t2 : mtree (st_t SO) E) (f1 f2 : fs) (j : nat) : Prop :=
  mt_read_at SO 0 0 t2 f2 j = mt_read_at SO 0 0 t2 f1 j \/ exists e, mt_read_at SO 0 0 t2 f2 j = Err e.
Definition C88_full : Prop := forall E (EO : ElementOps E) A en b leaves t f1 c v k sizes t2 j,
  disk_tree EO A en b (cfg_path c) leaves t f1 -> sc_rows_to_discard c < mt_row_count t - 1 ->
  other_process EO (cfg_path c) t f1 t2 -> j < mt_len (disk_store EO) t ->
  right_or_error (disk_store EO) t2 f1 (stopped EO b k sizes c v t f1) j.

(* It holds for the nodes of the rows that are kept; for version 1 the leaves never even fail. *)
Theorem C88_kept_partial : forall E (EO : ElementOps E) A en b leaves t f1 c v k sizes t2 j,
  disk_tree EO A en b (cfg_path c) leaves t f1 -> sc_rows_to_discard c < mt_row_count t - 1 ->
  other_process EO (cfg_path c) t f1 t2 ->
  row_off b (mt_row_count t - 1) (S (sc_rows_to_discard c)) <= j < mt_len (disk_store EO) t ->
  right_or_error (disk_store EO) t2 f1 (stopped EO b k sizes c v t f1) j.
Proof.
  intros E EO A en b leaves t f1 c v k sizes t2 j HT HR HO (Hj1 & Hj2).
  pose proof HT as (EL & AL & Hb & Hch & _). pose proof (bl_pos EO EL) as Hbl.
  destruct (C88_reads E EO A en b leaves t f1 c v k sizes t2 j HT HR HO Hj2) as (D & HD1 & HD2).
  assert (H0 : stopped EO b 0 sizes c v t f1 = f1).
  { destruct (disk_tree_at _ _ _ _ _ _ _ _ HT) as (d' & s & i' & els' & Hd' & Hl & HD).
    pose proof (dt_full EO EL A b Hb t s f1 c i' d' leaves els' HD) as HF. pose proof (ft_rows _ _ _ _ _ _ _ _ HF) as Hrows.
    pose proof (dt_path _ _ _ _ _ _ _ _ _ _ _ HD) as Hp1. pose proof (dt_rep _ _ _ _ _ _ _ _ _ _ _ HD) as (R1 & _ & R3 & R4). cbn [fst snd] in R1, R3, R4.
    pose proof (dt_ro _ _ _ _ _ _ _ _ _ _ _ HD) as Hro. pose proof (dt_file _ _ _ _ _ _ _ _ _ _ _ HD) as Hfi.
    pose proof (dt_layout EO A b t s f1 c i' d' leaves els' HD) as (L1 & L2 & _).
    assert (HE : fs_data f1 i' = encode EO els') by (rewrite Hfi, <- L2 in R4; apply DRep_full; auto).
    pose proof (not_yet EO EL b Hb c d' v Hd' ltac:(lia) (fs_data f1 i') ltac:(rewrite HE, encode_length, L2 by auto; reflexivity) s f1 i' R1 R3 Hp1 Hro eq_refl sizes) as Q0.
    unfold stopped. destruct (disk_compact_stopped EO 0 sizes b c v (s, f1)) as [x [s' f']] eqn:Q.
    rewrite (mt_on_store_base (disk_store EO) _ t s f1 x s' f' (ta_data _ _ _ _ _ _ _ _ _ _ (dt_at _ _ _ _ _ _ _ _ _ _ _ HD)) Q). exact Q0. }
  pose proof (C88_reads E EO A en b leaves t f1 c v 0 sizes t2 j HT HR HO Hj2) as (old & HO1 & HO2). rewrite H0 in HO1, HO2.
  destruct (power_setup EO A en b leaves t f1 c v sizes HT HR) as (d & i & P & E1 & Hd & HRd & _ & _ & E2 & E3 & E4 & E5 & E6 & E7 & E8).
  assert (old = fs_data f1 i) as -> by (unfold fs_file in HO1; rewrite E3 in HO1; congruence).
  specialize (E8 D (ex_intro _ k HD1)). rewrite E1 in Hj1. replace (d + 1 - 1) with d in Hj1 by lia. rewrite E2 in Hj2.
  pose proof (Nat.mul_le_mono_r _ _ (e_byte_len EO) Hj1) as M1. pose proof (Nat.mul_le_mono_r (S j) _ (e_byte_len EO) Hj2) as M2. cbn [Nat.mul] in M2.
  pose proof (dst_le EO b c d v Hd HRd) as L. pose proof (total EO b c d Hd HRd) as T.
  unfold right_or_error. rewrite HD2, HO2, E5.
  replace (j * e_byte_len EO + e_byte_len EO <=? geom b d * e_byte_len EO) with true by lia.
  destruct E8 as [->|(m & Hm & ->)].
  - rewrite <- E6, (packed_len EO b c d v Hd HRd _ E5). destruct (apart EO b Hb c d v Hd HRd) as [AP|AP].
    + left. replace (j * e_byte_len EO + e_byte_len EO <=? _) with true by lia. unfold packed. rewrite AP, firstn_skipn. reflexivity.
    + right. replace (j * e_byte_len EO + e_byte_len EO <=? _) with false by lia. eauto.
  - left. rewrite moved_length, E5 by lia. replace (j * e_byte_len EO + e_byte_len EO <=? geom b d * e_byte_len EO) with true by lia.
    f_equal. apply nth_error_ext. intros q. rewrite !nth_error_sub. destruct (q <? e_byte_len EO); [|reflexivity].
    apply (moved_kept EO b Hb c d v Hd HRd _ E5 m _ Hm). lia.
Qed.

Theorem C88_leaves_partial : forall E (EO : ElementOps E) A en b leaves t f1 c k sizes t2 j x,
  disk_tree EO A en b (cfg_path c) leaves t f1 -> sc_rows_to_discard c < mt_row_count t - 1 ->
  other_process EO (cfg_path c) t f1 t2 -> nth_error leaves j = Some x ->
  mt_read_at (disk_store EO) 0 0 t2 (stopped EO b k sizes c 1 t f1) j = Ok x.
Proof.
  intros E EO A en b leaves t f1 c k sizes t2 j x HT HR HO Hx.
  pose proof HT as (EL & AL & Hb & Hch & _). pose proof (bl_pos EO EL) as Hbl. pose proof (nth_error_lt _ _ _ Hx) as Hj.
  assert (Hlt : j < mt_len (disk_store EO) t).
  { destruct (disk_tree_at _ _ _ _ _ _ _ _ HT) as (d & s & i & els & Hd & Hl & HD).
    pose proof (dt_full EO EL A b Hb t s f1 c i d leaves els HD) as HF. rewrite (ft_len _ _ _ _ _ _ _ _ HF).
    pose proof (geom_row_off b d 1 Hd) as G. change (row_off b d 1) with (0 + b ^ (d - 0)) in G. rewrite Nat.sub_0_r in G. lia. }
  destruct (C88_reads E EO A en b leaves t f1 c 1 k sizes t2 j HT HR HO Hlt) as (D & HD1 & HD2).
  destruct (C26_leaves_v1_partial E EO A en b leaves t f1 c k sizes HT HR) as (D' & G1 & G2).
  assert (D' = D) as -> by congruence. rewrite HD2.
  assert (HLn : List.length leaves * e_byte_len EO <= List.length D).
  { pose proof (f_equal (@List.length _) G2) as Q. rewrite firstn_length, encode_length in Q by auto. lia. }
  pose proof (Nat.mul_le_mono_r (S j) (List.length leaves) (e_byte_len EO) Hj) as M. cbn [Nat.mul] in M.
  replace (j * e_byte_len EO + e_byte_len EO <=? List.length D) with true by lia.
  replace (sub D (j * e_byte_len EO) (e_byte_len EO)) with (sub (encode EO leaves) (j * e_byte_len EO) (e_byte_len EO)).
  - replace (e_byte_len EO) with (1 * e_byte_len EO) at 2 by lia. rewrite encode_sub by auto.
    assert (sub leaves j 1 = [x]) as ->.
    { apply nth_error_ext. intros [|q]; rewrite nth_error_sub; [rewrite Nat.add_0_r; exact Hx|]. destruct (S q <? 1) eqn:Q; [lia|]. destruct q; reflexivity. }
    unfold encode. cbn [map concat]. rewrite app_nil_r. apply (el_round EO EL).
  - rewrite <- G2. apply nth_error_ext. intros q. rewrite !nth_error_sub, nth_error_firstn. destruct (q <? e_byte_len EO) eqn:Q; [|reflexivity].
    replace (j * e_byte_len EO + q <? List.length leaves * e_byte_len EO) with true by lia. reflexivity.
Qed.

(* What the other process proves meanwhile, its reads falling at any moments whatever
   (position k is read when the file system is [moment k]): a proof that validates is a proof of
   leaf i, or shows two node lists with one hash. *)
Definition moments {E} (EO : ElementOps E) (moment : nat -> fs) : StoreOps E :=
  let SO := disk_store EO in
  {| st_t := disk_t; st_new_with_config := st_new_with_config SO; st_new := st_new SO;
     st_new_from_slice_with_config := st_new_from_slice_with_config SO; st_new_from_slice := st_new_from_slice SO;
     st_new_from_disk := st_new_from_disk SO; st_write_at := st_write_at SO; st_copy_from_slice := st_copy_from_slice SO;
     st_compact := st_compact SO; st_reinit := st_reinit SO; st_delete := st_delete SO;
     st_read_at := fun st k => st_read_at SO (fst st, moment k) k;
     st_read_range := fun st lo hi => st_read_range SO (fst st, moment lo) lo hi;
     st_read_into := fun st k => st_read_into SO (fst st, moment k) k;
     st_read_range_into := fun st lo hi => st_read_range_into SO (fst st, moment lo) lo hi;
     st_len := st_len SO; st_loaded_from_disk := st_loaded_from_disk SO; st_is_empty := st_is_empty SO;
     st_push := st_push SO; st_sync := st_sync SO; st_build := st_build SO |}.

Theorem C88_proofs : forall E (EO : ElementOps E) A en b leaves t f1 c t2 moment f i p,
  disk_tree EO A en b (cfg_path c) leaves t f1 ->
  other_process EO (cfg_path c) t f1 t2 ->
  gen_proof (moments EO moment) b 0 0 t2 f i = Ok p \/ (exists rows, gen_cached_proof EO (moments EO moment) A en b 0 0 t2 f i rows = Ok p) ->
  validate EO A b p = Ok true ->
  pf_item (bottom p) = rnth leaves i \/ found_collision A b p leaves.
Proof.
  intros E EO A en b leaves t f1 c t2 moment f i p HT (s2 & S1 & S2 & S3 & S4 & S5 & S6) HP HV. pose proof HT as (EL & AL & Hb & Hch & _).
  destruct (disk_tree_at _ _ _ _ _ _ _ _ HT) as (d & s & i' & els & Hd & Hl & HD).
  pose proof (dt_full EO EL A b Hb t s f1 c i' d leaves els HD) as HF.
  refine (C79_proofs E EO (moments EO moment) A en b 0 0 t2 leaves f i p EL AL Hb _ HP HV).
  apply (Cl_base (moments EO moment) A b 0 0 t2 s2 d leaves S1).
  - exact (eq_trans S4 (ft_leafs _ _ _ _ _ _ _ _ HF)).
  - refine (eq_trans S5 (eq_trans (ft_rows _ _ _ _ _ _ _ _ HF) _)). lia.
  - pose proof (arity_ge b Hb) as H2.
    pose proof (Layout_root b ltac:(lia) (h_node A) d leaves els (mt_root t) (ft_layout _ _ _ _ _ _ _ _ HF) (ft_root _ _ _ _ _ _ _ _ HF)) as HM.
    exact (eq_ind_r (fun r => MRoot (h_node A) b d leaves r) HM S6).
Qed.

(* It is false: while version 2 runs leaf 0 reads as a node of a higher row; while version 1
   runs, so does the first node above the leaves. *)
Definition wrong_in (built : res (mtree (st_t (disk_store BO)) B1) * fs) (v k j : nat) : bool :=
  match built with
  | (Ok t, f) =>
      match mt_read_at (disk_store BO) 0 0 t f j, mt_read_at (disk_store BO) 0 0 t (stopped BO 2 k (fun _ => 0) (cfg_r 1) v t f) j with
      | Ok x, Ok y => negb (val x =? val y) && (1 <? mt_row_count t - 1) && (j <? mt_len (disk_store BO) t)
      | _, _ => false
      end
  | _ => false
  end.
Lemma wrong_refutes built v k j : case_built 2 leaves8 = built -> wrong_in built v k j = true -> ~ C88_full.
Proof.
  intros H1 H HS. unfold wrong_in in H. destruct built as [[t|m|m|] f]; try discriminate H.
  pose proof (case_disk_tree 2 leaves8 t f arity_2 ltac:(split; [vm_compute; lia|reflexivity]) H1) as HT.
  assert (HO : other_process BO (cfg_path (cfg_r 1)) t f t).
  { pose proof HT as (EL & AL & Hb & Hch & _). destruct (disk_tree_at _ _ _ _ _ _ _ _ HT) as (d & s & i & els & Hd & Hl & HD).
    exists s. pose proof (dt_full BO EL sum_alg 2 Hb t s f (cfg_r 1) i d _ els HD) as HF.
    split; [exact (ta_data _ _ _ _ _ _ _ _ _ _ (dt_at _ _ _ _ _ _ _ _ _ _ _ HD))|]. rewrite (ft_len _ _ _ _ _ _ _ _ HF).
    split; [exact (proj1 (dt_rep _ _ _ _ _ _ _ _ _ _ _ HD))|]. rewrite (dt_file _ _ _ _ _ _ _ _ _ _ _ HD).
    split; [exact (dt_path _ _ _ _ _ _ _ _ _ _ _ HD)|]. auto. }
  specialize (HS B1 BO sum_alg env1 2 _ t f (cfg_r 1) v k (fun _ => 0) t j HT).
  destruct (mt_read_at (disk_store BO) 0 0 t f j) as [x|m|m|] eqn:E1; try discriminate H.
  destruct (mt_read_at (disk_store BO) 0 0 t (stopped BO 2 k (fun _ => 0) (cfg_r 1) v t f) j) as [y|m|m|] eqn:E2; try discriminate H.
  apply andb_prop in H. destruct H as [H G2]. apply andb_prop in H. destruct H as [G0 G1].
  apply Nat.ltb_lt in G1, G2. destruct (HS G1 HO G2) as [Q|[e Q]].
  - rewrite E1, E2 in Q. assert (x = y) as -> by congruence. rewrite Nat.eqb_refl in G0. discriminate G0.
  - rewrite E2 in Q. discriminate Q.
Qed.
Theorem C88_refuted : ~ C88_full.
Proof. apply (wrong_refutes _ 2 1 0 eq_refl). vm_compute. reflexivity. Qed.
Theorem C88_refuted_v1 : ~ C88_full.
Proof. apply (wrong_refutes _ 1 1 8 eq_refl). vm_compute. reflexivity. Qed.

(* what is read of the 15 nodes: before, after two of three pieces, between copy and truncation,
   afterwards; leaves 0-7, kept rows 12-14 *)
Definition seen (v k : nat) : list (option nat) :=
  match case_built 2 leaves8 with
  | (Ok t, f) => map (fun j => match mt_read_at (disk_store BO) 0 0 t (stopped BO 2 k (fun _ => 0) (cfg_r 1) v t f) j with Ok x => Some (val x) | _ => None end) (seq 0 15)
  | _ => []
  end.
Example C88_case :
  let full := map Some (case_file (snd (case_built 2 leaves8))) in
  List.length full = 15 /\
  seen 2 0 = full /\
  seen 2 2 = firstn 2 (skipn 12 full) ++ skipn 2 full /\
  seen 2 3 = firstn 3 (skipn 12 full) ++ skipn 3 full /\
  seen 2 4 = skipn 12 full ++ repeat None 12 /\
  seen 1 2 = firstn 8 full ++ firstn 2 (skipn 12 full) ++ skipn 10 full /\
  seen 1 4 = firstn 8 full ++ skipn 12 full ++ repeat None 4.
Proof. vm_compute. repeat split; reflexivity. Qed.

(* C26_exact, on the same tree: five states *)
Example C26_exact_case :
  let full := case_file (snd (case_built 2 leaves8)) in
  map (fun k => case_file (case_stopped k 2)) [0; 1; 2; 3; 4] =
  map (fun p => firstn p (skipn 12 full) ++ skipn p full) [0; 1; 2; 3] ++ [skipn 12 full].
Proof. vm_compute. reflexivity. Qed.

Print Assumptions C26_exact.
Print Assumptions C88_opened.
Print Assumptions C88_reads.
Print Assumptions C88_kept_partial.
Print Assumptions C88_leaves_partial.
Print Assumptions C88_proofs.
Print Assumptions C88_refuted.
Print Assumptions C88_refuted_v1.
