(* Trees over a LevelCacheStore holding the rows above the discarded ones: opening,
   from_data_store, and cached proofs. *)
From Coq Require Import String List Arith Bool Lia Init.Byte ZifyBool ZifyNat.
From Verif Require Import Base Element Hash Sizing FS Sched Store VecStore DiskStore MmapStore LevelCache ProofModel Tree ListFacts Spec SpecFacts SizingFacts SchedFacts StoreLaws RowFacts ChunkFacts BuildFacts BuildLoop StoreSpec FileFacts VecFacts MapLayer DiskFacts TreeFacts ProofSpec ProofFacts TreeProofs CachedFacts CachedTrees LcReads.
Import ListNotations.

Section LcTrees.
  Context {E : Type} (EO : ElementOps E) (EL : ElementLaws EO).
  Local Notation bl := (e_byte_len EO).
  Local Notation LO := (lc_store EO).
  Variable A : AlgOps E.
  Variables (en : env) (b : nat).
  Hypothesis Hb : arity b.

  (* a tree over a level-cache store with R rows discarded *)
  Record LcTree (t : mtree (st_t LO) E) (s : lc_t) (f : fs) (d R : nat) (leaves els : list E) : Prop := {
    lt_data : mt_data t = BaseTree (s : st_t LO);
    lt_leafs : mt_leafs t = b ^ d;
    lt_len : mt_len_field t = geom b d;
    lt_rows : mt_row_count t = S d;
    lt_layout : Layout (h_node A) b d leaves els;
    lt_root : nth_error els (geom b d - 1) = Some (mt_root t);
    lt_at : LcAt EO b s f d R leaves els
  }.

  Lemma lc_from_data_store s f d R leaves els : Layout (h_node A) b d leaves els -> LcAt EO b s f d R leaves els ->
    exists t, from_data_store LO b 0 0 s (b ^ d) f = (Ok t, f) /\ LcTree t s f d R leaves els.
  Proof.
    intros HL HA. pose proof (la_R _ _ _ _ _ _ _ _ HA) as HR. assert (Hd : 1 <= d) by lia.
    pose proof (la_len _ _ _ _ _ _ _ _ HA) as Hlen.
    unfold from_data_store. cbn [Nat.eqb ensure].
    rewrite (sbind_ok _ _ f tt f) by reflexivity. rewrite (sbind_ok _ _ f tt f) by reflexivity.
    replace (next_pow2 (b ^ d) =? b ^ d) with true by (symmetry; apply next_pow2_eqb, pow2_pow, arity_pow2; auto).
    rewrite (arity_next b Hb), Nat.eqb_refl. cbn [ensure].
    rewrite (sbind_ok _ _ f tt f) by reflexivity. rewrite (sbind_ok _ _ f tt f) by reflexivity.
    rewrite get_merkle_tree_len_full by auto. rewrite (sbind_ok _ _ f (geom b d) f) by reflexivity.
    cbn [st_len lc_store]. rewrite Hlen, Nat.eqb_refl. cbn [ensure].
    rewrite (sbind_ok _ _ f tt f) by reflexivity.
    rewrite size_valid_full by auto. rewrite (sbind_ok _ _ f true f) by reflexivity. cbn [ensure].
    rewrite (sbind_ok _ _ f tt f) by reflexivity.
    pose proof HL as (L1 & L2 & L3). pose proof (geom_pos b d) as Hg.
    destruct (nth_error_ex els (geom b d - 1) ltac:(lia)) as [root Hroot].
    assert (Hlast : sreads (store_last LO s) f = (Ok root, f)).
    { unfold sreads, store_last. cbn [st_len lc_store st_read_at]. rewrite Hlen.
      rewrite checked_sub_ok by lia. cbn [rbind]. f_equal.
      eapply (lc_read_at_kept EO EL b s f d R leaves els HA); [|exact Hroot].
      right. pose proof (geom_row_off b d (S R) ltac:(lia)). pose proof (geom_pos b (d - S R)). lia. }
    rewrite (sbind_ok _ _ _ _ _ Hlast). eexists. split; [reflexivity|].
    rewrite row_count_full by auto. constructor; auto.
  Qed.

  Hypothesis Hch : chunk_ok en b.

  Lemma segment_end d R i : R < d -> i < b ^ d -> let w := b ^ S R in 0 < w /\ i / w * w + w <= b ^ d.
  Proof.
    intros HR Hi w. pose proof (arity_ge b Hb) as H2.
    assert (HwP : 0 < w) by (unfold w; pose proof (Nat.pow_nonzero b (S R) ltac:(lia)); lia).
    assert (Hq : i / w < b ^ (d - S R)) by (apply (anc_lt b Hb); auto).
    assert (Hdw : b ^ d = b ^ (d - S R) * w) by (unfold w; rewrite <- Nat.pow_add_r; f_equal; lia).
    assert (S (i / w) * w <= b ^ (d - S R) * w) by (apply Nat.mul_le_mono_r; lia). lia.
  Qed.

  Lemma lc_segment t s f d R leaves els i rows : LcTree t s f d R leaves els -> i < b ^ d ->
    (let w := b ^ S (capped b d rows) in
     st_read_range_into LO (s, f) (i / w * w) (i / w * w + w) (repeat x00 (w * bl)) =
       Ok (encode EO (sub leaves (i / w * w) w))).
  Proof.
    intros HT Hi. pose proof (lt_at _ _ _ _ _ _ _ HT) as HA. pose proof (la_R _ _ _ _ _ _ _ _ HA) as HR.
    pose proof (capped_lt b Hb d rows ltac:(lia)) as HC. cbv zeta.
    destruct (segment_end d (capped b d rows) i HC Hi) as [W1 W2]. set (w := b ^ S (capped b d rows)) in *.
    pose proof (lc_read_range_into_kept EO EL b s f d R leaves els HA (i / w * w) (i / w * w + w) (repeat x00 (w * bl))) as R1.
    cbn [st_read_range_into lc_store]. rewrite R1.
    - f_equal. f_equal. replace (i / w * w + w - i / w * w) with w by lia. apply nth_error_ext. intros k. rewrite !nth_error_sub.
      destruct (k <? w) eqn:G; [|reflexivity]. apply (la_first _ _ _ _ _ _ _ _ HA). lia.
    - split; [lia|]. left. lia.
    - rewrite repeat_length. f_equal. lia.
  Qed.

  Lemma lc_cached_ok t s f d R leaves els i rows : LcTree t s f d R leaves els -> i < b ^ d -> R <= capped b d rows ->
    gen_cached_proof_base EO LO A en b 0 0 t s f i rows = Ok (canon b els d i).
  Proof.
    intros HT Hi Hcap. pose proof HT as [T1 T3 T4 T5 T6 T7 HA]. pose proof (la_R _ _ _ _ _ _ _ _ HA) as HR.
    eapply (gen_cached_proof_base_ok EO EL LO A en b Hb Hch t s f d leaves els i rows); eauto; [lia| | |].
    - unfold mt_len. rewrite T1. cbn [st_len lc_store]. exact (la_len _ _ _ _ _ _ _ _ HA).
    - intros k x Hk Hx. apply (lc_read_at_kept EO EL b s f d R leaves els HA); [|exact Hx].
      destruct Hk as [Hk|Hk]; [auto|]. right. pose proof (row_off_mono b d (S R) (S (capped b d rows)) ltac:(lia)). lia.
    - apply (lc_segment t s f d R leaves els i rows HT Hi).
  Qed.

  Lemma lc_read_total s f d R leaves els k : LcAt EO b s f d R leaves els -> k < geom b d ->
    (exists x, lc_read_at EO (s, f) k = Ok x) \/ exists e, lc_read_at EO (s, f) k = Err e.
  Proof.
    intros HA Hk. pose proof (la_els _ _ _ _ _ _ _ _ HA) as HE. pose proof (la_R _ _ _ _ _ _ _ _ HA) as HR.
    pose proof (geom_row_off b d (S R) ltac:(lia)). pose proof (geom_pos b (d - S R)).
    destruct (nth_error_ex els k ltac:(lia)) as [x Hx].
    destruct (Nat.lt_ge_cases k (b ^ d)) as [Hlt|Hge].
    { left. exists x. apply (lc_read_at_kept EO EL b s f d R leaves els HA); auto. }
    destruct (Nat.le_gt_cases (row_off b d (S R)) k) as [Hle|Hgt].
    { left. exists x. apply (lc_read_at_kept EO EL b s f d R leaves els HA); auto. }
    destruct (Nat.eq_dec k (b ^ d)) as [->|Hne].
    - destruct (lc_reader s) eqn:Q.
      + right. apply (lc_read_at_edge_reader EO EL b Hb s f d R leaves els HA); [congruence|exact Hgt].
      + destruct (nth_error_ex els (row_off b d (S R)) ltac:(lia)) as [y Hy].
        left. exists y. apply (lc_read_at_edge_none EO EL b s f d R leaves els HA); auto.
    - right. apply (lc_read_at_discarded EO EL b s f d R leaves els HA); lia.
  Qed.

  (* asking for fewer rows than were discarded is refused, with one exception: *)
  Definition edge_case (s : lc_t) (R i : nat) : Prop := lc_reader s = None /\ b = 2 /\ R = 1 /\ (i = 2 \/ i = 3).

  Lemma lc_cached_err t s f d R leaves els i rows : LcTree t s f d R leaves els -> i < b ^ d -> capped b d rows < R ->
    ~ edge_case s R i ->
    exists e, gen_cached_proof_base EO LO A en b 0 0 t s f i rows = Err e.
  Proof.
    intros HT Hi Hcap Hedge. pose proof HT as [T1 T3 T4 T5 T6 T7 HA]. pose proof (la_R _ _ _ _ _ _ _ _ HA) as HR.
    pose proof (arity_ge b Hb) as H2.
    pose proof (kids_in_row b Hb d R i Hi HR) as KR.
    assert (Hdl : digit b R i < b) by (apply Nat.mod_upper_bound; lia).
    assert (Hc1 : row_off b d 1 = b ^ d) by (change (row_off b d 1) with (0 + b ^ (d - 0)); rewrite Nat.sub_0_r; reflexivity).
    pose proof (row_off_mono b d 1 R ltac:(lia)) as HM. rewrite Hc1 in HM.
    assert (HX : exists c0, c0 < b /\ c0 <> digit b R i /\
      exists e, lc_read_at EO (s, f) (row_off b d R + (i / b ^ S R * b + c0)) = Err e).
    { destruct (Nat.eq_dec R 1) as [HR1|HR1].
      - subst R. rewrite Hc1.
        assert (Hgo : forall c0, c0 < b -> c0 <> digit b 1 i -> (lc_reader s <> None \/ 0 < i / b ^ 2 * b + c0) ->
           exists c0, c0 < b /\ c0 <> digit b 1 i /\ exists e, lc_read_at EO (s, f) (b ^ d + (i / b ^ 2 * b + c0)) = Err e).
        { intros c0 Hc0 Hn Hor. exists c0. split; [auto|]. split; [auto|]. rewrite Hc1 in KR.
          destruct (Nat.eq_dec (i / b ^ 2 * b + c0) 0) as [H0|H0].
          - rewrite H0, Nat.add_0_r. apply (lc_read_at_edge_reader EO EL b Hb s f d 1 leaves els HA).
            + destruct Hor; [auto|lia].
            + lia.
          - apply (lc_read_at_discarded EO EL b s f d 1 leaves els HA); clear - KR H0 Hc0;
              generalize dependent (i / b ^ 2 * b); intros; lia. }
        destruct (lc_reader s) eqn:Q.
        { destruct (digit b 1 i); [apply (Hgo 1)|apply (Hgo 0)]; try lia; left; congruence. }
        destruct (Nat.eq_dec b 2) as [Hb2|Hb2].
        + destruct (digit b 1 i) as [|[|]] eqn:QD; [|  |lia].
          * apply (Hgo 1); [lia|lia|]. right. apply Nat.add_pos_r. lia.
          * apply (Hgo 0); [lia|lia|]. right. destruct (Nat.eq_dec (i / b ^ 2) 0) as [Hq|Hq].
            -- exfalso. apply Hedge. repeat split; auto. unfold digit in QD. rewrite Hb2 in QD, Hq. clear - QD Hq. cbn [Nat.pow Nat.mul Nat.add] in QD, Hq.
               apply Nat.div_small_iff in Hq; [|lia]. destruct i as [|[|[|[|]]]]; cbn in QD; try discriminate; try lia.
            -- rewrite Nat.add_0_r. apply Nat.mul_pos_pos; lia.
        + destruct (Nat.eq_dec (digit b 1 i) 1) as [QD|QD].
          * apply (Hgo 2); [lia|lia|]. right. apply Nat.add_pos_r. lia.
          * apply (Hgo 1); [lia|lia|]. right. apply Nat.add_pos_r. lia.
      - pose proof (row_off_mono b d 2 R ltac:(lia)) as HM2. rewrite (row_off_step b d 1), Hc1 in HM2.
        pose proof (Nat.pow_nonzero b (d - 1) ltac:(lia)) as NZ.
        assert (Hgo : forall c0, c0 < b -> exists e, lc_read_at EO (s, f) (row_off b d R + (i / b ^ S R * b + c0)) = Err e).
        { intros c0 Hc0. apply (lc_read_at_discarded EO EL b s f d R leaves els HA); [|clear Hdl; generalize dependent (i / b ^ S R * b); intros; lia].
          eapply Nat.lt_le_trans; [|apply Nat.le_add_r]. lia. }
        destruct (digit b R i) eqn:QD; [exists 1|exists 0]; (split; [lia|split; [lia|apply Hgo; lia]]). }
    destruct HX as (c0 & Hc0 & Hn & He).
    eapply (gen_cached_proof_base_err EO EL LO A en b Hb Hch t s f d leaves els i rows R c0); eauto; try lia.
    - unfold mt_len. rewrite T1. cbn [st_len lc_store]. exact (la_len _ _ _ _ _ _ _ _ HA).
    - intros k x Hk Hx. apply (lc_read_at_kept EO EL b s f d R leaves els HA); auto.
    - intros k Hk. exact (lc_read_total s f d R leaves els k HA Hk).
    - apply (lc_segment t s f d R leaves els i rows HT Hi).
  Qed.

  (* ---- opening ---- *)
  Lemma lc_open_ok f p i : fs_dir f p = Some i -> exists h, lc_open f p = Ok h /\ h_ino h = i.
  Proof.
    intros Hp. unfold lc_open, fs_open_rw, fs_open_ro. rewrite Hp. destruct (i_ro (fs_ino f i)); eexists; split; reflexivity.
  Qed.

  Lemma cache_bytes d R : R < d -> geom b d * bl - geom b (d - 1 - R) * bl = row_off b d (S R) * bl.
  Proof.
    intros HR. rewrite <- Nat.mul_sub_distr_r. f_equal. pose proof (geom_row_off b d (S R) ltac:(lia)).
    replace (d - 1 - R) with (d - S R) by lia. lia.
  Qed.

  Lemma lc_open_v1 c f i d leaves els : fs_dir f (cfg_path c) = Some i -> sc_rows_to_discard c < d ->
    Layout (h_node A) b d leaves els ->
    fs_data f i = encode EO (leaves ++ skipn (row_off b d (S (sc_rows_to_discard c))) els) ->
    exists s, lc_new_from_disk EO (geom b d) b c f = (Ok s, f) /\ lc_reader s = None /\ h_ino (lc_file s) = i /\
      LcAt EO b s f d (sc_rows_to_discard c) leaves els.
  Proof.
    intros Hp HR HL Hd. pose proof (bl_pos EO EL) as Hbl. destruct (lc_open_ok f _ i Hp) as (h & Ho & Hi).
    unfold lc_new_from_disk. unfold fs_exists. rewrite Hp. cbn [ensure rbind]. rewrite Ho. cbn [rbind].
    rewrite get_merkle_tree_leafs_full by (auto; lia). cbn [rbind].
    replace (b ^ d =? next_pow2 (b ^ d)) with true by (symmetry; apply next_pow2_eqb', pow2_pow, arity_pow2; auto).
    cbn [ensure rbind]. rewrite cache_size_full by auto. cbn [rbind].
    pose proof (geom_row_off b d (S (sc_rows_to_discard c)) ltac:(lia)) as G.
    rewrite checked_sub_ok by (apply Nat.mul_le_mono_r; replace (d - 1 - sc_rows_to_discard c) with (d - S (sc_rows_to_discard c)) by lia; lia).
    cbn [rbind]. eexists. split; [reflexivity|]. cbn [lc_reader lc_file]. split; [reflexivity|]. split; [exact Hi|].
    pose proof HL as (L1 & L2 & L3). constructor; cbn [lc_len lc_data_width lc_cache_index_start lc_reader lc_file]; auto.
    - intros k Hk. apply (Layout_leaf b ltac:(pose proof (arity_ge b Hb); lia) (h_node A) d leaves els k HL Hk).
    - rewrite Nat.div_mul by lia. reflexivity.
    - apply cache_bytes. exact HR.
    - rewrite Hi. exact Hd.
  Qed.

  Lemma lc_open_v2 c f i d leaves els r : fs_dir f (cfg_path c) = Some i -> sc_rows_to_discard c < d ->
    Layout (h_node A) b d leaves els -> reads_leaves EO r f leaves ->
    fs_data f i = encode EO (skipn (row_off b d (S (sc_rows_to_discard c))) els) ->
    exists s, lc_new_from_disk_with_reader EO (geom b d) b c r f = (Ok s, f) /\ lc_reader s = Some r /\ h_ino (lc_file s) = i /\
      LcAt EO b s f d (sc_rows_to_discard c) leaves els.
  Proof.
    intros Hp HR HL Hrd Hd. pose proof (bl_pos EO EL) as Hbl. destruct (lc_open_ok f _ i Hp) as (h & Ho & Hi).
    pose proof HL as (L1 & L2 & L3).
    unfold lc_new_from_disk_with_reader. unfold fs_exists. rewrite Hp. cbn [ensure rbind]. rewrite Ho. cbn [rbind].
    rewrite get_merkle_tree_leafs_full by (auto; lia). cbn [rbind].
    replace (b ^ d =? next_pow2 (b ^ d)) with true by (symmetry; apply next_pow2_eqb', pow2_pow, arity_pow2; auto).
    cbn [ensure rbind]. rewrite cache_size_full by auto. cbn [rbind].
    pose proof (geom_row_off b d (S (sc_rows_to_discard c)) ltac:(lia)) as G.
    rewrite checked_sub_ok by (apply Nat.mul_le_mono_r; replace (d - 1 - sc_rows_to_discard c) with (d - S (sc_rows_to_discard c)) by lia; lia).
    cbn [rbind]. unfold fs_size. rewrite Hi, Hd, encode_length, skipn_length, L2 by auto.
    replace (geom b d - row_off b d (S (sc_rows_to_discard c))) with (geom b (d - 1 - sc_rows_to_discard c))
      by (replace (d - 1 - sc_rows_to_discard c) with (d - S (sc_rows_to_discard c)) by lia; lia).
    rewrite Nat.eqb_refl. cbn [ensure rbind].
    eexists. split; [reflexivity|]. cbn [lc_reader lc_file]. split; [reflexivity|]. split; [exact Hi|].
    constructor; cbn [lc_len lc_data_width lc_cache_index_start lc_reader lc_file]; auto.
    - intros k Hk. apply (Layout_leaf b ltac:(pose proof (arity_ge b Hb); lia) (h_node A) d leaves els k HL Hk).
    - rewrite Nat.div_mul by lia. reflexivity.
    - apply cache_bytes. exact HR.
    - rewrite Hi. auto.
  Qed.
End LcTrees.
