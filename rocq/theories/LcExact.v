(* What LevelCacheStore::read_range answers for every pair of bounds. *)
From Coq Require Import String List Arith Bool Lia Init.Byte ZifyBool ZifyNat.
From Verif Require Import Base Element Hash Sizing FS Sched Store VecStore DiskStore MmapStore LevelCache ProofModel Tree ListFacts Spec SpecFacts SizingFacts SchedFacts StoreLaws RowFacts ChunkFacts BuildFacts BuildLoop StoreSpec FileFacts VecFacts MapLayer DiskFacts TreeFacts ProofSpec ProofFacts TreeProofs CachedFacts LcReads.
Import ListNotations.

Section Exact.
  Context {E : Type} (EO : ElementOps E) (EL : ElementLaws EO).
  Local Notation bl := (e_byte_len EO).
  Variable b : nat.
  Hypothesis Hb : arity b.
  Variables (s : lc_t) (f : fs) (d R : nat) (leaves els : list E).
  Hypothesis HA : LcAt EO b s f d R leaves els.
  Local Notation c := (row_off b d (S R)).
  Local Notation n := (b ^ d).

  Lemma exact_backwards lo hi : hi < lo -> lo < geom b d -> lo <= n \/ c <= lo ->
    exists m, lc_read_range EO (s, f) lo hi = Panic m.
  Proof.
    intros H1 H2 H3. pose proof (bl_pos EO EL) as Hbl. unfold lc_read_range, lc_check. cbn [fst].
    rewrite (la_len _ _ _ _ _ _ _ _ HA). assert (lo * bl < geom b d * bl) by (apply Nat.mul_lt_mono_pos_r; lia).
    assert (hi * bl < lo * bl) by (apply Nat.mul_lt_mono_pos_r; lia).
    replace (lo * bl <? geom b d * bl) with true by lia. replace (hi * bl <=? geom b d * bl) with true by lia. cbn [ensure rbind].
    rewrite (in_bounds EO b s f d R leaves els HA) by exact H3. cbn [ensure rbind].
    unfold lc_store_read_range, checked_sub. replace (lo * bl <=? hi * bl) with false by lia. eexists; reflexivity.
  Qed.

  Lemma check_pass lo hi : lo <= hi -> lo < geom b d -> hi <= geom b d -> lo <= n \/ c <= lo ->
    lc_check EO (s, f) (lo * bl) (hi * bl) = Ok tt.
  Proof.
    intros H1 H2 H2' H3. pose proof (bl_pos EO EL) as Hbl. unfold lc_check. cbn [fst].
    rewrite (la_len _ _ _ _ _ _ _ _ HA). assert (lo * bl < geom b d * bl) by (apply Nat.mul_lt_mono_pos_r; lia).
    assert (hi * bl <= geom b d * bl) by (apply Nat.mul_le_mono_r; lia).
    replace (lo * bl <? geom b d * bl) with true by lia. replace (hi * bl <=? geom b d * bl) with true by lia. cbn [ensure rbind].
    rewrite (in_bounds EO b s f d R leaves els HA) by exact H3. reflexivity.
  Qed.

  (* the file, when it starts with the leaves *)
  Lemma file_v1 : lc_reader s = None -> fs_data f (h_ino (lc_file s)) = encode EO (firstn n els ++ skipn c els).
  Proof.
    intros Hr. pose proof (la_file _ _ _ _ _ _ _ _ HA) as HF. rewrite Hr in HF. rewrite HF. f_equal. f_equal.
    pose proof (la_leaves _ _ _ _ _ _ _ _ HA) as H1. pose proof (la_els _ _ _ _ _ _ _ _ HA) as H2. pose proof (geom_gt b d).
    apply list_ext; [rewrite firstn_length; lia|]. intros i Hi.
    rewrite nth_error_firstn. replace (i <? n) with true by lia. symmetry. apply (la_first _ _ _ _ _ _ _ _ HA). lia.
  Qed.

  Lemma exact_front lo hi : lc_reader s = None -> lo <= hi -> lo <= n -> lo < c -> hi <= geom b d ->
    hi <= n + (geom b d - c) -> lc_read_range EO (s, f) lo hi = Ok (sub (firstn n els ++ skipn c els) lo (hi - lo)).
  Proof.
    intros Hr H1 H2 H3 H4 H5. pose proof (bl_pos EO EL) as Hbl. pose proof (geom_gt b d).
    pose proof (c_lt EO b s f d R leaves els HA) as Hc.
    assert (lo * bl <= hi * bl) by (apply Nat.mul_le_mono_r; lia).
    unfold lc_read_range. rewrite check_pass by lia. cbn [rbind]. unfold lc_store_read_range. cbn [fst snd].
    rewrite checked_sub_ok by lia. cbn [rbind]. rewrite (in_bounds EO b s f d R leaves els HA) by lia. cbn [ensure rbind].
    rewrite Hr. match goal with |- context [match (if ?g then None else None) with _ => _ end] => replace (if g then None else None) with (@None ExternalReader) by (destruct g; reflexivity) end.
    rewrite (adjust_pos EO EL b s f d R leaves els HA). unfold file_pos. replace (c <=? lo) with false by lia.
    rewrite <- Nat.mul_sub_distr_r. destruct (Nat.eq_dec lo hi) as [->|Hne].
    - rewrite Nat.sub_diag. unfold fs_read_exact_at. cbn [Nat.mul Nat.eqb rbind].
      exact (decode_encode EO EL (sub (firstn n els ++ skipn c els) hi 0)).
    - rewrite (encoded_read EO EL f (lc_file s) _ lo (hi - lo) (file_v1 Hr)).
      + cbn [rbind]. apply decode_encode; auto.
      + lia.
      + rewrite app_length, firstn_length, skipn_length, (la_els _ _ _ _ _ _ _ _ HA). lia.
  Qed.

  Lemma exact_short lo hi : lc_reader s = None -> lo < hi -> lo <= n -> lo < c -> hi <= geom b d ->
    n + (geom b d - c) < hi -> exists m, lc_read_range EO (s, f) lo hi = Err m.
  Proof.
    intros Hr H1 H2 H3 H4 H5. pose proof (bl_pos EO EL) as Hbl. pose proof (geom_gt b d).
    pose proof (c_lt EO b s f d R leaves els HA) as Hc.
    assert (lo * bl <= hi * bl) by (apply Nat.mul_le_mono_r; lia).
    unfold lc_read_range. rewrite check_pass by lia. cbn [rbind]. unfold lc_store_read_range. cbn [fst snd].
    rewrite checked_sub_ok by lia. cbn [rbind]. rewrite (in_bounds EO b s f d R leaves els HA) by lia. cbn [ensure rbind].
    rewrite Hr. match goal with |- context [match (if ?g then None else None) with _ => _ end] => replace (if g then None else None) with (@None ExternalReader) by (destruct g; reflexivity) end.
    rewrite (adjust_pos EO EL b s f d R leaves els HA). unfold file_pos. replace (c <=? lo) with false by lia.
    rewrite <- Nat.mul_sub_distr_r.
    rewrite (encoded_eof EO EL f (lc_file s) _ lo (hi - lo) (file_v1 Hr)).
    - eexists; reflexivity.
    - lia.
    - rewrite app_length, firstn_length, skipn_length, (la_els _ _ _ _ _ _ _ _ HA). lia.
  Qed.

  (* an external reader answers by itself for everything that starts in the leaves *)
  Lemma exact_reader lo hi r : lc_reader s = Some r -> lo <= hi -> lo < n -> hi <= geom b d ->
    lc_read_range EO (s, f) lo hi =
      (do bs <- er_data r f (lo * bl) (hi * bl) (repeat x00 ((hi - lo) * bl)); decode EO bs).
  Proof.
    intros Hr H1 H2 H4. pose proof (bl_pos EO EL) as Hbl. pose proof (geom_gt b d).
    assert (lo * bl <= hi * bl) by (apply Nat.mul_le_mono_r; lia).
    unfold lc_read_range. rewrite check_pass by lia. cbn [rbind]. unfold lc_store_read_range. cbn [fst snd].
    rewrite checked_sub_ok by lia. cbn [rbind]. rewrite (in_bounds EO b s f d R leaves els HA) by lia. cbn [ensure rbind].
    rewrite (range_leaf_src EO EL b s f d R leaves els HA) by exact H2. rewrite Hr, <- Nat.mul_sub_distr_r. reflexivity.
  Qed.

  (* nothing is read for an empty range beyond the leaves *)
  Lemma exact_empty lo : n <= lo -> lo < geom b d -> lo <= n \/ c <= lo -> lc_read_range EO (s, f) lo lo = Ok [].
  Proof.
    intros H1 H2 H3. unfold lc_read_range. rewrite check_pass by lia. cbn [rbind]. unfold lc_store_read_range. cbn [fst snd].
    rewrite checked_sub_ok by lia. cbn [rbind]. rewrite (in_bounds EO b s f d R leaves els HA) by lia. cbn [ensure rbind].
    rewrite (range_cache_src EO b s f d R leaves els HA) by exact H1. rewrite Nat.sub_diag. unfold fs_read_exact_at.
    cbn [Nat.eqb rbind]. exact (decode_encode EO EL []).
  Qed.
End Exact.
