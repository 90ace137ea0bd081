(* Reads of a LevelCacheStore that holds the rows above the discarded ones. *)
From Coq Require Import String List Arith Bool Lia Init.Byte ZifyBool ZifyNat.
From Verif Require Import Base Element Hash Sizing FS Sched Store VecStore DiskStore MmapStore LevelCache ProofModel Tree ListFacts Spec SpecFacts SizingFacts SchedFacts StoreLaws RowFacts ChunkFacts BuildFacts BuildLoop StoreSpec FileFacts VecFacts MapLayer DiskFacts TreeFacts ProofSpec ProofFacts TreeProofs CachedFacts.
Import ListNotations.

Section LcReads.
  Context {E : Type} (EO : ElementOps E) (EL : ElementLaws EO).
  Local Notation bl := (e_byte_len EO).
  Variable b : nat.
  Hypothesis Hb : arity b.

  (* the reader delivers the leaves *)
  Definition reads_leaves (r : ExternalReader) (f : fs) (leaves : list E) : Prop :=
    forall s e buf, s < e -> e <= List.length leaves -> List.length buf = (e - s) * bl ->
      er_data r f (s * bl) (e * bl) buf = Ok (encode EO (sub leaves s (e - s))).

  (* a level-cache store over the tree [els] of depth d with R rows discarded *)
  Record LcAt (s : lc_t) (f : fs) (d R : nat) (leaves els : list E) : Prop := {
    la_R : R < d;
    la_leaves : List.length leaves = b ^ d;
    la_els : List.length els = geom b d;
    la_first : forall i, i < b ^ d -> nth_error els i = nth_error leaves i;
    la_len : lc_len s = geom b d;
    la_width : lc_data_width s = b ^ d;
    la_cis : lc_cache_index_start s = row_off b d (S R) * bl;
    la_file : match lc_reader s with
              | None => fs_data f (h_ino (lc_file s)) = encode EO (leaves ++ skipn (row_off b d (S R)) els)
              | Some r => fs_data f (h_ino (lc_file s)) = encode EO (skipn (row_off b d (S R)) els) /\ reads_leaves r f leaves
              end
  }.

  Lemma encoded_read f h (F : list E) p n : fs_data f (h_ino h) = encode EO F -> 0 < n -> p + n <= List.length F ->
    fs_read_exact_at f h (p * bl) (n * bl) = Ok (encode EO (sub F p n)).
  Proof.
    intros HF Hn Hp. pose proof (bl_pos EO EL) as Hbl. unfold fs_read_exact_at, fs_size. rewrite HF, encode_length by auto.
    assert (0 < n * bl) by (apply Nat.mul_pos_pos; lia). replace (n * bl =? 0) with false by lia.
    assert (p * bl + n * bl <= List.length F * bl) by (rewrite <- Nat.mul_add_distr_r; apply Nat.mul_le_mono_r; lia).
    replace (p * bl + n * bl <=? List.length F * bl) with true by lia. rewrite encode_sub by auto. reflexivity.
  Qed.

  Lemma encoded_eof f h (F : list E) p n : fs_data f (h_ino h) = encode EO F -> 0 < n -> List.length F < p + n ->
    fs_read_exact_at f h (p * bl) (n * bl) = Err "failed to fill whole buffer".
  Proof.
    intros HF Hn Hp. pose proof (bl_pos EO EL) as Hbl. unfold fs_read_exact_at, fs_size. rewrite HF, encode_length by auto.
    assert (0 < n * bl) by (apply Nat.mul_pos_pos; lia). replace (n * bl =? 0) with false by lia.
    assert (List.length F * bl < p * bl + n * bl) by (rewrite <- Nat.mul_add_distr_r; apply Nat.mul_lt_mono_pos_r; lia).
    replace (p * bl + n * bl <=? List.length F * bl) with false by lia. reflexivity.
  Qed.

  (* a replica file holding the leaves at the reader's offset *)
  Lemma file_reads_leaves f h off leaves : off + List.length leaves * bl <= fs_size f h ->
    sub (fs_data f (h_ino h)) off (List.length leaves * bl) = encode EO leaves ->
    reads_leaves {| er_offset := off; er_read_fn := file_read_fn h |} f leaves.
  Proof.
    intros Hsz Hd s e buf Hs He Hbuf. pose proof (bl_pos EO EL) as Hbl. unfold er_data, er_read, file_read_fn. cbn [er_offset er_read_fn].
    assert (s * bl < e * bl) by (apply Nat.mul_lt_mono_pos_r; lia).
    assert (e * bl <= List.length leaves * bl) by (apply Nat.mul_le_mono_r; lia).
    rewrite checked_sub_ok by lia. cbn [rbind]. replace (e * bl + off - (s * bl + off)) with ((e - s) * bl) by (rewrite Nat.mul_sub_distr_r; lia).
    rewrite Hbuf, Nat.leb_refl. unfold fs_read_exact_at. assert (0 < (e - s) * bl) by (apply Nat.mul_pos_pos; lia).
    replace ((e - s) * bl =? 0) with false by lia.
    assert (Hm : (e - s) * bl = e * bl - s * bl) by apply Nat.mul_sub_distr_r.
    replace (s * bl + off + (e - s) * bl <=? fs_size f h) with true by lia. cbn [rbind].
    cbn [snd]. rewrite skipn_all2, app_nil_r by lia. f_equal. rewrite <- encode_sub, <- Hd by auto.
    rewrite sub_sub by lia. f_equal. lia.
  Qed.

  Section At.
    Variables (s : lc_t) (f : fs) (d R : nat) (leaves els : list E).
    Hypothesis HA : LcAt s f d R leaves els.
    Let c := row_off b d (S R).
    Let F := match lc_reader s with None => leaves ++ skipn c els | Some _ => skipn c els end.

    Lemma la_fdata : fs_data f (h_ino (lc_file s)) = encode EO F.
    Proof. pose proof (la_file _ _ _ _ _ _ HA) as H. unfold F. destruct (lc_reader s); [apply H|exact H]. Qed.

    Lemma c_ge : b ^ d <= c.
    Proof. unfold c. pose proof (row_off_mono b d 1 (S R) ltac:(lia)) as M. change (row_off b d 1) with (0 + b ^ (d - 0)) in M. rewrite Nat.sub_0_r in M. lia. Qed.
    Lemma c_gt : 1 <= R -> b ^ d + b ^ (d - 1) <= c.
    Proof. intros HR. unfold c. pose proof (row_off_mono b d 2 (S R) ltac:(lia)) as M. change (row_off b d 2) with (0 + b ^ (d - 0) + b ^ (d - 1)) in M. rewrite Nat.sub_0_r in M. lia. Qed.
    Lemma c_lt : c < geom b d.
    Proof. unfold c. pose proof (la_R _ _ _ _ _ _ HA). rewrite (geom_row_off b d (S R)) by lia. pose proof (geom_pos b (d - S R)). lia. Qed.
    Lemma cache_small : geom b d - c < b ^ (d - R).
    Proof.
      unfold c. pose proof (la_R _ _ _ _ _ _ HA). rewrite (geom_row_off b d (S R)) by lia.
      replace (d - R) with (S (d - S R)) by lia. pose proof (arity_ge b Hb).
      pose proof (geom_lt_next b (d - S R) ltac:(lia)). lia.
    Qed.

    Lemma lc_check_ok lo hi : lo < hi -> hi <= geom b d -> lo <= b ^ d \/ c <= lo ->
      lc_check EO (s, f) (lo * bl) (hi * bl) = Ok tt.
    Proof.
      intros H1 H2 H3. pose proof (bl_pos EO EL) as Hbl. unfold lc_check, lc_in_bounds. cbn [fst].
      rewrite (la_len _ _ _ _ _ _ HA), (la_width _ _ _ _ _ _ HA), (la_cis _ _ _ _ _ _ HA). fold c.
      assert (lo * bl < geom b d * bl) by (apply Nat.mul_lt_mono_pos_r; lia).
      assert (hi * bl <= geom b d * bl) by (apply Nat.mul_le_mono_r; lia).
      replace (lo * bl <? geom b d * bl) with true by lia. replace (hi * bl <=? geom b d * bl) with true by lia. cbn [ensure rbind].
      assert ((lo * bl <=? b ^ d * bl) || (c * bl <=? lo * bl) = true) as ->; [|reflexivity].
      apply orb_true_iff. rewrite !Nat.leb_le. destruct H3; [left|right]; apply Nat.mul_le_mono_r; auto.
    Qed.
    Lemma lc_check_end lo hi : geom b d < hi -> exists e, lc_check EO (s, f) (lo * bl) (hi * bl) = Err e.
    Proof.
      intros H2. pose proof (bl_pos EO EL) as Hbl. unfold lc_check. cbn [fst]. rewrite (la_len _ _ _ _ _ _ HA).
      destruct (lo * bl <? geom b d * bl); [|eexists; reflexivity]. cbn [ensure rbind].
      assert (geom b d * bl < hi * bl) by (apply Nat.mul_lt_mono_pos_r; lia).
      replace (hi * bl <=? geom b d * bl) with false by lia. eexists; reflexivity.
    Qed.
    Lemma lc_check_discarded lo e : b ^ d < lo -> lo < c -> exists m, lc_check EO (s, f) (lo * bl) e = Err m.
    Proof.
      intros H1 H2. pose proof (bl_pos EO EL) as Hbl. unfold lc_check, lc_in_bounds. cbn [fst].
      rewrite (la_len _ _ _ _ _ _ HA), (la_width _ _ _ _ _ _ HA), (la_cis _ _ _ _ _ _ HA). fold c.
      destruct (lo * bl <? geom b d * bl); [|eexists; reflexivity]. cbn [ensure rbind].
      destruct (e <=? geom b d * bl); [|eexists; reflexivity]. cbn [ensure rbind].
      assert (b ^ d * bl < lo * bl) by (apply Nat.mul_lt_mono_pos_r; lia). assert (lo * bl < c * bl) by (apply Nat.mul_lt_mono_pos_r; lia).
      replace (lo * bl <=? b ^ d * bl) with false by lia. replace (c * bl <=? lo * bl) with false by lia. eexists; reflexivity.
    Qed.

    Lemma in_bounds lo : lo <= b ^ d \/ c <= lo -> lc_in_bounds EO s (lo * bl) = true.
    Proof.
      intros H3. unfold lc_in_bounds. rewrite (la_width _ _ _ _ _ _ HA), (la_cis _ _ _ _ _ _ HA). fold c.
      apply orb_true_iff. rewrite !Nat.leb_le. destruct H3; [left|right]; apply Nat.mul_le_mono_r; auto.
    Qed.

    (* where the file keeps element lo *)
    Definition file_pos (lo : nat) : nat :=
      if c <=? lo then match lc_reader s with None => lo - c + b ^ d | Some _ => lo - c end else lo.
    Lemma adjust_pos lo : lc_adjust EO s (lo * bl) = file_pos lo * bl.
    Proof.
      pose proof (bl_pos EO EL) as Hbl. unfold lc_adjust, file_pos. rewrite (la_width _ _ _ _ _ _ HA), (la_cis _ _ _ _ _ _ HA). fold c.
      destruct (c <=? lo) eqn:G.
      - assert (c * bl <= lo * bl) by (apply Nat.mul_le_mono_r; lia). replace (c * bl <=? lo * bl) with true by lia.
        destruct (lc_reader s); rewrite ?Nat.mul_add_distr_r, Nat.mul_sub_distr_r; lia.
      - assert (lo * bl < c * bl) by (apply Nat.mul_lt_mono_pos_r; lia). replace (c * bl <=? lo * bl) with false by lia. reflexivity.
    Qed.

    (* a range starting in the leaves *)
    Lemma range_leaf_src lo : lo < b ^ d -> (lo * bl <? lc_data_width s * bl) = true.
    Proof. intros H. pose proof (bl_pos EO EL) as Hbl. rewrite (la_width _ _ _ _ _ _ HA). apply Nat.ltb_lt. apply Nat.mul_lt_mono_pos_r; lia. Qed.
    Lemma range_cache_src lo : b ^ d <= lo -> (lo * bl <? lc_data_width s * bl) = false.
    Proof. intros H. rewrite (la_width _ _ _ _ _ _ HA). apply Nat.ltb_ge. apply Nat.mul_le_mono_r; lia. Qed.

    Lemma lc_range_leaves lo hi : lo < hi -> hi <= b ^ d ->
      lc_store_read_range EO (s, f) (lo * bl) (hi * bl) = Ok (encode EO (sub leaves lo (hi - lo))) /\
      forall buf, List.length buf = (hi - lo) * bl ->
        lc_store_read_into EO (s, f) (lo * bl) (hi * bl) buf = Ok (encode EO (sub leaves lo (hi - lo))).
    Proof.
      intros H1 H2. pose proof (bl_pos EO EL) as Hbl. pose proof c_ge as Hc. pose proof (la_leaves _ _ _ _ _ _ HA) as HL.
      assert (Hlt : lo * bl <= hi * bl) by (apply Nat.mul_le_mono_r; lia).
      unfold lc_store_read_range, lc_store_read_into. cbn [fst snd]. rewrite checked_sub_ok by lia. cbn [rbind].
      rewrite in_bounds by lia. cbn [ensure rbind]. rewrite range_leaf_src by lia.
      rewrite <- Nat.mul_sub_distr_r, adjust_pos.
      pose proof la_fdata as HF. pose proof (la_file _ _ _ _ _ _ HA) as HFi. unfold F in HF. unfold file_pos.
      replace (c <=? lo) with false by lia.
      destruct (lc_reader s) as [r|].
      - destruct HFi as [_ HRd]. split; [apply HRd; auto; [lia|apply repeat_length]|].
        intros buf Hbuf. apply HRd; auto. lia.
      - assert (Hp : lo + (hi - lo) <= List.length (leaves ++ skipn c els)) by (rewrite app_length; lia).
        pose proof (encoded_read f (lc_file s) _ lo (hi - lo) HF ltac:(lia) Hp) as R1. rewrite sub_app_l in R1 by lia.
        split; [exact R1|]. intros buf Hbuf. rewrite Hbuf. exact R1.
    Qed.

    Lemma sub_cache lo n : c <= lo -> sub F (file_pos lo) n = sub els lo n.
    Proof.
      intros H. unfold F, file_pos. replace (c <=? lo) with true by lia. pose proof (la_leaves _ _ _ _ _ _ HA) as HL.
      assert (G : sub (skipn c els) (lo - c) n = sub els lo n).
      { unfold sub. rewrite skipn_skipn. do 2 f_equal. lia. }
      destruct (lc_reader s); [exact G|]. rewrite sub_app_r by lia. rewrite <- G. f_equal. lia.
    Qed.
    Lemma F_len : List.length F = geom b d - c + match lc_reader s with None => b ^ d | Some _ => 0 end.
    Proof.
      unfold F. pose proof (la_leaves _ _ _ _ _ _ HA) as HL. pose proof (la_els _ _ _ _ _ _ HA) as HE.
      destruct (lc_reader s); rewrite ?app_length, skipn_length; lia.
    Qed.

    Lemma lc_range_cache lo hi : c <= lo -> lo < hi -> hi <= geom b d ->
      lc_store_read_range EO (s, f) (lo * bl) (hi * bl) = Ok (encode EO (sub els lo (hi - lo))) /\
      forall buf, List.length buf = (hi - lo) * bl ->
        lc_store_read_into EO (s, f) (lo * bl) (hi * bl) buf = Ok (encode EO (sub els lo (hi - lo))).
    Proof.
      intros H0 H1 H2. pose proof (bl_pos EO EL) as Hbl. pose proof c_ge as Hc.
      assert (Hlt : lo * bl <= hi * bl) by (apply Nat.mul_le_mono_r; lia).
      unfold lc_store_read_range, lc_store_read_into. cbn [fst snd]. rewrite checked_sub_ok by lia. cbn [rbind].
      rewrite in_bounds by lia. cbn [ensure rbind]. rewrite range_cache_src by lia.
      rewrite <- Nat.mul_sub_distr_r, adjust_pos.
      assert (Hp : file_pos lo + (hi - lo) <= List.length F).
      { rewrite F_len. unfold file_pos. replace (c <=? lo) with true by lia. destruct (lc_reader s); lia. }
      pose proof (encoded_read f (lc_file s) F (file_pos lo) (hi - lo) la_fdata ltac:(lia) Hp) as R1.
      rewrite sub_cache in R1 by auto.
      split; [exact R1|]. intros buf Hbuf. rewrite Hbuf. exact R1.
    Qed.

    (* ---- the four reads where they are right ---- *)
    Definition kept (lo hi : nat) : Prop := lo < hi /\ (hi <= b ^ d \/ c <= lo /\ hi <= geom b d).

    Lemma kept_store lo hi : kept lo hi ->
      lc_check EO (s, f) (lo * bl) (hi * bl) = Ok tt /\
      lc_store_read_range EO (s, f) (lo * bl) (hi * bl) = Ok (encode EO (sub els lo (hi - lo))) /\
      forall buf, List.length buf = (hi - lo) * bl ->
        lc_store_read_into EO (s, f) (lo * bl) (hi * bl) buf = Ok (encode EO (sub els lo (hi - lo))).
    Proof.
      intros [H1 H2]. pose proof (geom_gt b d) as Hg. split; [apply lc_check_ok; auto; lia|].
      destruct H2 as [H2|[H2 H3]]; [|apply lc_range_cache; auto].
      assert (sub els lo (hi - lo) = sub leaves lo (hi - lo)) as ->; [|apply lc_range_leaves; auto].
      apply nth_error_ext. intros k. rewrite !nth_error_sub. destruct (k <? hi - lo) eqn:G; [|reflexivity].
      apply (la_first _ _ _ _ _ _ HA). lia.
    Qed.

    Lemma lc_read_range_kept lo hi : kept lo hi -> lc_read_range EO (s, f) lo hi = Ok (sub els lo (hi - lo)).
    Proof.
      intros H. destruct (kept_store lo hi H) as (G1 & G2 & _). unfold lc_read_range. rewrite G1. cbn [rbind]. rewrite G2. cbn [rbind].
      apply decode_encode; auto.
    Qed.
    Lemma lc_read_range_into_kept lo hi buf : kept lo hi -> List.length buf = (hi - lo) * bl ->
      lc_read_range_into EO (s, f) lo hi buf = Ok (encode EO (sub els lo (hi - lo))).
    Proof.
      intros H Hbuf. destruct (kept_store lo hi H) as (G1 & _ & G3). unfold lc_read_range_into. rewrite G1. cbn [rbind]. apply G3. exact Hbuf.
    Qed.
    Lemma one_hi k : k * bl + bl = (k + 1) * bl.
    Proof. ring. Qed.
    Lemma sub_one (l : list E) k x : nth_error l k = Some x -> sub l k 1 = [x].
    Proof. intros H. rewrite (sub_cons_nth l k 0 x H). reflexivity. Qed.
    Lemma encode_one (x : E) : encode EO [x] = e_as_ref EO x.
    Proof. unfold encode. cbn [map concat]. apply app_nil_r. Qed.

    Lemma lc_read_at_kept k x : k < b ^ d \/ c <= k -> nth_error els k = Some x -> lc_read_at EO (s, f) k = Ok x.
    Proof.
      intros H Hx. pose proof (nth_error_lt _ _ _ Hx) as Hk. rewrite (la_els _ _ _ _ _ _ HA) in Hk.
      destruct (kept_store k (k + 1)) as (G1 & G2 & _); [split; lia|]. unfold lc_read_at. rewrite one_hi, G1. cbn [rbind]. rewrite G2. cbn [rbind].
      replace (k + 1 - k) with 1 by lia. rewrite (sub_one els k x Hx), encode_one. apply (el_round _ EL).
    Qed.
    Lemma lc_read_into_kept k x buf : k < b ^ d \/ c <= k -> nth_error els k = Some x -> List.length buf = bl ->
      lc_read_into EO (s, f) k buf = Ok (e_as_ref EO x).
    Proof.
      intros H Hx Hbuf. pose proof (nth_error_lt _ _ _ Hx) as Hk. rewrite (la_els _ _ _ _ _ _ HA) in Hk.
      destruct (kept_store k (k + 1)) as (G1 & _ & G3); [split; lia|]. unfold lc_read_into. rewrite one_hi, G1. cbn [rbind].
      rewrite G3 by lia. replace (k + 1 - k) with 1 by lia. rewrite (sub_one els k x Hx), encode_one. reflexivity.
    Qed.

    (* ---- a single discarded element ---- *)
    Lemma lc_read_at_discarded k : b ^ d < k -> k < c -> exists m, lc_read_at EO (s, f) k = Err m.
    Proof.
      intros H1 H2. unfold lc_read_at. destruct (lc_check_discarded k (k * bl + bl) H1 H2) as [m Hm]. rewrite Hm. eexists; reflexivity.
    Qed.
    Lemma lc_read_at_edge_reader : lc_reader s <> None -> b ^ d < c -> exists m, lc_read_at EO (s, f) (b ^ d) = Err m.
    Proof.
      intros Hr H. unfold lc_read_at. rewrite one_hi. pose proof c_lt.
      rewrite lc_check_ok by lia. cbn [rbind]. unfold lc_store_read_range. cbn [fst snd].
      pose proof (bl_pos EO EL) as Hbl. assert (b ^ d * bl <= (b ^ d + 1) * bl) by (apply Nat.mul_le_mono_r; lia).
      rewrite checked_sub_ok by lia. cbn [rbind]. rewrite in_bounds by lia. cbn [ensure rbind]. rewrite range_cache_src by lia.
      rewrite <- Nat.mul_sub_distr_r, adjust_pos. unfold file_pos. replace (c <=? b ^ d) with false by lia.
      assert (Hlt : List.length F < b ^ d + (b ^ d + 1 - b ^ d)).
      { rewrite F_len. destruct (lc_reader s); [|congruence]. pose proof cache_small.
        pose proof (Nat.pow_le_mono_r b (d - R) d ltac:(pose proof (arity_ge b Hb); lia) ltac:(lia)). lia. }
      rewrite (encoded_eof f (lc_file s) F (b ^ d) (b ^ d + 1 - b ^ d) la_fdata ltac:(lia) Hlt).
      eexists; reflexivity.
    Qed.
    (* without a reader the first element behind the leaves is the first cached one *)
    Lemma lc_read_at_edge_none x : lc_reader s = None -> nth_error els c = Some x -> lc_read_at EO (s, f) (b ^ d) = Ok x.
    Proof.
      intros Hr Hx. destruct (Nat.eq_dec c (b ^ d)) as [Hc|Hc]; [apply lc_read_at_kept; [lia|rewrite <- Hc; exact Hx]|].
      pose proof c_ge. pose proof c_lt. unfold lc_read_at. rewrite one_hi.
      rewrite lc_check_ok by lia. cbn [rbind]. unfold lc_store_read_range. cbn [fst snd].
      pose proof (bl_pos EO EL) as Hbl. assert (b ^ d * bl <= (b ^ d + 1) * bl) by (apply Nat.mul_le_mono_r; lia).
      rewrite checked_sub_ok by lia. cbn [rbind]. rewrite in_bounds by lia. cbn [ensure rbind]. rewrite range_cache_src by lia.
      rewrite <- Nat.mul_sub_distr_r, adjust_pos. unfold file_pos. replace (c <=? b ^ d) with false by lia.
      rewrite (encoded_read f (lc_file s) F (b ^ d) (b ^ d + 1 - b ^ d) la_fdata) by (try lia; rewrite F_len, Hr; lia).
      cbn [rbind]. replace (b ^ d + 1 - b ^ d) with 1 by lia. rewrite (sub_one F (b ^ d) x); [rewrite encode_one; apply (el_round _ EL)|].
      unfold F. rewrite Hr, nth_error_app, (la_leaves _ _ _ _ _ _ HA). replace (b ^ d <? b ^ d) with false by lia.
      rewrite nth_error_skipn, Nat.sub_diag, Nat.add_0_r. exact Hx.
    Qed.
    (* ---- ranges starting in discarded rows, or beyond the end ---- *)
    Definition blocked (lo hi : nat) : Prop :=
      (exists m, lc_check EO (s, f) (lo * bl) (hi * bl) = Err m) \/
      lc_check EO (s, f) (lo * bl) (hi * bl) = Ok tt /\ (exists m, lc_store_read_range EO (s, f) (lo * bl) (hi * bl) = Err m) /\
      forall buf, List.length buf = (hi - lo) * bl -> exists m, lc_store_read_into EO (s, f) (lo * bl) (hi * bl) buf = Err m.

    Lemma lc_range_discarded lo hi : b ^ d < lo -> lo < c -> blocked lo hi.
    Proof. intros H1 H2. left. apply lc_check_discarded; auto. Qed.
    Lemma lc_range_end lo hi : geom b d <= lo \/ geom b d < hi -> blocked lo hi.
    Proof.
      intros H. left. destruct H as [H|H]; [|apply lc_check_end; exact H].
      unfold lc_check. cbn [fst]. rewrite (la_len _ _ _ _ _ _ HA). pose proof (bl_pos EO EL) as Hbl.
      assert (geom b d * bl <= lo * bl) by (apply Nat.mul_le_mono_r; lia). replace (lo * bl <? geom b d * bl) with false by lia. eexists; reflexivity.
    Qed.
    Lemma lc_range_edge_reader hi : lc_reader s <> None -> b ^ d < c -> b ^ d < hi -> blocked (b ^ d) hi.
    Proof.
      intros Hr H Hhi. destruct (Nat.lt_ge_cases (geom b d) hi) as [G|G]; [apply lc_range_end; auto|]. right.
      assert (Hlt : List.length F < b ^ d + (hi - b ^ d)).
      { rewrite F_len. destruct (lc_reader s); [|congruence]. pose proof cache_small.
        pose proof (Nat.pow_le_mono_r b (d - R) d ltac:(pose proof (arity_ge b Hb); lia) ltac:(lia)). lia. }
      pose proof (encoded_eof f (lc_file s) F (b ^ d) (hi - b ^ d) la_fdata ltac:(lia) Hlt) as HE.
      pose proof (bl_pos EO EL) as Hbl. assert (b ^ d * bl <= hi * bl) by (apply Nat.mul_le_mono_r; lia).
      split; [apply lc_check_ok; lia|].
      split; [|intros buf Hbuf]; unfold lc_store_read_range, lc_store_read_into; cbn [fst snd]; rewrite ?checked_sub_ok by lia; cbn [rbind];
        rewrite in_bounds by lia; cbn [ensure rbind]; rewrite range_cache_src by lia; rewrite adjust_pos; unfold file_pos;
        replace (c <=? b ^ d) with false by lia.
      - rewrite <- Nat.mul_sub_distr_r, HE. eexists; reflexivity.
      - rewrite Hbuf, HE. eexists; reflexivity.
    Qed.
    Lemma blocked_range lo hi : blocked lo hi -> (exists m, lc_read_range EO (s, f) lo hi = Err m) /\
      forall buf, List.length buf = (hi - lo) * bl -> exists m, lc_read_range_into EO (s, f) lo hi buf = Err m.
    Proof.
      unfold lc_read_range, lc_read_range_into. intros [[m Hm]|(H1 & [m H2] & H3)].
      - split; [|intros buf _]; exists m; rewrite Hm; reflexivity.
      - rewrite H1. cbn [rbind]. split; [rewrite H2; eexists; reflexivity|exact H3].
    Qed.
    Lemma blocked_one k : blocked k (k + 1) -> (exists m, lc_read_at EO (s, f) k = Err m) /\
      forall buf, List.length buf = bl -> exists m, lc_read_into EO (s, f) k buf = Err m.
    Proof.
      unfold lc_read_at, lc_read_into. rewrite one_hi. intros [[m Hm]|(H1 & [m H2] & H3)].
      - split; [|intros buf _]; exists m; rewrite Hm; reflexivity.
      - rewrite H1. cbn [rbind]. split; [rewrite H2; eexists; reflexivity|]. intros buf Hbuf. apply H3. rewrite Hbuf. lia.
    Qed.
  End At.
End LcReads.
