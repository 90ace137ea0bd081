(* A compacted DiskStore used again: compacted a second time, or read. *)
From Coq Require Import String List Arith Bool Lia Init.Byte ZifyBool ZifyNat.
From Verif Require Import Base Element Hash Sizing FS Sched Store VecStore DiskStore MmapStore LevelCache ProofModel Tree ListFacts Spec SpecFacts SizingFacts SchedFacts StoreLaws RowFacts ChunkFacts BuildFacts BuildLoop StoreSpec FileFacts VecFacts MapLayer DiskFacts MmapFacts PopFacts TreeFacts ProofSpec ProofFacts TreeProofs TreeObs Builders BuiltFacts CachedFacts CachedTrees LcReads LcTrees FrameFacts CompactFacts CompactTrees.
Import ListNotations.

Section Lengths.
  Variables (b : nat).
  Hypothesis Hb : arity b.

  (* leaves followed by rows that do not start right above them: not a tree length *)
  Lemma gap_not_tree d R q : 1 <= R -> R < d -> b ^ d + geom b (d - 1 - R) <> geom b q.
  Proof.
    intros H1 H2 HE. pose proof (arity_ge b Hb) as Hb2. destruct d as [|d]; [lia|].
    replace (S d - 1 - R) with (d - R) in HE by lia.
    destruct (le_lt_dec (S d) q) as [L|L].
    - pose proof (geom_mono b (S d) q L) as M. pose proof (geom_strict b (d - R) d ltac:(lia) ltac:(lia)) as HS.
      change (geom b (S d)) with (b ^ S d + geom b d) in M. lia.
    - pose proof (geom_mono b q d ltac:(lia)) as M. pose proof (geom_lt_next b d Hb2). pose proof (geom_pos b (d - R)). lia.
  Qed.

  Lemma gap_leafs d R : 1 <= R -> R < d -> exists e, get_merkle_tree_leafs (b ^ d + geom b (d - 1 - R)) b = Err e.
  Proof.
    intros H1 H2.
    assert (HO : b = 2 -> Nat.odd (b ^ d + geom b (d - 1 - R)) = true).
    { intros ->. destruct d as [|d]; [lia|]. rewrite geom_2. replace (S d - 1 - R) with (d - R) by lia. apply Nat.odd_spec.
      exists (2 ^ d + 2 ^ (d - R) - 1). cbn [Nat.pow]. pose proof (pow_pos 2 d ltac:(lia)). pose proof (pow_pos 2 (d - R) ltac:(lia)). lia. }
    pose proof (get_merkle_tree_leafs_sound b _ Hb HO) as G.
    destruct (get_merkle_tree_leafs _ b) as [n|e|e|]; eauto; try contradiction.
    exfalso. destruct G as (q & Q & _). eapply gap_not_tree; eauto.
  Qed.

  Lemma cache_size_1 R : exists e, get_merkle_tree_cache_size 1 b R = Err e.
  Proof.
    unfold get_merkle_tree_cache_size. destruct (get_merkle_tree_len_small 1 b) as [m ->]; [pose proof (arity_ge b Hb); lia|].
    eexists. reflexivity.
  Qed.
End Lengths.

Section Again.
  Context {E : Type} (EO : ElementOps E) (EL : ElementLaws EO).
  Local Notation bl := (e_byte_len EO).
  Variables (b : nat).
  Hypothesis Hb : arity b.

  Lemma copy_nothing sizes r w rpos wpos f : fs_size f r <= rpos -> fs_copy sizes r w rpos wpos f = (Ok 0, f).
  Proof.
    intros H. unfold fs_copy. rewrite copy_loop_S. cbv zeta. rewrite sub_length. unfold fs_size in H.
    replace (Nat.min (S (sizes 0)) (List.length (fs_data f (h_ino r)) - rpos)) with 0 by lia. reflexivity.
  Qed.

  (* q: what is left are the rows of a tree of q + 1 rows; the recorded size is still that of d + 1 rows *)
  Lemma compact_stale_size c sizes v s f i d q : q < d ->
    ds_len s = geom b q -> ds_size s = geom b d * bl -> ds_file s = {| h_ino := i; h_write := true |} ->
    fs_dir f (cfg_path c) = Some i -> i_ro (fs_ino f i) = false -> List.length (fs_data f i) = geom b q * bl ->
    exists e, disk_compact EO sizes b c v (s, f) = (Err e, (s, f)).
  Proof.
    intros Hq S1 S2 S3 Hp Hro Hl. pose proof (bl_pos EO EL) as Hbl. pose proof (arity_ge b Hb) as H2.
    unfold disk_compact, disk_compact_with. rewrite (sbind_ok _ _ (s, f) (s, f) (s, f)) by reflexivity. cbn [fst snd].
    rewrite S1, get_merkle_tree_leafs_full by auto. rewrite (sbind_ok _ _ (s, f) (b ^ q) (s, f)) by reflexivity.
    set (R := sc_rows_to_discard c).
    destruct (Nat.eq_dec q 0) as [->|Hq0].
    { destruct (cache_size_1 b Hb R) as [e He]. cbn [Nat.pow]. rewrite He. eexists. reflexivity. }
    destruct (le_lt_dec q R) as [L|L].
    { destruct (cache_size_bad b q R) as [e He]; [auto|lia|lia|]. rewrite He. eexists. reflexivity. }
    rewrite cache_size_full by auto. set (g := geom b (q - 1 - R)). rewrite (sbind_ok _ _ (s, f) g (s, f)) by reflexivity.
    assert (G1 : g < geom b q) by (apply geom_strict; lia). assert (G2 : 0 < g) by (apply geom_pos).
    assert (G3 : geom b q + g <= geom b d).
    { assert (geom b q + geom b q <= geom b d); [|lia].
      pose proof (geom_mono b (S q) d ltac:(lia)) as M. change (geom b (S q)) with (b ^ S q + geom b q) in M.
      pose proof (geom_lt_next b q H2). lia. }
    replace ((g * bl <? geom b q * bl) && negb (g * bl =? 0)) with true.
    2:{ symmetry. apply andb_true_iff. split.
        - apply Nat.ltb_lt. apply Nat.mul_lt_mono_pos_r; lia.
        - apply negb_true_iff, Nat.eqb_neq. pose proof (Nat.mul_pos_pos g bl). lia. }
    cbn [ensure]. rewrite (sbind_ok _ _ (s, f) tt (s, f)) by reflexivity. rewrite S2.
    assert (G4 : geom b q * bl + g * bl <= geom b d * bl) by (rewrite <- Nat.mul_add_distr_r; apply Nat.mul_le_mono_r; lia).
    rewrite checked_sub_ok by lia. rewrite (sbind_ok _ _ (s, f) (geom b d * bl - g * bl) (s, f)) by reflexivity.
    unfold fs_open_ro. rewrite Hp. rewrite (sbind_ok _ _ (s, f) {| h_ino := i; h_write := false |} (s, f)) by reflexivity.
    unfold fs_open_rw. rewrite Hp, Hro. rewrite (sbind_ok _ _ (s, f) {| h_ino := i; h_write := true |} (s, f)) by reflexivity.
    replace (ds_set_file s {| h_ino := i; h_write := true |}) with s by (destruct s; cbn in S3 |- *; rewrite <- S3; reflexivity).
    rewrite (sbind_ok _ _ (s, f) tt (s, f)) by reflexivity.
    rewrite (sbind_ok _ _ (s, f) 0 (s, f)).
    2:{ unfold on_fs. cbn [fst snd]. rewrite copy_nothing; [reflexivity|]. unfold fs_size. cbn [h_ino]. rewrite Hl. lia. }
    replace (0 =? g * bl) with false; [eexists; reflexivity|]. symmetry. apply Nat.eqb_neq. pose proof (Nat.mul_pos_pos g bl). lia.
  Qed.

  (* the length is not a tree length: refused at once *)
  Lemma compact_gap c sizes v s f d R : 1 <= R -> R < d -> ds_len s = b ^ d + geom b (d - 1 - R) ->
    exists e, disk_compact EO sizes b c v (s, f) = (Err e, (s, f)).
  Proof.
    intros H1 H2 HL. unfold disk_compact, disk_compact_with. rewrite (sbind_ok _ _ (s, f) (s, f) (s, f)) by reflexivity. cbn [fst snd].
    rewrite HL. destruct (gap_leafs b Hb d R H1 H2) as [e He]. rewrite He. eexists. reflexivity.
  Qed.

  (* reading a DiskStore whose file holds [l], whatever size it records *)
  Lemma disk_reads s f l k : ds_len s = List.length l -> fs_data f (h_ino (ds_file s)) = encode EO l ->
    match nth_error l k with
    | Some x => disk_read_at EO (s, f) k = Ok x
    | None => exists e, disk_read_at EO (s, f) k = Err e
    end.
  Proof.
    intros HL HD. pose proof (bl_pos EO EL) as Hbl. destruct (nth_error l k) as [x|] eqn:Hk.
    - pose proof (nth_error_lt _ _ _ Hk) as Lk.
      change (disk_read_at EO (s, f) k) with (disk_read_at EO ({| ds_len := ds_len s; ds_file := ds_file s; ds_loaded := ds_loaded s; ds_size := List.length l * bl |}, f) k).
      eapply (cl_read_at _ _ _ _ _ _ _ _ _ _ (disk_core EO EL) (List.length l) (List.length l) (nth_error l)); auto.
      split; [exact HL|]. split; [apply le_n|]. split; [reflexivity|]. cbn [fst snd ds_file]. rewrite HD. apply DRep_encode. exact EL.
    - apply nth_error_None in Hk. unfold disk_read_at, disk_check. cbn [fst].
      replace (k * bl <? ds_len s * bl) with false; [eexists; reflexivity|]. symmetry. apply Nat.ltb_ge, Nat.mul_le_mono_r. lia.
  Qed.
End Again.

Section AgainTrees.
  Context {E : Type} (EO : ElementOps E) (EL : ElementLaws EO) (A : AlgOps E).
  Local Notation bl := (e_byte_len EO).
  Local Notation DO := (disk_store EO).
  Variables (b : nat).
  Hypothesis Hb : arity b.
  Variables (t : mtree (st_t DO) E) (s : disk_t) (f : fs) (c : StoreConfig) (i d : nat) (leaves els : list E).
  Hypothesis HD : DiskTree EO A b t s f (cfg_path c) i d leaves els.
  Local Notation R := (sc_rows_to_discard c).

  Lemma again_state sizes v t' f2 : R < d -> mt_compact DO b sizes c v (t, f) = (Ok true, (t', f2)) ->
    exists s', mt_data t' = BaseTree s' /\ mt_leafs t' = mt_leafs t /\ mt_row_count t' = mt_row_count t /\ mt_root t' = mt_root t /\
      mt_len_field t' = mt_len_field t /\
      ds_len s' = List.length (compacted b c d leaves els v) /\ ds_file s' = {| h_ino := i; h_write := true |} /\ ds_size s' = geom b d * bl /\
      fs_data f2 i = encode EO (compacted b c d leaves els v) /\ fs_dir f2 (cfg_path c) = Some i /\ i_ro (fs_ino f2 i) = false.
  Proof.
    intros HR HC. pose proof (dt_layout EO A b t s f c i d leaves els HD) as (L1 & L2 & _).
    destruct (disk_compact_ok EO EL b Hb c d leaves els s f i L1 L2 (dt_first EO A b Hb t s f c i d leaves els HD) (dt_rep _ _ _ _ _ _ _ _ _ _ _ HD)
      (dt_file _ _ _ _ _ _ _ _ _ _ _ HD) (dt_path _ _ _ _ _ _ _ _ _ _ _ HD) (dt_ro _ _ _ _ _ _ _ _ _ _ _ HD) sizes v (dt_d EO A b t s f c i d leaves els HD) HR)
      as (s' & f' & H1 & H2 & H3 & H4 & H5 & H6).
    rewrite (mt_compact_eq EO A b t s f c i d leaves els HD sizes v _ _ _ H1) in HC. inversion HC; subst t' f2.
    exists s'. cbn. repeat match goal with |- _ /\ _ => split end; auto.
    - rewrite H6. apply (dt_rep _ _ _ _ _ _ _ _ _ _ _ HD).
    - destruct H3 as (F1 & _). rewrite F1. apply (dt_path _ _ _ _ _ _ _ _ _ _ _ HD).
    - destruct H3 as (_ & _ & _ & F). rewrite F. apply (dt_ro _ _ _ _ _ _ _ _ _ _ _ HD).
  Qed.

  Lemma compacted_length v : R < d ->
    List.length (compacted b c d leaves els v) = (if v =? 1 then b ^ d else 0) + geom b (d - 1 - R).
  Proof.
    intros HR. pose proof (dt_layout EO A b t s f c i d leaves els HD) as (L1 & L2 & _).
    pose proof (geom_row_off b d (S R) ltac:(lia)) as G. replace (d - S R) with (d - 1 - R) in G by lia.
    unfold compacted, cached. destruct (v =? 1); rewrite ?app_length, skipn_length; lia.
  Qed.

  (* too short for a loop of d rounds *)
  Lemma compacted_short v : R < d -> v <> 1 \/ 1 <= R -> List.length (compacted b c d leaves els v) <= row_off b d (d - 1) + 1.
  Proof.
    intros HR HV. rewrite compacted_length by exact HR. pose proof (arity_ge b Hb) as H2.
    pose proof (geom_row_off b d (d - 1) ltac:(lia)) as G. replace (d - (d - 1)) with 1 in G by lia.
    change (geom b 1) with (b ^ 1 + 1) in G. rewrite Nat.pow_1_r in G.
    destruct d as [|[|k]]; [lia| |].
    - replace (v =? 1) with false by (destruct HV; [symmetry; apply Nat.eqb_neq; auto|lia]).
      change (1 - 1 - R) with (0 - R). cbn [Nat.sub geom]. cbn [geom] in G. lia.
    - change (geom b (S (S k))) with (b ^ S (S k) + (b ^ S k + geom b k)) in G.
      assert (P : b <= b ^ S k) by (rewrite <- (Nat.pow_1_r b) at 1; apply Nat.pow_le_mono_r; lia).
      destruct (v =? 1) eqn:Q.
      + apply Nat.eqb_eq in Q. destruct HV as [HV|HV]; [contradiction|]. pose proof (geom_mono b (S (S k) - 1 - R) k ltac:(lia)). lia.
      + pose proof (geom_mono b (S (S k) - 1 - R) (S k) ltac:(lia)) as M. change (geom b (S k)) with (b ^ S k + geom b k) in M.
        cbn [Nat.pow] in *. pose proof (Nat.mul_le_mono_r 2 b (b * b ^ k) H2). lia.
  Qed.

  Lemma again_err c' sizes v v' sizes' t' f2 : cfg_path c' = cfg_path c -> R < d -> v <> 1 \/ 1 <= R ->
    mt_compact DO b sizes c v (t, f) = (Ok true, (t', f2)) ->
    exists e, mt_compact DO b sizes' c' v' (t', f2) = (Err e, (t', f2)).
  Proof.
    intros HP HR HV HC. destruct (again_state sizes v t' f2 HR HC) as (s' & T1 & _ & _ & _ & _ & S1 & S2 & S3 & D1 & D2 & D3).
    rewrite compacted_length in S1 by exact HR.
    assert (HX : exists e, disk_compact EO sizes' b c' v' (s', f2) = (Err e, (s', f2))).
    { destruct (v =? 1) eqn:Q.
      - apply Nat.eqb_eq in Q. apply (compact_gap EO b Hb c' sizes' v' s' f2 d R); [destruct HV; [contradiction|auto]|auto|exact S1].
      - apply (compact_stale_size EO EL b Hb c' sizes' v' s' f2 i d (d - 1 - R)); auto; [lia|rewrite HP; exact D2|].
        rewrite D1, encode_length, compacted_length, Q by auto. reflexivity. }
    destruct HX as [e He]. exists e. etransitivity; [exact (mt_on_store_base DO _ t' s' f2 _ _ _ T1 He)|].
    destruct t'. cbn in T1 |- *. rewrite T1. reflexivity.
  Qed.

  Lemma again_reads sizes v t' f2 k : R < d -> mt_compact DO b sizes c v (t, f) = (Ok true, (t', f2)) ->
    match nth_error (compacted b c d leaves els v) k with
    | Some x => mt_read_at DO 0 0 t' f2 k = Ok x
    | None => exists e, mt_read_at DO 0 0 t' f2 k = Err e
    end.
  Proof.
    intros HR HC. destruct (again_state sizes v t' f2 HR HC) as (s' & T1 & _ & _ & _ & _ & S1 & S2 & S3 & D1 & D2 & D3).
    assert (HX : mt_read_at DO 0 0 t' f2 k = disk_read_at EO (s', f2) k) by (unfold mt_read_at; cbn [mt_read_at_n]; rewrite T1; reflexivity).
    rewrite HX. apply (disk_reads EO EL s' f2 _ k S1). rewrite S2. exact D1.
  Qed.

  (* version 1, no row dropped: the same tree *)
  Lemma again_same sizes t' f2 : R = 0 -> 0 < d -> mt_compact DO b sizes c 1 (t, f) = (Ok true, (t', f2)) ->
    exists s', DiskTree EO A b t' s' f2 (cfg_path c) i d leaves els.
  Proof.
    intros HR Hd HC. destruct (again_state sizes 1 t' f2 ltac:(lia) HC) as (s' & T1 & T2 & T3 & T4 & T5 & S1 & S2 & S3 & D1 & D2 & D3).
    pose proof (dt_at _ _ _ _ _ _ _ _ _ _ _ HD) as HA. pose proof (ta_layout _ _ _ _ _ _ _ _ _ _ HA) as HL. pose proof HL as (L1 & L2 & _).
    pose proof (arity_ge b Hb) as H2.
    assert (HE : compacted b c d leaves els 1 = els).
    { unfold compacted, cached. cbn [Nat.eqb]. rewrite HR. change (row_off b d 1) with (0 + b ^ (d - 0)). rewrite Nat.sub_0_r, Nat.add_0_l.
      replace leaves with (firstn (b ^ d) els); [apply firstn_skipn|].
      apply nth_error_ext. intros k. rewrite nth_error_firstn. destruct (k <? b ^ d) eqn:Q.
      - apply (Layout_leaf b ltac:(lia) (h_node A) d leaves els k HL). lia.
      - symmetry. apply nth_error_None. lia. }
    rewrite HE in S1, D1. rewrite L2 in S1.
    assert (HRep : disk_rep EO (geom b d) (geom b d) (nth_error els) (s', f2)).
    { split; [exact S1|]. split; [apply le_n|]. split; [exact S3|]. cbn [fst snd]. rewrite S2. cbn [h_ino]. rewrite D1, <- L2. apply DRep_encode. exact EL. }
    exists s'. constructor; auto; [|rewrite S2; reflexivity].
    destruct HA as [A1 A2 A3 A4 A5 A6 A7 A8]. constructor; auto; try (rewrite ?T2, ?T3, ?T4, ?T5; assumption). exists (geom b d). exact HRep.
  Qed.

  Lemma proof_loop_short (rd : nat -> nat -> res E) (len r' : nat) : r' <= d -> len <= row_off b d r' + 1 ->
    forall n r fuel j lv l p, r' - r = n -> r <= r' ->
      proof_loop b fuel rd (log2_pow2 b) len (row_off b d r) (b ^ (d - r)) j lv = Ok (l, p) -> List.length p <= n.
  Proof.
    intros Hr' Hlen. pose proof (arity_ge b Hb) as H2. induction n as [|n IH]; intros r fuel j lv l p Hn Hr H.
    - destruct fuel; [discriminate|]. cbn [proof_loop] in H. assert (r = r') by lia. subst r.
      replace (row_off b d r' + 1 <? len) with false in H by (symmetry; apply Nat.ltb_ge; lia). inversion H. cbn. lia.
    - destruct fuel; [discriminate|]. cbn [proof_loop] in H. destruct (row_off b d r + 1 <? len); [|inversion H; cbn; lia].
      destruct (read_siblings _ _ _) as [sib|?|?|]; try discriminate. cbn [rbind] in H.
      rewrite <- row_off_step in H. rewrite arity_shift with (b := b) (n := b ^ (d - r)) in H by auto.
      replace (b ^ (d - r) / b) with (b ^ (d - S r)) in H.
      2:{ replace (d - r) with (S (d - S r)) by lia. cbn [Nat.pow]. rewrite Nat.mul_comm, Nat.div_mul by lia. reflexivity. }
      destruct (proof_loop b fuel rd _ len _ _ _ _) as [[l0 p0]|?|?|] eqn:Q; try discriminate. cbn [rbind] in H. inversion H. subst. cbn [List.length].
      apply IH in Q; lia.
  Qed.

  Lemma partial_loop_short (rd rdp : nat -> res E) (len dw cis r' : nat) : r' <= d -> len <= row_off b d r' + 1 ->
    forall n r fuel j pb sw ss l p, r' - r = n -> r <= r' ->
      partial_loop b fuel rd rdp (log2_pow2 b) len dw cis (row_off b d r) (b ^ (d - r)) j pb sw ss = Ok (l, p) -> List.length p <= n.
  Proof.
    intros Hr' Hlen. pose proof (arity_ge b Hb) as H2. induction n as [|n IH]; intros r fuel j pb sw ss l p Hn Hr H.
    - destruct fuel; [discriminate|]. cbn [partial_loop] in H. assert (r = r') by lia. subst r.
      replace (row_off b d r' + 1 <? len) with false in H by (symmetry; apply Nat.ltb_ge; lia). inversion H. cbn. lia.
    - destruct fuel; [discriminate|]. cbn [partial_loop] in H. destruct (row_off b d r + 1 <? len); [|inversion H; cbn; lia].
      destruct (read_siblings _ _ _) as [sib|?|?|]; try discriminate. cbn [rbind] in H.
      rewrite <- row_off_step in H. rewrite arity_shift with (b := b) (n := b ^ (d - r)) in H by auto.
      replace (b ^ (d - r) / b) with (b ^ (d - S r)) in H.
      2:{ replace (d - r) with (S (d - S r)) by lia. cbn [Nat.pow]. rewrite Nat.mul_comm, Nat.div_mul by lia. reflexivity. }
      destruct (partial_loop b fuel rd rdp _ len _ _ _ _ _ _ _ _) as [[l0 p0]|?|?|] eqn:Q; try discriminate. cbn [rbind] in H. inversion H. subst. cbn [List.length].
      apply IH in Q; lia.
  Qed.
End AgainTrees.

Section NoProofs.
  Context {E : Type} (EO : ElementOps E) (A : AlgOps E) (SO : StoreOps E) (en : env).
  Variables (b : nat).
  Hypothesis Hb : arity b.
  Variables (t : mtree (st_t SO) E) (s : st_t SO) (f : fs) (d : nat).
  Hypothesis T1 : mt_data t = BaseTree s.
  Hypothesis T2 : mt_leafs t = b ^ d.
  Hypothesis T3 : mt_row_count t = S d.
  Hypothesis Hd : 1 <= d.
  Hypothesis Hlen : st_len SO s <= row_off b d (d - 1) + 1.

  Lemma no_proof i p : gen_proof SO b 0 0 t f i <> Ok p.
  Proof.
    intros H. unfold gen_proof in H. cbn [gen_proof_n] in H. rewrite T1 in H. unfold gen_proof_base in H. rewrite T2, T3 in H.
    destruct (ensure _ _) as [[]|?|?|]; try discriminate; cbn [rbind] in H.
    destruct (ensure _ _) as [[]|?|?|]; try discriminate; cbn [rbind] in H.
    destruct (ensure _ _) as [[]|?|?|]; try discriminate; cbn [rbind] in H.
    destruct (get_merkle_proof_lemma_len _ _) as [ll|?|?|]; try discriminate; cbn [rbind] in H.
    rewrite checked_sub_ok in H by lia. cbn [ensure Nat.eqb rbind] in H.
    destruct (st_read_at _ _ _) as [item|?|?|]; try discriminate; cbn [rbind] in H.
    destruct (proof_loop _ _ _ _ _ _ _ _ _) as [[l q]|?|?|] eqn:Q; try discriminate; cbn [rbind] in H.
    destruct (ensure (_ =? ll) _) as [[]|?|?|]; try discriminate; cbn [rbind] in H.
    change 0 with (row_off b d 0) in Q at 1. replace (b ^ d) with (b ^ (d - 0)) in Q by (f_equal; lia).
    unfold mt_len in Q. rewrite T1 in Q.
    apply (proof_loop_short b Hb d _ _ (d - 1) ltac:(lia) Hlen (d - 1) 0) in Q; [|lia|lia].
    replace (List.length q =? S d - 1) with false in H; [discriminate|]. symmetry. apply Nat.eqb_neq. lia.
  Qed.

  Lemma no_cached_proof i rows p : gen_cached_proof EO SO A en b 0 0 t f i rows <> Ok p.
  Proof.
    intros H. unfold gen_cached_proof in H. cbn [gen_cached_proof_n] in H. rewrite T1 in H. unfold gen_cached_proof_base in H. rewrite T2, T3 in H.
    destruct (ensure _ _) as [[]|?|?|]; try discriminate; cbn [rbind] in H.
    destruct (ensure _ _) as [[]|?|?|]; try discriminate; cbn [rbind] in H.
    destruct (get_merkle_tree_len _ _) as [n1|?|?|]; try discriminate; cbn [rbind] in H.
    set (rr := match rows with Some r => _ | None => _ end) in H.
    destruct (get_merkle_tree_cache_size _ _ _) as [n2|?|?|]; try discriminate; cbn [rbind] in H.
    destruct (ensure _ _) as [[]|?|?|]; try discriminate; cbn [rbind] in H.
    destruct (get_merkle_tree_leafs _ _) as [n3|?|?|]; try discriminate; cbn [rbind] in H.
    destruct (ensure _ _) as [[]|?|?|]; try discriminate; cbn [rbind] in H.
    destruct (checked_sub _ _) as [n4|?|?|]; try discriminate; cbn [rbind] in H.
    destruct (_ =? 0); try discriminate.
    destruct (st_read_range_into _ _ _ _ _) as [n5|?|?|]; try discriminate; cbn [rbind] in H.
    destruct (fst _) as [n6|?|?|]; try discriminate; cbn [rbind] in H.
    destruct (ensure _ _) as [[]|?|?|]; try discriminate; cbn [rbind] in H.
    destruct (get_merkle_tree_len _ _) as [n7|?|?|]; try discriminate; cbn [rbind] in H.
    destruct (build_partial_tree _ _ _ _ _ _ _ _) as [pt|?|?|]; try discriminate; cbn [rbind] in H.
    destruct (ensure _ _) as [[]|?|?|]; try discriminate; cbn [rbind] in H.
    clear - H T1 T2 T3 Hd Hlen Hb. unfold gen_proof_with_partial_tree in H. rewrite T2, T3 in H.
    destruct (ensure _ _) as [[]|?|?|]; try discriminate; cbn [rbind] in H.
    destruct (ensure _ _) as [[]|?|?|]; try discriminate; cbn [rbind] in H.
    destruct (ensure _ _) as [[]|?|?|]; try discriminate; cbn [rbind] in H.
    destruct (get_merkle_tree_len _ _) as [m1|?|?|]; try discriminate; cbn [rbind] in H.
    destruct (get_merkle_tree_cache_size _ _ _) as [m2|?|?|]; try discriminate; cbn [rbind] in H.
    destruct (checked_sub m1 m2) as [m4|?|?|]; try discriminate; cbn [rbind] in H.
    destruct (get_merkle_tree_leafs _ _) as [m3|?|?|]; try discriminate; cbn [rbind] in H.
    destruct (ensure _ _) as [[]|?|?|]; try discriminate; cbn [rbind] in H.
    destruct (_ =? 0); try discriminate.
    destruct (get_merkle_proof_lemma_len _ _) as [ll|?|?|]; try discriminate; cbn [rbind] in H.
    rewrite checked_sub_ok in H by lia. cbn [ensure Nat.eqb rbind] in H.
    destruct (st_read_at _ _ _) as [item|?|?|]; try discriminate; cbn [rbind] in H.
    destruct (partial_loop _ _ _ _ _ _ _ _ _ _ _ _ _ _) as [[l q]|?|?|] eqn:Q; try discriminate; cbn [rbind] in H.
    destruct (ensure (_ =? ll) _) as [[]|?|?|]; try discriminate; cbn [rbind] in H.
    assert (X : List.length q <= d - 1).
    { unfold mt_len in Q. rewrite T1 in Q.
      apply (partial_loop_short b Hb d (fun idx : nat => st_read_at SO (s, f) idx) (fun idx : nat => mt_read_at (vec_store EO) 0 0 pt f idx) (st_len SO s) (b ^ d) m4 (d - 1) ltac:(lia) Hlen (d - 1) 0 (S (st_len SO s)) i 0 (b ^ d / m3) (i / (b ^ d / m3) * (b ^ d / m3)) l q); [lia|lia|].
      rewrite Nat.sub_0_r. exact Q. }
    replace (List.length q =? S d - 1) with false in H; [discriminate|]. symmetry. apply Nat.eqb_neq. lia.
  Qed.
End NoProofs.
