(* C25, C26: compaction of on-disk trees.  Statements; proofs in CompactFacts.v, CompactTrees.v. *)
From Coq Require Import String List Arith NArith Bool Lia Init.Byte ZifyBool ZifyNat.
From Verif Require Import Base Element Hash Sizing FS Sched Store VecStore DiskStore MmapStore LevelCache ProofModel Tree ListFacts Spec SpecFacts SizingFacts SchedFacts StoreLaws RowFacts ChunkFacts BuildFacts BuildLoop StoreSpec FileFacts VecFacts MapLayer DiskFacts MmapFacts PopFacts TreeFacts ProofSpec ProofFacts TreeProofs TreeObs Builders BuiltFacts CachedFacts CachedTrees LcReads LcTrees FrameFacts CompactFacts CompactTrees Cases Props_Build.
Import ListNotations.

(* the hypotheses shared by the theorems on trees over a DiskStore with a config *)
Definition disk_tree {E} (EO : ElementOps E) (A : AlgOps E) (en : env) (b : nat) (p : string) (leaves : list E)
    (t : mtree (st_t (disk_store EO)) E) (f1 : fs) : Prop :=
  ElementLaws EO /\ AlgLaws A /\ arity b /\ chunk_ok en b /\
  exists c f, cfg_path c = p /\ fs_dir f p = None /\ cfg_builder EO (disk_store EO) A en b c leaves f (Ok t, f1).

Lemma disk_tree_at {E} (EO : ElementOps E) A en b p leaves t f1 : disk_tree EO A en b p leaves t f1 ->
  exists d s i els, 1 <= d /\ List.length leaves = b ^ d /\ DiskTree EO A b t s f1 p i d leaves els.
Proof.
  intros (EL & AL & Hb & Hch & c & f & <- & Hp & HB). exact (disk_tree_built EO EL A AL en b Hb Hch c leaves f t f1 Hp HB).
Qed.

(* [l] is the sequence of rows r0 .. d of the b-ary Merkle tree over [leaves] *)
Definition top_rows {E} (h : nat -> list E -> E) (b d r0 : nat) (leaves l : list E) : Prop :=
  List.length l = geom b (d - r0) /\
  forall r j, r0 <= r -> r <= d -> j < b ^ (d - r) ->
    exists x, nth_error l (row_off b d r - row_off b d r0 + j) = Some x /\ MRoot h b r (sub leaves (j * b ^ r) (b ^ r)) x.

Lemma Layout_top_rows {E} (h : nat -> list E -> E) b d r0 leaves els : Layout h b d leaves els -> r0 <= d ->
  top_rows h b d r0 leaves (skipn (row_off b d r0) els).
Proof.
  intros (L1 & L2 & L3) Hr. pose proof (geom_row_off b d r0 Hr). split; [rewrite skipn_length; lia|].
  intros r j H1 H2 H3. destruct (L3 r j H2 H3) as (x & X1 & X2). exists x. split; [|exact X2].
  rewrite nth_error_skipn. pose proof (row_off_mono b d r0 r H1).
  replace (row_off b d r0 + (row_off b d r - row_off b d r0 + j)) with (row_off b d r + j) by lia. exact X1.
Qed.

Lemma Layout_prefix {E} (h : nat -> list E -> E) b d leaves els : 0 < b -> Layout h b d leaves els -> leaves = firstn (b ^ d) els.
Proof.
  intros Hb HL. pose proof HL as (L1 & _). apply nth_error_ext. intros k. rewrite nth_error_firstn. destruct (k <? b ^ d) eqn:Q.
  - symmetry. apply (Layout_leaf b Hb h d leaves els k HL). lia.
  - apply nth_error_None. lia.
Qed.

(* ---------------- C25 ---------------- *)
(* any config naming the same file; any version; any pieces io::copy works in *)
Theorem C25_compact : forall E (EO : ElementOps E) A en b leaves t f1 sizes c v,
  disk_tree EO A en b (cfg_path c) leaves t f1 ->
  let d := mt_row_count t - 1 in
  sc_rows_to_discard c < d ->
  exists t' f2 top, mt_compact (disk_store EO) b sizes c v (t, f1) = (Ok true, (t', f2)) /\
    top_rows (h_node A) b d (S (sc_rows_to_discard c)) leaves top /\
    fs_file f2 (cfg_path c) = Some (encode EO (if v =? 1 then leaves ++ top else top)).
Proof.
  intros E EO A en b leaves t f1 sizes c v HT d HR. pose proof HT as (EL & AL & Hb & Hch & _).
  destruct (disk_tree_at _ _ _ _ _ _ _ _ HT) as (d0 & s & i & els & Hd & Hl & HD).
  pose proof (dt_full EO EL A b Hb t s f1 c i d0 leaves els HD) as HF.
  assert (d = d0) by (unfold d; rewrite (ft_rows _ _ _ _ _ _ _ _ HF); lia). subst d0.
  destruct (tree_compact_ok EO EL A b Hb t s f1 c i d leaves els HD sizes v HR) as (t' & f2 & H1 & H2 & H3 & _).
  exists t', f2, (skipn (row_off b d (S (sc_rows_to_discard c))) els). split; [exact H1|].
  split; [apply Layout_top_rows; [exact (dt_layout EO A b t s f1 c i d leaves els HD)|lia]|].
  unfold fs_file. rewrite H2, H3. reflexivity.
Qed.

Theorem C25_refused : forall E (EO : ElementOps E) A en b leaves t f1 sizes c v,
  disk_tree EO A en b (cfg_path c) leaves t f1 ->
  mt_row_count t - 1 <= sc_rows_to_discard c ->
  exists e, mt_compact (disk_store EO) b sizes c v (t, f1) = (Err e, (t, f1)).
Proof.
  intros E EO A en b leaves t f1 sizes c v HT HR. pose proof HT as (EL & AL & Hb & Hch & _).
  destruct (disk_tree_at _ _ _ _ _ _ _ _ HT) as (d & s & i & els & Hd & Hl & HD).
  pose proof (dt_full EO EL A b Hb t s f1 c i d leaves els HD) as HF. rewrite (ft_rows _ _ _ _ _ _ _ _ HF) in HR.
  pose proof (dt_layout EO A b t s f1 c i d leaves els HD) as (L1 & L2 & _).
  destruct (disk_compact_bad EO b Hb c d leaves els s f1 i L1 L2 (dt_first EO A b Hb t s f1 c i d leaves els HD) (dt_rep _ _ _ _ _ _ _ _ _ _ _ HD)
    (dt_file _ _ _ _ _ _ _ _ _ _ _ HD) (dt_ro _ _ _ _ _ _ _ _ _ _ _ HD) (fs_copy sizes) v Hd ltac:(lia)) as [e He].
  exists e. rewrite (mt_compact_eq EO A b t s f1 c i d leaves els HD sizes v _ _ _ He).
  pose proof (ta_data _ _ _ _ _ _ _ _ _ _ (dt_at _ _ _ _ _ _ _ _ _ _ _ HD)) as Hd'. destruct t. cbn in Hd' |- *. rewrite Hd'. reflexivity.
Qed.

Definition cfg_r (r : nat) : StoreConfig := {| sc_path := "/d"; sc_id := "t"; sc_size := None; sc_rows_to_discard := r |}.
Definition case_built (b : nat) (xs : list B1) : res (mtree (st_t (disk_store BO)) B1) * fs :=
  mt_new_with_config BO (disk_store BO) sum_alg env1 b xs (cfg_r 1) fs_empty.
Definition case_file (f : fs) : list nat :=
  match fs_file f (cfg_path (cfg_r 1)) with Some bs => map Byte.to_nat bs | None => [] end.
Definition case_compact (b : nat) (xs : list B1) (r v : nat) : option bool * list nat :=
  match case_built b xs with
  | (Ok t, f) =>
      match mt_compact (disk_store BO) b (fun k => k mod 3) (cfg_r r) v (t, f) with
      | (Ok x, (_, f')) => (Some x, case_file f')
      | (_, (_, f')) => (None, case_file f')
      end
  | _ => (None, [])
  end.
Lemma case_disk_tree b xs t f : arity b -> chunk_ok env1 b -> case_built b xs = (Ok t, f) ->
  disk_tree BO sum_alg env1 b (cfg_path (cfg_r 1)) (map (h_leaf sum_alg) xs) t f.
Proof.
  intros Hb Hch H. split; [exact BL|]. split; [exact sum_laws|]. split; [exact Hb|]. split; [exact Hch|].
  exists (cfg_r 1), fs_empty. split; [reflexivity|]. split; [reflexivity|]. rewrite <- H. constructor.
Qed.

(* 8 leaves, one row dropped; full file first *)
Example C25_case :
  let full := case_file (snd (case_built 2 leaves8)) in
  List.length full = 15 /\
  case_compact 2 leaves8 1 1 = (Some true, firstn 8 full ++ skipn 12 full) /\
  case_compact 2 leaves8 1 2 = (Some true, skipn 12 full) /\
  case_compact 2 leaves8 0 1 = (Some true, full) /\
  case_compact 2 leaves8 2 2 = (Some true, skipn 14 full) /\
  case_compact 2 leaves8 3 2 = (None, full).
Proof. vm_compute. repeat split; reflexivity. Qed.

(* ---------------- C26 ---------------- *)
(* The file as left by a compaction that stops after k pieces of the copy, for every k
   and every way of cutting the data into pieces (so also in the middle of a write,
   after the copy but before the truncation, and after completion). *)
Definition stopped {E} (EO : ElementOps E) (b k : nat) (sizes : nat -> nat) (c : StoreConfig) (v : nat)
    (t : mtree (st_t (disk_store EO)) E) (f : fs) : fs :=
  snd (snd (mt_on_store (disk_store EO) (disk_compact_stopped EO k sizes b c v) (t, f))).

(* with enough pieces it is the completed compaction *)
Theorem C26_stopped_late : forall E (EO : ElementOps E) b sizes c v t f s,
  mt_data t = BaseTree s -> fs_dir f (cfg_path c) = Some (h_ino (ds_file s)) ->
  stopped EO b (S (fs_size f (ds_file s))) sizes c v t f = snd (snd (mt_compact (disk_store EO) b sizes c v (t, f))).
Proof.
  intros E EO b sizes c v t f s Ht Hp.
  assert (Q : disk_compact_stopped EO (S (fs_size f (ds_file s))) sizes b c v (s, f) = disk_compact EO sizes b c v (s, f)).
  2:{ unfold stopped. destruct (disk_compact EO sizes b c v (s, f)) as [x [s' f']] eqn:Q2.
      rewrite (mt_on_store_base (disk_store EO) _ t s f x s' f' Ht Q). unfold mt_compact.
      symmetry. exact (f_equal (fun z => snd (snd z)) (mt_on_store_base (disk_store EO) _ t s f x s' f' Ht Q2)). }
  unfold disk_compact_stopped, disk_compact.
  unfold disk_compact_with. unfold sbind at 1. cbn [sget]. symmetry. unfold sbind at 1. cbn [sget]. symmetry. cbn [fst snd].
  unfold slift, sbind at 1. symmetry. unfold sbind at 1. symmetry.
  destruct (get_merkle_tree_leafs (ds_len s) b) as [leafs|?|?|]; try reflexivity.
  unfold sbind at 1. symmetry. unfold sbind at 1. symmetry.
  destruct (get_merkle_tree_cache_size leafs b (sc_rows_to_discard c)) as [cs|?|?|]; try reflexivity.
  unfold sbind at 1. symmetry. unfold sbind at 1. symmetry.
  match goal with |- context [ensure ?x ?m] => destruct (ensure x m) as [[]|?|?|] end; try reflexivity.
  unfold sbind at 1. symmetry. unfold sbind at 1. symmetry.
  destruct (checked_sub (ds_size s) (cs * e_byte_len EO)) as [cstart|?|?|]; try reflexivity.
  unfold fs_open_ro, fs_open_rw. rewrite Hp.
  unfold sbind at 1. symmetry. unfold sbind at 1. symmetry.
  destruct (i_ro (fs_ino f (h_ino (ds_file s)))); [reflexivity|]. reflexivity.
Qed.

Section C26.
  Context {E : Type} (EO : ElementOps E).
  Local Notation bl := (e_byte_len EO).
  Variables (A : AlgOps E) (en : env) (b : nat) (leaves : list E) (t : mtree (st_t (disk_store EO)) E) (f1 : fs) (c : StoreConfig).
  Hypothesis HT : disk_tree EO A en b (cfg_path c) leaves t f1.
  Local Notation R := (sc_rows_to_discard c).

  Lemma stopped_data k sizes v : R < mt_row_count t - 1 ->
    exists d i els, mt_row_count t = S d /\ Layout (h_node A) b d leaves els /\ mt_len (disk_store EO) t = geom b d /\ arity b /\ ElementLaws EO /\
    fs_dir (stopped EO b k sizes c v t f1) (cfg_path c) = Some i /\
    (fs_data (stopped EO b k sizes c v t f1) i = encode EO (compacted b c d leaves els v) \/
     exists m, m <= geom b (d - 1 - R) * bl /\
       fs_data (stopped EO b k sizes c v t f1) i = moved (encode EO els) (start b d v * bl) (row_off b d (S R) * bl) m).
  Proof.
    intros HR. pose proof HT as (EL & AL & Hb & Hch & _).
    destruct (disk_tree_at _ _ _ _ _ _ _ _ HT) as (d & s & i & els & Hd & Hl & HD).
    pose proof (dt_full EO EL A b Hb t s f1 c i d leaves els HD) as HF. rewrite (ft_rows _ _ _ _ _ _ _ _ HF) in HR.
    pose proof (dt_layout EO A b t s f1 c i d leaves els HD) as HL. pose proof HL as (L1 & L2 & _).
    assert (Hs : stopped EO b k sizes c v t f1 = snd (snd (disk_compact_stopped EO k sizes b c v (s, f1)))).
    { unfold stopped. destruct (disk_compact_stopped EO k sizes b c v (s, f1)) as [x [s' f']] eqn:Q.
      rewrite (mt_on_store_base (disk_store EO) _ t s f1 x s' f' (ta_data _ _ _ _ _ _ _ _ _ _ (dt_at _ _ _ _ _ _ _ _ _ _ _ HD)) Q). reflexivity. }
    pose proof (disk_compact_stopped_spec EO EL b Hb c d leaves els s f1 i L1 L2 (dt_first EO A b Hb t s f1 c i d leaves els HD) (dt_rep _ _ _ _ _ _ _ _ _ _ _ HD)
      (dt_file _ _ _ _ _ _ _ _ _ _ _ HD) (dt_path _ _ _ _ _ _ _ _ _ _ _ HD) (dt_ro _ _ _ _ _ _ _ _ _ _ _ HD) k sizes v Hd ltac:(lia)) as HS.
    rewrite Hs. cbv zeta in HS. destruct HS as [HFr HS].
    exists d, i, els. split; [rewrite (ft_rows _ _ _ _ _ _ _ _ HF); lia|]. split; [exact HL|].
    split; [apply (ft_len _ _ _ _ _ _ _ _ HF)|]. split; [exact Hb|]. split; [exact EL|].
    split; [|exact HS]. destruct HFr as (F1 & _). rewrite F1. apply (dt_path _ _ _ _ _ _ _ _ _ _ _ HD).
  Qed.
End C26.

(* version 1: the leaves survive whatever happens *)
Theorem C26_leaves_v1_partial : forall E (EO : ElementOps E) A en b leaves t f1 c k sizes,
  disk_tree EO A en b (cfg_path c) leaves t f1 ->
  sc_rows_to_discard c < mt_row_count t - 1 ->
  exists bytes, fs_file (stopped EO b k sizes c 1 t f1) (cfg_path c) = Some bytes /\
    firstn (List.length leaves * e_byte_len EO) bytes = encode EO leaves.
Proof.
  intros E EO A en b leaves t f1 c k sizes HT HR.
  destruct (stopped_data EO A en b leaves t f1 c HT k sizes 1 HR) as (d & i & els & Hrc & HL & _ & Hb & EL & Hp & HC).
  pose proof (arity_ge b Hb) as H2. pose proof HL as (L1 & L2 & _).
  unfold fs_file. rewrite Hp. eexists. split; [reflexivity|].
  assert (HP : leaves = firstn (b ^ d) els).
    { apply (Layout_prefix (h_node A)); [lia|exact HL]. }
  destruct HC as [->|(m & Hm & ->)].
  - unfold compacted. cbn [Nat.eqb]. rewrite encode_app, <- (encode_length EO EL leaves), firstn_app, Nat.sub_diag, firstn_all.
    cbn [firstn]. apply app_nil_r.
  - unfold moved, overwrite, start. cbn [Nat.eqb]. rewrite L1, firstn_app.
    pose proof (geom_gt b d) as Hg.
    assert (Hle : b ^ d * e_byte_len EO <= List.length els * e_byte_len EO) by (apply Nat.mul_le_mono_r; lia).
    rewrite firstn_length, encode_length by auto.
    replace (b ^ d * e_byte_len EO - Nat.min (b ^ d * e_byte_len EO) (List.length els * e_byte_len EO)) with 0 by lia.
    cbn [firstn]. rewrite app_nil_r, firstn_firstn, Nat.min_id. rewrite HP.
    rewrite <- !sub_0. change 0 with (0 * e_byte_len EO) at 1. apply encode_sub. auto.
Qed.

(* the level-cache checks accept only the completed file *)
Theorem C26_detected_partial : forall E (EO : ElementOps E) A en b leaves t f1 c k sizes v,
  disk_tree EO A en b (cfg_path c) leaves t f1 ->
  sc_rows_to_discard c < mt_row_count t - 1 ->
  let f2 := stopped EO b k sizes c v t f1 in
  (v = 1 /\ lc_is_consistent_v1 EO (mt_len (disk_store EO) t) b c f2 = Ok true \/
   v <> 1 /\ lc_is_consistent EO (mt_len (disk_store EO) t) b c f2 = Ok true \/
   v <> 1 /\ exists r s, fst (lc_new_from_disk_with_reader EO (mt_len (disk_store EO) t) b c r f2) = Ok s) ->
  exists top, top_rows (h_node A) b (mt_row_count t - 1) (S (sc_rows_to_discard c)) leaves top /\
    fs_file f2 (cfg_path c) = Some (encode EO (if v =? 1 then leaves ++ top else top)).
Proof.
  intros E EO A en b leaves t f1 c k sizes v HT HR f2 HC. unfold f2 in *. clear f2.
  destruct (stopped_data EO A en b leaves t f1 c HT k sizes v HR) as (d & i & els & Hrc & HL & Hlen & Hb & EL & Hp & HS).
  pose proof (arity_ge b Hb) as H2. pose proof HL as (L1 & L2 & _). rewrite Hrc in HR |- *. replace (S d - 1) with d in * by lia.
  set (f2 := stopped EO b k sizes c v t f1) in *. set (R := sc_rows_to_discard c) in *.
  pose proof (bl_pos EO EL) as Hbl. pose proof (geom_row_off b d (S R) ltac:(lia)) as G. pose proof (geom_row_off b d 1 ltac:(lia)) as G1.
  change (row_off b d 1) with (0 + b ^ (d - 0)) in G1. rewrite Nat.sub_0_r in G1.
  pose proof (row_off_mono b d 1 (S R) ltac:(lia)) as M. change (row_off b d 1) with (0 + b ^ (d - 0)) in M. rewrite Nat.sub_0_r in M.
  assert (Hdone : fs_data f2 i = encode EO (compacted b c d leaves els v)).
  { destruct HS as [HS|(m & Hm & HS)]; [exact HS|].
    assert (Hsz : List.length (fs_data f2 i) = geom b d * e_byte_len EO).
    { rewrite HS, moved_length; [rewrite encode_length, L2 by auto; reflexivity| |].
      - apply Nat.mul_le_mono_r. unfold start. destruct (v =? 1); lia.
      - rewrite encode_length, L2, G, Nat.mul_add_distr_r by auto. replace (d - S R) with (d - 1 - R) by lia. lia. }
    assert (HX : exists n, n * e_byte_len EO = geom b d * e_byte_len EO /\ n = if v =? 1 then b ^ d + geom b (d - 1 - R) else geom b (d - 1 - R)).
    { assert (Hpow : (b ^ d =? next_pow2 (b ^ d)) = true) by (apply next_pow2_eqb', pow2_pow, arity_pow2; auto).
      destruct HC as [[-> HC]|[[Hv HC]|(Hv & r & s & HC)]].
      - unfold lc_is_consistent_v1, fs_open_ro in HC. rewrite Hp in HC. cbn [rbind] in HC. rewrite Hlen, get_merkle_tree_leafs_full in HC by auto.
        cbn [rbind] in HC. rewrite Hpow in HC. cbn [ensure rbind] in HC. rewrite cache_size_full in HC by (auto; lia). cbn [rbind] in HC.
        inversion HC as [HC']. apply Nat.eqb_eq in HC'. unfold fs_size in HC'. cbn [h_ino] in HC'. rewrite Hsz in HC'.
        eexists. split; [|reflexivity]. cbn [Nat.eqb]. fold R in HC'. lia.
      - unfold lc_is_consistent, fs_open_ro in HC. rewrite Hp in HC. cbn [rbind] in HC. rewrite Hlen, get_merkle_tree_leafs_full in HC by auto.
        cbn [rbind] in HC. rewrite Hpow in HC. cbn [ensure rbind] in HC. rewrite cache_size_full in HC by (auto; lia). cbn [rbind] in HC.
        inversion HC as [HC']. apply Nat.eqb_eq in HC'. unfold fs_size in HC'. cbn [h_ino] in HC'. rewrite Hsz in HC'.
        eexists. split; [|reflexivity]. replace (v =? 1) with false by lia. symmetry. exact HC'.
      - unfold lc_new_from_disk_with_reader, fs_exists in HC. rewrite Hp in HC. cbn [ensure rbind] in HC.
        destruct (lc_open_ok f2 _ i Hp) as (h & Ho & Hi). rewrite Ho in HC. cbn [rbind fst] in HC.
        rewrite Hlen, get_merkle_tree_leafs_full in HC by auto. cbn [rbind] in HC. rewrite Hpow in HC. cbn [ensure rbind] in HC.
        rewrite cache_size_full in HC by (auto; lia). cbn [rbind] in HC.
        rewrite checked_sub_ok in HC by (apply Nat.mul_le_mono_r; fold R; replace (d - 1 - R) with (d - S R) by lia; lia). cbn [rbind] in HC.
        match type of HC with context [ensure ?x ?m] => destruct x eqn:HQ end; [|discriminate].
        apply Nat.eqb_eq in HQ. unfold fs_size in HQ. rewrite Hi, Hsz in HQ.
        eexists. split; [|reflexivity]. replace (v =? 1) with false by lia. symmetry. exact HQ. }
    destruct HX as (n & HX1 & HX2). apply Nat.mul_cancel_r in HX1; [|lia]. rewrite HX2 in HX1.
    destruct (v =? 1) eqn:Qv.
    - (* nothing to drop: the copy moves the rows onto themselves *)
      assert (HR0 : R = 0).
      { destruct (Nat.eq_dec R 0) as [|HR0]; [auto|]. exfalso.
        pose proof (row_off_mono b d 2 (S R) ltac:(lia)) as M2. rewrite (row_off_step b d 1) in M2.
        change (row_off b d 1) with (0 + b ^ (d - 0)) in M2. rewrite Nat.sub_0_r in M2.
        pose proof (Nat.pow_nonzero b (d - 1) ltac:(lia)). replace (d - 1 - R) with (d - S R) in HX1 by lia. lia. }
      rewrite HS. unfold start, compacted, cached. rewrite Qv. fold R. rewrite HR0.
      change (row_off b d 1) with (0 + b ^ (d - 0)). rewrite Nat.sub_0_r, Nat.add_0_l.
      assert (HP : leaves = firstn (b ^ d) els).
    { apply (Layout_prefix (h_node A)); [lia|exact HL]. }
      rewrite HP, firstn_skipn. apply nth_error_ext. intros q. rewrite moved_nth.
      + destruct ((b ^ d * e_byte_len EO <=? q) && (q <? b ^ d * e_byte_len EO + m)) eqn:Qq; [|reflexivity]. f_equal. lia.
      + lia.
      + rewrite encode_length, L2, G1, Nat.mul_add_distr_r by auto. rewrite HR0, Nat.sub_0_r in Hm. rewrite Nat.add_0_l. lia.
    - exfalso. replace (d - 1 - R) with (d - S R) in HX1 by lia. pose proof (Nat.pow_nonzero b d ltac:(lia)). lia. }
  exists (skipn (row_off b d (S R)) els). split; [apply Layout_top_rows; [exact HL|lia]|].
  unfold fs_file. rewrite Hp, Hdone. reflexivity.
Qed.

(* Stopped in the middle, one row dropped from a tree of 8 leaves:
   - version 2: the leaves are overwritten, though the file is not yet usable
   - both versions: DiskStore::is_consistent and new_from_disk take the file for the
     complete tree, and proofs from it no longer validate
   - version 1: LevelCacheStore::new_from_disk takes it for the compacted file and
     serves wrong rows *)
Definition case_stopped (k v : nat) : fs :=
  match case_built 2 leaves8 with
  | (Ok t, f) => stopped BO 2 k (fun _ => 0) (cfg_r 1) v t f
  | (_, f) => f
  end.
Definition reopen_disk (f : fs) : res bool :=
  match disk_new_from_disk BO 15 2 (cfg_r 1) f with
  | (Ok s, f') =>
      match from_data_store (disk_store BO) 2 0 0 s 8 f' with
      | (Ok t, f'') => do p <- gen_proof (disk_store BO) 2 0 0 t f'' 0; validate BO sum_alg 2 p
      | _ => Err "no tree"%string
      end
  | _ => Err "not opened"%string
  end.
Definition reopen_lc (f : fs) : res (list nat) :=
  match lc_new_from_disk BO 15 2 (cfg_r 1) f with
  | (Ok s, f') => do l <- lc_read_range BO (s, f') 12 14; Ok (map val l)
  | _ => Err "not opened"%string
  end.
Theorem C26_refuted :
  let full := snd (case_built 2 leaves8) in
  (* nothing copied yet *)
  case_file (case_stopped 0 1) = case_file full /\ reopen_disk (case_stopped 0 1) = Ok true /\
  (* version 2: the first leaf is gone *)
  firstn 1 (case_file (case_stopped 1 2)) <> firstn 1 (case_file full) /\
  List.length (case_file (case_stopped 1 2)) = 15 /\
  (* both versions: accepted as the complete tree *)
  disk_is_consistent BO 15 2 (cfg_r 1) (case_stopped 2 1) = Ok true /\ reopen_disk (case_stopped 2 1) = Ok false /\
  disk_is_consistent BO 15 2 (cfg_r 1) (case_stopped 2 2) = Ok true /\ reopen_disk (case_stopped 2 2) = Ok false /\
  (* version 1: accepted as the compacted tree *)
  reopen_lc (case_stopped 99 1) = Ok (sub (case_file full) 12 2) /\
  exists l, reopen_lc (case_stopped 1 1) = Ok l /\ l <> sub (case_file full) 12 2.
Proof.
  vm_compute. repeat match goal with |- _ /\ _ => split end; try reflexivity; try discriminate.
  eexists. split; [reflexivity|discriminate].
Qed.

(* stopped after 0, 1, 2 and 3 pieces, and done.  Version 1: the leaves are there each time,
   and is_consistent_v1 accepts only the last *)
Example C26_case :
  let full := case_file (snd (case_built 2 leaves8)) in
  map (fun k => firstn 8 (case_file (case_stopped k 1))) [0; 1; 2; 3; 99] = repeat (firstn 8 full) 5 /\
  map (fun k => lc_is_consistent_v1 BO 15 2 (cfg_r 1) (case_stopped k 1)) [0; 1; 2; 3; 99]
    = [Ok false; Ok false; Ok false; Ok false; Ok true] /\
  case_file (case_stopped 99 1) = firstn 8 full ++ skipn 12 full /\
  map (fun k => lc_is_consistent BO 15 2 (cfg_r 1) (case_stopped k 2)) [0; 1; 2; 3; 99]
    = [Ok false; Ok false; Ok false; Ok false; Ok true] /\
  case_file (case_stopped 99 2) = skipn 12 full.
Proof. vm_compute. repeat split. Qed.

Print Assumptions C25_compact.
Print Assumptions C25_refused.
Print Assumptions C26_leaves_v1_partial.
Print Assumptions C26_detected_partial.
