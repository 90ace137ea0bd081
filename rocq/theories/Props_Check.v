(* C64: the consistency checks of stores on disk and the constructors that open them. *)
From Coq Require Import String List Arith NArith Bool Lia Init.Byte ZifyBool ZifyNat.
From Verif Require Import Base Element Hash Sizing FS Sched Store VecStore DiskStore MmapStore LevelCache ProofModel Tree ListFacts Spec SpecFacts SizingFacts SchedFacts StoreLaws RowFacts ChunkFacts BuildFacts BuildLoop StoreSpec FileFacts VecFacts MapLayer DiskFacts MmapFacts PopFacts TreeFacts ProofSpec ProofFacts TreeProofs TreeObs Builders BuiltFacts CachedFacts CachedTrees LcReads LcTrees FrameFacts CompactFacts CompactTrees AgainFacts ReopenFacts Cases Props_Build Props_Compact.
Import ListNotations.

(* DiskStore::is_consistent says exactly whether DiskStore::new_from_disk opens the file *)
Theorem C64_disk : forall E (EO : ElementOps E) size b c f,
  disk_is_consistent EO size b c f = Ok true <-> exists s, disk_new_from_disk EO size b c f = (Ok s, f).
Proof.
  intros E EO size b c f. unfold disk_is_consistent, disk_new_from_disk, disk_new_from_disk_with_path, fs_exists, fs_open_ro, fs_open_rw.
  destruct (fs_dir f (cfg_path c)) as [i|]; cbn [rbind ensure]; [|split; [discriminate|intros [s H]; discriminate]].
  destruct (i_ro (fs_ino f i)); cbn [rbind]; unfold fs_size; cbn [h_ino];
    (destruct (_ =? _); cbn [ensure rbind]; [split; [eauto|reflexivity]|split; [discriminate|intros [s H]; discriminate]]).
Qed.

(* the lengths taken for trees: of a tree, or (arity 2) one less *)
Lemma leafs_le b n m : arity b -> get_merkle_tree_leafs n b = Ok m -> (m =? next_pow2 m) = true ->
  forall R cs, get_merkle_tree_cache_size m b R = Ok cs -> cs <= n.
Proof.
  intros Hb HL HP R cs HC.
  assert (HX : forall k, m = b ^ k -> geom b (k - 1) <= n \/ k = 0 -> cs <= n).
  { intros k -> Hk. destruct (Nat.eq_dec k 0) as [->|K].
    - destruct (cache_size_1 b Hb R) as [e He]. cbn [Nat.pow] in HC. congruence.
    - destruct Hk as [Hk|Hk]; [|lia]. destruct (le_lt_dec k R) as [L|L].
      + destruct (cache_size_bad b k R Hb ltac:(lia) L) as [e He]. congruence.
      + rewrite cache_size_full in HC by auto. inversion HC. pose proof (geom_mono b (k - 1 - R) (k - 1) ltac:(lia)). lia. }
  destruct (Nat.eq_dec b 2) as [->|B2].
  - apply next_pow2_eqb' in HP. destruct HP as [k Hk]. apply (HX k Hk).
    unfold get_merkle_tree_leafs in HL. destruct (ensure _ _) as [[]|?|?|]; try discriminate. cbn [rbind Nat.eqb] in HL.
    destruct (ensure _ _) as [[]|?|?|]; try discriminate. cbn [rbind] in HL. assert (HM : Nat.shiftr n 1 + 1 = 2 ^ k) by congruence.
    destruct (Nat.eq_dec k 0) as [->|K]; [right; reflexivity|left]. rewrite geom_2. replace (S (k - 1)) with k by lia. rewrite shiftr_div in HM.
    pose proof (Nat.div_le_upper_bound n (2 ^ 1) n ltac:(cbn; lia) ltac:(cbn; lia)) as HD. clear - HM HD. lia.
  - pose proof (get_merkle_tree_leafs_sound b n Hb ltac:(congruence)) as HS. rewrite HL in HS. destruct HS as (d & -> & ->).
    apply (HX d eq_refl). left. apply geom_mono. lia.
Qed.

Theorem C64_reader : forall E (EO : ElementOps E) size b c r f, arity b ->
  (lc_is_consistent EO size b c f = Ok true <-> exists s, lc_new_from_disk_with_reader EO size b c r f = (Ok s, f)).
Proof.
  intros E EO size b c r f Hb. unfold lc_is_consistent, lc_new_from_disk_with_reader, fs_exists, fs_open_ro.
  destruct (fs_dir f (cfg_path c)) as [i|] eqn:Hi; cbn [rbind ensure]; [|split; [discriminate|intros [s H]; discriminate]].
  destruct (lc_open_ok f _ i Hi) as (h & Ho & Hh). rewrite Ho. cbn [rbind]. unfold fs_size. rewrite Hh. cbn [h_ino].
  destruct (get_merkle_tree_leafs size b) as [m|?|?|] eqn:HL; cbn [rbind]; try (split; [discriminate|intros [s H]; discriminate]).
  destruct (m =? next_pow2 m) eqn:HP; cbn [ensure rbind]; [|split; [discriminate|intros [s H]; discriminate]].
  destruct (get_merkle_tree_cache_size m b _) as [cs|?|?|] eqn:HC; cbn [rbind]; try (split; [discriminate|intros [s H]; discriminate]).
  rewrite checked_sub_ok by (apply Nat.mul_le_mono_r; exact (leafs_le b size m Hb HL HP _ cs HC)). cbn [rbind].
  clear HP. destruct (_ =? _); cbn [ensure rbind].
  - split; [eauto|reflexivity].
  - split; [discriminate|intros [s H]; discriminate].
Qed.

(* LevelCacheStore::is_consistent_v1 guarantees that new_from_disk opens the file *)
Theorem C64_v1_partial : forall E (EO : ElementOps E) size b c f, arity b ->
  lc_is_consistent_v1 EO size b c f = Ok true -> exists s, lc_new_from_disk EO size b c f = (Ok s, f).
Proof.
  intros E EO size b c f Hb. unfold lc_is_consistent_v1, lc_new_from_disk, fs_exists, fs_open_ro.
  destruct (fs_dir f (cfg_path c)) as [i|] eqn:Hi; cbn [rbind ensure]; [|discriminate].
  destruct (lc_open_ok f _ i Hi) as (h & Ho & Hh). rewrite Ho. cbn [rbind].
  destruct (get_merkle_tree_leafs size b) as [m|?|?|] eqn:HL; cbn [rbind]; try discriminate.
  destruct (m =? next_pow2 m) eqn:HP; cbn [ensure rbind]; [|discriminate].
  destruct (get_merkle_tree_cache_size m b _) as [cs|?|?|] eqn:HC; cbn [rbind]; try discriminate.
  rewrite checked_sub_ok by (apply Nat.mul_le_mono_r; exact (leafs_le b size m Hb HL HP _ cs HC)). cbn [rbind]. eauto.
Qed.

(* the converse is false: new_from_disk opens files of any length *)
Definition C64_v1_statement : Prop := forall E (EO : ElementOps E) size b c f, arity b ->
  (lc_is_consistent_v1 EO size b c f = Ok true <-> exists s, lc_new_from_disk EO size b c f = (Ok s, f)).
Theorem C64_v1_refuted : ~ C64_v1_statement /\
  forall E (EO : ElementOps E) b c f d, arity b -> sc_rows_to_discard c < d -> fs_file f (cfg_path c) <> None ->
    exists s, lc_new_from_disk EO (geom b d) b c f = (Ok s, f).
Proof.
  assert (HG : forall E (EO : ElementOps E) b c f d, arity b -> sc_rows_to_discard c < d -> fs_file f (cfg_path c) <> None ->
    exists s, lc_new_from_disk EO (geom b d) b c f = (Ok s, f)).
  { intros E EO b c f d Hb HR Hf. unfold fs_file in Hf. destruct (fs_dir f (cfg_path c)) as [i|] eqn:Hi; [|congruence].
    unfold lc_new_from_disk, fs_exists. rewrite Hi. cbn [ensure rbind]. destruct (lc_open_ok f _ i Hi) as (h & Ho & Hh). rewrite Ho. cbn [rbind].
    rewrite get_merkle_tree_leafs_full by auto. cbn [rbind].
    replace (b ^ d =? next_pow2 (b ^ d)) with true by (symmetry; apply next_pow2_eqb', pow2_pow, arity_pow2; auto). cbn [ensure rbind].
    rewrite cache_size_full by auto. cbn [rbind]. rewrite checked_sub_ok by (apply Nat.mul_le_mono_r, geom_mono; lia). cbn [rbind]. eauto. }
  split; [|exact HG]. intros HS.
  set (f := snd (fs_create_new (cfg_path (cfg_r 1)) fs_empty)).
  destruct (HS B1 BO (geom 2 3) 2 (cfg_r 1) f arity_2) as [_ H].
  assert (lc_is_consistent_v1 BO (geom 2 3) 2 (cfg_r 1) f = Ok false) as HN by (vm_compute; reflexivity).
  rewrite HN in H. assert (HE : Ok false = Ok true); [|discriminate]. apply H. apply HG; [exact arity_2|cbn; lia|vm_compute; discriminate].
Qed.

(* the three checks for one configuration *)
Definition checks {E} (EO : ElementOps E) (n b : nat) (c : StoreConfig) (f : fs) : res bool * res bool * res bool :=
  (disk_is_consistent EO n b c f, lc_is_consistent_v1 EO n b c f, lc_is_consistent EO n b c f).

(* what they say for a file, with a tree length and a usable number of rows to discard *)
Lemma checks_file {E} (EO : ElementOps E) b c f d bytes : arity b -> sc_rows_to_discard c < d -> fs_file f (cfg_path c) = Some bytes ->
  let k := geom b (d - 1 - sc_rows_to_discard c) in
  checks EO (geom b d) b c f =
    (Ok (List.length bytes =? geom b d * e_byte_len EO), Ok (List.length bytes =? b ^ d * e_byte_len EO + k * e_byte_len EO), Ok (List.length bytes =? k * e_byte_len EO)).
Proof.
  intros Hb HR Hf. apply file_inv in Hf. destruct Hf as (i & Hi & Hd). cbv zeta.
  unfold checks, disk_is_consistent, lc_is_consistent_v1, lc_is_consistent, fs_open_ro. rewrite Hi. cbn [rbind]. unfold fs_size. cbn [h_ino]. rewrite Hd.
  rewrite get_merkle_tree_leafs_full by auto. cbn [rbind].
  replace (b ^ d =? next_pow2 (b ^ d)) with true by (symmetry; apply next_pow2_eqb', pow2_pow, arity_pow2; auto). cbn [ensure rbind].
  rewrite cache_size_full by auto. reflexivity.
Qed.

Lemma eqb_mul x y k : 0 < k -> (x * k =? y * k) = (x =? y).
Proof. intros Hk. apply eq_true_iff_eq. rewrite !Nat.eqb_eq. apply Nat.mul_cancel_r. lia. Qed.
Lemma sizes_differ b d R : arity b -> R < d ->
  let k := geom b (d - 1 - R) in
  (geom b d =? b ^ d + k) = (R =? 0) /\ (b ^ d + k =? geom b d) = (R =? 0) /\ (geom b d =? k) = false /\ (k =? geom b d) = false /\ (b ^ d + k =? k) = false /\ (k =? b ^ d + k) = false.
Proof.
  intros Hb HR k. pose proof (arity_ge b Hb) as H2. pose proof (pow_pos b d ltac:(lia)) as HP.
  assert (H1 : k < geom b d) by (apply geom_strict; lia).
  assert (H0 : geom b d = b ^ d + k <-> R = 0).
  { destruct d as [|d]; [lia|]. change (geom b (S d)) with (b ^ S d + geom b d). unfold k. replace (S d - 1 - R) with (d - R) by lia. split.
    - intros HE. destruct (Nat.eq_dec R 0) as [|N]; [auto|]. pose proof (geom_strict b (d - R) d ltac:(lia) ltac:(lia)). lia.
    - intros ->. rewrite Nat.sub_0_r. reflexivity. }
  repeat split; try (apply Nat.eqb_neq; lia); apply eq_true_iff_eq; rewrite !Nat.eqb_eq; [exact H0|]. rewrite <- H0. split; auto.
Qed.

(* a built tree is taken for a full file only, a compacted one for its own version only
   (version 1 without dropped rows is the full file) *)
Theorem C64_built : forall E (EO : ElementOps E) A en b leaves t f c,
  disk_tree EO A en b (cfg_path c) leaves t f -> sc_rows_to_discard c < mt_row_count t - 1 ->
  checks EO (mt_len (disk_store EO) t) b c f = (Ok true, Ok (sc_rows_to_discard c =? 0), Ok false).
Proof.
  intros E EO A en b leaves t f c HT HR. pose proof HT as (EL & AL & Hb & Hch & _).
  destruct (disk_tree_at _ _ _ _ _ _ _ _ HT) as (d & s & i & els & Hd & Hl & HD).
  pose proof (dt_full EO EL A b Hb t s f c i d leaves els HD) as HF. rewrite (ft_rows _ _ _ _ _ _ _ _ HF) in HR. rewrite (ft_len _ _ _ _ _ _ _ _ HF).
  assert (Hf : fs_file f (cfg_path c) = Some (encode EO els)).
  { unfold fs_file. rewrite (dt_path _ _ _ _ _ _ _ _ _ _ _ HD). f_equal.
    pose proof (dt_rep _ _ _ _ _ _ _ _ _ _ _ HD) as (_ & _ & _ & R). cbn [fst snd] in R. rewrite (dt_file _ _ _ _ _ _ _ _ _ _ _ HD) in R.
    pose proof (dt_layout EO A b t s f c i d leaves els HD) as (_ & L2 & _). rewrite <- L2 in R. apply DRep_full in R; auto. }
  pose proof (dt_layout EO A b t s f c i d leaves els HD) as (_ & L2 & _).
  rewrite (checks_file EO b c f d _ Hb ltac:(lia) Hf), encode_length, L2 by auto.
  rewrite <- Nat.mul_add_distr_r, !eqb_mul by (apply (bl_pos EO EL)).
  destruct (sizes_differ b d (sc_rows_to_discard c) Hb ltac:(lia)) as (S1 & S2 & S3 & S4 & S5 & S6). rewrite S1, S3, Nat.eqb_refl. reflexivity.
Qed.

Theorem C64_compacted : forall E (EO : ElementOps E) A en b leaves t f c sizes v t' f2,
  disk_tree EO A en b (cfg_path c) leaves t f ->
  mt_compact (disk_store EO) b sizes c v (t, f) = (Ok true, (t', f2)) ->
  checks EO (mt_len (disk_store EO) t) b c f2 =
    if v =? 1 then (Ok (sc_rows_to_discard c =? 0), Ok true, Ok false) else (Ok false, Ok false, Ok true).
Proof.
  intros E EO A en b leaves t f c sizes v t' f2 HT HC. pose proof HT as (EL & AL & Hb & Hch & _).
  destruct (disk_tree_at _ _ _ _ _ _ _ _ HT) as (d & s & i & els & Hd & Hl & HD).
  pose proof (dt_full EO EL A b Hb t s f c i d leaves els HD) as HF. rewrite (ft_len _ _ _ _ _ _ _ _ HF).
  assert (HR : sc_rows_to_discard c < d).
  { destruct (le_lt_dec d (sc_rows_to_discard c)) as [L|L]; [|exact L]. exfalso.
    destruct (C25_refused E EO A en b leaves t f sizes c v HT) as [e He]; [rewrite (ft_rows _ _ _ _ _ _ _ _ HF); lia|]. rewrite He in HC. inversion HC. }
  destruct (again_state EO EL A b Hb t s f c i d leaves els HD sizes v t' f2 HR HC) as (s' & _ & _ & _ & _ & _ & _ & _ & _ & D1 & D2 & _).
  rewrite (checks_file EO b c f2 d (encode EO (compacted b c d leaves els v)) Hb HR ltac:(unfold fs_file; rewrite D2, D1; reflexivity)).
  rewrite encode_length, (compacted_length EO A b t s f c i d leaves els HD v HR) by auto.
  rewrite <- Nat.mul_add_distr_r, !eqb_mul by (apply (bl_pos EO EL)).
  destruct (sizes_differ b d (sc_rows_to_discard c) Hb HR) as (S1 & S2 & S3 & S4 & S5 & S6).
  destruct (v =? 1); cbn [Nat.add]; rewrite ?S2, ?S5, ?S4, ?S6, ?Nat.eqb_refl; reflexivity.
Qed.

(* no file at all is taken for two different things *)
Theorem C64_exclusive : forall E (EO : ElementOps E) b c f d, ElementLaws EO -> arity b -> sc_rows_to_discard c < d ->
  let '(x, y, z) := checks EO (geom b d) b c f in
  ~ (x = Ok true /\ z = Ok true) /\ ~ (y = Ok true /\ z = Ok true) /\ (x = Ok true /\ y = Ok true -> sc_rows_to_discard c = 0).
Proof.
  intros E EO b c f d EL Hb HR. pose proof (bl_pos EO EL) as Hbl. destruct (fs_file f (cfg_path c)) as [bytes|] eqn:Hf.
  - rewrite (checks_file EO b c f d bytes Hb HR Hf). rewrite <- Nat.mul_add_distr_r.
    destruct (sizes_differ b d (sc_rows_to_discard c) Hb HR) as (S1 & S2 & S3 & S4 & S5 & S6).
    assert (Q : forall m n, Ok (List.length bytes =? m * e_byte_len EO) = Ok true /\ Ok (List.length bytes =? n * e_byte_len EO) = Ok true -> (m =? n) = true).
    { intros m n [H1 H2]. assert (H1' : (List.length bytes =? m * e_byte_len EO) = true) by congruence. assert (H2' : (List.length bytes =? n * e_byte_len EO) = true) by congruence.
      apply Nat.eqb_eq in H1'. apply Nat.eqb_eq in H2'. rewrite <- (eqb_mul m n _ Hbl). apply Nat.eqb_eq. congruence. }
    split; [|split].
    + intros H. apply Q in H. congruence.
    + intros H. apply Q in H. congruence.
    + intros H. apply Q in H. rewrite S1 in H. apply Nat.eqb_eq. exact H.
  - unfold checks, disk_is_consistent, lc_is_consistent_v1, lc_is_consistent, fs_open_ro. unfold fs_file in Hf.
    destruct (fs_dir f (cfg_path c)); [discriminate|]. cbn. split; [|split]; intros [H _]; discriminate.
Qed.

(* 8 leaves: built, compacted with both versions, and missing *)
Definition compacted_fs (r v : nat) : fs :=
  match case_built 2 leaves8 with
  | (Ok t, f) => snd (snd (mt_compact (disk_store BO) 2 (fun k => k mod 3) (cfg_r r) v (t, f)))
  | (_, f) => f
  end.
Example C64_case :
  checks BO 15 2 (cfg_r 1) (snd (case_built 2 leaves8)) = (Ok true, Ok false, Ok false) /\
  checks BO 15 2 (cfg_r 1) (compacted_fs 1 1) = (Ok false, Ok true, Ok false) /\
  checks BO 15 2 (cfg_r 1) (compacted_fs 1 2) = (Ok false, Ok false, Ok true) /\
  checks BO 15 2 (cfg_r 0) (compacted_fs 0 1) = (Ok true, Ok true, Ok false) /\
  checks BO 15 2 (cfg_r 2) (compacted_fs 1 2) = (Ok false, Ok false, Ok false) /\
  is_ok (fst (disk_new_from_disk BO 15 2 (cfg_r 1) (compacted_fs 1 2))) = false /\
  is_ok (fst (lc_new_from_disk BO 15 2 (cfg_r 1) (compacted_fs 1 1))) = true.
Proof. vm_compute. repeat split; reflexivity. Qed.

Print Assumptions C64_disk.
Print Assumptions C64_reader.
Print Assumptions C64_v1_partial.
Print Assumptions C64_v1_refuted.
Print Assumptions C64_built.
Print Assumptions C64_compacted.
Print Assumptions C64_exclusive.
