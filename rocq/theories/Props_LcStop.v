(* C74: a LevelCacheStore build whose process is killed, and the file it leaves. *)
From Coq Require Import String List Arith NArith Bool Lia Init.Byte ZifyBool ZifyNat.
From Verif Require Import Base Element Hash Sizing FS Sched Store VecStore DiskStore MmapStore LevelCache ProofModel Tree Faults Stop LcStop ListFacts Spec SpecFacts SizingFacts SchedFacts StoreLaws RowFacts ChunkFacts BuildFacts BuildLoop StoreSpec FileFacts ByteFacts VecFacts MapLayer DiskFacts MmapFacts PopFacts TreeFacts ProofSpec ProofFacts TreeProofs TreeObs Builders BuiltFacts CachedFacts CachedTrees LcReads LcTrees FrameFacts CompactFacts CompactTrees LcBuild LcCreate ReopenFacts StopFacts LcStopFacts Cases Props_Build Props_Compact Props_Reopen Props_Delete Props_LC Props_Check Props_Stop.
Import ListNotations.

(* where the process died, and what that means for the file; [whole] is the encoding
   of all rows, R the number of rows to discard.  Row k is hashed or removed when rows
   below it are already cut off, and at most the first R + 1 rows are. *)
Definition lc_remains (bl b d R : nat) (kp : lkill) (whole data : list byte) : Prop :=
  match kp with
  | L_create => data = []
  | L_copy _ _ => unfinished whole data 0 (b ^ d * bl)
  | L_sync => unfinished whole data (b ^ d * bl) (b ^ d * bl)
  | L_layer k _ => k < d /\
      let first := row_off b d (Nat.min k (R + 1)) in
      unfinished (skipn (first * bl) whole) data ((row_off b d (k + 1) - first) * bl) ((row_off b d (k + 2) - first) * bl)
  | L_trunc k _ _ => k <= R /\ List.length data = List.length whole - row_off b d k * bl /\
      forall p x, nth_error data p = Some x ->
        x = x00 \/ nth_error whole (row_off b d k * bl + p) = Some x \/ nth_error whole (row_off b d (k + 1) * bl + p) = Some x
  end.

(* the build with the kill point either never reaches it, and then is the ordinary
   build, or it ends with the file at the path of its configuration and no other
   path changed *)
Theorem C74_left : forall E (EO : ElementOps E) A en b c leaves els d kp f r,
  ElementLaws EO -> AlgLaws A -> arity b -> chunk_ok en b ->
  sc_rows_to_discard c < d -> Layout (h_node A) b d leaves els -> fs_dir f (cfg_path c) = None ->
  cfg_builder EO (lstop_store EO kp) A en b c leaves f r ->
  cfg_builder EO (lc_store EO) A en b c leaves f r \/
  exists e f' data, r = (Panic e, f') /\ fs_file f' (cfg_path c) = Some data /\
    lc_remains (e_byte_len EO) b d (sc_rows_to_discard c) kp (encode EO els) data /\
    fs_ext f f' /\ forall q, q <> cfg_path c -> fs_dir f' q = fs_dir f q.
Proof.
  intros E EO A en b c leaves els d kp f r EL AL Hb Hch HR HL Hp HB. pose proof (arity_ge b Hb) as H2.
  pose proof HL as (L1 & L2 & _).
  destruct (lstop_cases EO EL A AL en b Hb Hch kp leaves d c ltac:(lia) HR L1 f r Hp HB) as [G|(e & f' & i & -> & HC & HF)]; [left; exact G|right].
  assert (els = all_rows A b leaves d) by (eapply Layout_fun; [exact HL|apply all_rows_Layout; [lia|exact L1]]). subst els.
  destruct HC as (C1 & C2 & C3 & C4 & C5 & C6).
  exists e, f', (fs_data f' i). split; [reflexivity|]. split; [unfold fs_file; rewrite (C5 _ eq_refl); reflexivity|].
  split; [|split; [split; auto|intros q Hq; apply C4; congruence]].
  pose proof (encode_length EO EL (all_rows A b leaves d)) as He. rewrite L2 in He. set (bl := e_byte_len EO) in *.
  unfold left_file in HF. unfold lc_remains, unfinished. destruct kp as [|j p| |k sched|k n sizes].
  - exact HF.
  - destruct HF as [F1 F2]. split; [fold bl in F1; congruence|]. split; [reflexivity|exact F2].
  - destruct HF as (F1 & F2 & F3). fold bl in F1, F3. split; [congruence|]. split; [|exact F2]. rewrite <- !sub_0. exact F3.
  - destruct HF as (F0 & F1 & F2 & F3). fold bl in F1. unfold Zm in F2. unfold Ex in F3. fold bl in F2, F3.
    replace (k + 1) with (S k) by lia. replace (k + 2) with (S (S k)) by lia. replace (sc_rows_to_discard c + 1) with (S (sc_rows_to_discard c)) by lia.
    split; [exact F0|]. cbv zeta. set (first := row_off b d (Nat.min k (S (sc_rows_to_discard c)))) in *.
    pose proof (Nat.mul_sub_distr_r (geom b d) first bl) as Hm.
    split; [rewrite skipn_length, He; lia|]. split.
    + rewrite <- sub_0. rewrite F3. reflexivity.
    + intros p x Hx. rewrite nth_error_skipn. destruct (F2 p x Hx) as [G|[G1 G2]]; [left; exact G|right]. split; [|exact G2].
      rewrite Nat.mul_sub_distr_r. lia.
  - destruct HF as (F0 & F1 & F2). fold bl in F1, F2. replace (k + 1) with (S k) by lia. split; [exact F0|].
    split; [rewrite He, F1; apply Nat.mul_sub_distr_r|exact F2].
Qed.

(* ---- opening what is left ---- *)
(* the length of the finished file: only when the last row to discard is gone *)
Definition cache_sized (R : nat) (kp : lkill) : bool := match kp with L_layer k _ => R <? k | _ => false end.

Definition left_len (b d R : nat) (kp : lkill) : nat :=
  match kp with
  | L_create => 0
  | L_copy _ _ | L_sync => geom b d
  | L_layer k _ => geom b (d - Nat.min k (R + 1))
  | L_trunc k _ _ => geom b (d - k)
  end.
Lemma remains_len bl b d R kp whole data : R < d -> List.length whole = geom b d * bl ->
  lc_remains bl b d R kp whole data -> List.length data = left_len b d R kp * bl.
Proof.
  intros HR Hw HL. unfold lc_remains, unfinished in HL. unfold left_len. destruct kp as [|j p| |k sched|k n sizes].
  - subst data. reflexivity.
  - lia.
  - lia.
  - destruct HL as (F0 & F1 & _). rewrite skipn_length, Hw in F1. rewrite F1.
    pose proof (geom_row_off b d (Nat.min k (R + 1)) ltac:(lia)) as HG. rewrite <- Nat.mul_sub_distr_r. f_equal. lia.
  - destruct HL as (F0 & F1 & _). rewrite Hw in F1. rewrite F1.
    pose proof (geom_row_off b d k ltac:(lia)) as HG. rewrite <- Nat.mul_sub_distr_r. f_equal. lia.
Qed.
Definition kill_ok (d R : nat) (kp : lkill) : Prop := match kp with L_layer k _ => k < d | L_trunc k _ _ => k <= R | _ => True end.
Lemma remains_ok bl b d R kp whole data : lc_remains bl b d R kp whole data -> kill_ok d R kp.
Proof. destruct kp; cbn; try exact (fun _ => I); intros [H _]; exact H. Qed.
Lemma left_cache b d R kp : arity b -> R < d -> kill_ok d R kp -> (left_len b d R kp =? geom b (d - 1 - R)) = cache_sized R kp.
Proof.
  intros Hb HR Hk. pose proof (arity_ge b Hb) as H2. unfold left_len, cache_sized. pose proof (geom_pos b (d - 1 - R)) as Hg.
  assert (HS : forall j, j <= R -> geom b (d - 1 - R) < geom b (d - j)) by (intros j Hj; apply geom_strict; lia).
  destruct kp as [|j p| |k sched|k n sizes]; cbn in Hk; apply eq_true_iff_eq; rewrite Nat.eqb_eq.
  - lia.
  - pose proof (HS 0 ltac:(lia)). rewrite Nat.sub_0_r in *. lia.
  - pose proof (HS 0 ltac:(lia)). rewrite Nat.sub_0_r in *. lia.
  - destruct (Nat.lt_ge_cases R k) as [G|G].
    + rewrite (proj2 (Nat.ltb_lt _ _) G). rewrite Nat.min_r by lia. replace (d - (R + 1)) with (d - 1 - R) by lia. tauto.
    + rewrite (proj2 (Nat.ltb_ge _ _) G). rewrite Nat.min_l by lia. pose proof (HS k G). split; [lia|discriminate].
  - pose proof (HS k Hk). split; [lia|discriminate].
Qed.

(* a build that was killed: the configuration and what the first call was *)
Definition killed_at {E} (EO : ElementOps E) (A : AlgOps E) (en : env) (b : nat) (c : StoreConfig) (leaves : list E) (d : nat) (kp : lkill) (f' : fs) : Prop :=
  ElementLaws EO /\ AlgLaws A /\ arity b /\ chunk_ok en b /\ sc_rows_to_discard c < d /\ List.length leaves = b ^ d /\
  exists f e, fs_dir f (cfg_path c) = None /\ cfg_builder EO (lstop_store EO kp) A en b c leaves f (Panic e, f').

Lemma killed_left {E} (EO : ElementOps E) A en b c leaves els d kp f' : killed_at EO A en b c leaves d kp f' -> Layout (h_node A) b d leaves els ->
  exists data, fs_file f' (cfg_path c) = Some data /\ lc_remains (e_byte_len EO) b d (sc_rows_to_discard c) kp (encode EO els) data.
Proof.
  intros (EL & AL & Hb & Hch & HR & Hl & f & e & Hp & HB) HL.
  destruct (C74_left E EO A en b c leaves els d kp f _ EL AL Hb Hch HR HL Hp HB) as [G|(e' & f2 & data & Q & HF & HRm & _)].
  - exfalso. destruct (lc_cfg_built EO EL A AL en b Hb Hch d c ltac:(lia) leaves f _ Hp Hl HR G) as (t & f3 & Ht & _). discriminate Ht.
  - injection Q as -> ->. exists data. auto.
Qed.
Lemma killed_len {E} (EO : ElementOps E) A en b c leaves d kp f' : killed_at EO A en b c leaves d kp f' ->
  exists data, fs_file f' (cfg_path c) = Some data /\ List.length data = left_len b d (sc_rows_to_discard c) kp * e_byte_len EO /\ kill_ok d (sc_rows_to_discard c) kp.
Proof.
  intros HK. pose proof HK as (EL & AL & Hb & Hch & HR & Hl & _). pose proof (arity_ge b Hb) as H2.
  pose proof (all_rows_Layout A b ltac:(lia) leaves d Hl) as HL.
  destruct (killed_left EO A en b c leaves _ d kp f' HK HL) as (data & HF & HRm). exists data. split; [exact HF|]. split; [|eapply remains_ok; exact HRm].
  eapply remains_len; [exact HR| |exact HRm]. rewrite encode_length by exact EL. rewrite (proj1 (proj2 HL)). reflexivity.
Qed.

(* is_consistent tells every kill point from the finished file but one kind: a row
   above the discarded ones was being hashed *)
Theorem C74_consistent : forall E (EO : ElementOps E) A en b c leaves d kp f',
  killed_at EO A en b c leaves d kp f' ->
  lc_is_consistent EO (geom b d) b c f' = Ok (cache_sized (sc_rows_to_discard c) kp).
Proof.
  intros E EO A en b c leaves d kp f' HK. destruct (killed_len EO A en b c leaves d kp f' HK) as (data & HF & HLn & Hok).
  destruct HK as (EL & AL & Hb & Hch & HR & Hl & _). pose proof (bl_pos EO EL) as Hbl.
  pose proof (checks_file EO b c f' d data Hb HR HF) as HC. cbv zeta in HC. unfold checks in HC. injection HC as _ _ ->.
  rewrite HLn, eqb_mul by exact Hbl. f_equal. apply left_cache; auto.
Qed.

(* so does the constructor that opens the file *)
Theorem C74_open : forall E (EO : ElementOps E) A en b c leaves d kp f' rd,
  killed_at EO A en b c leaves d kp f' ->
  if cache_sized (sc_rows_to_discard c) kp
  then exists s, lc_new_from_disk_with_reader EO (geom b d) b c rd f' = (Ok s, f')
  else exists m, lc_new_from_disk_with_reader EO (geom b d) b c rd f' = (Err m, f').
Proof.
  intros E EO A en b c leaves d kp f' rd HK. destruct (killed_len EO A en b c leaves d kp f' HK) as (data & HF & HLn & Hok).
  destruct HK as (EL & AL & Hb & Hch & HR & Hl & _). pose proof (bl_pos EO EL) as Hbl.
  apply file_inv in HF. destruct HF as (i & Hi & Hd).
  unfold lc_new_from_disk_with_reader, fs_exists. rewrite Hi. cbn [ensure rbind].
  assert (Ho : exists h, lc_open f' (cfg_path c) = Ok h /\ h_ino h = i).
  { unfold lc_open, fs_open_rw, fs_open_ro. rewrite Hi. destruct (i_ro (fs_ino f' i)); eexists; split; reflexivity. }
  destruct Ho as (h & Ho & Hh). rewrite Ho. cbn [rbind]. rewrite get_merkle_tree_leafs_full by (auto; lia). cbn [rbind].
  replace (b ^ d =? next_pow2 (b ^ d)) with true by (symmetry; apply next_pow2_eqb', pow2_pow, arity_pow2; auto). cbn [ensure rbind].
  rewrite cache_size_full by auto. cbn [rbind].
  pose proof (geom_row_off b d (S (sc_rows_to_discard c)) ltac:(lia)) as HG. replace (d - S (sc_rows_to_discard c)) with (d - 1 - sc_rows_to_discard c) in HG by lia.
  rewrite checked_sub_ok by (apply Nat.mul_le_mono_r; lia). cbn [rbind].
  unfold fs_size. rewrite Hh, Hd, HLn, eqb_mul by exact Hbl. rewrite left_cache by auto.
  destruct (cache_sized (sc_rows_to_discard c) kp); cbn [ensure rbind]; eexists; reflexivity.
Qed.

(* when all rows up to the one below the root are discarded, every kill point shows *)
Corollary C74_only_root : forall E (EO : ElementOps E) A en b c leaves d kp f',
  killed_at EO A en b c leaves d kp f' -> d = sc_rows_to_discard c + 1 ->
  lc_is_consistent EO (geom b d) b c f' = Ok false.
Proof.
  intros E EO A en b c leaves d kp f' HK Hd. rewrite (C74_consistent E EO A en b c leaves d kp f' HK).
  destruct (killed_len EO A en b c leaves d kp f' HK) as (_ & _ & _ & Hok). f_equal.
  destruct kp; cbn in *; auto. apply Nat.ltb_ge. lia.
Qed.

(* ---- a second call at the same configuration ---- *)
Inductive lc_again {E} (EO : ElementOps E) (A : AlgOps E) (en : env) (b : nat) (c : StoreConfig) (n : nat) (f : fs)
  : res (mtree (st_t (lc_store EO)) E) * fs -> Prop :=
| La_iter items : lc_again EO A en b c n f (try_from_iter_with_config EO (lc_store EO) A en b (Some n) items c f)
| La_new xs : List.length xs = n -> lc_again EO A en b c n f (mt_new_with_config EO (lc_store EO) A en b xs c f)
| La_data xs : List.length xs = n -> lc_again EO A en b c n f (from_data_with_config EO (lc_store EO) A en b xs c f)
| La_par xs : List.length xs = n -> lc_again EO A en b c n f (from_par_iter_with_config EO (lc_store EO) A en b xs c f).

Section Again.
  Context {E : Type} (EO : ElementOps E) (EL : ElementLaws EO) (A : AlgOps E) (en : env) (b : nat) (Hb : arity b).
  Variables (c : StoreConfig) (d : nat) (f : fs) (i : nat).
  Local Notation R := (sc_rows_to_discard c).
  Local Notation LO := (lc_store EO).
  Local Notation bl := (e_byte_len EO).
  Hypothesis HR : R < d.
  Hypothesis Hi : fs_dir f (cfg_path c) = Some i.
  Local Notation last := (b ^ d + geom b (d - S R)).

  Lemma lc_newc_existing : exists s, lc_new_with_config EO (geom b d) b c f = (Ok s, f) /\ lc_loaded s = true /\ lc_len s = geom b d /\
    h_ino (lc_file s) = i /\ lc_data_width s = b ^ d /\ lc_cache_index_start s = row_off b d (S R) * bl /\ lc_reader s = None.
  Proof.
    pose proof (bl_pos EO EL) as Hbl.
    unfold lc_new_with_config. rewrite (sbind_ok _ _ f f f) by reflexivity. unfold fs_exists. rewrite Hi.
    unfold lc_new_from_disk, fs_exists. rewrite Hi. cbn [ensure rbind].
    assert (Ho : exists h, lc_open f (cfg_path c) = Ok h /\ h_ino h = i).
    { unfold lc_open, fs_open_rw, fs_open_ro. rewrite Hi. destruct (i_ro (fs_ino f i)); eexists; split; reflexivity. }
    destruct Ho as (h & Ho & Hh). rewrite Ho. cbn [rbind]. rewrite get_merkle_tree_leafs_full by (auto; lia). cbn [rbind].
    replace (b ^ d =? next_pow2 (b ^ d)) with true by (symmetry; apply next_pow2_eqb', pow2_pow, arity_pow2; auto). cbn [ensure rbind].
    rewrite cache_size_full by auto. cbn [rbind].
    pose proof (geom_row_off b d (S R) ltac:(lia)) as HG. replace (d - 1 - R) with (d - S R) by lia.
    rewrite checked_sub_ok by (apply Nat.mul_le_mono_r; lia). cbn [rbind].
    eexists. split; [reflexivity|]. cbn [lc_loaded lc_len lc_file lc_data_width lc_cache_index_start lc_reader].
    rewrite Nat.div_mul by lia. repeat (split; [auto|]); [|reflexivity]. rewrite <- Nat.mul_sub_distr_r. f_equal. lia.
  Qed.

  Lemma lc_last_raw s : lc_len s = geom b d -> h_ino (lc_file s) = i -> lc_data_width s = b ^ d ->
    lc_cache_index_start s = row_off b d (S R) * bl -> lc_reader s = None ->
    sreads (store_last LO s) f =
      ((if last * bl <=? List.length (fs_data f i) then e_from_slice EO (sub (fs_data f i) ((last - 1) * bl) bl) else Err "failed to fill whole buffer"%string), f).
  Proof.
    intros S1 S2 S3 S4 S5. pose proof (bl_pos EO EL) as Hbl. pose proof (geom_pos b d) as Hg. pose proof (geom_pos b (d - S R)) as Hg2.
    pose proof (geom_row_off b d (S R) ltac:(lia)) as HG.
    unfold sreads, store_last. cbn [st_len lc_store st_read_at]. rewrite S1, checked_sub_ok by lia. cbn [rbind]. f_equal.
    unfold lc_read_at, lc_check. cbn [fst]. rewrite S1.
    assert (H1 : (geom b d - 1) * bl + bl = geom b d * bl) by (rewrite Nat.mul_sub_distr_r; pose proof (Nat.mul_le_mono_r 1 _ bl Hg); lia).
    replace ((geom b d - 1) * bl <? geom b d * bl) with true by lia. cbn [ensure rbind].
    replace ((geom b d - 1) * bl + bl <=? geom b d * bl) with true by lia. cbn [ensure rbind].
    assert (HC : row_off b d (S R) * bl <= (geom b d - 1) * bl) by (apply Nat.mul_le_mono_r; lia).
    assert (Hin : lc_in_bounds EO s ((geom b d - 1) * bl) = true) by (unfold lc_in_bounds; rewrite S4; lia).
    rewrite Hin. cbn [ensure rbind]. unfold lc_store_read_range. cbn [fst snd]. rewrite checked_sub_ok by lia. cbn [rbind]. rewrite Hin. cbn [ensure rbind].
    rewrite S5. replace (if _ <? _ then None else None) with (@None ExternalReader) by (destruct (_ <? _); reflexivity).
    unfold lc_adjust. rewrite S4, S5, S3. replace (row_off b d (S R) * bl <=? (geom b d - 1) * bl) with true by lia.
    replace ((geom b d - 1) * bl + bl - (geom b d - 1) * bl) with bl by lia.
    assert (Hp : (geom b d - 1) * bl - row_off b d (S R) * bl + b ^ d * bl = (last - 1) * bl).
    { rewrite <- Nat.mul_sub_distr_r, <- Nat.mul_add_distr_r. f_equal. lia. }
    rewrite Hp. unfold fs_read_exact_at, fs_size. rewrite S2. replace (bl =? 0) with false by lia.
    assert (Hq : (last - 1) * bl + bl = last * bl) by (rewrite Nat.mul_sub_distr_r; pose proof (Nat.mul_le_mono_r 1 last bl ltac:(lia)); lia).
    rewrite Hq. destruct (last * bl <=? List.length (fs_data f i)); reflexivity.
  Qed.

  (* the call does not look at its data: it takes what is at the place of the root in
     a file of the format with leaves *)
  Lemma lc_again_any r : lc_again EO A en b c (b ^ d) f r ->
    match (if last * bl <=? List.length (fs_data f i) then e_from_slice EO (sub (fs_data f i) ((last - 1) * bl) bl) else Err "failed to fill whole buffer"%string) with
    | Ok x => exists t, r = (Ok t, f) /\ mt_leafs t = b ^ d /\ mt_root t = x
    | Err m => r = (Err m, f)
    | _ => True
    end.
  Proof.
    intros HA. destruct lc_newc_existing as (s & H1 & S0 & S1 & S2 & S3 & S4 & S5). pose proof (lc_last_raw s S1 S2 S3 S4 S5) as HL.
    set (v := if _ <=? _ then _ else _) in *.
    assert (HI : forall items, try_from_iter_with_config EO LO A en b (Some (b ^ d)) items c f =
        sbind (slift v) (fun root => sret (mk_base LO s (b ^ d) (geom b d) (S d) root)) f).
    { intros items. unfold try_from_iter_with_config. rewrite (sbind_ok _ _ f (b ^ d) f) by reflexivity.
      rewrite leafs_checks_full by (auto; lia). rewrite (sbind_ok _ _ f (geom b d, S d) f) by reflexivity.
      etransitivity; [exact (sbind_ok _ _ _ _ _ H1)|]. cbn [st_loaded_from_disk lc_store]. rewrite S0.
      apply sbind_same. rewrite HL. reflexivity. }
    assert (HP : forall xs, List.length xs = b ^ d -> from_par_iter_with_config EO LO A en b xs c f =
        sbind (slift v) (fun root => sret (mk_base LO s (b ^ d) (geom b d) (S d) root)) f).
    { intros xs Hx. unfold from_par_iter_with_config. cbv zeta. rewrite Hx.
      rewrite leafs_checks_full by (auto; lia). rewrite (sbind_ok _ _ f (geom b d, S d) f) by reflexivity.
      etransitivity; [exact (sbind_ok _ _ _ _ _ H1)|]. cbn [st_loaded_from_disk lc_store]. rewrite S0.
      apply sbind_same. rewrite HL. reflexivity. }
    assert (HV : r = sbind (slift v) (fun root => sret (mk_base LO s (b ^ d) (geom b d) (S d) root)) f).
    { destruct HA as [items|xs Hx|xs Hx|xs Hx].
      - apply HI.
      - unfold mt_new_with_config. rewrite Hx. apply HI.
      - unfold from_data_with_config. rewrite Hx. apply HI.
      - apply HP. exact Hx. }
    rewrite HV. destruct v as [x|m|m|]; cbn; auto. eexists. split; [reflexivity|]. split; reflexivity.
  Qed.
End Again.

(* The places where the file has lost its first row, or never had a size: the call is
   refused and changes nothing. *)
Definition too_short (kp : lkill) : Prop := match kp with L_create => True | L_layer k _ | L_trunc k _ _ => 1 <= k | _ => False end.

(* the wish: a second call fails or gives the tree *)
Definition C74_retry_full : Prop := forall E (EO : ElementOps E) A en en' b c leaves d kp f' r,
  killed_at EO A en b c leaves d kp f' -> cfg_builder EO (lc_store EO) A en' b c leaves f' r ->
  match r with
  | (Ok t, _) => MRoot (h_node A) b d leaves (mt_root t)
  | _ => True
  end.

Theorem C74_retry_partial : forall E (EO : ElementOps E) A en en' b c leaves d kp f' r,
  killed_at EO A en b c leaves d kp f' -> too_short kp ->
  lc_again EO A en' b c (b ^ d) f' r -> exists m, r = (Err m, f').
Proof.
  intros E EO A en en' b c leaves d kp f' r HK Hs HA. destruct (killed_len EO A en b c leaves d kp f' HK) as (data & HF & HLn & Hok).
  destruct HK as (EL & AL & Hb & Hch & HR & Hl & _). pose proof (bl_pos EO EL) as Hbl. pose proof (arity_ge b Hb) as H2.
  apply file_inv in HF. destruct HF as (i & Hi & Hd).
  pose proof (lc_again_any EO EL A en' b Hb c d f' i HR Hi r HA) as HX.
  set (last := b ^ d + geom b (d - S (sc_rows_to_discard c))) in *.
  assert (HS : left_len b d (sc_rows_to_discard c) kp < last).
  { unfold last. pose proof (geom_lt_next b (d - 1) H2) as HG. replace (S (d - 1)) with d in HG by lia.
    assert (HM : forall j, 1 <= j -> geom b (d - j) <= geom b (d - 1)).
    { intros j Hj. destruct (Nat.eq_dec (d - j) (d - 1)) as [->|Hn]; [lia|]. apply Nat.lt_le_incl, geom_strict; lia. }
    destruct kp as [| | |k sched|k n sizes]; cbn in *; try contradiction.
    - pose proof (geom_pos b (d - S (sc_rows_to_discard c))). lia.
    - pose proof (HM (Nat.min k (sc_rows_to_discard c + 1)) ltac:(lia)). lia.
    - pose proof (HM k ltac:(lia)). lia. }
  rewrite Hd, HLn in HX. pose proof (proj1 (Nat.mul_lt_mono_pos_r (e_byte_len EO) _ _ Hbl) HS) as HSb.
  rewrite (proj2 (Nat.leb_gt _ _) HSb) in HX. eexists. exact HX.
Qed.

(* from_byte_slice_with_config refuses whatever is there *)
Theorem C74_bytes_retry_partial : forall E (EO : ElementOps E) A en b c els data d f,
  ElementLaws EO -> arity b -> sc_rows_to_discard c < d -> List.length els = b ^ d -> fs_file f (cfg_path c) = Some data ->
  exists m, from_byte_slice_with_config EO (lc_store EO) A en b (encode EO els) c f = (Err m, f).
Proof.
  intros E EO A en b c els data d f EL Hb HR Hl HF. pose proof (bl_pos EO EL) as Hbl. pose proof (arity_ge b Hb) as H2.
  apply file_inv in HF. destruct HF as (i & Hi & Hd).
  destruct (lc_newc_existing EO EL b Hb c d f i HR Hi) as (s & H1 & S0 & S1 & _).
  unfold from_byte_slice_with_config. rewrite encode_length, Nat.mod_mul, Nat.eqb_refl, Nat.div_mul by (auto; lia).
  unfold ensure at 1. rewrite (sbind_ok _ _ f tt f) by reflexivity.
  rewrite Hl, (leafs_checks_full b Hb) by (auto; lia). rewrite (sbind_ok _ _ f (geom b d, S d) f) by reflexivity.
  assert (Hn : lc_new_from_slice_with_config EO (geom b d) b (encode EO els) c f = (Ok s, f)).
  { unfold lc_new_from_slice_with_config. rewrite encode_length, Nat.mod_mul, Nat.eqb_refl by (auto; lia).
    cbn [ensure]. rewrite (sbind_ok _ _ f tt f) by reflexivity. rewrite (sbind_ok _ _ _ _ _ H1), S0. reflexivity. }
  cbn [st_new_from_slice_with_config lc_store]. rewrite (sbind_ok _ _ _ _ _ Hn).
  pose proof (geom_row_off b d 1 ltac:(lia)) as HG. rewrite row_off_1 in HG. pose proof (geom_pos b (d - 1)) as Hg.
  eexists. apply (with_store_err (lc_store EO)). cbn [st_build lc_store]. unfold lc_build_fuel.
  rewrite (arity_next b Hb), Nat.eqb_refl. cbn [ensure]. rewrite (sbind_ok (slift (Ok tt)) _ (s, f) tt (s, f)) by reflexivity.
  rewrite (sbind_ok sget _ (s, f) (s, f) (s, f)) by reflexivity. cbn [fst]. rewrite S1.
  replace (geom b d =? b ^ d) with false by lia. reflexivity.
Qed.

(* killed at any other point: the call succeeds, whatever its data; its root is what
   Element::from_slice makes of the bytes where the root of a file of the format with
   leaves would be.  Before any node is hashed these are zeros. *)
Definition hashed_none (d R : nat) (kp : lkill) : Prop := match kp with L_copy _ _ | L_sync => True | L_layer 0 _ => R = 0 /\ 1 < d | _ => False end.
Theorem C74_retry_believes : forall E (EO : ElementOps E) A en en' b c leaves d kp f' r,
  killed_at EO A en b c leaves d kp f' -> ~ too_short kp ->
  lc_again EO A en' b c (b ^ d) f' r ->
  exists t data, r = (Ok t, f') /\ mt_leafs t = b ^ d /\ fs_file f' (cfg_path c) = Some data /\
    e_from_slice EO (sub data ((b ^ d + geom b (d - S (sc_rows_to_discard c)) - 1) * e_byte_len EO) (e_byte_len EO)) = Ok (mt_root t) /\
    (hashed_none d (sc_rows_to_discard c) kp -> e_from_slice EO (repeat x00 (e_byte_len EO)) = Ok (mt_root t)).
Proof.
  intros E EO A en en' b c leaves d kp f' r HK Hs HA. pose proof HK as (EL & AL & Hb & Hch & HR & Hl & _).
  pose proof (bl_pos EO EL) as Hbl. pose proof (arity_ge b Hb) as H2. pose proof (all_rows_Layout A b ltac:(lia) leaves d Hl) as HL.
  destruct (killed_left EO A en b c leaves _ d kp f' HK HL) as (data & HF & HRm).
  assert (Hw : List.length (encode EO (all_rows A b leaves d)) = geom b d * e_byte_len EO) by (rewrite encode_length, (proj1 (proj2 HL)) by exact EL; reflexivity).
  pose proof (remains_len _ b d _ kp _ data HR Hw HRm) as HLn.
  pose proof HF as HF'. apply file_inv in HF'. destruct HF' as (i & Hi & Hd).
  pose proof (lc_again_any EO EL A en' b Hb c d f' i HR Hi r HA) as HX. rewrite Hd in HX.
  pose proof (geom_row_off b d (S (sc_rows_to_discard c)) ltac:(lia)) as HG.
  pose proof (row_off_mono b d 1 (S (sc_rows_to_discard c)) ltac:(lia)) as HM. rewrite row_off_1 in HM.
  pose proof (geom_pos b (d - S (sc_rows_to_discard c))) as Hg.
  set (last := b ^ d + geom b (d - S (sc_rows_to_discard c))) in *. set (bl := e_byte_len EO) in *.
  assert (HS : left_len b d (sc_rows_to_discard c) kp = geom b d).
  { destruct kp as [| | |k sched|k n sizes]; cbn in Hs |- *; try tauto.
    - replace (Nat.min k (sc_rows_to_discard c + 1)) with 0 by lia. rewrite Nat.sub_0_r. reflexivity.
    - replace k with 0 by lia. rewrite Nat.sub_0_r. reflexivity. }
  rewrite HS in HLn. assert (Hle : last <= geom b d) by (unfold last; lia). pose proof (Nat.mul_le_mono_r _ _ bl Hle) as Hleb.
  rewrite HLn, (proj2 (Nat.leb_le _ _) Hleb) in HX.
  assert (Hsl : List.length (sub data ((last - 1) * bl) bl) = bl).
  { rewrite sub_length, HLn. pose proof (Nat.mul_sub_distr_r last 1 bl). pose proof (Nat.mul_le_mono_r 1 last bl ltac:(lia)). lia. }
  destruct (el_total EO EL _ Hsl) as [x Hx]. rewrite Hx in HX. destruct HX as (t & T1 & T2 & T3). subst x.
  exists t, data. split; [exact T1|]. split; [exact T2|]. split; [exact HF|]. split; [exact Hx|].
  intros Hn. rewrite <- Hx. f_equal.
  assert (HZ : forall q x, q < bl -> nth_error data ((last - 1) * bl + q) = Some x -> x = x00).
  { intros q y Hq Hy.
    assert (HU : forall n, unfinished (encode EO (all_rows A b leaves d)) data n (b ^ d * bl) -> y = x00).
    { intros n (_ & _ & U). destruct (U _ _ Hy) as [G|[G _]]; [exact G|exfalso].
      assert (b ^ d <= last - 1) as Hlt by (unfold last; lia). pose proof (Nat.mul_le_mono_r _ _ bl Hlt). lia. }
    destruct kp as [| | |[|k] sched|k n sizes]; cbn [hashed_none lc_remains] in Hn, HRm; try contradiction.
    - exact (HU _ HRm).
    - exact (HU _ HRm).
    - destruct Hn as [Hn Hd1]. destruct HRm as (_ & _ & _ & U). cbv zeta in U. destruct (U _ _ Hy) as [G|[G _]]; [exact G|exfalso].
      cbn [Nat.min] in G. change (row_off b d 0) with 0 in G. rewrite Nat.sub_0_r in G.
      assert (Hlt : row_off b d (0 + 2) <= last - 1).
      { pose proof (geom_row_off b d 2 ltac:(lia)) as G2. cbn [Nat.add]. pose proof (geom_pos b (d - 2)). unfold last. rewrite Hn in *. rewrite row_off_1 in HG. lia. }
      pose proof (Nat.mul_le_mono_r _ _ bl Hlt). fold bl in G. lia. }
  apply nth_error_ext. intros q. destruct (Nat.lt_ge_cases q bl) as [Hq|Hq].
  - rewrite nth_error_repeat, nth_error_sub. replace (q <? bl) with true by lia.
    destruct (nth_error data ((last - 1) * bl + q)) as [x|] eqn:Hy; [rewrite (HZ q x Hq Hy); reflexivity|].
    exfalso. apply nth_error_None in Hy. pose proof (Nat.mul_sub_distr_r last 1 bl). pose proof (Nat.mul_le_mono_r 1 last bl ltac:(lia)). lia.
  - transitivity (@None byte); [|symmetry]; apply nth_error_None; [rewrite repeat_length; exact Hq|rewrite Hsl; exact Hq].
Qed.

(* ---- the accepted file ---- *)
(* opened with a reader of the leaves while row k + 1 was being hashed and the rows to
   discard are gone: the rows up to k are right; the root is right only if it was being
   hashed and its bytes were written, and zeros otherwise *)
Section Accepted.
  Context {E : Type} (EO : ElementOps E) (EL : ElementLaws EO) (b : nat) (Hb : arity b).
  Variables (c : StoreConfig) (d : nat) (f : fs) (i : nat).
  Local Notation R := (sc_rows_to_discard c).
  Local Notation bl := (e_byte_len EO).
  Hypothesis HR : R < d.
  Hypothesis Hi : fs_dir f (cfg_path c) = Some i.
  Local Notation first := (row_off b d (S R)).
  Hypothesis Hsz : List.length (fs_data f i) = geom b (d - S R) * bl.

  Lemma lc_read_above rd : exists s, lc_new_from_disk_with_reader EO (geom b d) b c rd f = (Ok s, f) /\ lc_len s = geom b d /\
    forall j, first <= j -> j < geom b d -> lc_read_at EO (s, f) j = e_from_slice EO (sub (fs_data f i) ((j - first) * bl) bl).
  Proof.
    pose proof (bl_pos EO EL) as Hbl.
    unfold lc_new_from_disk_with_reader, fs_exists. rewrite Hi. cbn [ensure rbind].
    assert (Ho : exists h, lc_open f (cfg_path c) = Ok h /\ h_ino h = i).
    { unfold lc_open, fs_open_rw, fs_open_ro. rewrite Hi. destruct (i_ro (fs_ino f i)); eexists; split; reflexivity. }
    destruct Ho as (h & Ho & Hh). rewrite Ho. cbn [rbind]. rewrite get_merkle_tree_leafs_full by (auto; lia). cbn [rbind].
    replace (b ^ d =? next_pow2 (b ^ d)) with true by (symmetry; apply next_pow2_eqb', pow2_pow, arity_pow2; auto). cbn [ensure rbind].
    rewrite cache_size_full by auto. cbn [rbind].
    pose proof (geom_row_off b d (S R) ltac:(lia)) as HG. replace (d - 1 - R) with (d - S R) by lia.
    pose proof (geom_pos b (d - S R)) as Hg2.
    pose proof (row_off_mono b d 1 (S R) ltac:(lia)) as HM. rewrite row_off_1 in HM.
    rewrite checked_sub_ok by (apply Nat.mul_le_mono_r; lia). cbn [rbind]. unfold fs_size at 1. rewrite Hh, Hsz, Nat.eqb_refl. cbn [ensure rbind].
    eexists. split; [reflexivity|]. cbn [lc_len]. rewrite Nat.div_mul by lia. split; [reflexivity|].
    assert (Hcis : geom b d * bl - geom b (d - S R) * bl = first * bl) by (rewrite <- Nat.mul_sub_distr_r; f_equal; lia). rewrite Hcis.
    intros j Hj1 Hj2. unfold lc_read_at, lc_check. cbn [fst lc_len].
    assert (H1 : j * bl + bl <= geom b d * bl) by (pose proof (Nat.mul_le_mono_r (S j) _ bl Hj2) as Hm; cbn [Nat.mul] in Hm; lia).
    replace (j * bl <? geom b d * bl) with true by lia. cbn [ensure rbind].
    replace (j * bl + bl <=? geom b d * bl) with true by lia. cbn [ensure rbind].
    pose proof (Nat.mul_le_mono_r _ _ bl Hj1) as HC. pose proof (Nat.mul_le_mono_r _ _ bl HM) as HCw.
    unfold lc_in_bounds, lc_store_read_range, lc_adjust, lc_in_bounds. cbn [fst snd lc_cache_index_start lc_data_width lc_reader lc_file].
    replace (first * bl <=? j * bl) with true by lia. rewrite orb_true_r. cbn [ensure rbind].
    rewrite checked_sub_ok by lia. cbn [rbind]. replace (j * bl + bl - j * bl) with bl by lia.
    replace (j * bl <? b ^ d * bl) with false by lia. unfold fs_read_exact_at, fs_size. rewrite Hh, Hsz. replace (bl =? 0) with false by lia.
    rewrite <- Nat.mul_sub_distr_r.
    assert (H3 : (j - first) * bl + bl <= geom b (d - S R) * bl).
    { pose proof (Nat.mul_le_mono_r (S (j - first)) (geom b (d - S R)) bl ltac:(lia)) as Hm. cbn [Nat.mul] in Hm. lia. }
    rewrite (proj2 (Nat.leb_le _ _) H3). reflexivity.
  Qed.
End Accepted.

Theorem C74_open_believes : forall E (EO : ElementOps E) A en b c leaves els d k sched f' rd,
  killed_at EO A en b c leaves d (L_layer k sched) f' -> sc_rows_to_discard c < k -> Layout (h_node A) b d leaves els ->
  exists s t, lc_new_from_disk_with_reader EO (geom b d) b c rd f' = (Ok s, f') /\
    from_data_store (lc_store EO) b 0 0 s (b ^ d) f' = (Ok t, f') /\ mt_leafs t = b ^ d /\
    (k + 1 < d -> e_from_slice EO (repeat x00 (e_byte_len EO)) = Ok (mt_root t)) /\
    forall j, row_off b d (S (sc_rows_to_discard c)) <= j -> j < row_off b d (k + 1) -> mt_read_at (lc_store EO) 0 0 t f' j = rnth els j.
Proof.
  intros E EO A en b c leaves els d k sched f' rd HK Hk HL. pose proof HK as (EL & AL & Hb & Hch & HR & Hl & _).
  pose proof (bl_pos EO EL) as Hbl. pose proof (arity_ge b Hb) as H2. pose proof HL as (L1 & L2 & _).
  destruct (killed_left EO A en b c leaves _ d _ f' HK HL) as (data & HF & HRm).
  assert (Hw : List.length (encode EO els) = geom b d * e_byte_len EO) by (rewrite encode_length, L2 by exact EL; reflexivity).
  pose proof (remains_len _ b d _ _ _ data HR Hw HRm) as HLn. cbn [left_len] in HLn. rewrite Nat.min_r in HLn by lia.
  replace (sc_rows_to_discard c + 1) with (S (sc_rows_to_discard c)) in HLn by lia.
  pose proof HF as HF'. apply file_inv in HF'. destruct HF' as (i & Hi & Hd). subst data.
  destruct (lc_read_above EO EL b Hb c d f' i HR Hi HLn rd) as (s & S1 & S2 & S3).
  cbn [lc_remains] in HRm. destruct HRm as (Hkd & U). cbv zeta in U. rewrite Nat.min_r in U by lia.
  replace (sc_rows_to_discard c + 1) with (S (sc_rows_to_discard c)) in U by lia. destruct U as (_ & U2 & U3).
  set (first := row_off b d (S (sc_rows_to_discard c))) in *. set (bl := e_byte_len EO) in *.
  pose proof (geom_row_off b d (S (sc_rows_to_discard c)) ltac:(lia)) as HG. fold first in HG.
  pose proof (geom_pos b (d - S (sc_rows_to_discard c))) as Hg.
  set (K := geom b (d - S (sc_rows_to_discard c))) in *.
  assert (Hsl : List.length (sub (fs_data f' i) ((K - 1) * bl) bl) = bl).
  { rewrite sub_length, HLn. pose proof (Nat.mul_sub_distr_r K 1 bl). pose proof (Nat.mul_le_mono_r 1 K bl ltac:(lia)). lia. }
  destruct (el_total EO EL _ Hsl) as [x Hx].
  assert (Hlast : sreads (store_last (lc_store EO) s) f' = (Ok x, f')).
  { unfold sreads, store_last. cbn [st_len lc_store st_read_at]. rewrite S2, checked_sub_ok by lia. cbn [rbind]. f_equal.
    rewrite S3 by lia. rewrite <- Hx. f_equal. fold bl. f_equal. f_equal. lia. }
  assert (HT : from_data_store (lc_store EO) b 0 0 s (b ^ d) f' = (Ok (mk_base (lc_store EO) s (b ^ d) (geom b d) (S d) x), f')).
  { unfold from_data_store. cbn [Nat.eqb ensure].
    rewrite (sbind_ok _ _ f' tt f') by reflexivity. rewrite (sbind_ok _ _ f' tt f') by reflexivity.
    replace (next_pow2 (b ^ d) =? b ^ d) with true by (symmetry; apply next_pow2_eqb, pow2_pow, arity_pow2; auto).
    rewrite (arity_next b Hb), Nat.eqb_refl. cbn [ensure].
    rewrite (sbind_ok _ _ f' tt f') by reflexivity. rewrite (sbind_ok _ _ f' tt f') by reflexivity.
    rewrite get_merkle_tree_len_full by (auto; lia). rewrite (sbind_ok _ _ f' (geom b d) f') by reflexivity.
    cbn [st_len lc_store]. rewrite S2, Nat.eqb_refl. cbn [ensure].
    rewrite (sbind_ok _ _ f' tt f') by reflexivity.
    rewrite size_valid_full by auto. rewrite (sbind_ok _ _ f' true f') by reflexivity. cbn [ensure].
    rewrite (sbind_ok _ _ f' tt f') by reflexivity.
    rewrite (sbind_ok _ _ _ _ _ Hlast). rewrite row_count_full by auto. reflexivity. }
  exists s, (mk_base (lc_store EO) s (b ^ d) (geom b d) (S d) x). split; [exact S1|]. split; [exact HT|]. split; [reflexivity|]. split.
  - intros Hk1. cbn [mt_root mk_base]. rewrite <- Hx. f_equal.
    apply nth_error_ext. intros q. destruct (Nat.lt_ge_cases q bl) as [Hq|Hq].
    + rewrite nth_error_repeat, nth_error_sub. replace (q <? bl) with true by lia.
      destruct (nth_error (fs_data f' i) ((K - 1) * bl + q)) as [y|] eqn:Hy.
      * destruct (U3 _ _ Hy) as [->|[G _]]; [reflexivity|exfalso].
        pose proof (geom_row_off b d (k + 2) ltac:(lia)) as G2. pose proof (geom_pos b (d - (k + 2))).
        pose proof (Nat.mul_le_mono_r (row_off b d (k + 2) - first) (K - 1) bl ltac:(lia)). lia.
      * exfalso. apply nth_error_None in Hy. pose proof (Nat.mul_sub_distr_r K 1 bl). pose proof (Nat.mul_le_mono_r 1 K bl ltac:(lia)). lia.
    + transitivity (@None byte); [|symmetry]; apply nth_error_None; [rewrite repeat_length; exact Hq|rewrite Hsl; exact Hq].
  - intros j Hj1 Hj2. pose proof (geom_row_off b d (k + 1) ltac:(lia)) as G2. pose proof (geom_pos b (d - (k + 1))).
    transitivity (lc_read_at EO (s, f') j); [reflexivity|]. rewrite S3 by lia. fold bl.
    destruct (nth_error_ex els j ltac:(lia)) as [y Hy]. unfold rnth. rewrite Hy.
    assert (Hs : sub (fs_data f' i) ((j - first) * bl) bl = e_as_ref EO y).
    { set (n := row_off b d (k + 1) - first) in *.
      pose proof (Nat.mul_le_mono_r (S (j - first)) n bl ltac:(lia)) as Hm. cbn [Nat.mul] in Hm.
      transitivity (sub (firstn (n * bl) (fs_data f' i)) ((j - first) * bl) bl); [|rewrite U2].
      - rewrite <- sub_0, sub_sub by lia. reflexivity.
      - transitivity (sub (encode EO els) (j * bl) bl).
        + rewrite <- (sub_0 (skipn _ _)), sub_sub by lia. unfold sub. rewrite skipn_skipn. f_equal. f_equal.
          rewrite Nat.add_0_l, <- Nat.mul_add_distr_r. f_equal. lia.
        + exact (encode_nth EO EL els j y Hy). }
    rewrite Hs. apply (el_round EO EL).
Qed.

(* the wish: a file that is_consistent accepts gives the tree *)
Definition C74_detect_full : Prop := forall E (EO : ElementOps E) A en b c leaves d kp f' rd s t f2,
  killed_at EO A en b c leaves d kp f' -> reads_leaves EO rd f' leaves ->
  lc_is_consistent EO (geom b d) b c f' = Ok true ->
  lc_new_from_disk_with_reader EO (geom b d) b c rd f' = (Ok s, f') ->
  from_data_store (lc_store EO) b 0 0 s (b ^ d) f' = (Ok t, f2) ->
  MRoot (h_node A) b d leaves (mt_root t).

(* recovery: delete, then build (C27_build says what lc_call gives) *)
Theorem C74_recover : forall E (EO : ElementOps E) A en en' b c leaves leaves' d kp f' r,
  killed_at EO A en b c leaves d kp f' -> chunk_ok en' b ->
  exists f2, mt_delete (lc_store EO) c f' = (Ok tt, f2) /\
    (cfg_builder EO (lc_store EO) A en' b c leaves' f2 r -> lc_call EO A en' b c leaves' r).
Proof.
  intros E EO A en en' b c leaves leaves' d kp f' r HK Hch'. destruct (killed_len EO A en b c leaves d kp f' HK) as (data & HF & _).
  destruct HK as (EL & AL & Hb & _). pose proof (C63_level_cache_removes E EO c f') as HD. rewrite HF in HD. destruct HD as (f3 & D1 & _).
  exists f3. split; [exact D1|]. intros HB2. exact (C63_rebuild_level_cache E EO A en' b c f' f3 leaves' r EL AL Hb Hch' D1 HB2).
Qed.

(* concrete killed builds: eight leaves, binary *)
Definition lc_killed (R : nat) (kp : lkill) := mt_new_with_config BO (lstop_store BO kp) sum_alg env1 2 leaves8 (cfg_r R) fs_empty.
Definition lc_left_vals (R : nat) (kp : lkill) := file_vals (snd (lc_killed R kp)).
Definition lc_tried_again (R : nat) (kp : lkill) := mt_new_with_config BO (lc_store BO) sum_alg env1 2 leaves8 (cfg_r R) (snd (lc_killed R kp)).
(* opened with a reader of the leaves *)
Definition lc_reopened (R : nat) (kp : lkill) (rd : ExternalReader) :=
  match lc_new_from_disk_with_reader BO 15 2 (cfg_r R) rd (snd (lc_killed R kp)) with
  | (Ok s, f) => from_data_store (lc_store BO) 2 0 0 s 8 f
  | (Err m, f) => (Err m, f)
  | (Panic m, f) => (Panic m, f)
  | (Diverge, f) => (Diverge, f)
  end.
Definition leaf_reader : ExternalReader := {| er_offset := 0; er_read_fn := fun _ s e _ => Ok (e - s, sub (encode BO (map (h_leaf sum_alg) leaves8)) s (e - s)) |}.
Lemma leaf_reader_ok f : reads_leaves BO leaf_reader f (map (h_leaf sum_alg) leaves8).
Proof.
  intros s e buf Hs He Hb. unfold er_data, er_read, leaf_reader. cbn [er_read_fn er_offset rbind snd]. rewrite !Nat.add_0_r, <- Nat.mul_sub_distr_r.
  rewrite (encode_sub BO BL). reflexivity.
Qed.

Lemma lc_killed_case : fst (lc_killed 1 L_sync) = Panic "killed"%string /\ root_of (lc_tried_again 1 L_sync) = Some 0 /\
  fst (lc_killed 0 (L_layer 1 [])) = Panic "killed"%string /\ root_of (lc_reopened 0 (L_layer 1 []) leaf_reader) = Some 0 /\
  lc_is_consistent BO 15 2 (cfg_r 0) (snd (lc_killed 0 (L_layer 1 []))) = Ok true /\
  root_of (mt_new BO (disk_store BO) sum_alg env1 2 leaves8 fs_empty) = Some 190.
Proof. vm_compute. repeat split. Qed.

Lemma lc_killed_at R kp : R < 3 -> fst (lc_killed R kp) = Panic "killed"%string ->
  killed_at BO sum_alg env1 2 (cfg_r R) (map (h_leaf sum_alg) leaves8) 3 kp (snd (lc_killed R kp)).
Proof.
  intros HR HK. split; [exact BL|]. split; [exact sum_laws|]. split; [exact arity_2|]. split; [split; [vm_compute; lia|reflexivity]|].
  split; [exact HR|]. split; [reflexivity|]. exists fs_empty, "killed"%string. split; [reflexivity|].
  pose proof (CB_new BO (lstop_store BO kp) sum_alg env1 2 (cfg_r R) leaves8 fs_empty) as HB.
  change (mt_new_with_config BO (lstop_store BO kp) sum_alg env1 2 leaves8 (cfg_r R) fs_empty) with (lc_killed R kp) in HB.
  destruct (lc_killed R kp) as [x f]. cbn [fst snd] in *. subst x. exact HB.
Qed.

(* no tree of these leaves has root 0 *)
Lemma root_not_0 (x : B1) : MRoot (h_node sum_alg) 2 3 (map (h_leaf sum_alg) leaves8) x -> Some (val x) = Some 0 -> False.
Proof.
  intros HM Hx. destruct lc_killed_case as (_ & _ & _ & _ & _ & K3).
  pose proof (B_new BO (disk_store BO) sum_alg env1 2 leaves8 fs_empty) as HB0.
  destruct (mt_new BO (disk_store BO) sum_alg env1 2 leaves8 fs_empty) as [[t0| | |] f0]; [|discriminate K3|discriminate K3|discriminate K3].
  destruct (builder_full BO BL sum_alg sum_laws env1 2 (disk_store BO) true (bs_disk BO) (map (h_leaf sum_alg) leaves8) _ 3 _ arity_2 ltac:(split; [vm_compute; lia|reflexivity]) HB0 ltac:(lia) eq_refl) as (t1 & f3 & els & Ht & HF).
  injection Ht as <- <-. pose proof (FullTree_root _ _ _ _ _ _ _ _ arity_2 HF) as HM0.
  pose proof (MRoot_fun _ _ _ _ _ HM _ HM0) as Hr. unfold root_of in K3. rewrite Hr in Hx. rewrite Hx in K3. discriminate K3.
Qed.

(* the leaves are written, nothing is hashed: the second call, with all eight leaves
   at hand, returns a tree with root 0 instead of 190 *)
Theorem C74_retry_refuted : ~ C74_retry_full.
Proof.
  intros H. destruct lc_killed_case as (K1 & K2 & _).
  pose proof (lc_killed_at 1 L_sync ltac:(lia) K1) as HK.
  pose proof (CB_new BO (lc_store BO) sum_alg env1 2 (cfg_r 1) leaves8 (snd (lc_killed 1 L_sync))) as HB.
  change (mt_new_with_config BO (lc_store BO) sum_alg env1 2 leaves8 (cfg_r 1) (snd (lc_killed 1 L_sync))) with (lc_tried_again 1 L_sync) in HB.
  destruct (lc_tried_again 1 L_sync) as [[t| | |] f2]; [|discriminate K2|discriminate K2|discriminate K2].
  exact (root_not_0 _ (H B1 BO sum_alg env1 env1 2 (cfg_r 1) _ 3 _ _ _ HK HB) K2).
Qed.

(* the second row is being hashed, the leaves are cut off: is_consistent accepts the
   file, and the opened tree has root 0 *)
Theorem C74_detect_refuted : ~ C74_detect_full.
Proof.
  intros H. destruct lc_killed_case as (_ & _ & K1 & K2 & K4 & _).
  pose proof (lc_killed_at 0 (L_layer 1 []) ltac:(lia) K1) as HK.
  unfold lc_reopened in K2. revert HK K2 K4. generalize (snd (lc_killed 0 (L_layer 1 []))). clear K1. intros f HK K2 K4.
  destruct (C74_open B1 BO sum_alg env1 2 (cfg_r 0) _ 3 _ f leaf_reader HK) as [s Hs].
  change (geom 2 3) with 15 in Hs. rewrite Hs in K2.
  destruct (from_data_store (lc_store BO) 2 0 0 s 8 f) as [[t| | |] f2] eqn:Ht; [|discriminate K2|discriminate K2|discriminate K2].
  exact (root_not_0 _ (H B1 BO sum_alg env1 2 (cfg_r 0) _ 3 _ f leaf_reader s t f2 HK (leaf_reader_ok f) K4 Hs Ht) K2).
Qed.

(* the theorems on concrete kill points *)
Definition lc_seen (R : nat) (kp : lkill) :=
  (lc_left_vals R kp, lc_is_consistent BO 15 2 (cfg_r R) (snd (lc_killed R kp)), root_of (lc_tried_again R kp), root_of (lc_reopened R kp leaf_reader)).
Example C74_case :
  lc_seen 1 L_create = (Some [], Ok false, None, None) /\
  (* two of the second block's three leaves *)
  lc_seen 1 (L_copy 3 2) = (Some [21; 19; 22; 19; 23; 0; 0; 0; 0; 0; 0; 0; 0; 0; 0], Ok false, Some 0, None) /\
  (* the second worker of the first row has written its second node *)
  lc_seen 0 (L_layer 0 second_worker) = (Some [21; 19; 22; 19; 23; 27; 20; 24; 0; 0; 0; 207; 0; 0; 0], Ok false, Some 0, None) /\
  (* six nodes moved to the front, the file not yet cut *)
  lc_seen 1 (L_trunc 0 1 (fun _ => 5)) = (Some [219; 236; 10; 207; 0; 0; 20; 24; 219; 236; 10; 207; 0; 0; 0], Ok false, Some 10, None) /\
  lc_seen 1 (L_layer 1 []) = (Some [219; 236; 10; 207; 0; 0; 0], Ok false, None, None) /\
  lc_seen 1 (L_trunc 1 1 (fun _ => 2)) = (Some [37; 220; 0; 207; 37; 220; 0], Ok false, None, None) /\
  (* the root alone is missing, and the file is accepted *)
  lc_seen 1 (L_layer 2 []) = (Some [37; 220; 0], Ok true, None, Some 0) /\
  (* no block starts at element 4: the build is not killed *)
  lc_seen 1 (L_copy 4 2) = (Some [37; 220; 190], Ok true, None, Some 190) /\
  root_of (mt_new_with_config BO (lc_store BO) sum_alg env1 2 leaves8 (cfg_r 1) (snd (mt_delete (lc_store BO) (cfg_r 1) (snd (lc_killed 1 (L_layer 2 [])))))) = Some 190.
Proof. vm_compute. repeat split. Qed.

Print Assumptions C74_left.
Print Assumptions C74_consistent.
Print Assumptions C74_open.
Print Assumptions C74_only_root.
Print Assumptions C74_retry_partial.
Print Assumptions C74_bytes_retry_partial.
Print Assumptions C74_retry_believes.
Print Assumptions C74_open_believes.
Print Assumptions C74_recover.
Print Assumptions C74_retry_refuted.
Print Assumptions C74_detect_refuted.
