(* C81: what is in the file and what the tree object reads after compactions that failed. *)
From Coq Require Import String List Arith NArith Bool Lia Init.Byte ZifyBool ZifyNat.
From Verif Require Import Base Element Hash Sizing FS Sched Store VecStore DiskStore MmapStore LevelCache ProofModel Tree ListFacts Spec SpecFacts SizingFacts SchedFacts StoreLaws RowFacts ChunkFacts BuildFacts BuildLoop StoreSpec FileFacts VecFacts MapLayer DiskFacts MmapFacts PopFacts TreeFacts ProofSpec ProofFacts TreeProofs TreeObs Builders BuiltFacts CompoundFacts CompoundTrees CompoundGroups CompoundBuilt CachedFacts CachedTrees LcReads LcTrees CachedBuilt FrameFacts CompactFacts CompactTrees LcBuild LcCreate ReopenFacts Recompact AgainFacts CompactIo CompactIoFacts Cases Props_Build Props_Proof Props_Compact Props_Recompact Props_PowerCompact Props_Untrusted Props_CompactSeen Props_CompactIo Props_LC.
Import ListNotations.

Section Mid.
  Context {E : Type} (EO : ElementOps E) (EL : ElementLaws EO) (b : nat) (Hb : arity b) (c : StoreConfig) (d v : nat).
  Hypothesis Hd : 1 <= d.
  Hypothesis HR : sc_rows_to_discard c < d.
  Local Notation bl := (e_byte_len EO).
  Local Notation R := (sc_rows_to_discard c).
  Local Notation src := (row_off b d (S R) * bl).
  Local Notation dst := (CompactFacts.start b d v * bl).
  Local Notation cnt := (geom b (d - 1 - R) * bl).
  Variables (old P : list byte) (f0 : fs) (i : nat).
  Hypothesis Hold : List.length old = geom b d * bl.
  Hypothesis HP : packed EO b c d v old = P.

  (* the bytes moved so far are moved once more, and some others perhaps *)
  Lemma moved_again m n : m <= cnt -> n <= cnt -> moved (moved old dst src m) dst src n = moved old dst src (Nat.max m n).
  Proof.
    intros Hm Hn. pose proof (dst_le EO b c d v Hd HR) as L. pose proof (total EO b c d Hd HR) as T.
    apply nth_error_ext. intros q. rewrite moved_nth by (try rewrite moved_length; lia). rewrite (moved_nth old dst src (Nat.max m n)) by lia.
    destruct ((dst <=? q) && (q <? dst + n)) eqn:Q.
    - rewrite (moved_kept EO b Hb c d v Hd HR old Hold m _ Hm) by lia.
      replace ((dst <=? q) && (q <? dst + Nat.max m n)) with true by lia. reflexivity.
    - rewrite moved_nth by lia. destruct ((dst <=? q) && (q <? dst + m)) eqn:Q2.
      + replace ((dst <=? q) && (q <? dst + Nat.max m n)) with true by lia. reflexivity.
      + replace ((dst <=? q) && (q <? dst + Nat.max m n)) with false by lia. reflexivity.
  Qed.

  Definition mid (f : fs) : Prop := fs_data f i = P \/ exists m, m <= cnt /\ fs_data f i = moved old dst src m.

  (* if the file is finished although it has its old length, nothing is dropped *)
  Lemma finished_same : List.length P = geom b d * bl -> P = old.
  Proof. intros Q. rewrite <- HP in Q |- *. exact (packed_full EO b c d v Hd HR old Hold Q). Qed.

  Lemma mid_step p sizes s f : io_inv EO b c d v P f0 i (s, f) -> mid f -> mid (snd (snd (disk_compact_io EO p sizes b c v (s, f)))).
  Proof.
    intros (I1 & I2 & I3 & I4 & I5 & I6) HM. pose proof (bl_pos EO EL) as Hbl.
    destruct I6 as [(I6 & I7 & I8)|(I6 & I7 & I8 & I9 & I10)].
    - destruct (io_one EO EL b Hb c d v Hd HR s f i I6 I4 I2 I3 I7 p sizes I5) as (r & s' & f' & H1 & H2 & H3). rewrite H1. cbn [snd].
      assert (HM' : exists m, m <= cnt /\ fs_data f i = moved old dst src m).
      { destruct HM as [HM|HM]; [|exact HM]. exists 0. split; [lia|]. rewrite moved_0, HM. apply finished_same. congruence. }
      destruct HM' as (m0 & M1 & M2).
      assert (HX : half EO b c d v s f i s' f' -> mid f').
      { intros (A1 & A2 & A3 & m & A4 & A5). right. exists (Nat.max m0 m). split; [lia|]. rewrite A5, M2. apply moved_again; lia. }
      assert (HY : done EO b c d v f i s' f' -> mid f').
      { intros (A1 & A2 & A3 & A4). left. congruence. }
      destruct H3 as [(_ & H3 & _)|(_ & _ & [H3|H3])]; auto.
    - assert (HE : exists e, disk_compact_io EO p sizes b c v (s, f) = (Err e, (s, f))).
      { unfold CompactFacts.start in I9, I8. destruct (v =? 1) eqn:Hv.
        - destruct (Nat.eq_dec R 0) as [Q|Q]; [|apply (io_gap EO b Hb c d v HR); [lia|exact I9]].
          exfalso. apply I6. rewrite I8, Q. replace (d - 1 - 0) with (d - 1) by lia. destruct d as [|d']; [lia|].
          change (geom b (S d')) with (b ^ S d' + geom b d'). replace (S d' - 1) with d' by lia. lia.
        - apply (io_stale_size EO EL b Hb c d v Hd HR p sizes s f i (d - 1 - R)); auto; [lia|rewrite I7, I8; lia]. }
      destruct HE as [e HE]. rewrite HE. exact HM.
  Qed.

  Lemma mid_tries l st : io_inv EO b c d v P f0 i st -> mid (snd st) -> mid (snd (io_tries EO (geom b d) b c v l st)).
  Proof.
    revert st. unfold io_tries. induction l as [|x l IH]; intros st H HM; [exact HM|]. cbn [fold_left].
    apply IH; [apply io_try_inv; assumption|].
    destruct x as [[reopen p] sizes]. destruct st as [s f]. unfold io_try. cbn [fst snd] in HM |- *. destruct reopen.
    - destruct (io_open EO b c d v P f0 i f (ex_intro _ s H)) as [(s1 & Ho & H1)|(e & He & _)].
      + rewrite Ho. apply mid_step; assumption.
      + rewrite He. exact HM.
    - apply mid_step; assumption.
  Qed.
End Mid.

(* ---------------- C81 ---------------- *)
(* old: the bytes of the file before, good: those of a finished compaction, keep: where
   the copy starts to write.  After any number of failing calls the file is good, or good
   up to some point and old from there on.  The tree object has its root still; every
   index reads as the bytes the file holds there, and every index beyond the end of the
   file is refused. *)
Theorem C81_exact : forall E (EO : ElementOps E) A en b leaves t f1 c v l t2 f2,
  disk_tree EO A en b (cfg_path c) leaves t f1 ->
  sc_rows_to_discard c < mt_row_count t - 1 ->
  tree_tries EO b c v l t f1 = (t2, f2) ->
  let keep := if v =? 1 then List.length leaves * e_byte_len EO else 0 in
  let bl := e_byte_len EO in
  exists old good D, fs_file f1 (cfg_path c) = Some old /\ compacted EO A b c v (mt_row_count t) leaves good /\
    fs_file f2 (cfg_path c) = Some D /\
    (D = good \/ exists p, keep <= p <= List.length good /\ D = firstn p good ++ skipn p old) /\
    mt_root t2 = mt_root t /\
    forall j, mt_read_at (disk_store EO) 0 0 t2 f2 j =
      if j * bl + bl <=? List.length D then e_from_slice EO (sub D (j * bl) bl) else Err "start out of range"%string.
Proof.
  intros E EO A en b leaves t f1 c v l t2 f2 HT HR H2 keep bl.
  destruct (tries_inv _ _ _ _ _ _ _ _ _ _ _ _ _ HT HR H2) as (EL & Hb & d & s2 & i & top & Hd & HRd & Hr & Hl & Hn & Htop & T1 & T2 & HI & Hp).
  pose proof (bl_pos EO EL) as Hbl. fold bl in Hbl.
  destruct (power_setup EO A en b leaves t f1 c v (fun _ => 0) HT HR) as (d' & i' & P & E1 & _ & _ & _ & _ & E2 & E3 & E4 & E5 & E6 & E7 & _).
  assert (d' = d) by lia. subst d'. assert (i' = i) by congruence. subst i'.
  destruct (disk_tree_at _ _ _ _ _ _ _ _ HT) as (d' & s & i' & els & Hd' & Hl' & HD).
  pose proof (dt_full EO EL A b Hb t s f1 c i' d' leaves els HD) as HF. pose proof (ft_rows _ _ _ _ _ _ _ _ HF) as Hrows.
  assert (d' = d) by lia. subst d'. pose proof (dt_path _ _ _ _ _ _ _ _ _ _ _ HD) as Hp'. assert (i' = i) by congruence. subst i'.
  pose proof (dt_rep _ _ _ _ _ _ _ _ _ _ _ HD) as (R1 & _ & R3 & _). cbn [fst snd] in R1, R3.
  pose proof (dt_file _ _ _ _ _ _ _ _ _ _ _ HD) as Hfi.
  pose proof (packed_len EO b c d v Hd HRd (fs_data f1 i) E5) as PL. rewrite E6 in PL.
  assert (I1 : io_inv EO b c d v P f1 i (s, f1)).
  { split; [apply fs_frame_refl|]. split; [exact Hp|]. split; [exact E4|]. split; [exact R3|]. split; [exact Hfi|]. left. auto. }
  pose proof (mid_tries EO EL b Hb c d v Hd HRd (fs_data f1 i) P f1 i E5 E6 l (s, f1) I1) as HM.
  assert (HM0 : mid EO b c d v (fs_data f1 i) P i f1) by (right; exists 0; rewrite moved_0; split; [lia|reflexivity]).
  specialize (HM HM0). clear HM0.
  pose proof (io_tries_inv EO EL b Hb c d v Hd HRd P f1 i l (s, f1) I1) as I2.
  destruct (io_tries EO (geom b d) b c v l (s, f1)) as [s2' f2'] eqn:Q. cbn [snd] in HM.
  unfold tree_tries in H2. rewrite Hn in H2.
  pose proof (mt_on_store_base (disk_store EO) (fun st => (Ok tt, io_tries EO (geom b d) b c v l st)) t s f1 (Ok tt) s2' f2'
    (ta_data _ _ _ _ _ _ _ _ _ _ (dt_at _ _ _ _ _ _ _ _ _ _ _ HD)) (f_equal (pair (Ok tt)) Q)) as HM2.
  rewrite HM2 in H2. cbn [snd] in H2. injection H2 as <- <-. cbn [mt_data] in T1.
  destruct (io_front EO EL b c d v Hd HRd P f1 i s2' f2' I2) as (_ & _ & F3).
  pose proof I2 as (_ & J2 & _ & _ & J5 & _).
  exists (fs_data f1 i), P, (fs_data f2' i).
  split; [unfold fs_file; rewrite Hp; reflexivity|]. split; [exact E7|]. split; [unfold fs_file; rewrite J2; reflexivity|]. split.
  - assert (Hk : keep = CompactFacts.start b d v * e_byte_len EO).
    { unfold keep, CompactFacts.start. rewrite Hl. destruct (v =? 1); reflexivity. }
    destruct HM as [HM|(m & Hm & HM)]; [left; exact HM|right].
    exists (CompactFacts.start b d v * e_byte_len EO + m). split; [lia|]. rewrite HM, <- E6. apply (moved_between EO b c d v Hd HRd _ E5 m Hm).
  - split; [reflexivity|]. intros j.
    match goal with |- mt_read_at _ 0 0 ?t _ j = _ => assert (Hrd : mt_read_at (disk_store EO) 0 0 t f2' j = disk_read_at EO (s2', f2') j) by (unfold mt_read_at; cbn [mt_read_at_n mt_data]; reflexivity) end.
    rewrite Hrd. clear Hrd. fold bl in F3. rewrite F3.
    unfold disk_read_at, disk_check, disk_store_read_range, fs_read_exact_at, fs_size. cbn [fst snd]. fold bl. rewrite J5, F3.
    destruct (Nat.lt_ge_cases j (ds_len s2')) as [Lj|Lj].
    + pose proof (Nat.mul_le_mono_r (S j) (ds_len s2') bl Lj) as M. cbn [Nat.mul] in M.
      replace (j * bl <? ds_len s2' * bl) with true by lia. cbn [ensure rbind].
      replace (j * bl + bl <=? ds_len s2' * bl) with true by lia. cbn [ensure rbind].
      rewrite checked_sub_ok by lia. cbn [rbind]. replace (j * bl + bl - j * bl) with bl by lia. replace (bl =? 0) with false by lia.
      replace (j * bl + bl <=? ds_len s2' * bl) with true by lia. reflexivity.
    + pose proof (Nat.mul_le_mono_r (ds_len s2') j bl Lj) as M.
      replace (j * bl <? ds_len s2' * bl) with false by lia. replace (j * bl + bl <=? ds_len s2' * bl) with false by lia. reflexivity.
Qed.

(* The rows a compaction keeps read right or not at all, for as long as it fails. *)
Theorem C81_kept_partial : forall E (EO : ElementOps E) A en b leaves t f1 c v l t2 f2 j,
  disk_tree EO A en b (cfg_path c) leaves t f1 ->
  sc_rows_to_discard c < mt_row_count t - 1 ->
  tree_tries EO b c v l t f1 = (t2, f2) ->
  row_off b (mt_row_count t - 1) (S (sc_rows_to_discard c)) <= j < mt_len (disk_store EO) t ->
  mt_read_at (disk_store EO) 0 0 t2 f2 j = mt_read_at (disk_store EO) 0 0 t f1 j \/
  mt_read_at (disk_store EO) 0 0 t2 f2 j = Err "start out of range"%string.
Proof.
  intros E EO A en b leaves t f1 c v l t2 f2 j HT HR H2 Hj.
  destruct (C81_exact E EO A en b leaves t f1 c v l t2 f2 HT HR H2) as (old & good & D & G1 & G2 & G3 & G4 & _ & G5).
  destruct (C81_exact E EO A en b leaves t f1 c v [] t f1 HT HR) as (old' & good' & D0 & B1 & _ & B3 & _ & _ & B5).
  { unfold tree_tries. destruct (disk_tree_at _ _ _ _ _ _ _ _ HT) as (d & s & i & els & _ & _ & HD).
    pose proof (ta_data _ _ _ _ _ _ _ _ _ _ (dt_at _ _ _ _ _ _ _ _ _ _ _ HD)) as Hb0.
    rewrite (mt_on_store_base (disk_store EO) (fun st => (Ok tt, io_tries EO (mt_len (disk_store EO) t) b c v [] st)) t s f1 (Ok tt) s f1 Hb0 eq_refl).
    cbn [snd]. f_equal. destruct t. cbn in Hb0 |- *. rewrite Hb0. reflexivity. }
  assert (D0 = old) as -> by congruence. rewrite G5, B5. clear G5 B5 B1 B3 good' old'.
  pose proof HT as (EL & AL & Hb & Hch & _). pose proof (bl_pos EO EL) as Hbl.
  destruct (power_setup EO A en b leaves t f1 c v (fun _ => 0) HT HR) as (d & i & P & E1 & Hd & HRd & _ & _ & E2 & E3 & E4 & E5 & E6 & E7 & _).
  assert (old = fs_data f1 i) as -> by (unfold fs_file in G1; rewrite E3 in G1; congruence).
  assert (HPg : good = P) by (destruct G2 as (tp & K1 & ->); destruct E7 as (tp' & K2 & ->); rewrite (top_rows_unique (h_node A) b (mt_row_count t - 1) (S (sc_rows_to_discard c)) leaves tp tp' ltac:(lia) K1 K2); reflexivity). subst good.
  rewrite E1 in Hj. replace (d + 1 - 1) with d in Hj by lia. rewrite E2 in Hj. destruct Hj as [Hj1 Hj2].
  pose proof (Nat.mul_le_mono_r _ _ (e_byte_len EO) Hj1) as M1. pose proof (Nat.mul_le_mono_r (S j) _ (e_byte_len EO) Hj2) as M2. cbn [Nat.mul] in M2.
  pose proof (dst_le EO b c d v Hd HRd) as L. pose proof (total EO b c d Hd HRd) as T.
  rewrite E5. replace (j * e_byte_len EO + e_byte_len EO <=? geom b d * e_byte_len EO) with true by lia.
  pose proof (packed_len EO b c d v Hd HRd (fs_data f1 i) E5) as PL. rewrite E6 in PL.
  destruct G4 as [->|(p & Hp & ->)].
  - rewrite PL. destruct (apart EO b Hb c d v Hd HRd) as [AP|AP].
    + left. replace (j * e_byte_len EO + e_byte_len EO <=? _) with true by lia. rewrite <- E6. unfold packed. rewrite AP, firstn_skipn. reflexivity.
    + right. replace (j * e_byte_len EO + e_byte_len EO <=? _) with false by lia. reflexivity.
  - left. rewrite app_length, firstn_length, skipn_length, E5.
    replace (j * e_byte_len EO + e_byte_len EO <=? _) with true by lia. f_equal. apply nth_error_ext. intros q. rewrite !nth_error_sub.
    destruct (q <? e_byte_len EO); [|reflexivity]. rewrite nth_error_app, firstn_length, nth_error_firstn, nth_error_skipn.
    replace (Nat.min p (List.length P)) with p by lia.
    destruct (j * e_byte_len EO + q <? p) eqn:Q; [|f_equal; lia].
    destruct (apart EO b Hb c d v Hd HRd) as [AP|AP]; [|lia]. rewrite <- E6. unfold packed. rewrite AP, firstn_skipn. reflexivity.
Qed.

(* A proof the object hands out that validates is a proof of the leaf asked for, or shows
   two node lists with one hash. *)
Theorem C81_proofs_partial : forall E (EO : ElementOps E) A en b leaves t f1 c v l t2 f2 i p,
  disk_tree EO A en b (cfg_path c) leaves t f1 ->
  sc_rows_to_discard c < mt_row_count t - 1 ->
  tree_tries EO b c v l t f1 = (t2, f2) ->
  gen_proof (disk_store EO) b 0 0 t2 f2 i = Ok p \/ (exists rows, gen_cached_proof EO (disk_store EO) A en b 0 0 t2 f2 i rows = Ok p) ->
  validate EO A b p = Ok true ->
  pf_item (bottom p) = rnth leaves i \/ found_collision A b p leaves.
Proof.
  intros E EO A en b leaves t f1 c v l t2 f2 i p HT HR H2 HG HV. pose proof HT as (EL & AL & Hb & Hch & _).
  destruct (disk_tree_at _ _ _ _ _ _ _ _ HT) as (d & s & i' & els & Hd & Hl & HD).
  pose proof (dt_full EO EL A b Hb t s f1 c i' d leaves els HD) as HF.
  destruct (io_tries EO (mt_len (disk_store EO) t) b c v l (s, f1)) as [s2 f2'] eqn:Q. unfold tree_tries in H2.
  rewrite (mt_on_store_base (disk_store EO) (fun st => (Ok tt, io_tries EO (mt_len (disk_store EO) t) b c v l st)) t s f1 (Ok tt) s2 f2'
    (ta_data _ _ _ _ _ _ _ _ _ _ (dt_at _ _ _ _ _ _ _ _ _ _ _ HD)) (f_equal (pair (Ok tt)) Q)) in H2. cbn [snd] in H2. injection H2 as <- <-.
  refine (C79_proofs E EO (disk_store EO) A en b 0 0 _ leaves f2' i p EL AL Hb _ HG HV).
  apply (Cl_base (disk_store EO) A b 0 0 _ s2 d leaves); cbn [mt_data mt_leafs mt_row_count mt_root].
  - reflexivity.
  - exact (ft_leafs _ _ _ _ _ _ _ _ HF).
  - refine (eq_trans (ft_rows _ _ _ _ _ _ _ _ HF) _). lia.
  - pose proof (arity_ge b Hb) as Hb2.
    exact (Layout_root b ltac:(lia) (h_node A) d leaves els (mt_root t) (ft_layout _ _ _ _ _ _ _ _ HF) (ft_root _ _ _ _ _ _ _ _ HF)).
Qed.

(* 8 leaves, one row dropped: two bytes were moved (v = 2), one try and another shorter one.
   The first two leaves read as the first two kept nodes, all other indices as before. *)
Example C81_exact_case :
  let l := [(false, IO_copy 2); (true, IO_copy 1)] in
  case_read 2 l 0 = case_read 2 [] 12 /\ case_read 2 l 1 = case_read 2 [] 13 /\
  map (case_read 2 l) (seq 2 13) = map (case_read 2 []) (seq 2 13) /\
  (* truncated, the sync failed *)
  map (case_read 2 [(false, IO_sync)]) (seq 0 5) = map (case_read 2 []) [12; 13; 14] ++ repeat (Err "start out of range"%string) 2.
Proof. vm_compute. repeat split; reflexivity. Qed.
Print Assumptions C81_exact.
Print Assumptions C81_kept_partial.
Print Assumptions C81_proofs_partial.
