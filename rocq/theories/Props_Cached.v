(* C22, C23, C24, C28: proofs from cached rows, and what level-cache stores serve.
   Statements; proofs in CachedFacts.v, CachedBuilt.v, LcReads.v, LcTrees.v, CompactTrees.v. *)
From Coq Require Import String List Arith NArith Bool Lia Init.Byte ZifyBool ZifyNat.
From Verif Require Import Base Element Hash Sizing FS Sched Store VecStore DiskStore MmapStore LevelCache ProofModel Tree ListFacts Spec SpecFacts SizingFacts SchedFacts StoreLaws RowFacts ChunkFacts BuildFacts BuildLoop StoreSpec FileFacts VecFacts MapLayer DiskFacts MmapFacts PopFacts TreeFacts ProofSpec ProofFacts TreeProofs TreeObs Builders BuiltFacts CompoundFacts CompoundTrees CompoundGroups CompoundBuilt CachedFacts CachedTrees LcReads LcTrees CachedBuilt FrameFacts CompactFacts CompactTrees Cases Props_Build Props_Proof Props_Compound Props_Compact.
Import ListNotations.

(* ---------------- C22 ---------------- *)
(* trees over a DiskStore: base trees, two-layer and three-layer trees *)
Theorem C22_disk_partial : forall E (EO : ElementOps E) A en b leaves f t f' i rows,
  ElementLaws EO -> AlgLaws A -> arity b -> chunk_ok en b ->
  builder EO (disk_store EO) A en b leaves f (Ok t, f') ->
  i < mt_leafs t ->
  exists p, gen_proof (disk_store EO) b 0 0 t f' i = Ok p /\ gen_cached_proof EO (disk_store EO) A en b 0 0 t f' i rows = Ok p.
Proof.
  intros E EO A en b leaves f t f' i rows EL AL Hb Hch HB Hi.
  destruct (builder_tree EO EL A AL en b (disk_store EO) true (bs_disk EO) leaves f t f' Hb Hch HB) as (d & els & Hn & HF).
  pose proof Hi as Hi'. rewrite (ft_leafs _ _ _ _ _ _ _ _ HF) in Hi'.
  eexists. split; [apply (ft_proof _ _ _ _ _ _ _ _ HF); exact Hi'|].
  rewrite (disk_cached_full EO EL A AL en b Hb Hch leaves f t f' f' i rows HB (fs_ext_refl f') Hi). apply (ft_proof _ _ _ _ _ _ _ _ HF); exact Hi'.
Qed.

Theorem C22_disk_sub_partial : forall E (EO : ElementOps E) A en b lss f ts f' sub_ t i rows,
  ElementLaws EO -> AlgLaws A -> arity b -> chunk_ok en b ->
  built_all EO (disk_store EO) A en b lss f ts f' ->
  from_trees (disk_store EO) A sub_ ts = Ok t ->
  i < mt_leafs t ->
  gen_cached_proof EO (disk_store EO) A en b sub_ 0 t f' i rows = gen_proof (disk_store EO) b sub_ 0 t f' i /\
  is_ok (gen_proof (disk_store EO) b sub_ 0 t f' i) = true.
Proof.
  intros E EO A en b lss f ts f' sub_ t i rows EL AL Hb Hch HB HT Hi.
  split; [exact (sub_cached_full EO EL A AL en b Hb Hch lss f ts f' sub_ t i rows HB HT Hi)|].
  destruct (built_sub EO EL A AL en b Hb Hch (disk_store EO) true (bs_disk EO) lss f ts f' sub_ t HB HT) as (d & ess & HL & HSA).
  destruct (SubAt_child (disk_store EO) A b Hb t f' d ts lss ess i HSA Hi) as (tk & lv & es & C1 & C2 & C3 & HF & C4).
  unfold gen_proof. rewrite <- HL. rewrite (SubAt_gen (disk_store EO) A b Hb 1 t f' d ts lss ess i es HSA Hi C3). reflexivity.
Qed.

Theorem C22_disk_top_partial : forall E (EO : ElementOps E) A en b lss f gs f' sub_ top subs t i rows,
  ElementLaws EO -> AlgLaws A -> arity b -> chunk_ok en b ->
  built_all EO (disk_store EO) A en b lss f (concat gs) f' ->
  rmap (from_trees (disk_store EO) A sub_) gs = Ok subs ->
  from_sub_trees (disk_store EO) A top subs = Ok t ->
  i < mt_leafs t ->
  gen_cached_proof EO (disk_store EO) A en b sub_ top t f' i rows = gen_proof (disk_store EO) b sub_ top t f' i.
Proof.
  intros E EO A en b lss f gs f' sub_ top subs t i rows EL AL Hb Hch HB HS HT Hi.
  exact (top_cached_full EO EL A AL en b Hb Hch lss f gs f' sub_ top subs t i rows HB HS HT Hi).
Qed.

Definition list_beq (xs ys : list nat) : bool := if list_eq_dec Nat.eq_dec xs ys then true else false.
Definition cached_at (SO : StoreOps B1) (b : nat) (r : res (mtree (st_t SO) B1) * fs) (i : nat) (rows : option nat) : res (proof B1) :=
  match r with (Ok t, f) => gen_cached_proof BO SO sum_alg env1 b 0 0 t f i rows | _ => Err "no tree"%string end.
Example C22_case :
  let r := mt_new BO (disk_store BO) sum_alg env1 2 leaves8 fs_empty in
  forallb (fun i => forallb (fun rows =>
    match cached_at (disk_store BO) 2 r i rows, proof_at (disk_store BO) 2 r i with
    | Ok p, Ok q => list_beq (map val (pf_lemma p)) (map val (pf_lemma q)) && list_beq (pf_path p) (pf_path q)
    | _, _ => false
    end) [None; Some 0; Some 1; Some 2; Some 9]) (seq 0 8) = true.
Proof. vm_compute. reflexivity. Qed.

(* VecStore and MmapStore: Store::read_range_into is unimplemented!(), so gen_cached_proof panics. *)
Theorem C22_refuted :
  let r1 := mt_new BO (vec_store BO) sum_alg env1 2 leaves8 fs_empty in
  let r2 := mt_new BO (mmap_store_ops BO) sum_alg env1 2 leaves8 fs_empty in
  is_ok (proof_at (vec_store BO) 2 r1 3) = true /\ (exists m, cached_at (vec_store BO) 2 r1 3 None = Panic m) /\
  is_ok (proof_at (mmap_store_ops BO) 2 r2 3) = true /\ (exists m, cached_at (mmap_store_ops BO) 2 r2 3 None = Panic m).
Proof. vm_compute. repeat match goal with |- _ /\ _ => split | |- exists _, _ => eexists end; reflexivity. Qed.

(* ---------------- reopened trees ---------------- *)
(* [ls] is the level-cache store opened, in file system f2, over the file of the tree t
   (made in f1 from [leaves]) after compaction with the same configuration: version 1,
   or another version together with a reader that delivers the leaves *)
Definition reopened {E} (EO : ElementOps E) (A : AlgOps E) (en : env) (b : nat) (c : StoreConfig) (v : nat) (leaves : list E)
    (t : mtree (st_t (disk_store EO)) E) (f1 : fs) (ls : lc_t) (f2 : fs) : Prop :=
  disk_tree EO A en b (cfg_path c) leaves t f1 /\ sc_rows_to_discard c < mt_row_count t - 1 /\
  (exists sizes t', mt_compact (disk_store EO) b sizes c v (t, f1) = (Ok true, (t', f2))) /\
  (v = 1 /\ lc_new_from_disk EO (mt_len (disk_store EO) t) b c f2 = (Ok ls, f2) \/
   v <> 1 /\ exists r, reads_leaves EO r f2 leaves /\ lc_new_from_disk_with_reader EO (mt_len (disk_store EO) t) b c r f2 = (Ok ls, f2)).

Lemma reopened_at {E} (EO : ElementOps E) A en b c v leaves t f1 ls f2 : reopened EO A en b c v leaves t f1 ls f2 ->
  exists d els lt, ElementLaws EO /\ AlgLaws A /\ arity b /\ chunk_ok en b /\ FullTree (disk_store EO) A b t f1 d leaves els /\
    sc_rows_to_discard c < d /\ (lc_reader ls = None <-> v = 1) /\
    from_data_store (lc_store EO) b 0 0 ls (mt_leafs t) f2 = (Ok lt, f2) /\
    LcTree EO A b lt ls f2 d (sc_rows_to_discard c) leaves els.
Proof.
  intros (HT & HR & (sizes & t' & HC) & HO). pose proof HT as (EL & AL & Hb & Hch & _).
  destruct (disk_tree_at _ _ _ _ _ _ _ _ HT) as (d & s & i & els & Hd & Hl & HD).
  pose proof (dt_full EO EL A b Hb t s f1 c i d leaves els HD) as HF. rewrite (ft_rows _ _ _ _ _ _ _ _ HF) in HR.
  destruct (tree_compact_ok EO EL A b Hb t s f1 c i d leaves els HD sizes v ltac:(lia)) as (t2 & f2' & H1 & H2 & H3 & _).
  rewrite H1 in HC. inversion HC; subst t2 f2'.
  exists d, els.
  assert (HX : exists open, open f2 = (Ok ls, f2) /\
      (v = 1 /\ open = lc_new_from_disk EO (mt_len (disk_store EO) t) b c \/
       v <> 1 /\ exists r, reads_leaves EO r f2 leaves /\ open = lc_new_from_disk_with_reader EO (mt_len (disk_store EO) t) b c r)).
  { destruct HO as [[Hv HO]|(Hv & r & Hr & HO)]; eexists; (split; [exact HO|]); [left|right]; split; auto. exists r. auto. }
  destruct HX as (open & HO1 & HO2).
  destruct (tree_reopen EO EL A b Hb t s f1 c i d leaves els HD f2 v open ltac:(lia) H2 H3 HO2) as (ls' & lt & Q1 & Q2 & Q3 & Q4).
  rewrite HO1 in Q1. inversion Q1; subst ls'. exists lt. split; [exact EL|]. split; [exact AL|]. split; [exact Hb|]. split; [exact Hch|].
  split; [exact HF|]. split; [lia|]. auto.
Qed.

(* compaction and reopening succeed; readers over a file that starts with the leaves qualify *)
Theorem C23_opens : forall E (EO : ElementOps E) A en b c v leaves t f1 sizes,
  disk_tree EO A en b (cfg_path c) leaves t f1 -> sc_rows_to_discard c < mt_row_count t - 1 ->
  exists t' f2, mt_compact (disk_store EO) b sizes c v (t, f1) = (Ok true, (t', f2)) /\
    (v = 1 -> exists ls, lc_new_from_disk EO (mt_len (disk_store EO) t) b c f2 = (Ok ls, f2)) /\
    (v <> 1 -> forall r, reads_leaves EO r f2 leaves ->
       exists ls, lc_new_from_disk_with_reader EO (mt_len (disk_store EO) t) b c r f2 = (Ok ls, f2)).
Proof.
  intros E EO A en b c v leaves t f1 sizes HT HR. pose proof HT as (EL & AL & Hb & Hch & _).
  destruct (disk_tree_at _ _ _ _ _ _ _ _ HT) as (d & s & i & els & Hd & Hl & HD).
  pose proof (dt_full EO EL A b Hb t s f1 c i d leaves els HD) as HF. rewrite (ft_rows _ _ _ _ _ _ _ _ HF) in HR.
  destruct (tree_compact_ok EO EL A b Hb t s f1 c i d leaves els HD sizes v ltac:(lia)) as (t' & f2 & H1 & H2 & H3 & _).
  exists t', f2. split; [exact H1|]. split.
  - intros Hv. destruct (tree_reopen EO EL A b Hb t s f1 c i d leaves els HD f2 v _ ltac:(lia) H2 H3 (or_introl (conj Hv eq_refl))) as (ls & lt & Q1 & _).
    exists ls. exact Q1.
  - intros Hv r Hr. destruct (tree_reopen EO EL A b Hb t s f1 c i d leaves els HD f2 v _ ltac:(lia) H2 H3 (or_intror (conj Hv (ex_intro _ r (conj Hr eq_refl))))) as (ls & lt & Q1 & _).
    exists ls. exact Q1.
Qed.

Theorem C23_reader : forall E (EO : ElementOps E) leaves f path bytes,
  ElementLaws EO ->
  fs_file f path = Some bytes -> firstn (List.length leaves * e_byte_len EO) bytes = encode EO leaves ->
  exists r, er_new_from_path f path = Ok r /\ reads_leaves EO r f leaves.
Proof.
  intros E EO leaves f path bytes EL HF HP. unfold fs_file in HF. destruct (fs_dir f path) as [i|] eqn:Hi; [|discriminate].
  inversion HF as [HF']. unfold er_new_from_path, er_new_from_config, fs_open_ro. cbn [rc_path rc_offsets]. rewrite Hi. cbn [rbind rnth nth_error].
  eexists. split; [reflexivity|]. apply file_reads_leaves; auto.
  - unfold fs_size. cbn [h_ino]. rewrite HF'. pose proof (f_equal (@List.length _) HP) as HL. rewrite firstn_length, encode_length in HL by auto. lia.
  - cbn [h_ino]. rewrite HF', sub_0. exact HP.
Qed.

(* ---------------- C23 ---------------- *)
Theorem C23_partial : forall E (EO : ElementOps E) A en b c v leaves t f1 ls f2,
  reopened EO A en b c v leaves t f1 ls f2 ->
  exists lt, from_data_store (lc_store EO) b 0 0 ls (mt_leafs t) f2 = (Ok lt, f2) /\
    mt_root lt = mt_root t /\ mt_leafs lt = mt_leafs t /\ mt_len (lc_store EO) lt = mt_len (disk_store EO) t /\
    mt_row_count lt = mt_row_count t /\
    forall i, i < mt_leafs t ->
      exists p, gen_proof (disk_store EO) b 0 0 t f1 i = Ok p /\
        (sc_rows_to_discard c <= default_rows_to_discard (mt_leafs t) b ->
           gen_cached_proof EO (lc_store EO) A en b 0 0 lt f2 i (Some (sc_rows_to_discard c)) = Ok p /\
           gen_cached_proof EO (lc_store EO) A en b 0 0 lt f2 i None = Ok p).
Proof.
  intros E EO A en b c v leaves t f1 ls f2 HO. destruct (reopened_at _ _ _ _ _ _ _ _ _ _ _ HO) as (d & els & lt & EL & AL & Hb & Hch & HF & HR & Hv & HS & HL).
  exists lt. split; [exact HS|].
  split. { pose proof (ft_root _ _ _ _ _ _ _ _ HF). pose proof (lt_root _ _ _ _ _ _ _ _ _ _ HL). congruence. }
  split; [rewrite (lt_leafs _ _ _ _ _ _ _ _ _ _ HL), (ft_leafs _ _ _ _ _ _ _ _ HF); reflexivity|].
  split. { rewrite (ft_len _ _ _ _ _ _ _ _ HF). unfold mt_len. rewrite (lt_data _ _ _ _ _ _ _ _ _ _ HL).
           exact (la_len _ _ _ _ _ _ _ _ (lt_at _ _ _ _ _ _ _ _ _ _ HL)). }
  split; [rewrite (lt_rows _ _ _ _ _ _ _ _ _ _ HL), (ft_rows _ _ _ _ _ _ _ _ HF); lia|].
  intros i Hi. rewrite (ft_leafs _ _ _ _ _ _ _ _ HF) in Hi |- *.
  eexists. split; [apply (ft_proof _ _ _ _ _ _ _ _ HF); exact Hi|].
  intros Hdef. unfold gen_cached_proof. cbn [gen_cached_proof_n]. rewrite (lt_data _ _ _ _ _ _ _ _ _ _ HL).
  split; apply (lc_cached_ok EO EL A en b Hb Hch lt ls f2 d (sc_rows_to_discard c) leaves els i); auto; unfold capped; lia.
Qed.

(* Stores compacted deeper than default_rows_to_discard: gen_cached_proof caps its argument at
   the default, so no cached proof can be made at all. *)
Theorem C23_refuted : forall E (EO : ElementOps E) A en b c v leaves t f1 ls f2,
  reopened EO A en b c v leaves t f1 ls f2 ->
  default_rows_to_discard (mt_leafs t) b < sc_rows_to_discard c -> 2 <= sc_rows_to_discard c ->
  exists lt, from_data_store (lc_store EO) b 0 0 ls (mt_leafs t) f2 = (Ok lt, f2) /\
    forall i rows, exists e, gen_cached_proof EO (lc_store EO) A en b 0 0 lt f2 i rows = Err e.
Proof.
  intros E EO A en b c v leaves t f1 ls f2 HO Hdef H2. destruct (reopened_at _ _ _ _ _ _ _ _ _ _ _ HO) as (d & els & lt & EL & AL & Hb & Hch & HF & HR & Hv & HS & HL).
  exists lt. split; [exact HS|]. intros i rows. rewrite (ft_leafs _ _ _ _ _ _ _ _ HF) in Hdef.
  unfold gen_cached_proof. cbn [gen_cached_proof_n]. rewrite (lt_data _ _ _ _ _ _ _ _ _ _ HL).
  destruct (Nat.lt_ge_cases i (b ^ d)) as [Hi|Hi].
  - apply (lc_cached_err EO EL A en b Hb Hch lt ls f2 d (sc_rows_to_discard c) leaves els i rows HL Hi).
    + unfold capped. destruct rows; lia.
    + unfold edge_case. lia.
  - unfold gen_cached_proof_base. rewrite (lt_leafs _ _ _ _ _ _ _ _ _ _ HL). replace (i <? b ^ d) with false by lia. eexists; reflexivity.
Qed.

(* ---------------- C24 ---------------- *)
(* "validates against the tree's root": the proof is the one of the original tree, which C11 shows valid *)
Theorem C24_partial : forall E (EO : ElementOps E) A en b c v leaves t f1 ls f2 lt i rows,
  reopened EO A en b c v leaves t f1 ls f2 ->
  from_data_store (lc_store EO) b 0 0 ls (mt_leafs t) f2 = (Ok lt, f2) ->
  (exists p, gen_cached_proof EO (lc_store EO) A en b 0 0 lt f2 i rows = Ok p /\ gen_proof (disk_store EO) b 0 0 t f1 i = Ok p) \/
  (exists e, gen_cached_proof EO (lc_store EO) A en b 0 0 lt f2 i rows = Err e) \/
  (v = 1 /\ b = 2 /\ sc_rows_to_discard c = 1 /\ rows = Some 0 /\ (i = 2 \/ i = 3)).
Proof.
  intros E EO A en b c v leaves t f1 ls f2 lt i rows HO HX. destruct (reopened_at _ _ _ _ _ _ _ _ _ _ _ HO) as (d & els & lt' & EL & AL & Hb & Hch & HF & HR & Hv & HS & HL).
  rewrite HS in HX. inversion HX; subst lt'.
  unfold gen_cached_proof. cbn [gen_cached_proof_n]. rewrite (lt_data _ _ _ _ _ _ _ _ _ _ HL).
  destruct (Nat.lt_ge_cases i (b ^ d)) as [Hi|Hi].
  2:{ right. left. unfold gen_cached_proof_base. rewrite (lt_leafs _ _ _ _ _ _ _ _ _ _ HL). replace (i <? b ^ d) with false by lia. eexists; reflexivity. }
  destruct (Nat.le_gt_cases (sc_rows_to_discard c) (capped b d rows)) as [Hc|Hc].
  { left. eexists. split; [apply (lc_cached_ok EO EL A en b Hb Hch lt ls f2 d (sc_rows_to_discard c) leaves els i rows HL Hi Hc)|].
    apply (ft_proof _ _ _ _ _ _ _ _ HF). exact Hi. }
  right. destruct (Nat.eq_dec (sc_rows_to_discard c) 1) as [H1|H1].
  2:{ left. apply (lc_cached_err EO EL A en b Hb Hch lt ls f2 d (sc_rows_to_discard c) leaves els i rows HL Hi Hc). unfold edge_case. lia. }
  destruct (lc_reader ls) as [r|] eqn:Hr.
  { left. apply (lc_cached_err EO EL A en b Hb Hch lt ls f2 d (sc_rows_to_discard c) leaves els i rows HL Hi Hc).
    unfold edge_case. rewrite Hr. intros (Q & _). discriminate. }
  destruct (Nat.eq_dec b 2) as [H2|H2].
  2:{ left. apply (lc_cached_err EO EL A en b Hb Hch lt ls f2 d (sc_rows_to_discard c) leaves els i rows HL Hi Hc). unfold edge_case. lia. }
  assert (Hrows : rows = Some 0).
  { unfold capped in Hc. rewrite H2 in *. rewrite default_rows_full in Hc by (auto; lia). cbn [Nat.eqb] in Hc. destruct rows as [n|]; [f_equal|]; lia. }
  destruct (Nat.eq_dec i 2) as [H3|H3]; [|destruct (Nat.eq_dec i 3) as [H4|H4]].
  - right. split; [apply Hv; reflexivity|]. auto.
  - right. split; [apply Hv; reflexivity|]. auto.
  - left. apply (lc_cached_err EO EL A en b Hb Hch lt ls f2 d (sc_rows_to_discard c) leaves els i rows HL Hi Hc). unfold edge_case. lia.
Qed.

(* ---------------- cases ---------------- *)
(* build, compact with r rows dropped (version 1), reopen: the original tree and the reopened one *)
Definition case_reopen (b : nat) (xs : list B1) (r : nat) :=
  match case_built b xs with
  | (Ok t, f) =>
      match mt_compact (disk_store BO) b (fun k => k mod 3) (cfg_r r) 1 (t, f) with
      | (Ok true, (_, f2)) =>
          match lc_new_from_disk BO (mt_len (disk_store BO) t) b (cfg_r r) f2 with
          | (Ok ls, f3) =>
              match from_data_store (lc_store BO) b 0 0 ls (mt_leafs t) f3 with
              | (Ok lt, f4) => Some (t, f, ls, lt, f4)
              | _ => None
              end
          | _ => None
          end
      | _ => None
      end
  | _ => None
  end.
Definition same_proofs (b : nat) (xs : list B1) (r : nat) (i : nat) (rows : option nat) : res (bool * bool) :=
  match case_reopen b xs r with
  | Some (t, f, ls, lt, f4) =>
      do p <- gen_proof (disk_store BO) b 0 0 t f i;
      do q <- gen_cached_proof BO (lc_store BO) sum_alg env1 b 0 0 lt f4 i rows;
      do v <- validate BO sum_alg b q;
      Ok (list_beq (map val (pf_lemma p)) (map val (pf_lemma q)) && list_beq (pf_path p) (pf_path q), v)
  | None => Err "not opened"%string
  end.
Example C23_case :
  forallb (fun i => forallb (fun r => match same_proofs 2 leaves8 r i (Some r) with Ok (true, true) => true | _ => false end) [0; 1; 2])
    (seq 0 8) = true /\
  (* smaller arguments than the depth of the store *)
  is_ok (same_proofs 2 leaves8 2 5 (Some 1)) = false /\ is_ok (same_proofs 2 leaves8 1 5 (Some 0)) = false.
Proof. vm_compute. repeat split; reflexivity. Qed.

Example C24_case : same_proofs 2 leaves8 1 6 (Some 2) = Ok (true, true).
Proof. vm_compute. reflexivity. Qed.

(* version 1, arity 2, one row dropped, a proof for leaf 2 asked with rows_to_discard = 0:
   the sibling node above leaves 0 and 1 was dropped, and the first cached node is
   delivered in its place *)
Theorem C24_refuted :
  let xs := map el [3; 1; 4; 1] in
  same_proofs 2 xs 1 2 (Some 1) = Ok (true, true) /\
  same_proofs 2 xs 1 2 (Some 0) = Ok (false, false) /\
  same_proofs 2 leaves8 1 3 (Some 0) = Ok (false, false).
Proof. vm_compute. repeat split; reflexivity. Qed.

(* 512 leaves, 8 rows dropped (the root alone is cached); the default is 7 *)
Definition leaves512 : list B1 := concat (repeat leaves8 64).
Example C23_refuted_case :
  default_rows_to_discard 512 2 = 7 /\ same_proofs 2 leaves512 7 5 (Some 7) = Ok (true, true) /\
  is_ok (same_proofs 2 leaves512 8 5 (Some 8)) = false /\
  (match case_reopen 2 leaves512 8 with Some (t, _, _, lt, _) => mt_leafs lt =? 512 | None => false end) = true.
Proof. vm_compute. repeat split; reflexivity. Qed.

(* ---------------- C28 ---------------- *)
(* index of the first cached element *)
Definition first_cached (b d R : nat) : nat := row_off b d (S R).

(* ranges: within the leaves or within the cached rows they deliver what the original tree
   held; starting inside the discarded rows (not at their first element), or beyond the end, they fail *)
Theorem C28_ranges_partial : forall E (EO : ElementOps E) A en b c v leaves t f1 ls f2 lo hi,
  reopened EO A en b c v leaves t f1 ls f2 ->
  let C := first_cached b (mt_row_count t - 1) (sc_rows_to_discard c) in
  let n := mt_leafs t in let len := mt_len (disk_store EO) t in
  (lo < hi -> hi <= n \/ C <= lo /\ hi <= len ->
     exists l, mt_read_range (disk_store EO) t f1 lo hi = Ok l /\ lc_read_range EO (ls, f2) lo hi = Ok l /\
       forall buf, List.length buf = (hi - lo) * e_byte_len EO -> lc_read_range_into EO (ls, f2) lo hi buf = Ok (encode EO l)) /\
  (n < lo < C \/ len <= lo \/ len < hi \/ v <> 1 /\ n <= lo < C /\ lo < hi ->
     (exists m, lc_read_range EO (ls, f2) lo hi = Err m) /\
     forall buf, List.length buf = (hi - lo) * e_byte_len EO -> exists m, lc_read_range_into EO (ls, f2) lo hi buf = Err m).
Proof.
  intros E EO A en b c v leaves t f1 ls f2 lo hi HO C n len.
  destruct (reopened_at _ _ _ _ _ _ _ _ _ _ _ HO) as (d & els & lt & EL & AL & Hb & Hch & HF & HR & Hv & HS & HL).
  pose proof (lt_at _ _ _ _ _ _ _ _ _ _ HL) as HA.
  assert (Hrc : mt_row_count t - 1 = d) by (rewrite (ft_rows _ _ _ _ _ _ _ _ HF); lia).
  unfold C, n, len, first_cached. rewrite Hrc, (ft_leafs _ _ _ _ _ _ _ _ HF), (ft_len _ _ _ _ _ _ _ _ HF).
  pose proof (geom_gt b d) as Hg. split.
  - intros H1 H2. exists (sub els lo (hi - lo)).
    split; [apply (ft_read_range _ _ _ _ _ _ _ _ HF); lia|].
    split; [apply (lc_read_range_kept EO EL b ls f2 d _ leaves els HA); split; auto|].
    intros buf Hbuf. apply (lc_read_range_into_kept EO EL b ls f2 d _ leaves els HA); [split; auto|exact Hbuf].
  - intros H. apply (blocked_range EO ls f2).
    destruct H as [H|[H|[H|(Hv1 & H & H')]]].
    + apply (lc_range_discarded EO EL b ls f2 d _ leaves els HA); lia.
    + apply (lc_range_end EO EL b ls f2 d _ leaves els HA); lia.
    + apply (lc_range_end EO EL b ls f2 d _ leaves els HA); lia.
    + destruct (Nat.eq_dec lo (b ^ d)) as [->|]; [|apply (lc_range_discarded EO EL b ls f2 d _ leaves els HA); lia].
      apply (lc_range_edge_reader EO EL b Hb ls f2 d _ leaves els HA); try lia. intros Hn. apply Hv1, Hv, Hn.
Qed.

(* single elements: with an external reader exactly the leaves and the cached rows are served;
   version 1 files likewise except for the first discarded index *)
Theorem C28_elements_partial : forall E (EO : ElementOps E) A en b c v leaves t f1 ls f2 k,
  reopened EO A en b c v leaves t f1 ls f2 ->
  let C := first_cached b (mt_row_count t - 1) (sc_rows_to_discard c) in
  let n := mt_leafs t in let len := mt_len (disk_store EO) t in
  (k < n \/ C <= k < len ->
     exists x, mt_read_at (disk_store EO) 0 0 t f1 k = Ok x /\ lc_read_at EO (ls, f2) k = Ok x /\
       forall buf, List.length buf = e_byte_len EO -> lc_read_into EO (ls, f2) k buf = Ok (e_as_ref EO x)) /\
  (n <= k < C \/ len <= k -> v <> 1 \/ k <> n ->
     (exists m, lc_read_at EO (ls, f2) k = Err m) /\
     forall buf, List.length buf = e_byte_len EO -> exists m, lc_read_into EO (ls, f2) k buf = Err m).
Proof.
  intros E EO A en b c v leaves t f1 ls f2 k HO C n len.
  destruct (reopened_at _ _ _ _ _ _ _ _ _ _ _ HO) as (d & els & lt & EL & AL & Hb & Hch & HF & HR & Hv & HS & HL).
  pose proof (lt_at _ _ _ _ _ _ _ _ _ _ HL) as HA.
  assert (Hrc : mt_row_count t - 1 = d) by (rewrite (ft_rows _ _ _ _ _ _ _ _ HF); lia).
  unfold C, n, len, first_cached. rewrite Hrc, (ft_leafs _ _ _ _ _ _ _ _ HF), (ft_len _ _ _ _ _ _ _ _ HF).
  pose proof (geom_gt b d) as Hg. split.
  - intros H. pose proof (ft_layout _ _ _ _ _ _ _ _ HF) as (_ & L2 & _).
    destruct (nth_error els k) as [x|] eqn:Hx; [|apply nth_error_None in Hx; lia]. exists x.
    split; [rewrite (ft_read_at _ _ _ _ _ _ _ _ HF) by lia; unfold rnth; rewrite Hx; reflexivity|].
    split; [apply (lc_read_at_kept EO EL b ls f2 d _ leaves els HA); [lia|exact Hx]|].
    intros buf Hbuf. apply (lc_read_into_kept EO EL b ls f2 d _ leaves els HA); [lia|exact Hx|exact Hbuf].
  - intros H H2. apply (blocked_one EO b ls f2 d 0). destruct H as [H|H]; [|apply (lc_range_end EO EL b ls f2 d _ leaves els HA); lia].
    destruct (Nat.eq_dec k (b ^ d)) as [->|]; [|apply (lc_range_discarded EO EL b ls f2 d _ leaves els HA); lia].
    apply (lc_range_edge_reader EO EL b Hb ls f2 d _ leaves els HA); try lia. intros Hn. apply Hv in Hn. lia.
Qed.

(* Version 1: the first discarded index is served from the cached rows, and ranges that run
   from the leaves into discarded rows are filled from the cached rows. *)
Definition case_read (b : nat) (xs : list B1) (r lo hi : nat) : res (list nat * list nat) :=
  match case_reopen b xs r with
  | Some (t, f, ls, lt, f4) =>
      do l <- mt_read_range (disk_store BO) t f lo hi;
      do l' <- lc_read_range BO (ls, f4) lo hi;
      Ok (map val l, map val l')
  | None => Err "not opened"%string
  end.
Theorem C28_refuted :
  (* 8 leaves, the row of 4 nodes dropped, elements 12 .. 14 kept *)
  (exists l, case_read 2 leaves8 1 0 8 = Ok (l, l)) /\ (exists l, case_read 2 leaves8 1 12 15 = Ok (l, l)) /\
  is_ok (case_read 2 leaves8 1 9 11) = false /\
  (exists x y, case_read 2 leaves8 1 8 9 = Ok ([x], [y]) /\ x <> y) /\
  (exists x y z u, case_read 2 leaves8 1 6 9 = Ok ([x; y; z], [x; y; u]) /\ z <> u).
Proof.
  vm_compute. repeat match goal with |- _ /\ _ => split | |- exists _, _ => eexists | |- _ = _ => reflexivity | |- _ => discriminate end.
Qed.

Example C28_case :
  (* 8 leaves, elements 8 .. 11 dropped, 12 .. 14 kept *)
  first_cached 2 3 1 = 12 /\
  map (fun k => match case_read 2 leaves8 1 k (k + 1) with Ok (l, l') => Some (list_beq l l') | _ => None end) (seq 0 15)
    = repeat (Some true) 8 ++ [Some false; None; None; None] ++ repeat (Some true) 3 /\
  match case_read 2 leaves8 1 13 15 with Ok (l, l') => list_beq l l' = true | _ => False end /\
  is_ok (case_read 2 leaves8 1 14 16) = false.
Proof. vm_compute. repeat split. Qed.

Print Assumptions C22_disk_partial.
Print Assumptions C22_disk_sub_partial.
Print Assumptions C22_disk_top_partial.
Print Assumptions C23_opens.
Print Assumptions C23_reader.
Print Assumptions C23_partial.
Print Assumptions C23_refuted.
Print Assumptions C24_partial.
Print Assumptions C28_ranges_partial.
Print Assumptions C28_elements_partial.
