(* A tree built on a DiskStore with a config, compacted, and opened again as a
   LevelCacheStore. *)
From Coq Require Import String List Arith Bool Lia Init.Byte ZifyBool ZifyNat.
From Verif Require Import Base Element Hash Sizing FS Sched Store VecStore DiskStore MmapStore LevelCache ProofModel Tree ListFacts Spec SpecFacts SizingFacts SchedFacts StoreLaws RowFacts ChunkFacts BuildFacts BuildLoop StoreSpec FileFacts VecFacts MapLayer DiskFacts MmapFacts PopFacts TreeFacts ProofSpec ProofFacts TreeProofs TreeObs Builders BuiltFacts CachedFacts CachedTrees LcReads LcTrees FrameFacts CompactFacts.
Import ListNotations.

(* the contents of a file, by path *)
Definition fs_file (f : fs) (p : string) : option (list byte) :=
  match fs_dir f p with Some i => Some (fs_data f i) | None => None end.

Lemma mt_on_store_base {E} (SO : StoreOps E) {X} (m : SM (st_t SO * fs) X) t s f x s' f' : mt_data t = BaseTree s -> m (s, f) = (x, (s', f')) ->
  mt_on_store SO m (t, f) = (x, (mk_tree (BaseTree s') (mt_leafs t) (mt_len_field t) (mt_row_count t) (mt_root t), f')).
Proof. intros H1 H2. unfold mt_on_store. rewrite H1, H2. reflexivity. Qed.

Section CompactTrees.
  Context {E : Type} (EO : ElementOps E) (EL : ElementLaws EO) (A : AlgOps E) (AL : AlgLaws A).
  Variables (en : env) (b : nat).
  Hypothesis Hb : arity b.
  Hypothesis Hch : chunk_ok en b.
  Local Notation bl := (e_byte_len EO).
  Local Notation DO := (disk_store EO).
  Local Notation LO := (lc_store EO).

  (* a DiskStore tree with its file *)
  Record DiskTree (t : mtree (st_t DO) E) (s : disk_t) (f : fs) (p : string) (i d : nat) (leaves els : list E) : Prop := {
    dt_at : TreeAt DO (disk_rep EO) A b t s f d leaves els;
    dt_rep : disk_rep EO (geom b d) (geom b d) (nth_error els) (s, f);
    dt_file : h_ino (ds_file s) = i;
    dt_path : fs_dir f p = Some i;
    dt_ro : i_ro (fs_ino f i) = false
  }.

  Lemma disk_tree_built c leaves f t f1 : fs_dir f (cfg_path c) = None ->
    cfg_builder EO DO A en b c leaves f (Ok t, f1) ->
    exists d s i els, 1 <= d /\ List.length leaves = b ^ d /\ DiskTree t s f1 (cfg_path c) i d leaves els.
  Proof.
    intros Hp HB.
    destruct (cfg_builder_built EO EL DO disk_owner disk_W (disk_rep EO) true (disk_laws EO EL) A AL en b Hb Hch c leaves f t f1 Hp HB)
      as (d & Hd & Hl & HBt).
    destruct (built_at DO disk_owner disk_W (disk_rep EO) A b f _ d leaves t f1 HBt) as (s & els & HT & HW & HR & HC).
    destruct HC as (_ & _ & _ & _ & C5 & C6). exists d, s, (h_ino (ds_file s)), els. split; [exact Hd|]. split; [exact Hl|].
    constructor; [exact HT|exact HR|reflexivity|rewrite (C5 (cfg_path c) eq_refl); reflexivity|apply C6; reflexivity].
  Qed.

  Section One.
    Variables (t : mtree (st_t DO) E) (s : disk_t) (f : fs) (c : StoreConfig) (i d : nat) (leaves els : list E).
    Hypothesis HD : DiskTree t s f (cfg_path c) i d leaves els.
    Local Notation R := (sc_rows_to_discard c).

    Lemma dt_layout : Layout (h_node A) b d leaves els.
    Proof. exact (ta_layout _ _ _ _ _ _ _ _ _ _ (dt_at _ _ _ _ _ _ _ _ HD)). Qed.
    Lemma dt_d : 1 <= d.
    Proof. exact (ta_d _ _ _ _ _ _ _ _ _ _ (dt_at _ _ _ _ _ _ _ _ HD)). Qed.
    Lemma dt_first k : k < b ^ d -> nth_error els k = nth_error leaves k.
    Proof. intros Hk. apply (Layout_leaf b ltac:(pose proof (arity_ge b Hb); lia) (h_node A) d leaves els k dt_layout Hk). Qed.
    Lemma dt_full : FullTree DO A b t f d leaves els.
    Proof. exact (TreeAt_Full EO DO disk_owner disk_W (disk_rep EO) true (disk_laws EO EL) A b Hb t s f d leaves els (dt_at _ _ _ _ _ _ _ _ HD)). Qed.

    Lemma mt_compact_eq sizes v x s' f' : disk_compact EO sizes b c v (s, f) = (x, (s', f')) ->
      mt_compact DO b sizes c v (t, f) = (x, (mk_tree (BaseTree (s' : st_t DO)) (mt_leafs t) (mt_len_field t) (mt_row_count t) (mt_root t), f')).
    Proof.
      intros H. exact (mt_on_store_base DO _ t s f x s' f' (ta_data _ _ _ _ _ _ _ _ _ _ (dt_at _ _ _ _ _ _ _ _ HD)) H).
    Qed.

    Lemma tree_compact_ok sizes v : R < d ->
      exists t' f', mt_compact DO b sizes c v (t, f) = (Ok true, (t', f')) /\
        fs_dir f' (cfg_path c) = Some i /\ fs_data f' i = encode EO (compacted b c d leaves els v) /\ fs_frame (Some i) f f'.
    Proof.
      intros HR. pose proof dt_layout as (L1 & L2 & _).
      destruct (disk_compact_ok EO EL b Hb c d leaves els s f i L1 L2 dt_first (dt_rep _ _ _ _ _ _ _ _ HD)
        (dt_file _ _ _ _ _ _ _ _ HD) (dt_path _ _ _ _ _ _ _ _ HD) (dt_ro _ _ _ _ _ _ _ _ HD) sizes v dt_d HR) as (s' & f' & H1 & H2 & H3 & _).
      eexists _, f'. split; [apply mt_compact_eq; exact H1|]. split; [|auto].
      destruct H3 as (F1 & _). rewrite F1. apply (dt_path _ _ _ _ _ _ _ _ HD).
    Qed.

    (* both ways of opening the compacted file *)
    Lemma tree_reopen f2 v open : R < d -> fs_dir f2 (cfg_path c) = Some i ->
      fs_data f2 i = encode EO (compacted b c d leaves els v) ->
      (v = 1 /\ open = lc_new_from_disk EO (mt_len DO t) b c \/
       v <> 1 /\ exists r, reads_leaves EO r f2 leaves /\ open = lc_new_from_disk_with_reader EO (mt_len DO t) b c r) ->
      exists ls lt, open f2 = (Ok ls, f2) /\ (lc_reader ls = None <-> v = 1) /\ from_data_store LO b 0 0 ls (mt_leafs t) f2 = (Ok lt, f2) /\
        LcTree EO A b lt ls f2 d R leaves els.
    Proof.
      intros HR Hp Hf Ho. pose proof dt_full as HF. rewrite (ft_len _ _ _ _ _ _ _ _ HF) in Ho. rewrite (ft_leafs _ _ _ _ _ _ _ _ HF).
      unfold compacted, cached in Hf.
      destruct Ho as [[-> ->]|(Hv & r & Hr & ->)].
      - cbn [Nat.eqb] in Hf. destruct (lc_open_v1 EO EL A b Hb c f2 i d leaves els Hp HR dt_layout Hf) as (ls & O1 & O2 & O3 & O4).
        destruct (lc_from_data_store EO EL A b Hb ls f2 d R leaves els dt_layout O4) as (lt & T1 & T2).
        exists ls, lt. split; [exact O1|]. split; [tauto|auto].
      - replace (v =? 1) with false in Hf by lia.
        destruct (lc_open_v2 EO EL A b Hb c f2 i d leaves els r Hp HR dt_layout Hr Hf) as (ls & O1 & O2 & O3 & O4).
        destruct (lc_from_data_store EO EL A b Hb ls f2 d R leaves els dt_layout O4) as (lt & T1 & T2).
        exists ls, lt. split; [exact O1|]. split; [rewrite O2; split; [discriminate|contradiction]|auto].
    Qed.
  End One.
End CompactTrees.
