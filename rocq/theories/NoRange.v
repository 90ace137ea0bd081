(* gen_cached_proof over a store without ranged byte reads. *)
From Coq Require Import String List Arith Bool Lia Init.Byte ZifyBool ZifyNat.
From Verif Require Import Base Element Hash Sizing FS Sched Store VecStore DiskStore MmapStore LevelCache ProofModel Tree ListFacts Spec SpecFacts SizingFacts SchedFacts StoreLaws RowFacts ChunkFacts BuildFacts BuildLoop StoreSpec FileFacts VecFacts MapLayer DiskFacts MmapFacts PopFacts TreeFacts ProofSpec ProofFacts TreeProofs TreeObs Builders BuiltFacts CompoundFacts CompoundTrees CompoundGroups CompoundBuilt CachedFacts.
Import ListNotations.

Section NoRange.
  Context {E : Type} (EO : ElementOps E) (SO : StoreOps E).
  Local Notation T := (st_t SO).
  Variable A : AlgOps E.
  Variables (en : env) (b : nat).
  Hypothesis Hb : arity b.
  Variable rows : option nat.
  Variable m : string.
  Hypothesis Hno : forall st s e buf, st_read_range_into SO st s e buf = Panic m.

  Lemma base_panics sub_ top t s f d i : 1 <= d -> mt_leafs t = b ^ d -> mt_row_count t = S d -> i < b ^ d ->
    gen_cached_proof_base EO SO A en b sub_ top t s f i rows = Panic m.
  Proof.
    intros Hd T3 T5 Hi. pose proof (arity_ge b Hb) as H2. pose proof (capped_lt b Hb d rows Hd) as HR.
    unfold gen_cached_proof_base. rewrite T3, T5.
    match goal with |- context [get_merkle_tree_cache_size _ _ ?r] => change r with (capped b d rows) end.
    set (R := capped b d rows) in *. set (w := b ^ S R) in *.
    replace (i <? b ^ d) with true by lia. cbn [ensure rbind].
    replace (b ^ d =? next_pow2 (b ^ d)) with true by (symmetry; apply next_pow2_eqb', pow2_pow, arity_pow2; auto).
    cbn [ensure rbind]. rewrite get_merkle_tree_len_full by (auto; lia). cbn [rbind].
    rewrite cache_size_full by auto. cbn [rbind].
    pose proof (geom_row_off b d (S R) ltac:(lia)) as G. pose proof (cis_row_off b d R HR) as CI.
    replace (d - 1 - R) with (d - S R) in * by lia.
    assert (HwP : 0 < w) by (unfold w; pose proof (Nat.pow_nonzero b (S R) ltac:(lia)); lia).
    assert (H0 : 0 < row_off b d (S R)).
    { rewrite row_off_step. pose proof (Nat.pow_nonzero b (d - R) ltac:(lia)). lia. }
    replace (geom b (d - S R) <? geom b d) with true by lia. cbn [ensure rbind].
    rewrite get_merkle_tree_leafs_full by auto. cbn [rbind].
    replace (b ^ (d - S R) =? next_pow2 (b ^ (d - S R))) with true by (symmetry; apply next_pow2_eqb', pow2_pow, arity_pow2; auto).
    cbn [ensure rbind]. rewrite row_count_full by auto. rewrite checked_sub_ok by lia. cbn [rbind].
    assert (Hw : b ^ d / b ^ (d - S R) = w).
    { replace d with (S R + (d - S R)) at 1 by lia. rewrite Nat.pow_add_r, Nat.div_mul; [reflexivity|].
      apply Nat.pow_nonzero. lia. }
    rewrite Hw. replace (w =? 0) with false by lia. rewrite Hno. reflexivity.
  Qed.

  Lemma full_panics n sub_ top t f d leaves els i : FullTree SO A b t f d leaves els -> 1 <= d -> i < b ^ d ->
    (exists s, mt_data t = BaseTree s) ->
    gen_cached_proof_n EO SO A en b (S n) sub_ top t f i rows = Panic m.
  Proof.
    intros HF Hd Hi [s Hs]. cbn [gen_cached_proof_n]. rewrite Hs.
    apply (base_panics sub_ top t s f d i Hd); [apply (ft_leafs _ _ _ _ _ _ _ _ HF)| |exact Hi].
    rewrite (ft_rows _ _ _ _ _ _ _ _ HF). lia.
  Qed.

  Lemma compound_panics rec sub_ top (children : res (list (mtree T E))) t ts n i tk :
    Over SO t ts n -> i < mt_leafs t -> children = Ok ts ->
    nth_error ts (i / n) = Some tk -> rec tk (i mod n) = Panic m ->
    gen_cached_compound_proof SO b rec sub_ top (List.length ts) children t i = Panic m.
  Proof.
    intros HO Hi Hl Hk Hsp. destruct (over_div SO t ts n i HO Hi) as [D1 D2]. pose proof HO as (O1 & O2 & O3 & O4).
    unfold gen_cached_compound_proof. replace (List.length ts =? 0) with false by lia. cbn [negb ensure rbind].
    replace (i <? mt_leafs t) with true by lia. cbn [ensure rbind]. rewrite Hl. cbn [rbind].
    rewrite D1. replace (n =? 0) with false by lia.
    unfold rnth. rewrite Hk. cbn [rbind]. rewrite Forall_forall in O3. rewrite (O3 tk) by (eapply nth_error_In; eauto).
    replace (n =? 0) with false by lia. rewrite Hsp. reflexivity.
  Qed.

  Lemma sub_panics n t f d ts lss ess i : SubAt SO A b t f d ts lss ess -> i < mt_leafs t ->
    (forall j tk lv es, FullTree SO A b tk f d lv es -> j < b ^ d ->
       gen_cached_proof_n EO SO A en b (S n) 0 0 tk f j rows = Panic m) ->
    gen_cached_proof_n EO SO A en b (S (S n)) (List.length ts) 0 t f i rows = Panic m.
  Proof.
    intros HS Hi HC. pose proof (SubAt_over SO A b Hb _ _ _ _ _ _ HS) as HO. pose proof HO as (O1 & O2 & _).
    destruct (SubAt_child SO A b Hb t f d ts lss ess i HS Hi) as (tk & lv & es & C1 & C2 & C3 & HF & C4).
    pose proof (sa_data _ _ _ _ _ _ _ _ _ HS) as Ht.
    cbn [gen_cached_proof_n]. rewrite Ht.
    apply (compound_panics _ _ _ _ t ts (b ^ d) i tk); auto.
    - unfold mt_base_trees. rewrite Ht. reflexivity.
    - cbn beta. apply (HC _ _ lv es); [exact HF|]. apply Nat.mod_upper_bound. lia.
  Qed.

  Lemma top_panics n t f d Sa ts ls i : TopAt SO A b t f d Sa ts ls -> i < mt_leafs t ->
    (forall j tk lv es, FullTree SO A b tk f d lv es -> j < b ^ d ->
       gen_cached_proof_n EO SO A en b (S n) 0 0 tk f j rows = Panic m) ->
    gen_cached_proof_n EO SO A en b (S (S (S n))) Sa (List.length ts) t f i rows = Panic m.
  Proof.
    intros HT Hi HC. pose proof (TopAt_over SO A b Hb _ _ _ _ _ _ HT) as HO. pose proof HO as (O1 & O2 & _).
    destruct (TopAt_child SO A b Hb t f d Sa ts ls i HT Hi) as (tk & bs & lss & ess & C1 & C2 & C3 & HSA & C4 & C5).
    pose proof (pa_data _ _ _ _ _ _ _ _ _ HT) as Ht.
    change (gen_cached_proof_n EO SO A en b (S (S (S n))) Sa (List.length ts) t f i rows) with
      (match mt_data t with
        | TopTree _ => gen_cached_compound_proof SO b (fun t' i' => gen_cached_proof_n EO SO A en b (S (S n)) Sa 0 t' f i' rows)
              Sa (List.length ts) (List.length ts) (mt_sub_trees SO t) t i
        | SubTree _ => gen_cached_compound_proof SO b (fun t' i' => gen_cached_proof_n EO SO A en b (S (S n)) 0 0 t' f i' rows)
              Sa (List.length ts) Sa (mt_base_trees SO t) t i
        | BaseTree s => gen_cached_proof_base EO SO A en b Sa (List.length ts) t s f i rows
        end).
    rewrite Ht.
    apply (compound_panics _ _ _ _ t ts (Sa * b ^ d) i tk); auto.
    - unfold mt_sub_trees. rewrite Ht. reflexivity.
    - cbn beta. rewrite <- C3. rewrite <- C3 in C4. apply (sub_panics n tk f d bs lss ess _ HSA C4 HC).
  Qed.
End NoRange.
