(* gen_cached_proof on trees over a DiskStore, and on compound trees over any
   base trees whose cached proofs are canonical. *)
From Coq Require Import String List Arith Bool Lia Init.Byte ZifyBool ZifyNat.
From Verif Require Import Base Element Hash Sizing FS Sched Store VecStore DiskStore MmapStore LevelCache ProofModel Tree ListFacts Spec SpecFacts SizingFacts SchedFacts StoreLaws RowFacts ChunkFacts BuildFacts BuildLoop StoreSpec FileFacts VecFacts MapLayer DiskFacts MmapFacts PopFacts TreeFacts ProofSpec ProofFacts TreeProofs TreeObs Builders BuiltFacts CompoundFacts CompoundTrees CachedFacts.
Import ListNotations.

Section DiskCached.
  Context {E : Type} (EO : ElementOps E) (EL : ElementLaws EO).
  Local Notation bl := (e_byte_len EO).
  Variable A : AlgOps E.
  Variables (en : env) (b : nat).
  Hypothesis Hb : arity b.
  Hypothesis Hch : chunk_ok en b.

  Lemma disk_read_range_into_rep cap n els st s e : disk_rep EO cap n (nth_error els) st -> List.length els = n ->
    s < e -> e <= n ->
    disk_read_range_into EO st s e (repeat x00 ((e - s) * bl)) = Ok (encode EO (sub els s (e - s))).
  Proof.
    intros (H1 & H2 & H3 & HD) Hl Hs He. pose proof (bl_pos EO EL) as Hbl.
    unfold disk_read_range_into. rewrite (disk_check_ok EO EL st s e n) by auto. cbn [rbind].
    unfold disk_store_read_into, fs_read_exact_at. rewrite repeat_length.
    assert (0 < (e - s) * bl) by (apply Nat.mul_pos_pos; lia).
    replace ((e - s) * bl =? 0) with false by lia.
    assert (Hk : knows (nth_error els) s (sub els s (e - s))).
    { intros k Hk. rewrite sub_length in Hk. rewrite nth_error_sub. replace (k <? e - s) with true by lia. reflexivity. }
    assert (Hsl : List.length (sub els s (e - s)) = e - s) by (apply sub_length_le; lia).
    pose proof (DRep_range EO _ _ _ _ _ HD Hk ltac:(rewrite Hsl; lia)) as R. rewrite Hsl in R.
    unfold fs_size. destruct HD as [HD1 _]. rewrite HD1.
    assert (s * bl + (e - s) * bl <= cap * bl) by (rewrite <- Nat.mul_add_distr_r; apply Nat.mul_le_mono_r; lia).
    replace (s * bl + (e - s) * bl <=? cap * bl) with true by lia. rewrite R. reflexivity.
  Qed.

  Lemma disk_cached_base t s f d leaves els i rows :
    TreeAt (disk_store EO) (disk_rep EO) A b t s f d leaves els -> i < b ^ d ->
    gen_cached_proof_base EO (disk_store EO) A en b 0 0 t s f i rows = Ok (canon b els d i).
  Proof.
    intros HT Hi. pose proof HT as [T1 T2 T3 T4 T5 T6 T7 [cap T8]]. pose proof (arity_ge b Hb) as H2.
    eapply (gen_cached_proof_base_ok EO EL (disk_store EO) A en b Hb Hch t s f d leaves els i rows); eauto.
    - exact (ta_mt_len EO _ _ _ _ _ (disk_laws EO EL) A b t s f d leaves els HT).
    - intros k x _ Hx. exact (ta_read_at EO _ _ _ _ _ (disk_laws EO EL) A b t s f d leaves els k x HT Hx).
    - cbv zeta. pose proof (capped_lt b Hb d rows T2) as HR. set (w := b ^ S (capped b d rows)).
      assert (HwP : 0 < w) by (unfold w; pose proof (Nat.pow_nonzero b (S (capped b d rows)) ltac:(lia)); lia).
      assert (Hq : i / w < b ^ (d - S (capped b d rows))) by (apply (anc_lt b Hb); auto).
      assert (Hdw : b ^ d = b ^ (d - S (capped b d rows)) * w) by (unfold w; rewrite <- Nat.pow_add_r; f_equal; lia).
      assert (Hend : i / w * w + w <= b ^ d).
      { assert (S (i / w) * w <= b ^ (d - S (capped b d rows)) * w) by (apply Nat.mul_le_mono_r; lia). lia. }
      pose proof T6 as (L1 & L2 & L3). pose proof (geom_gt b d) as Hg.
      pose proof (disk_read_range_into_rep cap (geom b d) els (s, f) (i / w * w) (i / w * w + w) T8 L2 ltac:(lia) ltac:(lia)) as R.
      replace (i / w * w + w - i / w * w) with w in R by lia. cbn [st_read_range_into disk_store].
      etransitivity; [exact R|]. f_equal. f_equal. apply nth_error_ext. intros k. rewrite !nth_error_sub.
      destruct (k <? w) eqn:G; [|reflexivity]. apply (Layout_leaf b ltac:(lia) (h_node A) d leaves els); auto. lia.
  Qed.
End DiskCached.

Section CompoundCached.
  Context {E : Type} (EO : ElementOps E) (SO : StoreOps E).
  Local Notation T := (st_t SO).
  Variable A : AlgOps E.
  Variables (en : env) (b : nat).
  Variable rows : option nat.

  Lemma gen_cached_compound_ok rec sub_ top (children : res (list (mtree T E))) t ts n i tk sp :
    Over SO t ts n -> i < mt_leafs t -> children = Ok ts -> (0 < top \/ 0 < sub_) ->
    nth_error ts (i / n) = Some tk -> rec tk (i mod n) = Ok sp ->
    gen_cached_compound_proof SO b rec sub_ top (List.length ts) children t i =
      Ok (mk_proof (Some sp) top sub_ (remove_at (i / n) (map mt_root ts) ++ [mt_root t]) [i / n]).
  Proof.
    intros HO Hi Hl Hts Hk Hsp. destruct (over_div SO t ts n i HO Hi) as [D1 D2]. pose proof HO as (O1 & O2 & O3 & O4).
    unfold gen_cached_compound_proof. replace (List.length ts =? 0) with false by lia. cbn [negb ensure rbind].
    replace (i <? mt_leafs t) with true by lia. cbn [ensure rbind]. rewrite Hl. cbn [rbind].
    rewrite D1. replace (n =? 0) with false by lia.
    unfold rnth. rewrite Hk. cbn [rbind]. rewrite Forall_forall in O3. rewrite (O3 tk) by (eapply nth_error_In; eauto).
    replace (n =? 0) with false by lia. rewrite Hsp. cbn [rbind]. rewrite (other_roots_ok SO ts (i / n) D2). cbn [rbind].
    unfold proof_new. replace ((top =? 0) && (sub_ =? 0)) with false by lia. reflexivity.
  Qed.

  (* base tree [tk] answers cached proof requests with the canonical proofs over [es] *)
  Definition CachedBase (tk : mtree T E) (f : fs) (d : nat) (es : list E) : Prop :=
    (exists s, mt_data tk = BaseTree s) /\ mt_leafs tk = b ^ d /\
    forall i, i < b ^ d -> gen_cached_proof EO SO A en b 0 0 tk f i rows = Ok (canon b es d i).

  Lemma cached_base_n n tk f d es i : CachedBase tk f d es -> i < b ^ d ->
    gen_cached_proof_n EO SO A en b (S n) 0 0 tk f i rows = Ok (canon b es d i).
  Proof.
    intros ([s Hs] & _ & H) Hi. specialize (H i Hi). unfold gen_cached_proof in H. cbn [gen_cached_proof_n] in *.
    rewrite Hs in *. exact H.
  Qed.

  Lemma sub_cached n t f d ts i tk es :
    mt_data t = SubTree ts -> Over SO t ts (b ^ d) -> i < mt_leafs t ->
    nth_error ts (i / b ^ d) = Some tk -> CachedBase tk f d es ->
    gen_cached_proof_n EO SO A en b (S (S n)) (List.length ts) 0 t f i rows = Ok (sub_proof SO b ts (mt_root t) d es i).
  Proof.
    intros Ht HO Hi Hk HC. pose proof HO as (O1 & O2 & _).
    cbn [gen_cached_proof_n]. rewrite Ht.
    erewrite (gen_cached_compound_ok _ (List.length ts) 0 _ t ts (b ^ d) i tk); eauto.
    - reflexivity.
    - unfold mt_base_trees. rewrite Ht. reflexivity.
    - cbn beta. eapply (cached_base_n n tk f d es); auto. apply Nat.mod_upper_bound. lia.
  Qed.

  Lemma top_cached n t f d Sa ts i tk bs bk es :
    mt_data t = TopTree ts -> Over SO t ts (Sa * b ^ d) -> i < mt_leafs t ->
    nth_error ts (i / (Sa * b ^ d)) = Some tk ->
    mt_data tk = SubTree bs -> List.length bs = Sa -> Over SO tk bs (b ^ d) ->
    nth_error bs (i mod (Sa * b ^ d) / b ^ d) = Some bk -> CachedBase bk f d es ->
    gen_cached_proof_n EO SO A en b (S (S (S n))) Sa (List.length ts) t f i rows =
      Ok (mk_proof (Some (sub_proof SO b bs (mt_root tk) d es (i mod (Sa * b ^ d)))) (List.length ts) Sa
            (remove_at (i / (Sa * b ^ d)) (map mt_root ts) ++ [mt_root t]) [i / (Sa * b ^ d)]).
  Proof.
    intros Ht HO Hi Hk Htk HSa HOk Hbk HC. pose proof HO as (O1 & O2 & _).
    change (gen_cached_proof_n EO SO A en b (S (S (S n))) Sa (List.length ts) t f i rows) with
      (match mt_data t with
        | TopTree _ => gen_cached_compound_proof SO b (fun t' i' => gen_cached_proof_n EO SO A en b (S (S n)) Sa 0 t' f i' rows)
              Sa (List.length ts) (List.length ts) (mt_sub_trees SO t) t i
        | SubTree _ => gen_cached_compound_proof SO b (fun t' i' => gen_cached_proof_n EO SO A en b (S (S n)) 0 0 t' f i' rows)
              Sa (List.length ts) Sa (mt_base_trees SO t) t i
        | BaseTree s => gen_cached_proof_base EO SO A en b Sa (List.length ts) t s f i rows
        end).
    rewrite Ht.
    erewrite (gen_cached_compound_ok _ Sa (List.length ts) _ t ts (Sa * b ^ d) i tk); eauto.
    - unfold mt_sub_trees. rewrite Ht. reflexivity.
    - cbn beta. rewrite <- HSa. apply (sub_cached n tk f d bs _ bk es); auto; [|rewrite HSa; exact Hbk].
      destruct HOk as (_ & _ & _ & OL). rewrite OL, HSa. apply Nat.mod_upper_bound. lia.
  Qed.
End CompoundCached.
