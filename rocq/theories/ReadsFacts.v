(* Which nodes of a store gen_proof and gen_cached_proof look at. *)
From Coq Require Import String List Arith Bool Lia Init.Byte ZifyBool ZifyNat.
From Verif Require Import Base Element Hash Sizing FS Sched Store VecStore DiskStore MmapStore LevelCache ProofModel Tree ListFacts Spec SpecFacts SizingFacts SchedFacts StoreLaws RowFacts ChunkFacts BuildFacts BuildLoop StoreSpec FileFacts VecFacts MapLayer DiskFacts TreeFacts ProofSpec ProofFacts TreeProofs CachedFacts.
Import ListNotations.

(* p is leaf i itself, or a sibling on the path of leaf i in row 0 or in a row from k on *)
Definition looked_at (b d k i p : nat) : Prop :=
  p = i \/
  exists r c, (r = 0 \/ k <= r) /\ r < d /\ c < b /\ i / b ^ S r * b + c <> i / b ^ r /\
    p = row_off b d r + (i / b ^ S r * b + c).

Section Reads.
  Context {E : Type} (b : nat) (Hb : arity b).

  Lemma read_siblings_same (g g' : nat -> res E) j : forall n s,
    (forall k, s <= k < s + n -> k <> j -> g k = g' k) ->
    read_siblings g j (seq s n) = read_siblings g' j (seq s n).
  Proof.
    induction n; intros s H; [reflexivity|]. cbn [seq read_siblings].
    rewrite (IHn (S s)) by (intros; apply H; lia).
    destruct (s =? j) eqn:Q; [reflexivity|]. rewrite (H s) by lia. reflexivity.
  Qed.

  Lemma proof_loop_same d i (rd rd' : nat -> res E) :
    i < b ^ d -> (forall p, looked_at b d 0 i p -> rd p = rd' p) ->
    forall n r fuel lv, r + n = d ->
    proof_loop b fuel (fun _ p => rd p) (log2_pow2 b) (geom b d) (row_off b d r) (b ^ n) (i / b ^ r) lv =
    proof_loop b fuel (fun _ p => rd' p) (log2_pow2 b) (geom b d) (row_off b d r) (b ^ n) (i / b ^ r) lv.
  Proof.
    intros Hi Hrd. pose proof (arity_ge b Hb) as H2.
    induction n; intros r fuel lv Hr; (destruct fuel as [|fuel]; [reflexivity|]); cbn [proof_loop].
    - replace (row_off b d r + 1 <? geom b d) with false; [reflexivity|].
      assert (r = d) by lia. subst r. rewrite row_off_last. pose proof (geom_pos b d). lia.
    - pose proof (geom_row_off b d r ltac:(lia)) as G. replace (d - r) with (S n) in G by lia.
      pose proof (geom_gt b (S n)) as G2. pose proof (Nat.pow_gt_lin_r b (S n) ltac:(lia)) as G3.
      replace (row_off b d r + 1 <? geom b d) with true by lia.
      rewrite (div_pow b Hb).
      rewrite (read_siblings_same (fun k => rd (row_off b d r + k)) (fun k => rd' (row_off b d r + k))).
      2:{ intros k Hk Hne. apply Hrd. right. exists r, (k - i / b ^ S r * b).
          replace (i / b ^ S r * b + (k - i / b ^ S r * b)) with k by lia.
          split; [right; apply Nat.le_0_l|]. split; [clear Hk Hne; lia|]. split; [lia|]. split; [exact Hne|reflexivity]. }
      rewrite !arity_shift by auto. rewrite (div_pow b Hb).
      replace (b ^ S n / b) with (b ^ n) by (rewrite Nat.pow_succ_r', Nat.mul_comm, Nat.div_mul; lia).
      replace (row_off b d r + b ^ S n) with (row_off b d (S r)) by (rewrite row_off_step; do 2 f_equal; lia).
      rewrite IHn by lia. reflexivity.
  Qed.

  Lemma partial_loop_same d k i (rd rd' rdp rdp' : nat -> res E) :
    1 <= k -> k <= d -> i < b ^ d -> (forall p, looked_at b d k i p -> rd p = rd' p) -> (forall p, rdp p = rdp' p) ->
    forall n r fuel pb sw ss, r + n = d ->
    partial_loop b fuel rd rdp (log2_pow2 b) (geom b d) (b ^ d) (row_off b d k)
      (row_off b d r) (b ^ n) (i / b ^ r) pb sw ss =
    partial_loop b fuel rd' rdp' (log2_pow2 b) (geom b d) (b ^ d) (row_off b d k)
      (row_off b d r) (b ^ n) (i / b ^ r) pb sw ss.
  Proof.
    intros Hk1 Hkd Hi Hrd Hrdp. pose proof (arity_ge b Hb) as H2.
    induction n; intros r fuel pb sw ss Hr; (destruct fuel as [|fuel]; [reflexivity|]); cbn [partial_loop].
    - replace (row_off b d r + 1 <? geom b d) with false; [reflexivity|].
      assert (r = d) by lia. subst r. rewrite row_off_last. pose proof (geom_pos b d). lia.
    - pose proof (geom_row_off b d r ltac:(lia)) as G. replace (d - r) with (S n) in G by lia.
      pose proof (geom_gt b (S n)) as G2. pose proof (Nat.pow_gt_lin_r b (S n) ltac:(lia)) as G3.
      replace (row_off b d r + 1 <? geom b d) with true by lia.
      rewrite (div_pow b Hb).
      match goal with |- rbind (read_siblings ?u _ _) _ = rbind (read_siblings ?v _ _) _ => rewrite (read_siblings_same u v) end.
      2:{ intros kk Hk Hne. cbv zeta.
          destruct ((row_off b d r + kk <? b ^ d) || (row_off b d k <=? row_off b d r + kk)) eqn:GR.
          - apply Hrd. right. exists r, (kk - i / b ^ S r * b).
            pose proof (kids_in_row b Hb d r i Hi ltac:(clear - Hr; lia)) as KR.
            assert (KR2 : row_off b d r + kk < row_off b d (S r)).
            { clear - KR Hk. generalize dependent (i / b ^ S r * b). intros. lia. }
            replace (i / b ^ S r * b + (kk - i / b ^ S r * b)) with kk by (clear - Hk; lia).
            split.
            { destruct (Nat.eq_dec r 0) as [|Hr0]; [left; assumption|right].
              apply orb_prop in GR. destruct GR as [GR|GR].
              - exfalso. apply Nat.ltb_lt in GR. pose proof (row_off_mono b d 1 r ltac:(clear - Hr0; lia)) as M.
                rewrite row_off_step, Nat.sub_0_r in M. clear - GR M. lia.
              - apply Nat.leb_le in GR. destruct (Nat.le_gt_cases k r) as [|Hlt]; [assumption|exfalso].
                pose proof (row_off_mono b d (S r) k Hlt) as M. clear - GR M KR2. lia. }
            split; [clear - Hr; lia|]. split; [clear - Hk; lia|]. split; [exact Hne|reflexivity].
          - destruct (checked_sub (pb + kk) ss); cbn [rbind]; auto. }
      rewrite !arity_shift by auto. rewrite (div_pow b Hb).
      replace (b ^ S n / b) with (b ^ n) by (rewrite Nat.pow_succ_r', Nat.mul_comm, Nat.div_mul; lia).
      replace (row_off b d r + b ^ S n) with (row_off b d (S r)) by (rewrite row_off_step; do 2 f_equal; lia).
      rewrite IHn by lia. reflexivity.
  Qed.
End Reads.

Section Proofs.
  Context {E : Type} (EO : ElementOps E) (EL : ElementLaws EO) (SO : StoreOps E).
  Local Notation T := (st_t SO).
  Local Notation bl := (e_byte_len EO).
  Variable A : AlgOps E.
  Variable en : env.
  Variable b : nat.
  Hypothesis Hb : arity b.
  Hypothesis Hch : chunk_ok en b.

  Lemma partial_tree_same leaves k f f' : 1 <= k -> List.length leaves = b ^ k ->
    exists root,
    build_partial_tree EO A en b leaves (b ^ k) (S k) f =
      Ok (mk_tree (BaseTree (all_rows A b leaves k)) (b ^ k) (geom b k) (S k) root) /\
    build_partial_tree EO A en b leaves (b ^ k) (S k) f' =
      Ok (mk_tree (BaseTree (all_rows A b leaves k)) (b ^ k) (geom b k) (S k) root).
  Proof.
    intros Hk HL. pose proof (arity_ge b Hb) as H2.
    assert (Q : forall f, exists root, nth_error (all_rows A b leaves k) (geom b k - 1) = Some root /\
      build_partial_tree EO A en b leaves (b ^ k) (S k) f =
      Ok (mk_tree (BaseTree (all_rows A b leaves k)) (b ^ k) (geom b k) (S k) root)).
    { clear f f'. intros f.
      destruct (sl_build_ok _ _ _ _ _ _ (vec_laws EO EL) en A b leaves k None (nth_error leaves) (leaves, f) Hb Hk HL Hch I)
        as (root & st' & B1 & B2 & B3 & _).
      { split; [exact HL|auto]. }
      { intros j Hj. reflexivity. }
      exists root. split; [exact B2|]. unfold build_partial_tree. change (vec_build EO) with (st_build (vec_store EO)).
      rewrite B1. destruct st' as [l f']. destruct B3 as [B4 B5]. cbn [fst] in B4, B5.
      assert (HA : List.length (all_rows A b leaves k) = geom b k).
      { apply (all_rows_Layout A b ltac:(lia)); auto. }
      assert (l = all_rows A b leaves k) as ->.
      { apply list_ext; [congruence|]. intros j Hj. destruct (nth_error_ex (all_rows A b leaves k) j ltac:(lia)) as [x Hx].
        rewrite Hx. apply B5. exact Hx. }
      rewrite get_merkle_tree_len_full by auto. cbn [rbind]. rewrite HA, Nat.eqb_refl. cbn [ensure rbind].
      rewrite size_valid_full by auto. reflexivity. }
    destruct (Q f) as (r & R1 & R2). destruct (Q f') as (r' & R1' & R2').
    exists r. split; [exact R2|]. rewrite R2'. replace r' with r by congruence. reflexivity.
  Qed.

  Lemma gen_cached_proof_base_same t t' s s' f f' d i rows :
    1 <= d -> mt_leafs t = b ^ d -> mt_len SO t = geom b d -> mt_row_count t = S d ->
    mt_leafs t' = b ^ d -> mt_len SO t' = geom b d -> mt_row_count t' = S d -> mt_root t = mt_root t' ->
    i < b ^ d ->
    let k := S (capped b d rows) in let w := b ^ k in
    (forall buf, st_read_range_into SO (s, f) (i / w * w) (i / w * w + w) buf =
       st_read_range_into SO (s', f') (i / w * w) (i / w * w + w) buf) ->
    (forall p, looked_at b d k i p -> st_read_at SO (s, f) p = st_read_at SO (s', f') p) ->
    gen_cached_proof_base EO SO A en b 0 0 t s f i rows = gen_cached_proof_base EO SO A en b 0 0 t' s' f' i rows.
  Proof.
    intros Hd T3 T4 T5 T3' T4' T5' TR Hi k w Hrr Hrd. pose proof (arity_ge b Hb) as H2.
    pose proof (capped_lt b Hb d rows Hd) as HR.
    unfold gen_cached_proof_base. rewrite T3, T5, T3', T5'.
    match goal with |- context [get_merkle_tree_cache_size _ _ ?r] => change r with (capped b d rows) end.
    set (R := capped b d rows) in *.
    replace (i <? b ^ d) with true by lia. cbn [ensure rbind].
    replace (b ^ d =? next_pow2 (b ^ d)) with true by (symmetry; apply next_pow2_eqb', pow2_pow, arity_pow2; auto).
    cbn [ensure rbind]. rewrite get_merkle_tree_len_full by (auto; lia). cbn [rbind].
    rewrite cache_size_full by auto. cbn [rbind].
    pose proof (geom_row_off b d (S R) ltac:(lia)) as G. pose proof (cis_row_off b d R HR) as CI.
    replace (d - 1 - R) with (d - S R) in * by lia.
    assert (HwP : 0 < w) by (unfold w; pose proof (Nat.pow_nonzero b k ltac:(lia)); lia).
    assert (H0 : 0 < row_off b d (S R)).
    { rewrite row_off_step. pose proof (Nat.pow_nonzero b (d - R) ltac:(lia)). lia. }
    replace (geom b (d - S R) <? geom b d) with true by lia. cbn [ensure rbind].
    rewrite get_merkle_tree_leafs_full by auto. cbn [rbind].
    replace (b ^ (d - S R) =? next_pow2 (b ^ (d - S R))) with true by (symmetry; apply next_pow2_eqb', pow2_pow, arity_pow2; auto).
    cbn [ensure rbind]. rewrite row_count_full by auto. rewrite checked_sub_ok by lia. cbn [rbind].
    assert (Hw : b ^ d / b ^ (d - S R) = w).
    { replace d with (S R + (d - S R)) at 1 by lia. rewrite Nat.pow_add_r, Nat.div_mul; [reflexivity|].
      apply Nat.pow_nonzero. lia. }
    rewrite Hw. replace (w =? 0) with false by lia. rewrite Hrr.
    destruct (st_read_range_into SO (s', f') (i / w * w) (i / w * w + w) (repeat x00 (w * bl))) as [dc| | |]; cbn [rbind]; try reflexivity.
    replace (fst (vec_new_from_slice EO w dc f)) with (fst (vec_new_from_slice EO w dc f')) by reflexivity.
    destruct (fst (vec_new_from_slice EO w dc f')) as [ps| | |]; cbn [rbind]; try reflexivity.
    destruct (List.length ps =? w) eqn:HP; cbn [ensure rbind]; [|reflexivity]. apply Nat.eqb_eq in HP.
    replace (get_merkle_tree_len w b) with (Ok (geom b k)) by (symmetry; unfold w; apply get_merkle_tree_len_full; auto; unfold k; lia). cbn [rbind].
    replace (S d - S (d - S R) + 1) with (S k) by (unfold k; lia).
    destruct (partial_tree_same ps k f f' ltac:(unfold k; lia) HP) as (proot & P1 & P2).
    fold w in P1, P2. rewrite P1, P2. cbn [rbind mt_row_count]. rewrite Nat.eqb_refl. cbn [ensure rbind].
    unfold gen_proof_with_partial_tree. rewrite T3, T5, T4, T3', T5', T4'.
    replace (i <? b ^ d) with true by lia. cbn [ensure rbind].
    replace (b ^ d =? next_pow2 (b ^ d)) with true by (symmetry; apply next_pow2_eqb', pow2_pow, arity_pow2; auto).
    rewrite (arity_next b Hb), Nat.eqb_refl. cbn [ensure rbind].
    rewrite get_merkle_tree_len_full by (auto; lia). cbn [rbind]. rewrite cache_size_full by auto. cbn [rbind].
    replace (d - 1 - R) with (d - S R) by lia.
    rewrite checked_sub_ok by lia. cbn [rbind]. rewrite get_merkle_tree_leafs_full by auto. cbn [rbind].
    replace (b ^ (d - S R) =? next_pow2 (b ^ (d - S R))) with true by (symmetry; apply next_pow2_eqb', pow2_pow, arity_pow2; auto).
    cbn [ensure rbind]. rewrite Hw, CI. replace (w =? 0) with false by lia.
    rewrite lemma_len_ok by lia. cbn [rbind]. rewrite checked_sub_ok by lia. cbn [rbind Nat.eqb ensure].
    rewrite (Hrd i (or_introl eq_refl)). destruct (st_read_at SO (s', f') i) as [x| | |]; cbn [rbind]; try reflexivity.
    rewrite TR.
    match goal with |- rbind (partial_loop _ _ ?rd ?rdp _ _ _ _ _ _ _ _ _ _) _ = rbind (partial_loop _ _ ?rd' ?rdp' _ _ _ _ _ _ _ _ _ _) _ =>
      pose proof (partial_loop_same b Hb d k i rd rd' rdp rdp' ltac:(unfold k; lia) ltac:(unfold k; lia) Hi Hrd (fun p => eq_refl) d 0 (S (geom b d)) 0 w (i / w * w) eq_refl) as PL end.
    change (b ^ 0) with 1 in PL. rewrite Nat.div_1_r in PL. change (row_off b d 0) with 0 in PL. fold k. rewrite PL. reflexivity.
  Qed.

  Lemma gen_proof_base_same t t' s s' f f' d i :
    1 <= d -> mt_leafs t = b ^ d -> mt_len SO t = geom b d -> mt_row_count t = S d ->
    mt_leafs t' = b ^ d -> mt_len SO t' = geom b d -> mt_row_count t' = S d -> mt_root t = mt_root t' ->
    i < b ^ d ->
    (forall p, looked_at b d 0 i p -> st_read_at SO (s, f) p = st_read_at SO (s', f') p) ->
    gen_proof_base SO b 0 0 t s f i = gen_proof_base SO b 0 0 t' s' f' i.
  Proof.
    intros Hd T3 T4 T5 T3' T4' T5' TR Hi Hrd. unfold gen_proof_base. rewrite T3, T5, T4, T3', T5', T4', TR.
    rewrite (Hrd i (or_introl eq_refl)).
    pose proof (proof_loop_same b Hb d i (fun p => st_read_at SO (s, f) p) (fun p => st_read_at SO (s', f') p) Hi Hrd d 0 (S (geom b d)) 0 eq_refl) as PL.
    change (b ^ 0) with 1 in PL. rewrite Nat.div_1_r in PL. change (row_off b d 0) with 0 in PL. rewrite PL. reflexivity.
  Qed.
End Proofs.
