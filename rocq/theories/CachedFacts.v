(* gen_cached_proof: the proof assembled from the leaves, the cached rows and a
   rebuilt partial tree is the canonical proof. *)
From Coq Require Import String List Arith Bool Lia Init.Byte ZifyBool ZifyNat.
From Verif Require Import Base Element Hash Sizing FS Sched Store VecStore DiskStore MmapStore LevelCache ProofModel Tree ListFacts Spec SpecFacts SizingFacts SchedFacts StoreLaws RowFacts ChunkFacts BuildFacts BuildLoop StoreSpec FileFacts VecFacts MapLayer DiskFacts TreeFacts ProofSpec ProofFacts TreeProofs.
Import ListNotations.

Section Partial.
  Context {E : Type} (b : nat) (Hb : arity b) (h : nat -> list E -> E).

  (* the tree over an aligned segment of the leaves sits inside the whole tree *)
  Lemma sub_layout d k q leaves els pels :
    Layout h b d leaves els -> k <= d -> q < b ^ (d - k) ->
    Layout h b k (sub leaves (q * b ^ k) (b ^ k)) pels ->
    forall r j, r <= k -> j < b ^ (k - r) ->
    nth_error pels (row_off b k r + j) = nth_error els (row_off b d r + (q * b ^ (k - r) + j)).
  Proof.
    intros (L1 & L2 & L3) Hk Hq (P1 & P2 & P3) r j Hr Hj. pose proof (arity_ge b Hb) as H2.
    destruct (P3 r j Hr Hj) as (x & Hx & HRx). rewrite Hx.
    assert (Hin : q * b ^ (k - r) + j < b ^ (d - r)).
    { replace (d - r) with ((d - k) + (k - r)) by lia. rewrite Nat.pow_add_r.
      assert (S q * b ^ (k - r) <= b ^ (d - k) * b ^ (k - r)) by (apply Nat.mul_le_mono_r; lia). lia. }
    destruct (L3 r _ ltac:(lia) Hin) as (y & Hy & HRy). rewrite Hy. f_equal.
    rewrite sub_sub in HRx.
    2:{ assert (S j * b ^ r <= b ^ (k - r) * b ^ r) by (apply Nat.mul_le_mono_r; lia).
        rewrite <- Nat.pow_add_r in H. replace (k - r + r) with k in H by lia. lia. }
    replace (q * b ^ k + j * b ^ r) with ((q * b ^ (k - r) + j) * b ^ r) in HRx.
    2:{ replace k with ((k - r) + r) at 2 by lia. rewrite Nat.pow_add_r. ring. }
    eapply MRoot_fun; eauto.
  Qed.

  Lemma partial_loop_spec d k leaves els pels i (rd rdp : nat -> res E) :
    Layout h b d leaves els -> 1 <= k -> k <= d -> i < b ^ d ->
    Layout h b k (sub leaves (i / b ^ k * b ^ k) (b ^ k)) pels ->
    (forall p x, p < b ^ d \/ row_off b d k <= p -> nth_error els p = Some x -> rd p = Ok x) ->
    (forall p x, nth_error pels p = Some x -> rdp p = Ok x) ->
    forall n r fuel pb sw ss, r + n = d -> n < fuel ->
    (r <= k -> pb = row_off b k r /\ sw = b ^ (k - r) /\ ss = i / b ^ k * b ^ (k - r)) ->
    partial_loop b fuel rd rdp (log2_pow2 b) (geom b d) (b ^ d) (row_off b d k)
      (row_off b d r) (b ^ n) (i / b ^ r) pb sw ss =
      Ok (flat_map (fun r => remove_at (digit b r i) (kids b els d r i)) (seq r n), map (fun r => digit b r i) (seq r n)).
  Proof.
    intros HL Hk1 Hkd Hi HP Hrd Hrdp. pose proof (arity_ge b Hb) as H2.
    induction n; intros r fuel pb sw ss Hr Hf HI; (destruct fuel as [|fuel]; [lia|]); cbn [partial_loop].
    - replace (row_off b d r + 1 <? geom b d) with false; [reflexivity|].
      assert (r = d) by lia. subst r. rewrite row_off_last. pose proof (geom_pos b d). lia.
    - pose proof (geom_row_off b d r ltac:(lia)) as G. replace (d - r) with (S n) in G by lia.
      pose proof (geom_gt b (S n)) as G2. pose proof (Nat.pow_gt_lin_r b (S n) ltac:(lia)) as G3.
      replace (row_off b d r + 1 <? geom b d) with true by lia.
      rewrite (read_siblings_spec _ (i / b ^ r) b (i / b ^ r / b * b) (kids b els d r i)).
      + cbn [rbind]. rewrite !arity_shift by auto. rewrite (div_pow b Hb).
        replace (b ^ S n / b) with (b ^ n) by (rewrite Nat.pow_succ_r', Nat.mul_comm, Nat.div_mul; lia).
        replace (row_off b d r + b ^ S n) with (row_off b d (S r)) by (rewrite row_off_step; do 2 f_equal; lia).
        rewrite IHn; [|lia|lia|].
        2:{ intros Hle. destruct (HI ltac:(lia)) as (-> & -> & ->). split; [rewrite row_off_step; reflexivity|].
            assert (Q : b ^ (k - r) = b ^ (k - S r) * b) by (replace (k - r) with (S (k - S r)) by lia; rewrite Nat.pow_succ_r'; lia).
            split; rewrite Q, ?Nat.mul_assoc, Nat.div_mul; lia. }
        cbn [rbind seq flat_map map]. do 3 f_equal.
        rewrite <- (div_pow b Hb). unfold digit. f_equal. pose proof (Nat.div_mod (i / b ^ r) b ltac:(lia)). lia.
      + eapply kids_length; eauto; lia.
      + intros c Hc. assert (HKL : List.length (kids b els d r i) = b) by (eapply kids_length; eauto; lia).
        destruct (nth_error_ex (kids b els d r i) c) as [x Hx]; [lia|].
        exists x. split; [exact Hx|]. unfold kids in Hx. rewrite nth_error_sub in Hx.
        replace (c <? b) with true in Hx by lia. rewrite (div_pow b Hb).
        pose proof (kids_in_row b Hb d r i Hi ltac:(lia)) as KR.
        destruct ((row_off b d r + (i / b ^ S r * b + c) <? b ^ d) || (row_off b d k <=? row_off b d r + (i / b ^ S r * b + c))) eqn:GR.
        * apply Hrd; [lia|]. rewrite <- Hx. f_equal. lia.
        * assert (Hrk : r < k).
          { destruct (Nat.lt_ge_cases r k) as [|Hge]; [auto|]. exfalso.
            pose proof (row_off_mono b d k r Hge). apply orb_false_iff in GR. destruct GR as [_ GR]. apply Nat.leb_gt in GR. generalize (i / b ^ S r * b) H GR. lia. }
          destruct (HI ltac:(lia)) as (-> & -> & ->).
          assert (Q : b ^ (k - r) = b ^ (k - S r) * b) by (replace (k - r) with (S (k - S r)) by lia; rewrite Nat.pow_succ_r'; lia).
          assert (D : i / b ^ k = i / b ^ S r / b ^ (k - S r)).
          { rewrite Nat.div_div by (apply Nat.pow_nonzero; lia). rewrite <- Nat.pow_add_r. do 2 f_equal. lia. }
          pose proof (Nat.mul_div_le (i / b ^ S r) (b ^ (k - S r)) ltac:(apply Nat.pow_nonzero; lia)) as M1.
          pose proof (Nat.mul_succ_div_gt (i / b ^ S r) (b ^ (k - S r)) ltac:(apply Nat.pow_nonzero; lia)) as M2.
          rewrite <- D in M1, M2. set (x1 := i / b ^ S r) in *. set (qq := i / b ^ k) in *. set (w := b ^ (k - S r)) in *.
          assert (N1 : w * qq * b <= x1 * b) by (apply Nat.mul_le_mono_r; lia).
          assert (N2 : S x1 * b <= w * S qq * b) by (apply Nat.mul_le_mono_r; lia).
          rewrite Q. replace (qq * (w * b)) with (w * qq * b) by ring.
          rewrite checked_sub_ok by lia. cbn [rbind]. apply Hrdp.
          replace (row_off b k r + (x1 * b + c) - w * qq * b) with (row_off b k r + (x1 * b + c - w * qq * b)) by lia.
          assert (Hq : qq < b ^ (d - k)) by (apply (anc_lt b Hb); auto; lia).
          rewrite (sub_layout d k qq leaves els pels HL Hkd Hq HP r _ ltac:(lia)).
          -- rewrite <- Hx. f_equal. rewrite Q. replace (qq * (w * b)) with (w * qq * b) by ring. lia.
          -- rewrite Q. replace (w * S qq * b) with (w * qq * b + w * b) in N2 by ring. lia.
      + rewrite Nat.mul_comm. apply Nat.mul_div_le. lia.
      + pose proof (Nat.div_mod (i / b ^ r) b ltac:(lia)). pose proof (Nat.mod_upper_bound (i / b ^ r) b ltac:(lia)). lia.
  Qed.
  Lemma read_siblings_err (rd : nat -> res E) j : forall n s,
    (forall k, s <= k < s + n -> k <> j -> (exists x, rd k = Ok x) \/ exists e, rd k = Err e) ->
    (exists k, s <= k < s + n /\ k <> j /\ exists e, rd k = Err e) ->
    exists e, read_siblings rd j (seq s n) = Err e.
  Proof.
    induction n; intros s Ht (k & Hk & Hkj & e & He); [lia|]. cbn [seq read_siblings].
    assert (Hrest : s <> k -> exists e, read_siblings rd j (seq (S s) n) = Err e).
    { intros Hs. apply IHn; [intros k' Hk' Hj; apply Ht; lia|]. exists k. split; [lia|]. eauto. }
    destruct (s =? j) eqn:Q; [apply Hrest; lia|].
    destruct (Ht s ltac:(lia) ltac:(lia)) as [[x Hx]|[e' He']]; [|rewrite He'; eexists; reflexivity].
    rewrite Hx. cbn [rbind]. destruct (Nat.eq_dec s k) as [->|Hs]; [congruence|].
    destruct (Hrest Hs) as [e' He']. rewrite He'. eexists; reflexivity.
  Qed.
  Lemma read_siblings_total (rd : nat -> res E) j : forall n s,
    (forall k, s <= k < s + n -> k <> j -> (exists x, rd k = Ok x) \/ exists e, rd k = Err e) ->
    (exists l, read_siblings rd j (seq s n) = Ok l) \/ exists e, read_siblings rd j (seq s n) = Err e.
  Proof.
    induction n; intros s Ht; cbn [seq read_siblings]; [left; eexists; reflexivity|].
    assert (Hrest : (exists l, read_siblings rd j (seq (S s) n) = Ok l) \/ exists e, read_siblings rd j (seq (S s) n) = Err e).
    { apply IHn. intros k' Hk' Hj; apply Ht; lia. }
    destruct (s =? j) eqn:Q; [exact Hrest|].
    destruct (Ht s ltac:(lia) ltac:(lia)) as [[x Hx]|[e' He']]; [|right; rewrite He'; eexists; reflexivity].
    rewrite Hx. cbn [rbind]. destruct Hrest as [[l Hl]|[e He]]; [left; rewrite Hl|right; rewrite He]; eexists; reflexivity.
  Qed.

  (* index of a rebuilt node in the partial tree *)
  Lemma partial_index d k leaves els pels i r c x :
    Layout h b d leaves els -> k <= d -> i < b ^ d ->
    Layout h b k (sub leaves (i / b ^ k * b ^ k) (b ^ k)) pels -> r < k -> c < b ->
    nth_error els (row_off b d r + i / b ^ S r * b + c) = Some x ->
    exists ri, checked_sub (row_off b k r + (i / b ^ S r * b + c)) (i / b ^ k * b ^ (k - r)) = Ok ri /\ nth_error pels ri = Some x.
  Proof.
    intros HL Hkd Hi HP Hrk Hc Hx. pose proof (arity_ge b Hb) as H2.
    assert (Q : b ^ (k - r) = b ^ (k - S r) * b) by (replace (k - r) with (S (k - S r)) by lia; rewrite Nat.pow_succ_r'; lia).
    assert (D : i / b ^ k = i / b ^ S r / b ^ (k - S r)).
    { rewrite Nat.div_div by (apply Nat.pow_nonzero; lia). rewrite <- Nat.pow_add_r. do 2 f_equal. lia. }
    pose proof (Nat.mul_div_le (i / b ^ S r) (b ^ (k - S r)) ltac:(apply Nat.pow_nonzero; lia)) as M1.
    pose proof (Nat.mul_succ_div_gt (i / b ^ S r) (b ^ (k - S r)) ltac:(apply Nat.pow_nonzero; lia)) as M2.
    rewrite <- D in M1, M2. set (x1 := i / b ^ S r) in *. set (qq := i / b ^ k) in *. set (w := b ^ (k - S r)) in *.
    assert (N1 : w * qq * b <= x1 * b) by (apply Nat.mul_le_mono_r; lia).
    assert (N2 : S x1 * b <= w * S qq * b) by (apply Nat.mul_le_mono_r; lia).
    rewrite Q. replace (qq * (w * b)) with (w * qq * b) by ring.
    rewrite checked_sub_ok by lia. eexists. split; [reflexivity|].
    replace (row_off b k r + (x1 * b + c) - w * qq * b) with (row_off b k r + (x1 * b + c - w * qq * b)) by lia.
    assert (Hq : qq < b ^ (d - k)) by (apply (anc_lt b Hb); auto; lia).
    rewrite (sub_layout d k qq leaves els pels HL Hkd Hq HP r _ ltac:(lia)).
    - rewrite <- Hx. f_equal. rewrite Q. replace (qq * (w * b)) with (w * qq * b) by ring. lia.
    - rewrite Q. replace (w * S qq * b) with (w * qq * b + w * b) in N2 by ring. lia.
  Qed.

  Lemma partial_loop_err d k leaves els pels i (rd rdp : nat -> res E) r0 c0 :
    Layout h b d leaves els -> 1 <= k -> k <= d -> i < b ^ d ->
    Layout h b k (sub leaves (i / b ^ k * b ^ k) (b ^ k)) pels ->
    (forall p x, p < b ^ d -> nth_error els p = Some x -> rd p = Ok x) ->
    (forall p x, nth_error pels p = Some x -> rdp p = Ok x) ->
    (forall p, p < geom b d -> (exists x, rd p = Ok x) \/ exists e, rd p = Err e) ->
    k <= r0 -> r0 < d -> c0 < b -> c0 <> digit b r0 i ->
    (exists e, rd (row_off b d r0 + (i / b ^ S r0 * b + c0)) = Err e) ->
    forall n r fuel pb sw ss, r + n = d -> n < fuel -> r <= r0 ->
    (r <= k -> pb = row_off b k r /\ sw = b ^ (k - r) /\ ss = i / b ^ k * b ^ (k - r)) ->
    exists e, partial_loop b fuel rd rdp (log2_pow2 b) (geom b d) (b ^ d) (row_off b d k)
      (row_off b d r) (b ^ n) (i / b ^ r) pb sw ss = Err e.
  Proof.
    intros HL Hk1 Hkd Hi HP Hrd Hrdp Htot Hk0 H0d Hc0 Hdig [e0 He0]. pose proof (arity_ge b Hb) as H2.
    induction n; intros r fuel pb sw ss Hr Hf Hr0 HI; [lia|]. destruct fuel as [|fuel]; [lia|]; cbn [partial_loop].
    pose proof (geom_row_off b d r ltac:(lia)) as G. replace (d - r) with (S n) in G by lia.
    pose proof (geom_gt b (S n)) as G2. pose proof (Nat.pow_gt_lin_r b (S n) ltac:(lia)) as G3.
    replace (row_off b d r + 1 <? geom b d) with true by lia.
    pose proof (kids_in_row b Hb d r i Hi ltac:(lia)) as KR. pose proof (row_off_geom b d (S r) ltac:(lia)) as KG.
    rewrite (div_pow b Hb).
    match goal with |- context [read_siblings ?g ?j ?l] => set (g0 := g) end.
    assert (Tot : forall c, c < b -> (exists x, g0 (i / b ^ S r * b + c) = Ok x) \/ exists e, g0 (i / b ^ S r * b + c) = Err e).
    { intros c Hc. unfold g0. cbv zeta.
      destruct ((row_off b d r + (i / b ^ S r * b + c) <? b ^ d) || (row_off b d k <=? row_off b d r + (i / b ^ S r * b + c))) eqn:GR.
      - apply Htot. generalize dependent (i / b ^ S r * b). intros; lia.
      - left. assert (Hrk : r < k).
        { destruct (Nat.lt_ge_cases r k) as [|Hge]; [auto|]. exfalso.
          pose proof (row_off_mono b d k r Hge) as M. apply orb_false_iff in GR. destruct GR as [_ GR]. apply Nat.leb_gt in GR.
          generalize (i / b ^ S r * b) M GR. lia. }
        destruct (HI ltac:(lia)) as (-> & -> & ->).
        destruct HL as (L1 & L2 & L3).
        destruct (nth_error_ex els (row_off b d r + i / b ^ S r * b + c)) as [x Hx]; [generalize dependent (i / b ^ S r * b); intros; lia|].
        destruct (partial_index d k leaves els pels i r c x (conj L1 (conj L2 L3)) Hkd Hi HP Hrk Hc Hx) as (ri & C1 & C2).
        rewrite C1. cbn [rbind]. eauto. }
    assert (Tot' : forall kk, i / b ^ S r * b <= kk < i / b ^ S r * b + b -> kk <> i / b ^ r -> (exists x, g0 kk = Ok x) \/ exists e, g0 kk = Err e).
    { intros kk Hkk _. replace kk with (i / b ^ S r * b + (kk - i / b ^ S r * b)) by lia. apply Tot. lia. }
    destruct (Nat.eq_dec r r0) as [->|Hne].
    - destruct (read_siblings_err g0 (i / b ^ r0) b (i / b ^ S r0 * b) Tot') as [e He].
      + exists (i / b ^ S r0 * b + c0). split; [lia|]. split.
        * intros Heq. apply Hdig. unfold digit. rewrite <- Heq. rewrite Nat.add_comm, Nat.mod_add, Nat.mod_small by lia. reflexivity.
        * exists e0. unfold g0. cbv zeta.
          assert (row_off b d k <= row_off b d r0 + (i / b ^ S r0 * b + c0)) by (eapply Nat.le_trans; [exact (row_off_mono b d k r0 Hk0)|apply Nat.le_add_r]).
          replace ((row_off b d r0 + (i / b ^ S r0 * b + c0) <? b ^ d) || (row_off b d k <=? row_off b d r0 + (i / b ^ S r0 * b + c0))) with true; [exact He0|].
          symmetry. apply orb_true_iff. right. apply Nat.leb_le. exact H.
      + rewrite He. eexists. reflexivity.
    - destruct (read_siblings_total g0 (i / b ^ r) b (i / b ^ S r * b) Tot') as [[l Hl]|[e He]]; [|rewrite He; eexists; reflexivity].
      rewrite Hl. cbn [rbind]. rewrite !arity_shift by auto. rewrite (div_pow b Hb).
      replace (b ^ S n / b) with (b ^ n) by (rewrite Nat.pow_succ_r', Nat.mul_comm, Nat.div_mul; lia).
      replace (row_off b d r + b ^ S n) with (row_off b d (S r)) by (rewrite row_off_step; do 2 f_equal; lia).
      destruct (IHn (S r) fuel (pb + sw) (sw / b) (ss / b)) as [e He]; [lia|lia|lia| |rewrite He; eexists; reflexivity].
      intros Hle. destruct (HI ltac:(lia)) as (-> & -> & ->). split; [rewrite row_off_step; reflexivity|].
      assert (Q : b ^ (k - r) = b ^ (k - S r) * b) by (replace (k - r) with (S (k - S r)) by lia; rewrite Nat.pow_succ_r'; lia).
      split; rewrite Q, ?Nat.mul_assoc, Nat.div_mul; lia.
  Qed.
End Partial.

Section CachedBase.
  Context {E : Type} (EO : ElementOps E) (EL : ElementLaws EO) (SO : StoreOps E).
  Local Notation T := (st_t SO).
  Local Notation bl := (e_byte_len EO).
  Variable A : AlgOps E.
  Variable en : env.
  Variable b : nat.
  Hypothesis Hb : arity b.
  Hypothesis Hch : chunk_ok en b.

  (* rows_to_discard as used by gen_cached_proof *)
  Definition capped (d : nat) (rows : option nat) : nat :=
    match rows with
    | Some r => Nat.min r (default_rows_to_discard (b ^ d) b)
    | None => default_rows_to_discard (b ^ d) b
    end.

  Lemma capped_lt d rows : 1 <= d -> capped d rows < d.
  Proof.
    intros Hd. unfold capped. rewrite default_rows_full by auto.
    destruct rows; destruct (b =? 2); destruct (b =? 4); lia.
  Qed.

  (* the index of the first cached element *)
  Lemma cis_row_off d R : R < d -> geom b d - geom b (d - 1 - R) = row_off b d (S R).
  Proof. intros H. rewrite (geom_row_off b d (S R) ltac:(lia)). replace (d - 1 - R) with (d - S R) by lia. lia. Qed.

  Lemma partial_tree_ok leaves k f : 1 <= k -> List.length leaves = b ^ k ->
    exists root, build_partial_tree EO A en b leaves (b ^ k) (S k) f =
      Ok (mk_tree (BaseTree (all_rows A b leaves k)) (b ^ k) (geom b k) (S k) root).
  Proof.
    intros Hk HL. pose proof (arity_ge b Hb) as H2.
    destruct (sl_build_ok _ _ _ _ _ _ (vec_laws EO EL) en A b leaves k None (nth_error leaves) (leaves, f) Hb Hk HL Hch I)
      as (root & st' & B1 & B2 & B3 & _).
    { split; [exact HL|auto]. }
    { intros j Hj. reflexivity. }
    exists root. unfold build_partial_tree. change (vec_build EO) with (st_build (vec_store EO)).
    rewrite B1. destruct st' as [l f']. destruct B3 as [B4 B5]. cbn [fst] in B4, B5.
    assert (HA : List.length (all_rows A b leaves k) = geom b k).
    { apply (all_rows_Layout A b ltac:(lia)); auto. }
    assert (l = all_rows A b leaves k) as ->.
    { apply list_ext; [congruence|]. intros j Hj. destruct (nth_error_ex (all_rows A b leaves k) j ltac:(lia)) as [x Hx].
      rewrite Hx. apply B5. exact Hx. }
    rewrite get_merkle_tree_len_full by auto. cbn [rbind]. rewrite HA, Nat.eqb_refl. cbn [ensure rbind].
    rewrite size_valid_full by auto. reflexivity.
  Qed.

  (* everything up to the sibling loop succeeds *)
  Lemma gen_cached_proof_base_eq t s f d leaves i x rows :
    1 <= d -> mt_leafs t = b ^ d -> mt_len SO t = geom b d -> mt_row_count t = S d ->
    List.length leaves = b ^ d -> i < b ^ d -> st_read_at SO (s, f) i = Ok x ->
    (let w := b ^ S (capped d rows) in
     st_read_range_into SO (s, f) (i / w * w) (i / w * w + w) (repeat x00 (w * bl)) =
       Ok (encode EO (sub leaves (i / w * w) w))) ->
    let k := S (capped d rows) in let w := b ^ k in
    exists proot,
    gen_cached_proof_base EO SO A en b 0 0 t s f i rows =
      (do (sibs, path) <-
         partial_loop b (S (geom b d)) (fun idx => st_read_at SO (s, f) idx)
           (fun idx => mt_read_at (vec_store EO) 0 0
              (mk_tree (BaseTree (all_rows A b (sub leaves (i / w * w) w) k)) w (geom b k) (S k) proot) f idx)
           (log2_pow2 b) (geom b d) (b ^ d) (row_off b d k) 0 (b ^ d) i 0 w (i / w * w);
       let lemma := x :: sibs ++ [mt_root t] in
       do _ <- ensure (List.length lemma =? 2 + (b - 1) * d) "Invalid proof lemma length";
       do _ <- ensure (List.length path =? d) "Invalid proof path length";
       proof_new b 0 0 None lemma path) /\
    List.length (sub leaves (i / w * w) w) = w.
  Proof.
    intros Hd T3 T4 T5 L1 Hi Hx Hrr. cbv zeta in Hrr |- *. pose proof (arity_ge b Hb) as H2.
    pose proof (capped_lt d rows Hd) as HR.
    unfold gen_cached_proof_base. rewrite T3, T5.
    match goal with |- context [get_merkle_tree_cache_size _ _ ?r] => change r with (capped d rows) end.
    set (R := capped d rows) in *. set (w := b ^ S R) in *.
    replace (i <? b ^ d) with true by lia. cbn [ensure rbind].
    replace (b ^ d =? next_pow2 (b ^ d)) with true by (symmetry; apply next_pow2_eqb', pow2_pow, arity_pow2; auto).
    cbn [ensure rbind]. rewrite get_merkle_tree_len_full by (auto; lia). cbn [rbind].
    rewrite cache_size_full by auto. cbn [rbind].
    pose proof (geom_row_off b d (S R) ltac:(lia)) as G. pose proof (cis_row_off d R HR) as CI.
    replace (d - 1 - R) with (d - S R) in * by lia.
    assert (HwP : 0 < w) by (unfold w; pose proof (Nat.pow_nonzero b (S R) ltac:(lia)); lia).
    assert (H0 : 0 < row_off b d (S R)).
    { rewrite row_off_step. pose proof (Nat.pow_nonzero b (d - R) ltac:(lia)). lia. }
    replace (geom b (d - S R) <? geom b d) with true by lia. cbn [ensure rbind].
    rewrite get_merkle_tree_leafs_full by auto. cbn [rbind].
    replace (b ^ (d - S R) =? next_pow2 (b ^ (d - S R))) with true by (symmetry; apply next_pow2_eqb', pow2_pow, arity_pow2; auto).
    cbn [ensure rbind]. rewrite row_count_full by auto. rewrite checked_sub_ok by lia. cbn [rbind].
    assert (Hw : b ^ d / b ^ (d - S R) = w).
    { replace d with (S R + (d - S R)) at 1 by lia. rewrite Nat.pow_add_r, Nat.div_mul; [reflexivity|].
      apply Nat.pow_nonzero. lia. }
    rewrite Hw. replace (w =? 0) with false by lia. rewrite Hrr. cbn [rbind].
    assert (Hq : i / w < b ^ (d - S R)) by (apply (anc_lt b Hb); auto).
    assert (Hdw : b ^ d = b ^ (d - S R) * w).
    { unfold w. rewrite <- Nat.pow_add_r. f_equal. lia. }
    assert (Hsl : List.length (sub leaves (i / w * w) w) = w).
    { apply sub_length_le. rewrite L1. assert (S (i / w) * w <= b ^ (d - S R) * w) by (apply Nat.mul_le_mono_r; lia). lia. }
    unfold vec_new_from_slice. cbn [fst]. rewrite decode_exact_encode by auto. cbn [rbind].
    rewrite Hsl. rewrite checked_sub_ok by lia. cbn [rbind]. rewrite Hsl, Nat.eqb_refl. cbn [ensure rbind].
    unfold w at 1. rewrite get_merkle_tree_len_full by (auto; lia). cbn [rbind].
    replace (S d - S (d - S R) + 1) with (S (S R)) by lia.
    destruct (partial_tree_ok (sub leaves (i / w * w) w) (S R) f ltac:(lia) Hsl) as (proot & HPT).
    exists proot. split; [|first [exact Hsl | reflexivity]].
    fold w in HPT. rewrite HPT. cbn [rbind mt_row_count]. rewrite Nat.eqb_refl. cbn [ensure rbind].
    (* the proof itself *)
    unfold gen_proof_with_partial_tree. rewrite T3, T5, T4.
    replace (i <? b ^ d) with true by lia. cbn [ensure rbind].
    replace (b ^ d =? next_pow2 (b ^ d)) with true by (symmetry; apply next_pow2_eqb', pow2_pow, arity_pow2; auto).
    rewrite (arity_next b Hb), Nat.eqb_refl. cbn [ensure rbind].
    rewrite get_merkle_tree_len_full by (auto; lia). cbn [rbind]. rewrite cache_size_full by auto. cbn [rbind].
    replace (d - 1 - R) with (d - S R) by lia.
    rewrite checked_sub_ok by lia. cbn [rbind]. rewrite get_merkle_tree_leafs_full by auto. cbn [rbind].
    replace (b ^ (d - S R) =? next_pow2 (b ^ (d - S R))) with true by (symmetry; apply next_pow2_eqb', pow2_pow, arity_pow2; auto).
    cbn [ensure rbind]. rewrite Hw, CI. replace (w =? 0) with false by lia.
    rewrite lemma_len_ok by lia. cbn [rbind]. rewrite checked_sub_ok by lia. cbn [rbind Nat.eqb ensure].
    rewrite Hx. cbn [rbind]. replace (S d - 1) with d by lia. reflexivity.
  Qed.

  Lemma rdp_ok (pels : list E) w l rc proot f p y : nth_error pels p = Some y ->
    mt_read_at (vec_store EO) 0 0 (mk_tree (BaseTree pels) w l rc proot) f p = Ok y.
  Proof.
    intros Hy. unfold mt_read_at. cbn [mt_read_at_n mt_data vec_store st_read_at]. unfold vec_read_at, rnth. cbn [fst].
    rewrite Hy. reflexivity.
  Qed.

  Lemma gen_cached_proof_base_ok t s f d leaves els i rows :
    1 <= d -> mt_leafs t = b ^ d -> mt_len SO t = geom b d -> mt_row_count t = S d ->
    Layout (h_node A) b d leaves els -> nth_error els (geom b d - 1) = Some (mt_root t) -> i < b ^ d ->
    (forall k x, k < b ^ d \/ row_off b d (S (capped d rows)) <= k -> nth_error els k = Some x ->
       st_read_at SO (s, f) k = Ok x) ->
    (let w := b ^ S (capped d rows) in
     st_read_range_into SO (s, f) (i / w * w) (i / w * w + w) (repeat x00 (w * bl)) =
       Ok (encode EO (sub leaves (i / w * w) w))) ->
    gen_cached_proof_base EO SO A en b 0 0 t s f i rows = Ok (canon b els d i).
  Proof.
    intros Hd T3 T4 T5 T6 T7 Hi Hrd Hrr. pose proof (arity_ge b Hb) as H2.
    pose proof (capped_lt d rows Hd) as HR. pose proof T6 as (L1 & L2 & L3). pose proof (geom_gt b d).
    destruct (nth_error_ex els i ltac:(lia)) as [x Hx].
    destruct (gen_cached_proof_base_eq t s f d leaves i x rows Hd T3 T4 T5 L1 Hi (Hrd i x ltac:(lia) Hx) Hrr) as (proot & -> & Hsl).
    clear Hrr. set (R := capped d rows) in *. set (w := b ^ S R) in *.
    pose proof (all_rows_Layout A b ltac:(lia) (sub leaves (i / w * w) w) (S R) Hsl) as HP.
    pose proof (partial_loop_spec b Hb (h_node A) d (S R) leaves els _ i
       (fun idx => st_read_at SO (s, f) idx)
       (fun idx => mt_read_at (vec_store EO) 0 0 (mk_tree (BaseTree (all_rows A b (sub leaves (i / w * w) w) (S R))) w (geom b (S R)) (S (S R)) proot) f idx)
       T6 ltac:(lia) ltac:(lia) Hi HP Hrd) as PL.
    specialize (PL ltac:(intros p y Hy; apply rdp_ok; exact Hy)).
    specialize (PL d 0 (S (geom b d)) 0 w (i / w * w) eq_refl).
    change (row_off b d 0) with 0 in PL. change (b ^ 0) with 1 in PL. rewrite Nat.div_1_r in PL.
    rewrite PL.
    2:{ pose proof (Nat.pow_gt_lin_r b d ltac:(lia)). lia. }
    2:{ intros _. rewrite Nat.sub_0_r. auto. }
    cbn [rbind]. cbv zeta. rewrite <- (lemma_of_eq b d els i x (mt_root t) Hi Hx T7).
    rewrite (lemma_of_length b Hb d leaves els _ T6 i Hi). rewrite Nat.eqb_refl. cbn [ensure rbind].
    fold (path_of b d i). rewrite path_of_length, Nat.eqb_refl. cbn [ensure rbind].
    unfold proof_new. cbn [Nat.eqb andb]. rewrite (lemma_of_length b Hb d leaves els _ T6 i Hi).
    replace (2 <? 2 + (b - 1) * d) with true.
    2:{ symmetry. apply Nat.ltb_lt. assert (1 * 1 <= (b - 1) * d) by (apply Nat.mul_le_mono; lia). lia. }
    cbn [ensure rbind]. rewrite path_of_length, lemma_len_ok by lia. cbn [rbind].
    rewrite Nat.add_sub, Nat.eqb_refl. reflexivity.
  Qed.

  (* a row above the partial tree cannot be read: the request is refused *)
  Lemma gen_cached_proof_base_err t s f d leaves els i rows r0 c0 :
    1 <= d -> mt_leafs t = b ^ d -> mt_len SO t = geom b d -> mt_row_count t = S d ->
    Layout (h_node A) b d leaves els -> i < b ^ d ->
    (forall k x, k < b ^ d -> nth_error els k = Some x -> st_read_at SO (s, f) k = Ok x) ->
    (forall k, k < geom b d -> (exists x, st_read_at SO (s, f) k = Ok x) \/ exists e, st_read_at SO (s, f) k = Err e) ->
    S (capped d rows) <= r0 -> r0 < d -> c0 < b -> c0 <> digit b r0 i ->
    (exists e, st_read_at SO (s, f) (row_off b d r0 + (i / b ^ S r0 * b + c0)) = Err e) ->
    (let w := b ^ S (capped d rows) in
     st_read_range_into SO (s, f) (i / w * w) (i / w * w + w) (repeat x00 (w * bl)) =
       Ok (encode EO (sub leaves (i / w * w) w))) ->
    exists e, gen_cached_proof_base EO SO A en b 0 0 t s f i rows = Err e.
  Proof.
    intros Hd T3 T4 T5 T6 Hi Hrd Htot Hr0 Hr0d Hc0 Hdig Herr Hrr. pose proof (arity_ge b Hb) as H2.
    pose proof (capped_lt d rows Hd) as HR. pose proof T6 as (L1 & L2 & L3). pose proof (geom_gt b d).
    destruct (nth_error_ex els i ltac:(lia)) as [x Hx].
    destruct (gen_cached_proof_base_eq t s f d leaves i x rows Hd T3 T4 T5 L1 Hi (Hrd i x ltac:(lia) Hx) Hrr) as (proot & -> & Hsl).
    clear Hrr. set (R := capped d rows) in *. set (w := b ^ S R) in *.
    pose proof (all_rows_Layout A b ltac:(lia) (sub leaves (i / w * w) w) (S R) Hsl) as HP.
    pose proof (partial_loop_err b Hb (h_node A) d (S R) leaves els _ i
       (fun idx => st_read_at SO (s, f) idx)
       (fun idx => mt_read_at (vec_store EO) 0 0 (mk_tree (BaseTree (all_rows A b (sub leaves (i / w * w) w) (S R))) w (geom b (S R)) (S (S R)) proot) f idx)
       r0 c0 T6 ltac:(lia) ltac:(lia) Hi HP Hrd) as PL.
    specialize (PL ltac:(intros p y Hy; apply rdp_ok; exact Hy) Htot Hr0 Hr0d Hc0 Hdig Herr).
    specialize (PL d 0 (S (geom b d)) 0 w (i / w * w) eq_refl).
    change (row_off b d 0) with 0 in PL. change (b ^ 0) with 1 in PL. rewrite Nat.div_1_r in PL.
    destruct PL as [e He].
    - pose proof (Nat.pow_gt_lin_r b d ltac:(lia)). lia.
    - lia.
    - intros _. rewrite Nat.sub_0_r. auto.
    - rewrite He. eexists. reflexivity.
  Qed.
End CachedBase.
