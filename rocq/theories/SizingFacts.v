(* Facts about Sizing.v *)
From Coq Require Import String List Arith Bool Lia NArith ZifyBool ZifyNat.
From Verif Require Import Base Spec Sizing ListFacts SpecFacts.
Import ListNotations.

Lemma shiftr_div n s : Nat.shiftr n s = n / 2 ^ s.
Proof. apply Nat.shiftr_div_pow2. Qed.
Lemma shiftl_mul n s : Nat.shiftl n s = n * 2 ^ s.
Proof. apply Nat.shiftl_mul_pow2. Qed.

Lemma next_pow2_pow k : next_pow2 (2 ^ k) = 2 ^ k.
Proof.
  unfold next_pow2. rewrite Nat.log2_up_pow2 by lia. reflexivity.
Qed.
Lemma next_pow2_spec n : next_pow2 n = n <-> pow2 n.
Proof.
  split.
  - intros H. exists (Nat.log2_up n). symmetry. exact H.
  - intros [k ->]. apply next_pow2_pow.
Qed.
Lemma next_pow2_eqb n : (next_pow2 n =? n) = true <-> pow2 n.
Proof. rewrite Nat.eqb_eq. apply next_pow2_spec. Qed.
Lemma next_pow2_eqb' n : (n =? next_pow2 n) = true <-> pow2 n.
Proof. rewrite Nat.eqb_eq. rewrite <- next_pow2_spec. split; congruence. Qed.
Lemma next_pow2_neqb n : (next_pow2 n =? n) = false <-> ~ pow2 n.
Proof. rewrite Nat.eqb_neq, next_pow2_spec. reflexivity. Qed.
Lemma next_pow2_neqb' n : (n =? next_pow2 n) = false <-> ~ pow2 n.
Proof. rewrite Nat.eqb_neq. rewrite <- next_pow2_spec. split; congruence. Qed.

Lemma pow2_pos n : pow2 n -> 0 < n.
Proof. intros [k ->]. apply pow_pos. lia. Qed.

Lemma tz_fuel_pow k fuel : k < fuel -> tz_fuel fuel (2 ^ k) = k.
Proof.
  revert fuel; induction k; intros fuel Hf; (destruct fuel; [lia|]).
  - reflexivity.
  - cbn [tz_fuel]. rewrite Nat.even_pow by lia. change (Nat.even 2) with true. cbn iota.
    replace (2 ^ S k) with (2 ^ k * 2) by (simpl; lia).
    rewrite Nat.div_mul by lia. rewrite IHk by lia. reflexivity.
Qed.
Lemma pow2_gt k : k < 2 ^ k.
Proof. apply Nat.pow_gt_lin_r. lia. Qed.
Lemma trailing_zeros_pow k : trailing_zeros (2 ^ k) = k.
Proof.
  unfold trailing_zeros. pose proof (pow_pos 2 k ltac:(lia)).
  replace (2 ^ k =? 0) with false by lia. apply tz_fuel_pow. apply pow2_gt.
Qed.
Lemma log2_pow2_pow k : log2_pow2 (2 ^ k) = k.
Proof. apply trailing_zeros_pow. Qed.

(* arity: a power of two that is at least two *)
Definition arity (b : nat) : Prop := exists s, 1 <= s /\ b = 2 ^ s.

Lemma arity_ge b : arity b -> 2 <= b.
Proof.
  intros [s [Hs ->]]. destruct s; [lia|]. simpl. pose proof (pow_pos 2 s ltac:(lia)). lia.
Qed.
Lemma arity_pow2 b : arity b -> pow2 b.
Proof. intros [s [Hs ->]]. exists s. reflexivity. Qed.
Lemma arity_intro b : pow2 b -> 2 <= b -> arity b.
Proof. intros [s ->] H. exists s. split; auto. destruct s; simpl in *; lia. Qed.
Lemma arity_shift b n : arity b -> Nat.shiftr n (log2_pow2 b) = n / b.
Proof. intros [s [Hs ->]]. rewrite log2_pow2_pow. apply shiftr_div. Qed.
Lemma arity_shiftl b n : arity b -> Nat.shiftl n (log2_pow2 b) = n * b.
Proof. intros [s [Hs ->]]. rewrite log2_pow2_pow. apply shiftl_mul. Qed.
Lemma arity_log_pos b : arity b -> 1 <= log2_pow2 b.
Proof. intros [s [Hs ->]]. rewrite log2_pow2_pow. exact Hs. Qed.
Lemma arity_next b : arity b -> next_pow2 b = b.
Proof. intros H. apply next_pow2_spec. apply arity_pow2. auto. Qed.
Lemma pow2_pow b k : pow2 b -> pow2 (b ^ k).
Proof. intros [s ->]. exists (s * k). rewrite Nat.pow_mul_r. reflexivity. Qed.
Lemma pow2_mul a b : pow2 a -> pow2 b -> pow2 (a * b).
Proof. intros [s ->] [t ->]. exists (s + t). rewrite Nat.pow_add_r. reflexivity. Qed.

(* every power of two is m * b^q with m a power of two below b *)
Lemma pow2_decomp b n : arity b -> pow2 n ->
  exists m q, n = m * b ^ q /\ pow2 m /\ m < b.
Proof.
  intros [s [Hs ->]] [k ->]. exists (2 ^ (k mod s)), (k / s). repeat split.
  - rewrite <- Nat.pow_mul_r, <- Nat.pow_add_r. f_equal.
    pose proof (Nat.div_mod k s ltac:(lia)). lia.
  - exists (k mod s). reflexivity.
  - apply Nat.pow_lt_mono_r; [lia|]. apply Nat.mod_upper_bound. lia.
Qed.

Lemma div_step m b q : 0 < b -> m * b ^ S q / b = m * b ^ q.
Proof. intros Hb. replace (m * b ^ S q) with (m * b ^ q * b) by (simpl; lia). apply Nat.div_mul. lia. Qed.

Lemma mul_pow_S m b q : m * b ^ S q = m * b ^ q * b.
Proof. simpl. ring. Qed.
Lemma mul_pow_ge m b q : 0 < m -> 0 < b -> b <= m * b ^ S q.
Proof.
  intros Hm Hb. rewrite mul_pow_S. pose proof (pow_pos b q Hb).
  assert (1 <= m * b ^ q) by nia. nia.
Qed.
Lemma mul_pow_ge1 m b q : 0 < m -> 0 < b -> 1 <= m * b ^ q.
Proof. intros Hm Hb. pose proof (pow_pos b q Hb). nia. Qed.

Lemma decomp_ge m b q : pow2 m -> m < b -> b <= m * b ^ q <-> 1 <= q.
Proof.
  intros Hm Hb. apply pow2_pos in Hm. split; intros H.
  - destruct q; simpl in *; lia.
  - destruct q; [lia|]. pose proof (pow_pos b q ltac:(lia)).
    replace (m * b ^ S q) with (m * b ^ q * b) by (simpl; ring).
    assert (1 <= m * b ^ q) by nia. nia.
Qed.

(* unique decomposition *)
Lemma decomp_full b m q d : 2 <= b -> 0 < m < b -> m * b ^ q = b ^ d -> m = 1 /\ q = d.
Proof.
  intros Hb Hm H.
  destruct (Nat.lt_trichotomy q d) as [L|[L|L]].
  - exfalso. replace d with (q + S (d - q - 1)) in H by lia.
    rewrite Nat.pow_add_r in H. pose proof (pow_pos b q ltac:(lia)).
    assert (m = b ^ S (d - q - 1)) by nia. simpl in H1.
    pose proof (pow_pos b (d - q - 1) ltac:(lia)). nia.
  - subst. pose proof (pow_pos b d ltac:(lia)). split; auto. nia.
  - exfalso. pose proof (Nat.pow_lt_mono_r b d q ltac:(lia) L). nia.
Qed.

(* ------------------------------------------------------------------ *)
(* get_merkle_tree_len *)
Lemma len_loop_ok s leafs m q : forall fuel cur acc,
  1 <= s -> 0 < m < 2 ^ s -> cur = m * (2 ^ s) ^ q -> cur <= leafs -> q + 2 <= fuel ->
  len_loop fuel s leafs cur acc = Ok (acc + m * geom (2 ^ s) q - cur).
Proof.
  induction q; intros fuel cur acc Hs Hm Hc Hl Hf.
  - destruct fuel as [|[|f]]; try lia. simpl in Hc. rewrite Nat.mul_1_r in Hc. subst cur.
    cbn [len_loop]. replace (0 <? m) with true by lia. rewrite shiftr_div.
    rewrite Nat.div_small by lia. replace (0 <? leafs) with true by lia.
    cbn [ensure rbind]. replace (0 <? 0) with false by lia. f_equal. simpl geom. lia.
  - destruct fuel as [|f]; try lia.
    pose proof (pow_pos (2 ^ s) q ltac:(pose proof (pow_pos 2 s); lia)) as Hp.
    assert (Hb : 2 <= 2 ^ s). { apply arity_ge. exists s. auto. }
    assert (Hc' : cur = m * (2 ^ s) ^ q * 2 ^ s) by (subst cur; simpl; ring).
    cbn [len_loop]. replace (0 <? cur) with true by nia.
    assert (Hd : Nat.shiftr cur s = m * (2 ^ s) ^ q).
    { rewrite shiftr_div, Hc. apply div_step. lia. }
    rewrite Hd.
    replace (m * (2 ^ s) ^ q <? leafs) with true by nia.
    cbn [ensure rbind]. rewrite (IHq f (m * (2 ^ s) ^ q) _); auto; try nia; try lia.
    f_equal. simpl geom. nia.
Qed.

Lemma get_merkle_tree_len_decomp b m q :
  arity b -> pow2 m -> m < b -> 1 <= q ->
  get_merkle_tree_len (m * b ^ q) b = Ok (m * geom b q).
Proof.
  intros Hb Hm Hmb Hq. unfold get_merkle_tree_len.
  pose proof (pow2_pos _ Hm) as Hm0.
  replace (b <=? m * b ^ q) with true by (pose proof (proj2 (decomp_ge m b q Hm Hmb) Hq); lia).
  cbn [ensure rbind].
  replace (b =? next_pow2 b) with true by (rewrite arity_next; auto; lia). cbn [ensure rbind].
  destruct (b =? 2) eqn:E2.
  - assert (b = 2) by lia. subst b. assert (m = 1) by lia. subst m.
    rewrite !Nat.mul_1_l.
    replace (2 ^ q =? next_pow2 (2 ^ q)) with true by (rewrite next_pow2_pow; lia).
    cbn [ensure rbind]. unfold checked_sub. pose proof (pow_pos 2 q ltac:(lia)).
    replace (1 <=? 2 * 2 ^ q) with true by lia. rewrite geom_2. reflexivity.
  - pose proof (arity_log_pos b Hb). replace (log2_pow2 b =? 0) with false by lia.
    destruct Hb as [s [Hs ->]]. rewrite log2_pow2_pow.
    rewrite (len_loop_ok s _ m q); auto; try lia.
    + f_equal. pose proof (geom_gt (2 ^ s) q). nia.
    + assert (q < (2 ^ s) ^ q).
      { apply Nat.pow_gt_lin_r. pose proof (arity_ge (2 ^ s)). assert (arity (2^s)) by (exists s; auto). specialize (H0 H1). lia. }
      nia.
Qed.

Lemma get_merkle_tree_len_full b d :
  arity b -> 1 <= d -> get_merkle_tree_len (b ^ d) b = Ok (geom b d).
Proof.
  intros Hb Hd. pose proof (arity_ge b Hb).
  replace (b ^ d) with (1 * b ^ d) by lia.
  rewrite get_merkle_tree_len_decomp; auto; [f_equal; lia|exists 0; reflexivity].
Qed.

Lemma get_merkle_tree_len_small n b : n < b -> exists m, get_merkle_tree_len n b = Err m.
Proof.
  intros H. unfold get_merkle_tree_len. replace (b <=? n) with false by lia. eexists; reflexivity.
Qed.
Lemma get_merkle_tree_len_badarity n b : ~ pow2 b -> exists m, get_merkle_tree_len n b = Err m.
Proof.
  intros H. unfold get_merkle_tree_len. destruct (b <=? n); [|eexists; reflexivity].
  cbn [ensure rbind]. apply next_pow2_neqb' in H. rewrite H. eexists; reflexivity.
Qed.

(* ------------------------------------------------------------------ *)
(* row count *)
Lemma ilog_fuel_ok b m q : forall fuel,
  2 <= b -> 0 < m < b -> q < fuel -> ilog_fuel fuel b (m * b ^ q) = q.
Proof.
  induction q; intros fuel Hb Hm Hf; (destruct fuel; [lia|]); cbn [ilog_fuel].
  - replace (m * b ^ 0 <? b) with true by (simpl; lia). reflexivity.
  - rewrite div_step by lia. pose proof (pow_pos b q ltac:(lia)).
    pose proof (mul_pow_ge m b q ltac:(lia) ltac:(lia)).
    replace (m * b ^ S q <? b) with false by lia.
    rewrite IHq by lia. reflexivity.
Qed.

Lemma row_count_decomp b m q :
  arity b -> pow2 m -> m < b -> get_merkle_tree_row_count (m * b ^ q) b = S q.
Proof.
  intros Hb Hm Hmb. pose proof (arity_ge b Hb) as H2. pose proof (pow2_pos _ Hm).
  unfold get_merkle_tree_row_count.
  destruct (b =? 2) eqn:E2.
  - assert (b = 2) by lia. subst b. assert (m = 1) by lia. subst m.
    replace (1 * 2 ^ q * 2) with (2 ^ S q) by (simpl; lia). apply trailing_zeros_pow.
  - replace (b =? 0) with false by lia. replace (b =? 1) with false by lia.
    pose proof (pow_pos b q ltac:(lia)).
    pose proof (mul_pow_ge1 m b q ltac:(lia) ltac:(lia)).
    replace (m * b ^ q =? 0) with false by lia.
    unfold ilog. replace (b * (m * b ^ q)) with (m * b ^ S q) by (simpl; ring).
    apply ilog_fuel_ok; try lia.
    assert (S q < b ^ S q) by (apply Nat.pow_gt_lin_r; lia). nia.
Qed.
Lemma row_count_full b d : arity b -> get_merkle_tree_row_count (b ^ d) b = S d.
Proof.
  intros Hb. pose proof (arity_ge b Hb). replace (b ^ d) with (1 * b ^ d) by lia.
  apply row_count_decomp; auto; [exists 0; reflexivity].
Qed.

(* ------------------------------------------------------------------ *)
(* cache size *)
Lemma cache_loop_ok s n : forall k fuel base cs,
  1 <= s -> n <= k -> n < fuel ->
  cs = geom (2 ^ s) k ->
  cache_loop fuel s (base + n) base cs ((2 ^ s) ^ k) =
  if n =? 0 then Ok cs else if k <? n then Ok 0 else Ok (geom (2 ^ s) (k - n)).
Proof.
  induction n; intros k fuel base cs Hs Hk Hf Hcs; (destruct fuel; [lia|]); cbn [cache_loop].
  - replace (base <? base + 0) with false by lia. reflexivity.
  - replace (base <? base + S n) with true by lia.
    destruct k; [lia|]. rename k into k'.
    unfold checked_sub at 1. subst cs.
    replace ((2 ^ s) ^ S k' <=? geom (2 ^ s) (S k')) with true by (pose proof (geom_gt (2 ^ s) (S k')); lia).
    cbn [rbind]. unfold checked_sub at 1.
    replace (1 <=? base + S n) with true by lia. cbn [rbind].
    replace (base + S n - 1) with (base + n) by lia.
    rewrite shiftr_div. replace ((2 ^ s) ^ S k' / 2 ^ s) with ((2 ^ s) ^ k').
    2:{ replace ((2 ^ s) ^ S k') with (1 * (2 ^ s) ^ S k') by lia. rewrite div_step; [lia|].
        apply pow_pos. lia. }
    rewrite IHn with (k := k'); auto; try lia.
    + replace (S n =? 0) with false by lia.
      replace (S k' <? S n) with false by lia. replace (k' <? n) with false by lia.
      destruct (n =? 0) eqn:E; [|reflexivity].
      assert (n = 0) by lia. subst n. f_equal. replace (S k' - 1) with k' by lia. cbn [geom]. lia.
    + cbn [geom]. lia.
Qed.

Lemma cache_size_full b k r :
  arity b -> r < k -> get_merkle_tree_cache_size (b ^ k) b r = Ok (geom b (k - 1 - r)).
Proof.
  intros Hb Hr. unfold get_merkle_tree_cache_size.
  rewrite get_merkle_tree_len_full, row_count_full by (auto; lia).
  cbn [rbind]. unfold checked_sub at 1. replace (1 <=? S k) with true by lia. cbn [rbind].
  replace (S k - 1) with k by lia. replace (r <? k) with true by lia. cbn [ensure rbind].
  unfold checked_sub at 1. replace (r <=? k) with true by lia. cbn [rbind].
  destruct Hb as [s [Hs ->]]. rewrite log2_pow2_pow.
  replace (S k) with ((k - r) + S r) at 1 by lia.
  rewrite (cache_loop_ok s (S r) k) by (auto; lia).
  replace (S r =? 0) with false by lia. replace (k <? S r) with false by lia.
  do 2 f_equal. lia.
Qed.

Lemma cache_size_bad b k r :
  arity b -> 1 <= k -> k <= r -> exists m, get_merkle_tree_cache_size (b ^ k) b r = Err m.
Proof.
  intros Hb Hk Hr. unfold get_merkle_tree_cache_size.
  rewrite get_merkle_tree_len_full, row_count_full by (auto; lia).
  cbn [rbind]. unfold checked_sub at 1. replace (1 <=? S k) with true by lia. cbn [rbind].
  replace (S k - 1) with k by lia. replace (r <? k) with false by lia.
  eexists; reflexivity.
Qed.

(* ------------------------------------------------------------------ *)
(* size validity *)
Lemma valid_loop_decomp s m q leafs : forall fuel,
  1 <= s -> 0 < m < 2 ^ s -> m * (2 ^ s) ^ q <= leafs -> q + 1 < fuel ->
  valid_loop fuel s leafs (m * (2 ^ s) ^ q) = Ok (m =? 1).
Proof.
  induction q; intros fuel Hs Hm Hl Hf; (destruct fuel as [|f]; [lia|]); cbn [valid_loop].
  - replace (m * (2 ^ s) ^ 0) with m in * by (simpl; lia).
    destruct (m =? 1) eqn:E; [reflexivity|]. rewrite shiftr_div, Nat.div_small by lia.
    replace ((leafs <? 0) || (0 =? 0)) with true by lia. reflexivity.
  - assert (Hb : 2 <= 2 ^ s) by (apply arity_ge; exists s; auto).
    pose proof (pow_pos (2 ^ s) q ltac:(lia)).
    pose proof (mul_pow_S m (2 ^ s) q).
    pose proof (mul_pow_ge m (2 ^ s) q ltac:(lia) ltac:(lia)).
    pose proof (mul_pow_ge1 m (2 ^ s) q ltac:(lia) ltac:(lia)).
    assert (m * (2 ^ s) ^ q <= leafs) by nia.
    replace (m * (2 ^ s) ^ S q =? 1) with false by lia.
    rewrite shiftr_div, div_step by lia.
    replace ((leafs <? m * (2 ^ s) ^ q) || (m * (2 ^ s) ^ q =? 0)) with false by lia.
    apply IHq; auto; lia.
Qed.

Lemma size_valid_decomp b m q :
  arity b -> pow2 m -> m < b -> is_merkle_tree_size_valid (m * b ^ q) b = Ok (m =? 1).
Proof.
  intros Hb Hm Hmb. pose proof (arity_ge b Hb) as H2. pose proof (pow2_pos _ Hm).
  unfold is_merkle_tree_size_valid, is_merkle_tree_size_valid_fuel.
  assert (Hp : pow2 (m * b ^ q)) by (apply pow2_mul; auto; apply pow2_pow, arity_pow2; auto).
  pose proof (proj2 (next_pow2_eqb' _) Hp) as Hpe. rewrite Hpe.
  pose proof (proj2 (next_pow2_eqb' _) (arity_pow2 _ Hb)) as Hbe. rewrite Hbe.
  replace (b =? 0) with false by lia. cbn [negb orb].
  destruct Hb as [s [Hs ->]]. rewrite log2_pow2_pow.
  destruct q.
  - replace (m * (2 ^ s) ^ 0) with m by (simpl; lia).
    cbn [valid_loop]. destruct (m =? 1) eqn:E; [reflexivity|].
    rewrite shiftr_div, Nat.div_small by lia.
    replace ((m <? 0) || (0 =? 0)) with true by lia. reflexivity.
  - apply valid_loop_decomp; auto; try lia.
    assert (S q < (2 ^ s) ^ S q) by (apply Nat.pow_gt_lin_r; lia).
    nia.
Qed.
Lemma size_valid_full b d : arity b -> is_merkle_tree_size_valid (b ^ d) b = Ok true.
Proof.
  intros Hb. pose proof (arity_ge b Hb). replace (b ^ d) with (1 * b ^ d) by lia.
  rewrite size_valid_decomp; auto; exists 0; reflexivity.
Qed.

(* ------------------------------------------------------------------ *)
(* leaf count from length *)
Lemma leafs_loop_ok s n : forall fuel j len,
  1 <= s -> n < fuel -> geom (2 ^ s) (j + n) <= len ->
  leafs_loop fuel s len ((2 ^ s) ^ j) (1 + (geom (2 ^ s) (j + n) - geom (2 ^ s) j)) =
  Ok ((2 ^ s) ^ (j + n)).
Proof.
  induction n; intros fuel j len Hs Hf Hl; (destruct fuel; [lia|]); cbn [leafs_loop].
  - rewrite Nat.add_0_r, Nat.sub_diag. reflexivity.
  - assert (Hb : 2 <= 2 ^ s) by (apply arity_ge; exists s; auto).
    pose proof (geom_strict (2 ^ s) j (j + S n) ltac:(lia) ltac:(lia)).
    replace (1 + (geom (2 ^ s) (j + S n) - geom (2 ^ s) j) =? 1) with false by lia.
    rewrite shiftl_mul. replace ((2 ^ s) ^ j * 2 ^ s) with ((2 ^ s) ^ S j) by (simpl; lia).
    assert (HS : geom (2 ^ s) (S j) = (2 ^ s) ^ S j + geom (2 ^ s) j) by reflexivity.
    pose proof (geom_mono (2 ^ s) (S j) (j + S n) ltac:(lia)).
    replace ((2 ^ s) ^ S j <? 1 + (geom (2 ^ s) (j + S n) - geom (2 ^ s) j)) with true by lia.
    cbn [ensure rbind].
    pose proof (geom_pos (2 ^ s) j).
    pose proof (pow_pos (2 ^ s) (S j) ltac:(lia)).
    replace (1 + (geom (2 ^ s) (j + S n) - geom (2 ^ s) j) - (2 ^ s) ^ S j <? len) with true by lia.
    cbn [ensure rbind].
    replace (1 + (geom (2 ^ s) (j + S n) - geom (2 ^ s) j) - (2 ^ s) ^ S j)
      with (1 + (geom (2 ^ s) (S j + n) - geom (2 ^ s) (S j))).
    2:{ replace (S j + n) with (j + S n) by lia. lia. }
    rewrite IHn; auto; try lia.
    + f_equal. f_equal. lia.
    + replace (S j + n) with (j + S n) by lia. lia.
Qed.

Lemma get_merkle_tree_leafs_full b d :
  arity b -> get_merkle_tree_leafs (geom b d) b = Ok (b ^ d).
Proof.
  intros Hb. unfold get_merkle_tree_leafs.
  pose proof (proj2 (next_pow2_eqb' _) (arity_pow2 _ Hb)) as Hbe. rewrite Hbe.
  cbn [ensure rbind].
  pose proof (proj2 (next_pow2_eqb' _) (pow2_pow b d (arity_pow2 _ Hb))) as Hpe.
  pose proof (arity_ge b Hb) as H2.
  assert (H : (if b =? 2 then Ok (Nat.shiftr (geom b d) 1 + 1)
               else leafs_loop (S (geom b d)) (log2_pow2 b) (geom b d) 1 (geom b d)) = Ok (b ^ d)).
  { destruct (b =? 2) eqn:E2.
    - assert (b = 2) by lia. subst b. rewrite shiftr_div, geom_2. f_equal.
      pose proof (pow_pos 2 d ltac:(lia)). simpl Nat.pow at 1.
      replace (2 ^ d + (2 ^ d + 0) - 1) with (1 + (2 ^ d - 1) * 2) by lia.
      replace (2 ^ 1) with 2 by reflexivity.
      rewrite Nat.div_add by lia. simpl (1 / 2). lia.
    - destruct Hb as [s [Hs ->]]. rewrite log2_pow2_pow.
      pose proof (leafs_loop_ok s d (S (geom (2 ^ s) d)) 0 (geom (2 ^ s) d) Hs) as G.
      simpl Nat.add in G. simpl geom in G at 4. simpl Nat.pow in G at 1.
      replace (S (geom (2 ^ s) d - 1)) with (geom (2 ^ s) d) in G by (pose proof (geom_pos (2 ^ s) d); lia).
      change ((2 ^ s) ^ 0) with 1 in G.
      apply G; auto.
      pose proof (geom_gt (2 ^ s) d).
      assert (d < (2 ^ s) ^ d) by (apply Nat.pow_gt_lin_r; lia). lia. }
  rewrite H. cbn [rbind]. rewrite Hpe. reflexivity.
Qed.

(* ------------------------------------------------------------------ *)
(* default discard depth *)
Lemma default_rows_full b d :
  arity b ->
  default_rows_to_discard (b ^ d) b =
  Nat.min (d - 1) (if b =? 2 then 7 else if b =? 4 then 5 else 2).
Proof.
  intros Hb. unfold default_rows_to_discard. rewrite row_count_full by auto.
  pose proof (arity_ge b Hb) as H2.
  assert (Hm : forall x : nat, match b with 2 => Nat.min x 7 | 4 => Nat.min x 5 | _ => Nat.min x 2 end
                     = Nat.min x (if b =? 2 then 7 else if b =? 4 then 5 else 2)).
  { intros x. destruct b as [|[|[|[|[|b]]]]]; reflexivity. }
  rewrite Hm.
  assert (Hc : 2 <= (if b =? 2 then 7 else if b =? 4 then 5 else 2)).
  { destruct (b =? 2), (b =? 4); lia. }
  destruct (S d <=? 2) eqn:E1.
  - replace (d - 1) with 0 by lia. lia.
  - destruct (S d =? 3) eqn:E3.
    + lia.
    + lia.
Qed.

Lemma lemma_len_ok rc b : 1 <= b -> 1 <= rc -> get_merkle_proof_lemma_len rc b = Ok (2 + (b - 1) * (rc - 1)).
Proof.
  intros Hb Hr. unfold get_merkle_proof_lemma_len, checked_sub.
  replace (1 <=? b) with true by lia. replace (1 <=? rc) with true by lia. reflexivity.
Qed.

(* converse direction for the leaf count *)
Lemma leafs_loop_sound s len : 1 <= s -> forall fuel j cur,
  cur + geom (2 ^ s) j = S len -> cur < fuel ->
  match leafs_loop fuel s len ((2 ^ s) ^ j) cur with
  | Ok n => exists d, len = geom (2 ^ s) d /\ n = (2 ^ s) ^ d
  | Err _ => True
  | _ => False
  end.
Proof.
  intros Hs. assert (Hb : 2 <= 2 ^ s) by (apply arity_ge; exists s; auto).
  induction fuel; intros j cur Hc Hf; [lia|]. cbn [leafs_loop].
  destruct (cur =? 1) eqn:E1.
  - exists j. split; [lia|reflexivity].
  - rewrite shiftl_mul. replace ((2 ^ s) ^ j * 2 ^ s) with ((2 ^ s) ^ S j) by (simpl; lia).
    destruct ((2 ^ s) ^ S j <? cur) eqn:E2; cbn [ensure rbind]; [|exact I].
    destruct (cur - (2 ^ s) ^ S j <? len) eqn:E3; cbn [ensure rbind]; [|exact I].
    assert (HS : geom (2 ^ s) (S j) = (2 ^ s) ^ S j + geom (2 ^ s) j) by reflexivity.
    pose proof (pow_pos (2 ^ s) (S j) ltac:(lia)).
    apply IHfuel; lia.
Qed.

Lemma get_merkle_tree_leafs_sound b len :
  arity b -> (b = 2 -> Nat.odd len = true) ->
  match get_merkle_tree_leafs len b with
  | Ok n => exists d, len = geom b d /\ n = b ^ d
  | Err _ => forall d, len <> geom b d
  | _ => False
  end.
Proof.
  intros Hb Hodd.
  assert (G : match get_merkle_tree_leafs len b with
              | Ok n => exists d, len = geom b d /\ n = b ^ d
              | Err _ => True
              | _ => False
              end).
  { unfold get_merkle_tree_leafs.
    rewrite (proj2 (next_pow2_eqb' _) (arity_pow2 _ Hb)). cbn [ensure rbind].
    destruct (b =? 2) eqn:E2.
    - assert (b = 2) by lia. subst b. cbn [rbind].
      specialize (Hodd eq_refl). apply Nat.odd_spec in Hodd as [k Hk].
      rewrite shiftr_div. change (2 ^ 1) with 2.
      replace (len / 2) with k by (apply Nat.div_unique with 1; lia).
      destruct (k + 1 =? next_pow2 (k + 1)) eqn:E; cbn [ensure rbind]; [|exact I].
      apply next_pow2_eqb' in E as [d Hd]. exists d. split; [|lia].
      rewrite geom_2. simpl Nat.pow. lia.
    - destruct Hb as [s [Hs ->]]. rewrite log2_pow2_pow.
      pose proof (leafs_loop_sound s len Hs (S len) 0 len) as L.
      change ((2 ^ s) ^ 0) with 1 in L. cbn [geom] in L.
      specialize (L ltac:(lia) ltac:(lia)).
      destruct (leafs_loop (S len) s len 1 len); cbn [rbind]; auto.
      destruct (a =? next_pow2 a); cbn [ensure rbind]; auto. }
  destruct (get_merkle_tree_leafs len b) eqn:Eg; auto.
  intros d ->. rewrite get_merkle_tree_leafs_full in Eg by auto. discriminate.
Qed.

(* size validity for every arity except one *)
Lemma size_valid_spec b n : b <> 1 ->
  exists v, is_merkle_tree_size_valid n b = Ok v /\ (v = true <-> arity b /\ exists d, n = b ^ d).
Proof.
  intros H1.
  destruct (b =? 0) eqn:E0.
  { exists false. unfold is_merkle_tree_size_valid, is_merkle_tree_size_valid_fuel. rewrite E0.
    split; [reflexivity|]. split; [discriminate|]. intros [Hb _]. apply arity_ge in Hb. lia. }
  destruct (b =? next_pow2 b) eqn:Eb.
  2:{ exists false. unfold is_merkle_tree_size_valid, is_merkle_tree_size_valid_fuel. rewrite Eb.
      cbn [negb]. rewrite orb_true_r. split; [reflexivity|]. split; [discriminate|].
      intros [Hb _]. apply arity_pow2 in Hb. apply next_pow2_eqb' in Hb. congruence. }
  assert (Hb : arity b) by (apply arity_intro; [apply next_pow2_eqb'; auto|lia]).
  destruct (n =? next_pow2 n) eqn:En.
  2:{ exists false. unfold is_merkle_tree_size_valid, is_merkle_tree_size_valid_fuel. rewrite En.
      cbn [negb]. rewrite orb_true_r. split; [reflexivity|]. split; [discriminate|].
      intros [_ [d ->]]. pose proof (pow2_pow b d (arity_pow2 _ Hb)) as Hp.
      apply next_pow2_eqb' in Hp. congruence. }
  apply next_pow2_eqb' in En. destruct (pow2_decomp b n Hb En) as (m & q & -> & Hm & Hmb).
  exists (m =? 1). split; [apply size_valid_decomp; auto|].
  pose proof (pow2_pos m Hm). pose proof (arity_ge b Hb).
  split.
  - intros Hm1. split; auto. exists q. assert (m = 1) by lia. subst m. lia.
  - intros [_ [d Hd]]. apply decomp_full in Hd; lia.
Qed.

Lemma valid_loop_1_diverges n : 1 < n -> forall fuel, valid_loop fuel 0 n n = Diverge.
Proof.
  intros Hn. induction fuel; [reflexivity|]. cbn [valid_loop].
  replace (n =? 1) with false by lia. rewrite shiftr_div. change (2 ^ 0) with 1.
  rewrite Nat.div_1_r. replace (n <? n) with false by lia. replace (n =? 0) with false by lia. exact IHfuel.
Qed.

Lemma size_valid_arity1_diverges n fuel :
  pow2 n -> 1 < n -> is_merkle_tree_size_valid_fuel fuel n 1 = Diverge.
Proof.
  intros Hp Hn. unfold is_merkle_tree_size_valid_fuel. apply next_pow2_eqb' in Hp. rewrite Hp.
  change (next_pow2 1) with 1. cbn [Nat.eqb negb orb].
  change (log2_pow2 1) with 0. apply valid_loop_1_diverges. auto.
Qed.

(* get_merkle_tree_len never panics or loops *)
Lemma checked_sub_ok a b : b <= a -> checked_sub a b = Ok (a - b).
Proof. intros H. unfold checked_sub. replace (b <=? a) with true by lia. reflexivity. Qed.
