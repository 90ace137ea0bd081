(* C52: the size functions in 64-bit machine arithmetic. *)
From Coq Require Import String List Arith NArith Bool Lia ZifyBool ZifyNat ZifyN.
From Verif Require Import Base Sizing Spec SpecFacts SizingFacts Machine MachineFacts.
Import ListNotations.

(* every size function, evaluated in 64-bit arithmetic for the tree with b^d leaves, gives
   exactly what it gives over unbounded integers *)
Definition agrees (m : mode) (b d : nat) : Prop :=
  let n := N.of_nat in
  get_merkle_tree_len64 m (n (b ^ d)) (n b) = rN (get_merkle_tree_len (b ^ d) b) /\
  get_merkle_tree_row_count64 m (n (b ^ d)) (n b) = Ok (n (get_merkle_tree_row_count (b ^ d) b)) /\
  is_merkle_tree_size_valid64 m (n (b ^ d)) (n b) = is_merkle_tree_size_valid (b ^ d) b /\
  (forall r, get_merkle_tree_cache_size64 m (n (b ^ d)) (n b) (n r) = rN (get_merkle_tree_cache_size (b ^ d) b r)) /\
  get_merkle_tree_leafs64 m 66 (n (geom b d)) (n b) = rN (get_merkle_tree_leafs (geom b d) b) /\
  default_rows_to_discard64 m (n (b ^ d)) (n b) = Ok (n (default_rows_to_discard (b ^ d) b)) /\
  get_merkle_proof_lemma_len64 m (n (S d)) (n b) = rN (get_merkle_proof_lemma_len (S d) b).

(* none of the results is a panic or an endless loop (so in mode Check no operation overflowed) *)
Definition calm {X} (r : res X) : Prop := match r with Panic _ | Diverge => False | _ => True end.
Definition no_panic (m : mode) (b d : nat) : Prop :=
  let n := N.of_nat in
  calm (get_merkle_tree_len64 m (n (b ^ d)) (n b)) /\
  calm (get_merkle_tree_row_count64 m (n (b ^ d)) (n b)) /\
  calm (is_merkle_tree_size_valid64 m (n (b ^ d)) (n b)) /\
  (forall r, calm (get_merkle_tree_cache_size64 m (n (b ^ d)) (n b) (n r))) /\
  calm (get_merkle_tree_leafs64 m 66 (n (geom b d)) (n b)) /\
  calm (default_rows_to_discard64 m (n (b ^ d)) (n b)) /\
  calm (get_merkle_proof_lemma_len64 m (n (S d)) (n b)).

(* the tree with b^d leaves of [size] bytes each fits in the 64-bit address range *)
Definition tree_fits (b d size : nat) : Prop := 1 <= size /\ (N.of_nat (geom b d) * N.of_nat size < 2 ^ 64)%N.

Lemma fits_len b d size : tree_fits b d size -> (N.of_nat (geom b d) < w64)%N.
Proof.
  intros (H1 & H2). change (2 ^ 64)%N with w64 in H2. pose proof (N.mul_le_mono_l 1 (N.of_nat size) (N.of_nat (geom b d)) ltac:(lia)). lia.
Qed.
Lemma pow_bounds b d : 2 <= b -> 1 + Nat.min 1 d + (b - 1) * d <= geom b d /\ b ^ d <= geom b d /\ (1 <= d -> b < geom b d).
Proof.
  intros Hb. induction d as [|d (I1 & I2 & I3)]; [cbn; lia|]. cbn [geom]. assert (1 <= b ^ d) by (pose proof (Nat.pow_nonzero b d ltac:(lia)); lia).
  rewrite Nat.pow_succ_r'. assert (b * b ^ d <= b * geom b d) by (apply Nat.mul_le_mono_l; lia).
  assert (b * 1 <= b * b ^ d) by (apply Nat.mul_le_mono_l; lia). assert (Hg : 1 <= geom b d) by lia.
  split; [|split]; lia.
Qed.
Lemma fits_agrees m b d : arity b -> (N.of_nat (geom b d) < w64)%N -> (N.of_nat b <= w63)%N -> lim m b (b ^ d) -> agrees m b d /\ no_panic m b d.
Proof.
  intros Hb Hg Hb63 Hl. pose proof (arity_ge b Hb) as H2. destruct (pow_bounds b d H2) as (P1 & P2 & P3). pose proof Hl as (Hl1 & _).
  assert (Hb64 : (N.of_nat b < w64)%N) by (rewrite w63_eq, w64_eq in *; lia).
  assert (HQ : forall r, calm (get_merkle_tree_cache_size (b ^ d) b r)).
  { intros r. destruct (Nat.lt_ge_cases r d) as [Hr|Hr].
    - rewrite cache_size_full by auto. exact I.
    - destruct d as [|d].
      + unfold get_merkle_tree_cache_size. destruct (get_merkle_tree_len_small (b ^ 0) b ltac:(cbn; lia)) as [e ->]. exact I.
      + destruct (cache_size_bad b (S d) r Hb ltac:(lia) Hr) as [e ->]. exact I. }
  assert (A1 := len_sim m (b ^ d) b Hl). assert (A2 := row_sim m (b ^ d) b Hl Hb64). assert (A3 := valid_sim m (b ^ d) b Hl1 Hb63).
  assert (A4 : forall r, get_merkle_tree_cache_size64 m (N.of_nat (b ^ d)) (N.of_nat b) (N.of_nat r) = rN (get_merkle_tree_cache_size (b ^ d) b r)).
  { intros r. apply cache_sim; auto. right. intros e He. specialize (HQ r). rewrite He in HQ. exact HQ. }
  assert (A5 : get_merkle_tree_leafs64 m 66 (N.of_nat (geom b d)) (N.of_nat b) = rN (get_merkle_tree_leafs (geom b d) b)).
  { apply leafs_sim; auto; [lia|]. left. exists (b ^ d). apply get_merkle_tree_leafs_full. exact Hb. }
  assert (A6 := default_rows_sim m (b ^ d) b Hl Hb64).
  assert (A7 : get_merkle_proof_lemma_len64 m (N.of_nat (S d)) (N.of_nat b) = rN (get_merkle_proof_lemma_len (S d) b)).
  { rewrite lemma_len_ok by lia. apply lemma_len_sim; [apply lemma_len_ok; lia|]. replace (S d - 1) with d by lia.
    destruct d as [|d]; [rewrite w64_eq; lia|]. cbn [Nat.min] in P1. lia. }
  split; [unfold agrees; auto 10|]. unfold no_panic. cbv zeta. rewrite A1, A2, A3, A5, A6, A7.
  split; [|split; [exact I|split; [|split; [|split; [|split; [exact I|]]]]]].
  - destruct d as [|d]; [destruct (get_merkle_tree_len_small (b ^ 0) b ltac:(cbn; lia)) as [e ->]; exact I|]. rewrite get_merkle_tree_len_full by (auto; lia). exact I.
  - rewrite size_valid_full by auto. exact I.
  - intros r. rewrite A4. specialize (HQ r). destruct (get_merkle_tree_cache_size (b ^ d) b r); exact HQ.
  - rewrite get_merkle_tree_leafs_full by auto. exact I.
  - rewrite lemma_len_ok by lia. exact I.
Qed.
Lemma pow_fits b d : arity b -> 1 <= d -> (N.of_nat (geom b d) < w64)%N ->
  (N.of_nat (b ^ d) <= w63)%N /\ (N.of_nat b <= w63)%N /\ ((b, d) <> (2, 63) -> b = 2 -> (N.of_nat (b ^ d) < w63)%N).
Proof.
  intros Hb Hd Hg. pose proof (arity_ge b Hb) as H2. destruct (pow_bounds b d H2) as (_ & P2 & _).
  assert (Hp : (N.of_nat (b ^ d) <= w63)%N /\ (b = 2 -> d <= 63)).
  { destruct Hb as [s [Hs ->]]. rewrite <- Nat.pow_mul_r in *. assert (Hlt : (N.of_nat (2 ^ (s * d)) < w64)%N) by lia.
    rewrite Nat2N.inj_pow in *. change (N.of_nat 2) with 2%N in *. change w64 with (2 ^ 64)%N in Hlt. apply N.pow_lt_mono_r_iff in Hlt; [|lia].
    split; [change w63 with (2 ^ 63)%N; apply N.pow_le_mono_r; lia|]. intros H. assert (s = 1); [|subst; lia].
    destruct s as [|[|s]]; [lia|reflexivity|]. rewrite !Nat.pow_succ_r' in H. pose proof (Nat.pow_nonzero 2 s ltac:(lia)). lia. }
  destruct Hp as (Hp & Hq). split; [exact Hp|split].
  - assert (b ^ 1 <= b ^ d) by (apply Nat.pow_le_mono_r; lia). rewrite Nat.pow_1_r in *. lia.
  - intros Hne ->. assert (d <> 63) by congruence. specialize (Hq eq_refl). rewrite Nat2N.inj_pow. change w63 with (2 ^ 63)%N. change (N.of_nat 2) with 2%N. apply N.pow_lt_mono_r; lia.
Qed.

(* with wrapping arithmetic (overflow checks off, the release profile) every size function gives
   the unbounded value for every tree whose bytes are addressable with 64 bits *)
Theorem C52_wrapping b d size :
  arity b -> 1 <= d -> tree_fits b d size -> agrees Wrap b d /\ no_panic Wrap b d.
Proof.
  intros Hb Hd HF. pose proof (fits_len _ _ _ HF) as Hg. destruct (pow_fits b d Hb Hd Hg) as (P1 & P2 & _).
  apply fits_agrees; auto. split; [exact P1|discriminate].
Qed.

(* with overflow checks on (the debug profile) no operation overflows either, for every such tree
   but one.  Missing from the full statement: the binary tree with 2^63 one-byte leaves, see
   C52_refuted. *)
Theorem C52_no_overflow_partial m b d size :
  arity b -> 1 <= d -> tree_fits b d size -> (b, d) <> (2, 63) -> agrees m b d /\ no_panic m b d.
Proof.
  intros Hb Hd HF Hne. pose proof (fits_len _ _ _ HF) as Hg. destruct (pow_fits b d Hb Hd Hg) as (P1 & P2 & P3).
  apply fits_agrees; auto. split; [exact P1|intros _; exact (P3 Hne)].
Qed.

(* elements of two bytes or more leave no exception *)
Theorem C52_no_overflow_wide m b d size :
  arity b -> 1 <= d -> tree_fits b d size -> 2 <= size -> agrees m b d /\ no_panic m b d.
Proof.
  intros Hb Hd HF Hs. apply C52_no_overflow_partial with size; auto. intros H. injection H as -> ->.
  destruct HF as (_ & HF). assert (Hge : geom 2 63 = 2 ^ 64 - 1) by exact (geom_2 63).
  rewrite Hge in HF. assert (HN : N.of_nat (2 ^ 64 - 1) = (2 ^ 64 - 1)%N).
  { rewrite Nat2N.inj_sub, Nat2N.inj_pow. reflexivity. }
  rewrite HN in HF. change (2 ^ 64 - 1)%N with 18446744073709551615%N in HF. change (2 ^ 64)%N with 18446744073709551616%N in HF. lia.
Qed.

(* the exception: a binary tree with 2^63 leaves of one byte has 2^64 - 1 elements, so it fits and
   the unbounded functions give 2^64 - 1 and 64 rows; the intermediate 2 * leafs of
   get_merkle_tree_len and leafs * branches of get_merkle_tree_row_count overflow: with overflow
   checks both functions panic (and so do the cache size and the default number of discarded
   rows); wrapping, they still give the right values. *)
Theorem C52_refuted :
  arity 2 /\ tree_fits 2 63 1 /\
  get_merkle_tree_len (2 ^ 63) 2 = Ok (2 ^ 64 - 1) /\ get_merkle_tree_row_count (2 ^ 63) 2 = 64 /\
  ~ calm (get_merkle_tree_len64 Check (2 ^ 63) 2) /\
  ~ calm (get_merkle_tree_row_count64 Check (2 ^ 63) 2) /\
  ~ calm (get_merkle_tree_cache_size64 Check (2 ^ 63) 2 1) /\
  ~ calm (default_rows_to_discard64 Check (2 ^ 63) 2) /\
  get_merkle_tree_len64 Wrap (2 ^ 63) 2 = Ok (2 ^ 64 - 1)%N /\
  get_merkle_tree_row_count64 Wrap (2 ^ 63) 2 = Ok 64%N.
Proof.
  split; [exists 1; split; [lia|reflexivity]|]. split.
  { split; [lia|]. rewrite (geom_2 63). rewrite Nat2N.inj_sub, Nat2N.inj_pow. reflexivity. }
  split. { rewrite get_merkle_tree_len_full; [|exists 1; split; [lia|reflexivity]|lia]. rewrite (geom_2 63). reflexivity. }
  split. { rewrite row_count_full; [reflexivity|exists 1; split; [lia|reflexivity]]. }
  repeat split; try (vm_compute; auto; fail); try (vm_compute; reflexivity).
Qed.

(* arbitrary inputs (not only full trees): below 2^63 leaves each function agrees with the unbounded
   one whatever the branching factor, also where that one refuses or panics *)
Theorem C52_len m leafs b :
  (N.of_nat leafs <= 2 ^ 63)%N -> (m = Check -> b = 2 -> (N.of_nat leafs < 2 ^ 63)%N) ->
  get_merkle_tree_len64 m (N.of_nat leafs) (N.of_nat b) = rN (get_merkle_tree_len leafs b).
Proof. intros H1 H2. apply len_sim. split; [exact H1|exact H2]. Qed.
Theorem C52_size_valid m leafs b :
  (N.of_nat leafs <= 2 ^ 63)%N -> (N.of_nat b <= 2 ^ 63)%N ->
  is_merkle_tree_size_valid64 m (N.of_nat leafs) (N.of_nat b) = is_merkle_tree_size_valid leafs b.
Proof. intros H1 H2. apply valid_sim; [exact H1|exact H2]. Qed.
Theorem C52_row_count m leafs b :
  (N.of_nat leafs <= 2 ^ 63)%N -> (m = Check -> b = 2 -> (N.of_nat leafs < 2 ^ 63)%N) -> (N.of_nat b < 2 ^ 64)%N ->
  get_merkle_tree_row_count64 m (N.of_nat leafs) (N.of_nat b) = Ok (N.of_nat (get_merkle_tree_row_count leafs b)).
Proof. intros H1 H2 H3. apply row_sim; [split; [exact H1|exact H2]|exact H3]. Qed.

(* compound trees: the total length of [top] x [sub] base trees, whenever it fits itself *)
Theorem C52_compound m b sub_ top leaves v :
  0 < b -> (N.of_nat leaves <= 2 ^ 63)%N -> (m = Check -> b = 2 -> (N.of_nat leaves < 2 ^ 63)%N) ->
  get_merkle_tree_len_generic b sub_ top leaves = Ok v -> (N.of_nat v < 2 ^ 64)%N ->
  get_merkle_tree_len_generic64 m (N.of_nat b) (N.of_nat sub_) (N.of_nat top) (N.of_nat leaves) = Ok (N.of_nat v).
Proof. intros H0 H1 H2 H3 H4. rewrite (generic_sim m b sub_ top leaves v); auto. split; [exact H1|exact H2]. Qed.

(* the number of leaves of a store of [len] elements: agreement for every valid length and for every
   length with len * branches below 2^64 ... *)
Theorem C52_leafs m len b :
  (N.of_nat len < 2 ^ 64)%N -> (N.of_nat b <= 2 ^ 63)%N -> b <> 1 ->
  ((exists v, get_merkle_tree_leafs len b = Ok v) \/ (N.of_nat len * N.of_nat b < 2 ^ 64)%N) ->
  get_merkle_tree_leafs64 m 66 (N.of_nat len) (N.of_nat b) = rN (get_merkle_tree_leafs len b).
Proof. intros H1 H2 H3 H4. apply leafs_sim; auto. Qed.
(* ... and beyond that the machine loop can run for ever where the unbounded function refuses: the
   shifts lose the top bit silently (also with overflow checks), the row size becomes 0 and the
   remaining length stops going down.  Smallest arities: 4 with 2^63 elements. *)
Lemma leafs_loop64_zero m fuel shift len cur :
  (cur =? 1)%N = false -> (0 <? cur)%N = true -> (cur <? len)%N = true -> (shift <? 64)%N = true -> leafs_loop64 m fuel shift len 0 cur = Diverge.
Proof.
  intros H1 H2 H3 H4. induction fuel as [|f IH]; [reflexivity|]. cbn [leafs_loop64]. rewrite H1.
  assert (Hs : shl64 m 0 shift = Ok 0%N). { unfold shl64. rewrite H4. rewrite N.shiftl_0_l. destruct m; reflexivity. }
  rewrite Hs. cbn [rbind]. rewrite H2. cbn [ensure rbind].
  assert (Hc : sub64 m cur 0 = Ok cur). { unfold sub64. rewrite N.sub_0_r. replace (0 <=? cur)%N with true by lia. destruct m; reflexivity. }
  rewrite Hc. cbn [rbind]. rewrite H3. cbn [ensure rbind]. exact IH.
Qed.
Fixpoint runs_dry (n : nat) (shift len leafs cur : N) : bool :=
  match n with
  | 0 => (leafs =? 0)%N && negb (cur =? 1)%N && (0 <? cur)%N && (cur <? len)%N && (shift <? 64)%N
  | S n' =>
      let l := (N.shiftl leafs shift mod w64)%N in
      negb (cur =? 1)%N && (shift <? 64)%N && (l <? cur)%N && (cur - l <? len)%N && runs_dry n' shift len l (cur - l)
  end.
Lemma runs_dry_diverges m n shift len : forall fuel leafs cur,
  runs_dry n shift len leafs cur = true -> leafs_loop64 m fuel shift len leafs cur = Diverge.
Proof.
  induction n as [|n IH]; intros fuel leafs cur H; cbn [runs_dry] in H; repeat (apply andb_true_iff in H; destruct H as (H & ?)).
  - apply N.eqb_eq in H. subst leafs. apply leafs_loop64_zero; auto. destruct (cur =? 1)%N; [discriminate|reflexivity].
  - destruct fuel as [|f]; [reflexivity|]. cbn [leafs_loop64]. destruct (cur =? 1)%N; [discriminate|]. unfold shl64. rewrite H3. cbn [rbind].
    rewrite H2. cbn [ensure rbind]. unfold sub64. replace (N.shiftl leafs shift mod w64 <=? cur)%N with true by lia. cbn [rbind].
    rewrite H1. cbn [ensure rbind]. apply IH. exact H0.
Qed.
Theorem C52_leafs_endless m fuel : get_merkle_tree_leafs64 m fuel (2 ^ 63) 4 = Diverge.
Proof.
  unfold get_merkle_tree_leafs64. replace (npow64 m 4) with (Ok 4%N) by (destruct m; reflexivity). cbn [rbind]. rewrite N.eqb_refl. cbn [ensure rbind].
  change (4 =? 2)%N with false. cbv iota. rewrite (runs_dry_diverges m 32) by (vm_compute; reflexivity). reflexivity.
Qed.

(* concrete cases *)
(* a sector of 2^30 32-byte leaves, arity 8 (8^10 leaves) and arity 2: values and no overflow *)
Example C52_case :
  tree_fits 8 10 32 /\ tree_fits 2 30 32 /\
  get_merkle_tree_len64 Check (8 ^ 10) 8 = Ok 1227133513%N /\
  get_merkle_tree_row_count64 Check (8 ^ 10) 8 = Ok 11%N /\
  get_merkle_tree_cache_size64 Check (8 ^ 10) 8 2 = Ok 2396745%N /\
  get_merkle_tree_leafs64 Check 66 1227133513 8 = Ok (8 ^ 10)%N /\
  is_merkle_tree_size_valid64 Check (8 ^ 10) 8 = Ok true /\
  is_merkle_tree_size_valid64 Check (2 ^ 31) 8 = Ok false /\
  get_merkle_tree_len64 Check (2 ^ 30) 2 = Ok 2147483647%N /\
  get_merkle_tree_leafs64 Check 66 2147483647 2 = Ok (2 ^ 30)%N /\
  default_rows_to_discard64 Check (2 ^ 30) 2 = Ok 7%N /\
  get_merkle_proof_lemma_len64 Check 31 2 = Ok 32%N /\
  get_merkle_tree_len_generic64 Check 8 8 2 (8 ^ 9) = Ok 2454267027%N.
Proof.
  split; [split; [lia|]|split; [split; [lia|]|]].
  - pose proof (geom_mul 8 10 ltac:(lia)) as G. change (8 ^ 11) with (8 ^ 11) in G. apply (f_equal N.of_nat) in G.
    rewrite Nat2N.inj_add, Nat2N.inj_mul, Nat2N.inj_pow in G. change (N.of_nat 8 ^ N.of_nat 11)%N with 8589934592%N in G. change (2 ^ 64)%N with w64. rewrite w64_eq. lia.
  - rewrite geom_2. rewrite Nat2N.inj_sub, Nat2N.inj_pow. reflexivity.
  - repeat split; vm_compute; reflexivity.
Qed.
(* the largest trees that fit: arity 4 with 2^62 one-byte leaves, arity 2 with 2^62 two-byte leaves *)
Example C52_case_large :
  get_merkle_tree_len64 Check (4 ^ 31) 4 = Ok 6148914691236517205%N /\
  get_merkle_tree_leafs64 Check 66 6148914691236517205 4 = Ok (4 ^ 31)%N /\
  get_merkle_tree_len64 Check (2 ^ 62) 2 = Ok (2 ^ 63 - 1)%N /\
  get_merkle_tree_row_count64 Check (2 ^ 62) 2 = Ok 63%N /\
  get_merkle_tree_cache_size64 Check (4 ^ 31) 4 5 = Ok 1501199875790165%N.
Proof. repeat split; vm_compute; reflexivity. Qed.

(* the machine operations themselves, against the integers: the result is the integer when it
   is below 2^64; else, with checks on, a panic, and in a release build its residue modulo
   2^64; shift amounts modulo 64; next_power_of_two overflows to 0 *)
Theorem C52_operations : forall a b s, (a < w64)%N -> (b < w64)%N ->
  (forall m, a + b < w64 -> add64 m a b = Ok (a + b))%N /\ (forall m, a * b < w64 -> mul64 m a b = Ok (a * b))%N /\
  (forall m, b <= a -> sub64 m a b = Ok (a - b))%N /\
  (forall m, s < 64 -> shr64 m a s = Ok (a / 2 ^ s) /\ shl64 m a s = Ok ((a * 2 ^ s) mod w64))%N /\
  (forall m, a <= 2 ^ 63 -> exists k, npow64 m a = Ok (2 ^ k) /\ a <= 2 ^ k /\ forall j, a <= 2 ^ j -> 2 ^ k <= 2 ^ j)%N /\
  (w64 <= a + b -> (exists e, add64 Check a b = Panic e) /\ add64 Wrap a b = Ok (a + b - w64))%N /\
  (w64 <= a * b -> (exists e, mul64 Check a b = Panic e) /\ mul64 Wrap a b = Ok (a * b - w64 * (a * b / w64)))%N /\
  (a < b -> (exists e, sub64 Check a b = Panic e) /\ exists r, sub64 Wrap a b = Ok r /\ r < w64 /\ r + b = a + w64)%N /\
  (64 <= s -> (exists e, shr64 Check a s = Panic e) /\ (exists e, shl64 Check a s = Panic e) /\
     shr64 Wrap a s = shr64 Wrap a (s mod 64) /\ shl64 Wrap a s = shl64 Wrap a (s mod 64))%N /\
  (2 ^ 63 < a -> (exists e, npow64 Check a = Panic e) /\ npow64 Wrap a = Ok 0)%N.
Proof.
  intros a b s Ha Hb. unfold add64, mul64, sub64, shr64, shl64, npow64. repeat match goal with |- _ /\ _ => split end.
  - intros m H. replace (a + b <? w64)%N with true by lia. reflexivity.
  - intros m H. replace (a * b <? w64)%N with true by lia. reflexivity.
  - intros m H. replace (b <=? a)%N with true by lia. reflexivity.
  - intros m H. replace (s <? 64)%N with true by lia. rewrite N.shiftr_div_pow2, N.shiftl_mul_pow2. auto.
  - intros m H.
    assert (L : (N.log2_up a <= 63)%N). { destruct (N.le_gt_cases a 1); [rewrite N.log2_up_eqn0 by lia; lia|]. apply N.log2_up_le_pow2; lia. }
    assert (P : (2 ^ N.log2_up a <= 2 ^ 63)%N) by (apply N.pow_le_mono_r; lia).
    replace (2 ^ N.log2_up a <? w64)%N with true by (symmetry; apply N.ltb_lt; unfold w64; change (2 ^ 64)%N with (2 * 2 ^ 63)%N; lia).
    exists (N.log2_up a). split; [reflexivity|]. split.
    + destruct (N.le_gt_cases a 1); [pose proof (N.pow_nonzero 2 (N.log2_up a)); lia|]. apply N.log2_up_spec. lia.
    + intros j Hj. apply N.pow_le_mono_r; [lia|]. destruct (N.le_gt_cases a 1); [rewrite N.log2_up_eqn0 by lia; lia|]. apply N.log2_up_le_pow2; lia.
  - intros H. replace (a + b <? w64)%N with false by lia. split; [eauto|]. f_equal.
    rewrite N.mod_eq by (unfold w64; discriminate). replace ((a + b) / w64)%N with 1%N; [lia|]. apply (N.div_unique _ _ 1 (a + b - w64)); lia.
  - intros H. replace (a * b <? w64)%N with false by lia. split; [eauto|]. f_equal. apply N.mod_eq. unfold w64. discriminate.
  - intros H. replace (b <=? a)%N with false by lia. split; [eauto|]. eexists. split; [reflexivity|]. lia.
  - intros H. replace (s <? 64)%N with false by lia. pose proof (N.mod_lt s 64 ltac:(discriminate)).
    replace (s mod 64 <? 64)%N with true by lia. eauto 6.
  - intros H.
    assert (L : (63 < N.log2_up a)%N) by (apply N.log2_up_lt_pow2; lia).
    assert (P : (2 ^ 64 <= 2 ^ N.log2_up a)%N) by (apply N.pow_le_mono_r; lia). fold w64 in P.
    replace (2 ^ N.log2_up a <? w64)%N with false by (symmetry; apply N.ltb_ge; exact P). eauto.
Qed.
Example C52_operations_case :
  add64 Wrap (w64 - 1) 3 = Ok 2%N /\ sub64 Wrap 3 5 = Ok (w64 - 2)%N /\ shr64 Wrap 40 67 = Ok 5%N /\ npow64 Wrap (2 ^ 63 + 1) = Ok 0%N /\
  npow64 Check (2 ^ 63) = Ok (2 ^ 63)%N /\ npow64 Check 5 = Ok 8%N.
Proof. repeat split; vm_compute; reflexivity. Qed.

Print Assumptions C52_operations.
Print Assumptions C52_wrapping.
Print Assumptions C52_no_overflow_partial.
Print Assumptions C52_no_overflow_wide.
Print Assumptions C52_refuted.
Print Assumptions C52_len.
Print Assumptions C52_size_valid.
Print Assumptions C52_row_count.
Print Assumptions C52_compound.
Print Assumptions C52_leafs.
Print Assumptions C52_leafs_endless.
