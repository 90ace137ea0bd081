(* 64-bit evaluation of the size functions agrees with the unbounded functions. *)
From Coq Require Import String List Arith Bool Lia PArith NArith ZifyBool ZifyNat ZifyN.
From Verif Require Import Base Sizing Spec SizingFacts Machine.
Import ListNotations.

Local Notation "# n" := (N.of_nat n) (at level 1, format "# n").
Definition rN (r : res nat) : res N :=
  match r with Ok v => Ok (N.of_nat v) | Err e => Err e | Panic e => Panic e | Diverge => Diverge end.

Definition w63 : N := (2 ^ 63)%N.
Lemma w64_eq : w64 = 18446744073709551616%N. Proof. reflexivity. Qed.
Lemma w63_eq : w63 = 9223372036854775808%N. Proof. reflexivity. Qed.
Ltac wl := rewrite ?w64_eq, ?w63_eq in *; lia.

(* ---- operations ---- *)
Lemma add_of m a b : (#a + #b < w64)%N -> add64 m #a #b = Ok #(a + b).
Proof. intros H. unfold add64. replace (#a + #b <? w64)%N with true by lia. f_equal. lia. Qed.
Lemma mul_of m a b : (#a * #b < w64)%N -> mul64 m #a #b = Ok #(a * b).
Proof. intros H. unfold mul64. replace (#a * #b <? w64)%N with true by (symmetry; apply N.ltb_lt; exact H). f_equal. rewrite Nat2N.inj_mul. reflexivity. Qed.
Lemma sub_of m a b : b <= a -> sub64 m #a #b = Ok #(a - b).
Proof. intros H. unfold sub64. replace (#b <=? #a)%N with true by lia. f_equal. lia. Qed.
Lemma of_pow2 s : #(2 ^ s) = (2 ^ #s)%N.
Proof. rewrite Nat2N.inj_pow. reflexivity. Qed.
Lemma pow_lt_of a s : (#a < 2 ^ #s)%N <-> a < 2 ^ s.
Proof. rewrite <- of_pow2. lia. Qed.
Lemma shiftr_of a s : N.shiftr #a #s = #(Nat.shiftr a s).
Proof. rewrite N.shiftr_div_pow2, shiftr_div, Nat2N.inj_div, of_pow2. reflexivity. Qed.
Lemma shr_of m a s : s < 64 -> shr64 m #a #s = Ok #(Nat.shiftr a s).
Proof. intros H. unfold shr64. replace (#s <? 64)%N with true by lia. rewrite shiftr_of. reflexivity. Qed.
Lemma shl_of m a s : s < 64 -> (#(Nat.shiftl a s) < w64)%N -> shl64 m #a #s = Ok #(Nat.shiftl a s).
Proof.
  intros H Hf. unfold shl64. replace (#s <? 64)%N with true by lia. rewrite N.shiftl_mul_pow2, <- of_pow2, <- Nat2N.inj_mul, <- shiftl_mul.
  rewrite N.mod_small by exact Hf. reflexivity.
Qed.
Lemma log2_up_of n : N.log2_up #n = #(Nat.log2_up n).
Proof.
  destruct (Nat.le_gt_cases n 1) as [H|H].
  - rewrite N.log2_up_eqn0, Nat.log2_up_eqn0 by lia. reflexivity.
  - pose proof (Nat.log2_up_spec n H) as [S1 S2]. pose proof (Nat.log2_up_pos n H).
    apply N.log2_up_unique; [lia|]. rewrite <- Nat2N.inj_pred, <- !of_pow2. lia.
Qed.
Lemma npow2_of n : (2 ^ N.log2_up #n)%N = #(next_pow2 n).
Proof. unfold next_pow2. rewrite log2_up_of, of_pow2. reflexivity. Qed.
Lemma npow_of m n : (#n <= w63)%N -> npow64 m #n = Ok #(next_pow2 n).
Proof.
  intros H. unfold npow64. rewrite npow2_of. replace (#(next_pow2 n) <? w64)%N with true; [reflexivity|].
  symmetry. apply N.ltb_lt. rewrite <- npow2_of. apply N.lt_le_trans with (2 ^ 64)%N; [|reflexivity].
  apply N.pow_lt_mono_r; [lia|]. apply N.le_lt_trans with (N.log2_up w63); [apply N.log2_up_le_mono; exact H|vm_compute; reflexivity].
Qed.
Lemma ptz_of p : forall fuel, Pos.to_nat p <= fuel -> ptz p = #(tz_fuel fuel (Pos.to_nat p)).
Proof.
  induction p as [p IH|p IH|]; intros fuel Hf.
  - destruct fuel as [|f]; [pose proof (Pos2Nat.is_pos (xI p)); lia|]. cbn [ptz tz_fuel]. rewrite Pos2Nat.inj_xI.
    replace (Nat.even (S (2 * Pos.to_nat p))) with false; [reflexivity|]. rewrite Nat.even_succ, Nat.odd_mul. reflexivity.
  - destruct fuel as [|f]; [pose proof (Pos2Nat.is_pos (xO p)); lia|]. cbn [ptz tz_fuel]. rewrite Pos2Nat.inj_xO in *.
    rewrite Nat.even_mul. cbn [Nat.even orb]. rewrite (Nat.mul_comm 2), Nat.div_mul by lia. rewrite (IH f) by (pose proof (Pos2Nat.is_pos p); lia). lia.
  - destruct fuel as [|f]; [cbn in Hf; lia|]. reflexivity.
Qed.
Lemma tz_of n : tz64 #n = #(trailing_zeros n).
Proof.
  unfold trailing_zeros. destruct n as [|n]; [reflexivity|]. cbn [Nat.eqb]. cbn [N.of_nat tz64]. rewrite (ptz_of _ (S n)); rewrite SuccNat2Pos.id_succ; auto.
Qed.

Lemma le63_log s : (2 ^ #s <= w63)%N -> s < 64.
Proof.
  intros H. destruct (Nat.lt_ge_cases s 64) as [G|G]; [exact G|]. exfalso.
  pose proof (N.pow_le_mono_r 2 64 #s ltac:(lia) ltac:(lia)) as Q. assert (w63 < 2 ^ 64)%N by (vm_compute; reflexivity). lia.
Qed.
Lemma pow_63 s : s < 64 -> (2 ^ #s <= w63)%N.
Proof. intros H. apply N.pow_le_mono_r; lia. Qed.
Lemma eqb_of a b : (#a =? #b)%N = (a =? b).
Proof. lia. Qed.
Lemma leb_of a b : (#a <=? #b)%N = (a <=? b).
Proof. lia. Qed.
Lemma ltb_of a b : (#a <? #b)%N = (a <? b).
Proof. lia. Qed.
Lemma half s a : 1 <= s -> 2 * Nat.shiftr a s <= a.
Proof.
  intros H. rewrite shiftr_div. pose proof (Nat.mul_div_le a (2 ^ s) (Nat.pow_nonzero 2 s ltac:(lia))) as G.
  assert (2 <= 2 ^ s) by (destruct s as [|s']; [lia|]; cbn [Nat.pow]; pose proof (Nat.pow_nonzero 2 s' ltac:(lia)); lia).
  pose proof (Nat.mul_le_mono_r 2 (2 ^ s) (a / 2 ^ s) ltac:(lia)). lia.
Qed.

(* ---- get_merkle_tree_len ---- *)
Lemma len_loop_sim m s leafs : 1 <= s -> s < 64 -> (#leafs <= w63)%N -> forall k fuel64 fuel cur len,
  cur < 2 ^ k -> k < fuel64 -> cur < fuel -> len + cur <= 2 * leafs -> (#len < w64)%N ->
  len_loop64 m fuel64 #s #leafs #cur #len = rN (len_loop fuel s leafs cur len).
Proof.
  intros Hs Hs64 Hl. induction k as [|k IH]; intros fuel64 fuel cur len Hk Hf Hf' Hinv Hlen.
  - cbn in Hk. destruct fuel64 as [|g]; [lia|]. destruct fuel as [|h]; [lia|]. cbn [len_loop64 len_loop]. replace (0 <? #cur)%N with false by lia.
    replace (0 <? cur) with false by lia. reflexivity.
  - destruct fuel64 as [|g]; [lia|]. destruct fuel as [|h]; [lia|]. cbn [len_loop64 len_loop].
    replace (0 <? #cur)%N with (0 <? cur) by lia. destruct (0 <? cur) eqn:Hc; [|reflexivity].
    rewrite shr_of by auto. cbn [rbind]. pose proof (half s cur Hs) as HH. set (c := Nat.shiftr cur s) in *.
    rewrite ltb_of. destruct (c <? leafs); [|reflexivity]. cbn [ensure rbind].
    assert (#len + #c < w64)%N by wl. rewrite add_of by auto. cbn [rbind].
    apply IH; try lia. cbn [Nat.pow] in Hk. lia.
Qed.

(* the leaf counts for which no operation can overflow *)
Definition lim (m : mode) (b leafs : nat) : Prop := (#leafs <= w63)%N /\ (m = Check -> b = 2 -> (#leafs < w63)%N).

Lemma lt_2_64 n : (#n <= w63)%N -> n < 2 ^ 64.
Proof. intros H. apply pow_lt_of. change #64 with 64%N. assert (w63 < 2 ^ 64)%N by (vm_compute; reflexivity). lia. Qed.

Lemma len_sim m leafs b : lim m b leafs -> get_merkle_tree_len64 m #leafs #b = rN (get_merkle_tree_len leafs b).
Proof.
  intros (Hl & Hl2). unfold get_merkle_tree_len64, get_merkle_tree_len. rewrite leb_of. destruct (b <=? leafs) eqn:Hbl; [|reflexivity]. cbn [ensure rbind].
  assert (Hb : (#b <= w63)%N) by wl. rewrite npow_of by auto. cbn [rbind]. rewrite eqb_of. destruct (b =? next_pow2 b) eqn:Hp; [|reflexivity]. cbn [ensure rbind].
  change 2%N with #2. rewrite eqb_of. destruct (b =? 2) eqn:H2.
  - rewrite npow_of by auto. cbn [rbind]. rewrite eqb_of. destruct (leafs =? next_pow2 leafs) eqn:Hq; [|reflexivity]. cbn [ensure rbind].
    apply next_pow2_eqb' in Hq. apply pow2_pos in Hq.
    unfold checked_sub. replace (1 <=? 2 * leafs) with true by lia. cbn [rN].
    destruct (#leafs =? w63)%N eqn:G.
    + assert (HE : #leafs = w63) by lia. destruct m; [|exfalso; specialize (Hl2 eq_refl ltac:(lia)); lia]. 
      unfold mul64. change #2 with 2%N. rewrite HE. change (mul64 Wrap 2 w63) with (Ok 0%N). cbn [rbind].
      replace (#(2 * leafs - 1)) with (2 * w63 - 1)%N by wl. vm_compute. reflexivity.
    + rewrite mul_of by (change #2 with 2%N; wl). cbn [rbind]. change 1%N with #1. rewrite sub_of by lia. reflexivity.
  - apply next_pow2_eqb' in Hp. destruct Hp as [s ->]. rewrite tz_of. unfold log2_pow2. rewrite trailing_zeros_pow.
    change 0%N with #0. rewrite eqb_of. destruct (s =? 0) eqn:Hs; [reflexivity|].
    rewrite of_pow2 in Hb. apply le63_log in Hb.
    apply (len_loop_sim m s leafs ltac:(lia) Hb Hl 64); try lia; [apply lt_2_64; exact Hl|wl].
Qed.

(* ---- is_merkle_tree_size_valid ---- *)
Lemma valid_loop_sim m s leafs : 1 <= s -> s < 64 -> forall k fuel64 fuel cur,
  cur < 2 ^ k -> k < fuel64 -> cur < fuel -> valid_loop64 m fuel64 #s #leafs #cur = valid_loop fuel s leafs cur.
Proof.
  intros Hs Hs64. induction k as [|k IH]; intros fuel64 fuel cur Hk Hf Hf'; (destruct fuel64 as [|g]; [lia|]); (destruct fuel as [|h]; [lia|]);
    cbn [valid_loop64 valid_loop]; change 1%N with #1; rewrite eqb_of; destruct (cur =? 1) eqn:H1; auto; rewrite shr_of by auto; cbn [rbind];
    pose proof (half s cur Hs) as HH; set (c := Nat.shiftr cur s) in *; change 0%N with #0; rewrite ltb_of, eqb_of.
  - cbn in Hk. replace (c =? 0) with true by lia. rewrite orb_true_r. reflexivity.
  - destruct ((leafs <? c) || (c =? 0)) eqn:G; [reflexivity|]. cbn [Nat.pow] in Hk. apply IH; lia.
Qed.
Lemma valid64_1_diverges m n : (1 < n)%N -> forall fuel, valid_loop64 m fuel 0 n n = Diverge.
Proof.
  intros Hn. induction fuel as [|f IH]; [reflexivity|]. cbn [valid_loop64]. replace (n =? 1)%N with false by lia.
  unfold shr64. cbn [N.ltb N.compare]. change (N.shiftr n 0) with n. cbn [rbind]. replace ((n <? n)%N || (n =? 0)%N) with false by lia. exact IH.
Qed.
Lemma valid_sim m leafs b : (#leafs <= w63)%N -> (#b <= w63)%N -> is_merkle_tree_size_valid64 m #leafs #b = is_merkle_tree_size_valid leafs b.
Proof.
  intros Hl Hb. unfold is_merkle_tree_size_valid64, is_merkle_tree_size_valid, is_merkle_tree_size_valid_fuel. change 0%N with #0. rewrite eqb_of.
  destruct (b =? 0) eqn:H0; [reflexivity|]. cbn [orb]. rewrite npow_of by auto. cbn [rbind]. rewrite eqb_of.
  destruct (leafs =? next_pow2 leafs) eqn:Hq; [|reflexivity]. cbn [negb orb]. rewrite npow_of by auto. cbn [rbind]. rewrite eqb_of.
  destruct (b =? next_pow2 b) eqn:Hp; [|reflexivity]. cbn [negb]. apply next_pow2_eqb' in Hp. destruct Hp as [s ->].
  rewrite tz_of. unfold log2_pow2. rewrite trailing_zeros_pow. rewrite of_pow2 in Hb. apply le63_log in Hb.
  destruct (Nat.eq_dec s 0) as [->|Hs].
  - apply next_pow2_eqb' in Hq. apply pow2_pos in Hq. destruct (Nat.eq_dec leafs 1) as [->|Hn]; [reflexivity|].
    rewrite valid_loop_1_diverges by lia. apply valid64_1_diverges. lia.
  - apply (valid_loop_sim m s leafs ltac:(lia) Hb 64); try lia. apply lt_2_64. exact Hl.
Qed.

(* ---- get_merkle_tree_row_count ---- *)
Lemma ilog_sim b : 2 <= b -> forall k fuel64 fuel n, n < 2 ^ k -> k <= fuel64 -> n <= fuel -> ilog64 fuel64 #b #n = #(ilog_fuel fuel b n).
Proof.
  intros Hb. induction k as [|k IH]; intros fuel64 fuel n Hk Hf Hf'.
  - cbn in Hk. assert (n = 0) as -> by lia. destruct fuel64; destruct fuel; cbn [ilog64 ilog_fuel]; auto;
      replace (#0 <? #b)%N with true by lia; replace (0 <? b) with true by lia; reflexivity.
  - destruct fuel64 as [|g]; [lia|]. destruct fuel as [|h].
    + assert (n = 0) as -> by lia. cbn [ilog64 ilog_fuel]. replace (#0 <? #b)%N with true by lia. reflexivity.
    + cbn [ilog64 ilog_fuel]. rewrite ltb_of. destruct (n <? b) eqn:G; [reflexivity|]. rewrite <- Nat2N.inj_div. 
      assert (n / b < n) by (apply Nat.div_lt; lia).
      assert (n / b < 2 ^ k) by (apply Nat.div_lt_upper_bound; [lia|]; cbn [Nat.pow] in Hk; assert (2 * 2 ^ k <= b * 2 ^ k) by (apply Nat.mul_le_mono_r; lia); lia).
      rewrite (IH g h (n / b)) by lia. lia.
Qed.
Lemma ilog_bound b : 2 <= b -> forall k fuel n, n < 2 ^ k -> ilog_fuel fuel b n <= k.
Proof.
  intros Hb. induction k as [|k IH]; intros fuel n Hk; destruct fuel as [|h]; cbn [ilog_fuel]; try lia.
  - cbn in Hk. replace (n <? b) with true by lia. lia.
  - destruct (n <? b); [lia|]. apply le_n_S. apply IH. apply Nat.div_lt_upper_bound; [lia|]. cbn [Nat.pow] in Hk.
    assert (2 * 2 ^ k <= b * 2 ^ k) by (apply Nat.mul_le_mono_r; lia). lia.
Qed.
Lemma row_sim m leafs b : lim m b leafs -> (#b < w64)%N -> get_merkle_tree_row_count64 m #leafs #b = Ok #(get_merkle_tree_row_count leafs b).
Proof.
  intros (Hl & Hl2) Hb. unfold get_merkle_tree_row_count64, get_merkle_tree_row_count. change 2%N with #2. rewrite eqb_of. destruct (b =? 2) eqn:H2.
  - assert (b = 2) as -> by lia. destruct (#leafs =? w63)%N eqn:G.
    + assert (HE : #leafs = w63) by lia. destruct m; [|exfalso; specialize (Hl2 eq_refl eq_refl); lia].
      rewrite HE. change #2 with 2%N. change (mul64 Wrap w63 2) with (Ok 0%N). cbn [rbind tz64]. f_equal.
      assert (leafs = 2 ^ 63) as -> by (apply Nat2N.inj; rewrite HE, of_pow2; reflexivity).
      replace (2 ^ 63 * 2) with (2 ^ 64) by (rewrite (Nat.pow_succ_r' 2 63); apply Nat.mul_comm).
      rewrite trailing_zeros_pow. reflexivity.
    + rewrite mul_of by (change #2 with 2%N; wl). cbn [rbind]. rewrite tz_of. reflexivity.
  - change 0%N with #0. change 1%N with #1. rewrite !eqb_of. destruct (b =? 0) eqn:H0; [reflexivity|]. destruct (b =? 1) eqn:H1.
    { rewrite leb_of. destruct (leafs <=? 1); [reflexivity|]. unfold usize_max. rewrite N2Nat.id. reflexivity. }
    destruct (leafs =? 0) eqn:G0; [reflexivity|]. f_equal. unfold ilog. rewrite <- Nat2N.inj_mul.
    apply (ilog_sim b ltac:(lia) 128); try lia. apply pow_lt_of. rewrite Nat2N.inj_mul. change (2 ^ #128)%N with (w64 * w64)%N.
    assert (#leafs < w64)%N by wl. apply N.mul_lt_mono; lia.
Qed.

(* ---- default_rows_to_discard ---- *)
Lemma default_rows_sim m leafs b : lim m b leafs -> (#b < w64)%N -> default_rows_to_discard64 m #leafs #b = Ok #(default_rows_to_discard leafs b).
Proof.
  intros Hl Hb. unfold default_rows_to_discard64, default_rows_to_discard. rewrite row_sim by auto. cbn [rbind]. set (r := get_merkle_tree_row_count leafs b).
  change 2%N with #2. change 3%N with #3. change 4%N with #4. rewrite leb_of. destruct (r <=? 2) eqn:R2; [reflexivity|]. rewrite eqb_of. destruct (r =? 3) eqn:R3; [reflexivity|].
  rewrite sub_of by lia. cbn [rbind]. rewrite !eqb_of.
  destruct b as [|[|[|[|[|b]]]]]; cbn [Nat.eqb]; f_equal; lia.
Qed.

(* ---- get_merkle_proof_lemma_len ---- *)
Lemma lemma_len_sim m rc b v : get_merkle_proof_lemma_len rc b = Ok v -> (#v < w64)%N -> get_merkle_proof_lemma_len64 m #rc #b = Ok #v.
Proof.
  unfold get_merkle_proof_lemma_len, get_merkle_proof_lemma_len64, checked_sub. intros H Hv. destruct (1 <=? b) eqn:B1; [|discriminate]. cbn [rbind] in H.
  destruct (1 <=? rc) eqn:R1; [|discriminate]. cbn [rbind] in H. injection H as <-. change 1%N with #1. change 2%N with #2.
  rewrite !sub_of by lia. cbn [rbind]. rewrite mul_of by (rewrite <- Nat2N.inj_mul; lia). cbn [rbind]. rewrite add_of by lia. f_equal.
Qed.

(* ---- get_merkle_tree_len_generic ---- *)
Lemma len_ge leafs b v : get_merkle_tree_len leafs b = Ok v -> 0 < b -> 1 <= v.
Proof.
  unfold get_merkle_tree_len. intros H Hb. destruct (b <=? leafs) eqn:G; [|discriminate]. cbn [ensure rbind] in H.
  destruct (b =? next_pow2 b); [|discriminate]. cbn [ensure rbind] in H. destruct (b =? 2).
  - destruct (leafs =? next_pow2 leafs); [|discriminate]. cbn [ensure rbind] in H. unfold checked_sub in H. destruct (1 <=? 2 * leafs); [|discriminate]. injection H as <-. lia.
  - destruct (log2_pow2 b =? 0); [injection H as <-; lia|].
    assert (HX : forall fuel cur len v, len_loop fuel (log2_pow2 b) leafs cur len = Ok v -> len <= v).
    { induction fuel as [|f IH]; intros cur len w Hw; cbn [len_loop] in Hw; [discriminate|]. destruct (0 <? cur); [|injection Hw as <-; lia].
      destruct (Nat.shiftr cur (log2_pow2 b) <? leafs); [|discriminate]. cbn [ensure rbind] in Hw. apply IH in Hw. lia. }
    apply HX in H. lia.
Qed.
Lemma generic_sim m b sub_ top leaves v : lim m b leaves -> 0 < b -> get_merkle_tree_len_generic b sub_ top leaves = Ok v -> (#v < w64)%N ->
  get_merkle_tree_len_generic64 m #b #sub_ #top #leaves = Ok #v.
Proof.
  intros Hl Hb H Hv. unfold get_merkle_tree_len_generic in H. unfold get_merkle_tree_len_generic64. rewrite len_sim by auto.
  destruct (get_merkle_tree_len leaves b) as [l| | |] eqn:HL; try discriminate. cbn [rbind rN] in *. pose proof (len_ge _ _ _ HL Hb) as Hl1.
  change 0%N with #0. change 1%N with #1. rewrite !ltb_of. destruct (0 <? top) eqn:Ht.
  - injection H as <-. rewrite add_of by lia. cbn [rbind].
    assert (sub_ * top <= sub_ * top * l) by (rewrite <- (Nat.mul_1_r (sub_ * top)) at 1; apply Nat.mul_le_mono_l; lia).
    rewrite mul_of by (rewrite <- Nat2N.inj_mul; lia). cbn [rbind]. rewrite mul_of by (rewrite <- Nat2N.inj_mul; lia). cbn [rbind].
    rewrite add_of by lia. f_equal.
  - destruct (0 <? sub_) eqn:Hs; injection H as <-; [|reflexivity].
    rewrite mul_of by (rewrite <- Nat2N.inj_mul; lia). cbn [rbind]. rewrite add_of by lia. f_equal.
Qed.

(* ---- get_merkle_tree_cache_size ---- *)
Definition quiet (m : mode) {X} (r : res X) : Prop := m = Check \/ forall e, r <> Panic e.
Lemma quiet_bind m {X Y} (a : res X) (g : X -> res Y) : quiet m (rbind a g) -> quiet m a /\ forall x, a = Ok x -> quiet m (g x).
Proof.
  intros [->|H]; [split; [|intros]; left; reflexivity|]. split.
  - right. intros e ->. apply (H e). reflexivity.
  - intros x ->. right. exact H.
Qed.
Lemma csub_sim m a b : quiet m (checked_sub a b) -> sub64 m #a #b = rN (checked_sub a b).
Proof.
  unfold checked_sub. destruct (b <=? a) eqn:G; [intros _; apply sub_of; lia|]. intros [->|H]; [|exfalso; eapply H; reflexivity].
  unfold sub64. rewrite leb_of, G. reflexivity.
Qed.
Lemma cache_loop_sim m s base : s < 64 -> forall k fuel64 fuel rc cs cl, rc - base = k -> k < fuel64 -> k < fuel ->
  quiet m (cache_loop fuel s rc base cs cl) ->
  cache_loop64 m fuel64 #s #rc #base #cs #cl = rN (cache_loop fuel s rc base cs cl).
Proof.
  intros Hs. induction k as [|k IH]; intros fuel64 fuel rc cs cl Hk Hf Hf' HQ; (destruct fuel64 as [|g]; [lia|]); (destruct fuel as [|h]; [lia|]);
    cbn [cache_loop64 cache_loop] in *; rewrite ltb_of; destruct (base <? rc) eqn:G; try lia; auto.
  apply quiet_bind in HQ. destruct HQ as [Q1 Q2]. rewrite csub_sim by auto. destruct (checked_sub cs cl) as [c| | |]; auto. cbn [rN rbind].
  specialize (Q2 c eq_refl). rewrite shr_of by auto. cbn [rbind]. apply quiet_bind in Q2. destruct Q2 as [Q2 Q3]. change 1%N with #1. rewrite csub_sim by auto.
  unfold checked_sub in *. replace (1 <=? rc) with true in * by lia. cbn [rN rbind] in *. apply IH; try lia. apply Q3. reflexivity.
Qed.
Lemma tz_le leafs : 0 < leafs -> (#leafs <= w63)%N -> trailing_zeros (leafs * 2) <= 64.
Proof.
  intros H0 H.
  assert (G : forall n fuel, 0 < n -> 2 ^ tz_fuel fuel n <= n).
  { clear. intros n fuel; revert n. induction fuel as [|f IH]; intros n Hn; cbn [tz_fuel]; [cbn; lia|]. destruct (Nat.even n) eqn:E; [|cbn; lia].
    apply Nat.even_spec in E. destruct E as [q ->]. replace (2 * q / 2) with q by (rewrite Nat.mul_comm, Nat.div_mul; lia).
    specialize (IH q ltac:(lia)). cbn [Nat.pow]. lia. }
  unfold trailing_zeros. replace (leafs * 2 =? 0) with false by lia. specialize (G (leafs * 2) (leafs * 2) ltac:(lia)).
  set (t := tz_fuel (leafs * 2) (leafs * 2)) in *. destruct (Nat.le_gt_cases t 64) as [L|L]; [exact L|]. exfalso.
  pose proof (Nat.pow_le_mono_r 2 65 t ltac:(lia) ltac:(lia)) as P. assert (Q : 2 ^ 65 <= leafs * 2) by (eapply Nat.le_trans; eauto).
  assert (Q' : (#(2 ^ 65) <= #(leafs * 2))%N) by lia. rewrite of_pow2 in Q'. change (2 ^ #65)%N with (4 * w63)%N in Q'. rewrite Nat2N.inj_mul in Q'. change #2 with 2%N in Q'. wl.
Qed.
Lemma row_small leafs b : 0 < leafs -> (#leafs <= w63)%N -> 2 <= b -> get_merkle_tree_row_count leafs b <= 65.
Proof.
  intros H0 Hl Hb. unfold get_merkle_tree_row_count. destruct (b =? 2) eqn:H2.
  - assert (b = 2) as -> by lia. pose proof (tz_le leafs H0 Hl). lia.
  - replace (b =? 0) with false by lia. replace (b =? 1) with false by lia. replace (leafs =? 0) with false by lia.
    unfold ilog. destruct (b * leafs) as [|x] eqn:Hx; [lia|]. cbn [ilog_fuel]. rewrite <- Hx. destruct (b * leafs <? b); [lia|].
    rewrite Nat.mul_comm, Nat.div_mul by lia. pose proof (ilog_bound b Hb 64 x leafs (lt_2_64 leafs Hl)). lia.
Qed.
Lemma cache_sim m leafs b r : lim m b leafs -> 2 <= b -> (#b < w64)%N ->
  quiet m (get_merkle_tree_cache_size leafs b r) ->
  get_merkle_tree_cache_size64 m #leafs #b #r = rN (get_merkle_tree_cache_size leafs b r).
Proof.
  intros Hl H2 Hb HQ. unfold get_merkle_tree_cache_size64. unfold get_merkle_tree_cache_size in *. rewrite len_sim by auto.
  destruct (get_merkle_tree_len leafs b) as [len|e|e|] eqn:HL; auto. cbn [rbind rN] in *. rewrite row_sim by auto. cbn [rbind].
  assert (Hge : b <= leafs /\ pow2 b).
  { unfold get_merkle_tree_len in HL. destruct (b <=? leafs) eqn:G; [|discriminate]. cbn [ensure rbind] in HL. destruct (b =? next_pow2 b) eqn:G'; [|discriminate].
    apply next_pow2_eqb' in G'. split; [lia|exact G']. }
  destruct Hge as [Hge [s Hs]]. pose proof Hl as (Hl63 & _).
  assert (s < 64) by (apply le63_log; rewrite <- of_pow2, <- Hs; wl).
  pose proof (row_small leafs b ltac:(lia) Hl63 H2) as Hrs. set (rc := get_merkle_tree_row_count leafs b) in *.
  apply quiet_bind in HQ. destruct HQ as [Q1 Q2]. change 1%N with #1. rewrite csub_sim by auto. destruct (checked_sub rc 1) as [r1| | |] eqn:HR1; auto. cbn [rN rbind] in *.
  specialize (Q2 r1 eq_refl). rewrite ltb_of. destruct (r <? r1) eqn:Hr; [|reflexivity]. cbn [ensure rbind] in *.
  unfold checked_sub in HR1. destruct (1 <=? rc) eqn:G1; [|discriminate]. injection HR1 as <-.
  apply quiet_bind in Q2. destruct Q2 as [Q2 Q3]. rewrite csub_sim by auto. unfold checked_sub in *. replace (r <=? rc - 1) with true in * by lia. cbn [rN rbind] in *.
  specialize (Q3 _ eq_refl). rewrite Hs at 1. rewrite tz_of, trailing_zeros_pow. rewrite Hs in *. unfold log2_pow2 in *. rewrite trailing_zeros_pow in *.
  apply (cache_loop_sim m s (rc - 1 - r) ltac:(lia) (S r)); auto; lia.
Qed.

(* ---- get_merkle_tree_leafs ---- *)
Lemma leafs_loop_sim m s len : 1 <= s -> s < 64 -> (#len < w64)%N -> forall k fuel64 fuel leafs cur,
  (w64 <= #leafs * 2 ^ #k)%N -> k < fuel64 -> cur < fuel -> (#leafs < w64)%N -> leafs <= Nat.max 1 len -> cur <= len ->
  ((exists v, leafs_loop fuel s len leafs cur = Ok v) \/ (#len * 2 ^ #s < w64)%N) ->
  leafs_loop64 m fuel64 #s #len #leafs #cur = rN (leafs_loop fuel s len leafs cur).
Proof.
  intros Hs Hs64 Hlen. induction k as [|k IH]; intros fuel64 fuel leafs cur Hk Hf Hf' Hl Hl' Hc HV; (destruct fuel64 as [|g]; [lia|]).
  { change (2 ^ #0)%N with 1%N in Hk. lia. }
  destruct fuel as [|h]; [lia|]. cbn [leafs_loop64 leafs_loop] in *. change 1%N with #1. rewrite eqb_of. destruct (cur =? 1) eqn:H1; [reflexivity|].
  destruct (N.lt_ge_cases #(Nat.shiftl leafs s) w64) as [G|G].
  - rewrite shl_of by auto. cbn [rbind]. set (l := Nat.shiftl leafs s) in *. rewrite ltb_of. destruct (l <? cur) eqn:Q; [|reflexivity]. cbn [ensure rbind] in *.
    rewrite sub_of by lia. cbn [rbind]. rewrite ltb_of. destruct (cur - l <? len) eqn:Q'; [|reflexivity]. cbn [ensure rbind] in *.
    assert (Hll : 2 * leafs <= l).
    { unfold l. rewrite shiftl_mul. destruct s as [|s']; [lia|]. cbn [Nat.pow]. pose proof (Nat.pow_nonzero 2 s' ltac:(lia)). nia. }
    assert (HlP : 0 < leafs) by (destruct leafs; [cbn in Hk; wl|lia]).
    apply IH; try lia; [|exact HV]. replace #(S k) with (N.succ #k) in Hk by lia. rewrite N.pow_succ_r' in Hk.
    assert (#leafs * 2 <= #l)%N by lia. pose proof (N.mul_le_mono_r (#leafs * 2) #l (2 ^ #k) H). lia.
  - exfalso. rewrite shiftl_mul in G. rewrite Nat2N.inj_mul, of_pow2 in G. destruct HV as [[v HV]|HV].
    + rewrite shiftl_mul in HV. assert (#(leafs * 2 ^ s) >= w64)%N by (rewrite Nat2N.inj_mul, of_pow2; lia).
      replace (leafs * 2 ^ s <? cur) with false in HV by lia. cbn [ensure rbind] in HV. discriminate.
    + destruct (Nat.le_gt_cases len 0) as [L0|L0].
      * assert (leafs <= 1) by lia. pose proof (N.mul_le_mono_r #leafs 1 (2 ^ #s) ltac:(lia)). pose proof (pow_63 s Hs64). wl.
      * pose proof (N.mul_le_mono_r #leafs #len (2 ^ #s) ltac:(lia)) as M.
        lia.
Qed.

Lemma leafs_loop_le s len : forall fuel leafs cur v, leafs_loop fuel s len leafs cur = Ok v -> leafs <= Nat.max 1 len -> cur <= len -> v <= Nat.max 1 len.
Proof.
  induction fuel as [|f IH]; intros leafs cur v H H1 H2; cbn [leafs_loop] in H; [discriminate|]. destruct (cur =? 1); [injection H as <-; exact H1|].
  destruct (Nat.shiftl leafs s <? cur) eqn:G; [|discriminate]. cbn [ensure rbind] in H. destruct (cur - Nat.shiftl leafs s <? len); [|discriminate]. cbn [ensure rbind] in H.
  apply IH in H; lia.
Qed.
Lemma pow2_lt64 n : pow2 n -> (#n < w64)%N -> (#n <= w63)%N.
Proof.
  intros [k ->] H. rewrite of_pow2 in *. apply pow_63. destruct (Nat.lt_ge_cases k 64) as [G|G]; [exact G|]. exfalso.
  pose proof (N.pow_le_mono_r 2 64 #k ltac:(lia) ltac:(lia)) as P. change (2 ^ 64)%N with w64 in P. lia.
Qed.

Lemma leafs_sim m len b : (#len < w64)%N -> (#b <= w63)%N -> b <> 1 ->
  ((exists v, get_merkle_tree_leafs len b = Ok v) \/ (#len * #b < w64)%N) ->
  get_merkle_tree_leafs64 m 66 #len #b = rN (get_merkle_tree_leafs len b).
Proof.
  intros Hlen Hb H1 HV. unfold get_merkle_tree_leafs64. unfold get_merkle_tree_leafs in *. rewrite npow_of by auto. cbn [rbind]. rewrite eqb_of.
  destruct (b =? next_pow2 b) eqn:Hp; [|reflexivity]. cbn [ensure rbind] in *. apply next_pow2_eqb' in Hp. destruct Hp as [s Hs].
  assert (Hs64 : s < 64) by (apply le63_log; rewrite <- of_pow2, <- Hs; exact Hb).
  assert (Hs0 : 1 <= s) by (destruct s; [cbn in Hs; lia|lia]).
  change 2%N with #2. rewrite eqb_of. destruct (b =? 2) eqn:H2.
  - change 1%N with #1. rewrite shr_of by lia. cbn [rbind]. pose proof (half 1 len ltac:(lia)) as HH. set (h := Nat.shiftr len 1) in *.
    rewrite add_of by wl. cbn [rbind] in *. rewrite npow_of by wl. cbn [rbind]. rewrite eqb_of. destruct (h + 1 =? next_pow2 (h + 1)); reflexivity.
  - rewrite tz_of. rewrite Hs at 1. rewrite trailing_zeros_pow. unfold log2_pow2 in *. rewrite Hs in HV |- *. rewrite trailing_zeros_pow in *.
    assert (HS : leafs_loop64 m 66 #s #len #1 #len = rN (leafs_loop (S len) s len 1 len)).
    { apply (leafs_loop_sim m s len Hs0 Hs64 Hlen 64); try lia.
      - vm_compute. discriminate.
      - vm_compute. reflexivity.
      - destruct HV as [[v HV]|HV]; [left|right; rewrite <- of_pow2; exact HV].
        destruct (leafs_loop (S len) s len 1 len) as [w| | |]; try discriminate. exists w. reflexivity. }
    change 1%N with #1. rewrite HS. destruct (leafs_loop (S len) s len 1 len) as [v|e|e|] eqn:HLL; try reflexivity. cbn [rN rbind] in *.
    apply leafs_loop_le in HLL; [|lia|lia].
    assert (Hv : (#v <= w63)%N).
    { destruct HV as [[w HV]|HV].
      - destruct (v =? next_pow2 v) eqn:Q; [|discriminate]. apply next_pow2_eqb' in Q. apply pow2_lt64; [exact Q|]. wl.
      - assert (2 <= 2 ^ s) by (destruct s as [|s']; [lia|]; cbn [Nat.pow]; pose proof (Nat.pow_nonzero 2 s' ltac:(lia)); lia).
        pose proof (N.mul_le_mono_l 2 #(2 ^ s) #len ltac:(lia)). wl. }
    rewrite npow_of by exact Hv. cbn [rbind]. rewrite eqb_of. destruct (v =? next_pow2 v); reflexivity.
Qed.
