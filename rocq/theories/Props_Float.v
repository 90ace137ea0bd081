(* C54: the binary64 row count. *)
From Coq Require Import String List Arith NArith ZArith Bool Reals Lia Lra ZifyBool ZifyNat ZifyN.
From Flocq Require Import Core BinarySingleNaN.
From Verif Require Import Base Sizing Spec SpecFacts SizingFacts Float FloatFacts.
Import ListNotations.
Local Close Scope R_scope.

(* With any correctly rounded logarithm: for every branching factor 2^m >= 4 and every power-of-two
   number of leaves below 2^64 the float expression is floor (log_b (b * leafs)).
   Missing from the full statement: branching factor 2^21 with 2^42 leaves, see C54_refuted. *)
Theorem C54_pow2_partial ln64 m a :
  ln_spec ln64 -> (2 <= m < 64)%N -> (a < 64)%N -> (m, a) <> (21, 42)%N ->
  row_count_f64 ln64 (2 ^ a) (2 ^ m) = ((m + a) / m)%N.
Proof.
  intros HS Hm Ha Hne. apply pair_chk_ok; [exact HS|]. apply pairs_ok; assumption.
Qed.

(* full trees: b^k leaves give k + 1 rows *)
Theorem C54_partial ln64 m k :
  ln_spec ln64 -> (2 <= m < 64)%N -> ((2 ^ m) ^ k < 2 ^ 64)%N -> (m, k) <> (21, 2)%N ->
  row_count_f64 ln64 ((2 ^ m) ^ k) (2 ^ m) = (k + 1)%N.
Proof.
  intros HS Hm Hk Hne. rewrite <- N.pow_mul_r in *. apply N.pow_lt_mono_r_iff in Hk; [|lia].
  rewrite C54_pow2_partial; auto.
  - replace (m + m * k)%N with ((k + 1) * m)%N by lia. apply N.div_mul. lia.
  - intros H. apply Hne. injection H as -> H. f_equal. lia.
Qed.

(* the exception: three rows, the float expression says two *)
Theorem C54_refuted ln64 :
  ln_spec ln64 -> row_count_f64 ln64 ((2 ^ 21) ^ 2) (2 ^ 21) = 2%N /\ ((2 ^ 21) ^ 2 < 2 ^ 64)%N.
Proof.
  intros HS. split; [|reflexivity]. unfold row_count_f64, f64_log.
  assert (H1 : is_pow2f 63 (f64_mul (of_usize (2 ^ 21)) (of_usize ((2 ^ 21) ^ 2))) = true) by (vm_compute; reflexivity).
  assert (H2 : is_pow2f 21 (of_usize (2 ^ 21)) = true) by (vm_compute; reflexivity).
  apply is_pow2f_ok in H1, H2. destruct H1 as (F1 & V1), H2 as (F2 & V2).
  rewrite (ln_pow2_ok ln64 63 _ HS) by (auto; vm_compute; reflexivity). rewrite (ln_pow2_ok ln64 21 _ HS) by (auto; vm_compute; reflexivity).
  vm_compute. reflexivity.
Qed.

(* branching factors up to 2^20 (every one the chunk size of 2^12 nodes allows): no exception *)
Theorem C54_arities ln64 m k :
  ln_spec ln64 -> (2 <= m <= 20)%N -> ((2 ^ m) ^ k < 2 ^ 64)%N -> row_count_f64 ln64 ((2 ^ m) ^ k) (2 ^ m) = (k + 1)%N.
Proof. intros HS Hm Hk. apply C54_partial; auto; [lia|]. intros H. injection H as -> ->. lia. Qed.

(* so it agrees with the exact function of Sizing.v used in all other statements *)
Theorem C54_model_partial ln64 m a :
  ln_spec ln64 -> 2 <= m < 64 -> a < 64 -> (m, a) <> (21, 42) ->
  row_count_f64 ln64 (N.of_nat (2 ^ a)) (N.of_nat (2 ^ m)) = N.of_nat (get_merkle_tree_row_count (2 ^ a) (2 ^ m)).
Proof.
  intros HS Hm Ha Hne. rewrite !Nat2N.inj_pow. change (N.of_nat 2) with 2%N. rewrite C54_pow2_partial; auto; try lia.
  2:{ intros H. apply Hne. injection H as H1 H2. f_equal; lia. }
  assert (Hr : a mod m < m) by (apply Nat.mod_upper_bound; lia).
  replace (2 ^ a) with (2 ^ (a mod m) * (2 ^ m) ^ (a / m)).
  2:{ rewrite <- Nat.pow_mul_r, <- Nat.pow_add_r. f_equal. pose proof (Nat.div_mod_eq a m). lia. }
  rewrite row_count_decomp.
  - rewrite <- Nat2N.inj_add, <- Nat2N.inj_div. f_equal. replace (m + a) with (a + 1 * m) by lia. rewrite Nat.div_add by lia. lia.
  - exists m. split; [lia|reflexivity].
  - exists (a mod m). reflexivity.
  - apply Nat.pow_lt_mono_r; lia.
Qed.

(* for other leaf counts the exact function is a simplification: the conversion to f64 already
   rounds 4^31 - 1 up to 4^31 *)
Theorem C54_other_leafs ln64 :
  ln_spec ln64 -> row_count_f64 ln64 (4 ^ 31 - 1) 4 = 32%N.
Proof.
  intros HS. unfold row_count_f64, f64_log.
  assert (H1 : is_pow2f 64 (f64_mul (of_usize 4) (of_usize (4 ^ 31 - 1))) = true) by (vm_compute; reflexivity).
  assert (H2 : is_pow2f 2 (of_usize 4) = true) by (vm_compute; reflexivity).
  apply is_pow2f_ok in H1, H2. destruct H1 as (F1 & V1), H2 as (F2 & V2).
  rewrite (ln_pow2_ok ln64 64 _ HS) by (auto; vm_compute; reflexivity). rewrite (ln_pow2_ok ln64 2 _ HS) by (auto; vm_compute; reflexivity).
  vm_compute. reflexivity.
Qed.

(* the special values: no branches, no leaves, one branch *)
Theorem C54_special ln64 n m :
  ln_spec ln64 -> (n < 2 ^ 64)%N -> (2 <= m < 64)%N ->
  row_count_f64 ln64 n 0 = 0%N /\
  row_count_f64 ln64 0 (2 ^ m) = 0%N /\
  row_count_f64 ln64 0 1 = 0%N /\ row_count_f64 ln64 1 1 = 0%N /\
  ((2 <= n)%N -> row_count_f64 ln64 n 1 = (2 ^ 64 - 1)%N).
Proof.
  intros HS Hn Hm. destruct (of_usize_ok n Hn) as (Fn & Vn).
  assert (H0 : of_usize 0 = B754_zero false) by reflexivity.
  assert (H1 : ln64 (of_usize 1) = B754_zero false).
  { destruct (is_pow2f_ok 0 (of_usize 1) ltac:(vm_compute; reflexivity)) as (F1 & V1). apply (ln_one _ HS); [exact F1|exact V1]. }
  assert (Hz : forall x s, is_finite x = true -> exists s', f64_mul (B754_zero s) x = B754_zero s' /\ exists s'', f64_mul x (B754_zero s) = B754_zero s'').
  { intros x s Hx. destruct x as [t|t| |t mm e He]; try discriminate; cbn; eauto. }
  unfold row_count_f64, f64_log. rewrite H0, H1. split; [|split; [|split; [|split]]].
  - destruct (Hz (of_usize n) false Fn) as (s' & -> & _). rewrite !(ln_zero _ HS). reflexivity.
  - destruct (is_pow2f_ok (Z.of_N m) (of_usize (2 ^ m))) as (Fm & Vm).
    { pose proof (pairs_ok m 0 Hm ltac:(lia) ltac:(congruence)) as K. unfold pair_chk in K. repeat (apply andb_true_iff in K; destruct K as (K & ?)). assumption. }
    destruct (Hz (of_usize (2 ^ m)) false Fm) as (_ & _ & s' & ->). rewrite (ln_zero _ HS).
    destruct (ln_pos_sign ln64 (of_usize (2 ^ m)) HS Fm) as (mm & e & He & ->); [|reflexivity].
    rewrite Vm. change 2%R with (bpow radix2 1). apply bpow_le. lia.
  - destruct (Hz (of_usize 1) false ltac:(reflexivity)) as (_ & _ & s' & ->). rewrite (ln_zero _ HS). reflexivity.
  - destruct (is_pow2f_ok 0 (of_usize 1) ltac:(vm_compute; reflexivity)) as (F1 & V1).
    destruct (mul_one (of_usize 1) F1) as (F2 & V2). rewrite (ln_one _ HS (f64_mul (of_usize 1) (of_usize 1))); [reflexivity|exact F2|rewrite V2; exact V1].
  - intros H2. destruct (mul_one (of_usize n) Fn) as (F2 & V2).
    destruct (ln_pos_sign ln64 (f64_mul (of_usize 1) (of_usize n)) HS F2) as (mm & e & He & ->); [|reflexivity].
    rewrite V2, Vn. change 2%R with (bpow radix2 1). apply rnd64_ge; [apply fmt_bpow; lia|]. change (bpow radix2 1) with 2%R. apply IZR_le. lia.
Qed.

(* a correctly rounded logarithm exists, so the statements are not about nothing *)
Example C54_case : ln_spec ln_cr /\ row_count_f64 ln_cr (4 ^ 31) 4 = 32%N /\ row_count_f64 ln_cr (8 ^ 10) 8 = 11%N /\ row_count_f64 ln_cr (2 ^ 42) (2 ^ 21) = 2%N.
Proof.
  split; [exact ln_cr_spec|]. split; [|split].
  - exact (C54_arities ln_cr 2 31 ln_cr_spec ltac:(lia) ltac:(reflexivity)).
  - exact (C54_arities ln_cr 3 10 ln_cr_spec ltac:(lia) ltac:(reflexivity)).
  - exact (proj1 (C54_refuted ln_cr ln_cr_spec)).
Qed.
Print Assumptions C54_pow2_partial.
Print Assumptions C54_partial.
Print Assumptions C54_refuted.
Print Assumptions C54_arities.
Print Assumptions C54_model_partial.
Print Assumptions C54_other_leafs.
Print Assumptions C54_special.
