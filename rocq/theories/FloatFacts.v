(* Correctly rounded logarithms of powers of two, and the row count computed with them. *)
From Coq Require Import ZArith NArith Bool Reals Lia Lra List.
From Flocq Require Import Core BinarySingleNaN.
From Verif Require Import Float Ln2.

(* a binary64 number close to j * ln 2 *)
Definition ln_pow2 (j : Z) : f64 := binary_normalize 53 1024 p53 e1024 mode_NE (j * ln2_num) (-100) false.

(* it is the nearest one, by the bounds on ln 2 *)
Definition ln_pow2_chk (j : Z) : bool :=
  match B2SF (ln_pow2 j) with
  | SpecFloat.S754_finite false m e =>
      let w := (2 ^ (100 + e))%Z in
      ((-100 <? e) && (e <=? 0) && (0 <? j) &&
       ((2 * Z.pos m - 1) * w <? 2 * (j * (ln2_num - ln2_err))) &&
       (2 * (j * (ln2_num + ln2_err)) <? (2 * Z.pos m + 1) * w) &&
       (2 ^ 52 * w <=? j * (ln2_num - ln2_err)) && (j * (ln2_num + ln2_err) <=? 2 ^ 53 * w))%Z
  | _ => false
  end.

Local Open Scope R_scope.
Lemma rnd64_ln_pow2 j : ln_pow2_chk j = true -> rnd64 (IZR j * ln 2) = B2R (ln_pow2 j) /\ is_finite_strict (ln_pow2 j) = true.
Proof.
  unfold ln_pow2_chk. generalize (ln_pow2 j) as y. intros y. destruct y as [s|s| |s m e Hme]; try discriminate. cbn [B2SF]. destruct s; [discriminate|].
  intros K. apply andb_true_iff in K as (K & H0). apply andb_true_iff in K as (K & H1). apply andb_true_iff in K as (K & H2).
  apply andb_true_iff in K as (K & H3). apply andb_true_iff in K as (K & H4). apply andb_true_iff in K as (H & H5).
  apply Z.ltb_lt in H, H4, H3, H2. apply Z.leb_le in H5, H1, H0. split; [|reflexivity].
  assert (Hw : 0 < IZR (2 ^ (100 + e))) by (apply IZR_lt; apply Z.pow_pos_nonneg; lia).
  assert (Hwb : IZR (2 ^ (100 + e)) = IZR (2 ^ 100) * bpow radix2 e).
  { change 2%Z with (radix_val radix2). rewrite !IZR_Zpower by lia. apply bpow_plus. }
  assert (Hbe : bpow radix2 (- e) * bpow radix2 e = 1) by (rewrite <- bpow_plus; replace (- e + e)%Z with 0%Z by lia; reflexivity).
  assert (Hb0 : 0 < bpow radix2 e) by apply bpow_gt_0. assert (Hb1 : 0 < bpow radix2 (- e)) by apply bpow_gt_0.
  assert (HH : 0 < IZR (2 ^ 100)) by (apply IZR_lt; reflexivity). destruct ln2_bounds as (L1 & L2).
  apply IZR_lt in H3, H2. apply IZR_le in H1, H0. apply IZR_lt in H4.
  repeat (rewrite ?mult_IZR, ?minus_IZR, ?plus_IZR in H3). repeat (rewrite ?mult_IZR, ?minus_IZR, ?plus_IZR in H2).
  repeat (rewrite ?mult_IZR, ?minus_IZR, ?plus_IZR in H1). repeat (rewrite ?mult_IZR, ?minus_IZR, ?plus_IZR in H0). rewrite Hwb in H3, H2, H1, H0. rewrite minus_IZR in L1. rewrite plus_IZR in L2.
  set (N := IZR ln2_num) in *. set (D := IZR ln2_err) in *. set (J := IZR j) in *. set (W := IZR (2 ^ 100)) in *. set (B := bpow radix2 e) in *. set (B' := bpow radix2 (- e)) in *.
  assert (X1 : J * (N - D) < W * (J * ln 2)) by (replace (W * (J * ln 2)) with (J * (W * ln 2)) by ring; apply Rmult_lt_compat_l; auto).
  assert (X2 : W * (J * ln 2) < J * (N + D)) by (replace (W * (J * ln 2)) with (J * (W * ln 2)) by ring; apply Rmult_lt_compat_l; auto).
  set (x := J * ln 2) in *. set (M := IZR (Z.pos m)) in *.
  assert (Y1 : (2 * M - 1) * B < 2 * x) by (apply (Rmult_lt_reg_l W); [exact HH|]; lra).
  assert (Y2 : 2 * x < (2 * M + 1) * B) by (apply (Rmult_lt_reg_l W); [exact HH|]; lra).
  assert (Y3 : IZR (2 ^ 52) * B <= x) by (apply (Rmult_le_reg_l W); [exact HH|]; lra).
  assert (Y4 : x < IZR (2 ^ 53) * B) by (apply (Rmult_lt_reg_l W); [exact HH|]; lra).
  assert (Hm : mag radix2 x = (53 + e)%Z :> Z).
  { apply mag_unique_pos. split.
    - replace (53 + e - 1)%Z with (52 + e)%Z by lia. rewrite bpow_plus. change (bpow radix2 52) with (IZR (2 ^ 52)). exact Y3.
    - rewrite bpow_plus. change (bpow radix2 53) with (IZR (2 ^ 53)). exact Y4. }
  unfold rnd64, round, F2R, B2R, scaled_mantissa, cexp. rewrite Hm.
  assert (Hf : FLT_exp (3 - 1024 - 53) 53 (53 + e) = e) by (unfold FLT_exp; lia). rewrite Hf. cbn [Fnum Fexp]. fold B. fold B'.
  assert (Hz : ZnearestE (x * B') = Z.pos m).
  { apply Znearest_imp. fold M. assert (Z1 : M * B * B' = M) by (rewrite Rmult_assoc, (Rmult_comm B), Hbe; ring).
    assert (Z2 : 1 * (B * B') = 1) by (rewrite (Rmult_comm B), Hbe; ring).
    apply (Rmult_lt_compat_r B') in Y1; [|exact Hb1]. apply (Rmult_lt_compat_r B') in Y2; [|exact Hb1]. apply Rabs_def1; lra. }
  rewrite Hz. reflexivity.
Qed.

Lemma ln_pow2_ok ln64 j x : ln_spec ln64 -> ln_pow2_chk j = true -> is_finite x = true -> B2R x = bpow radix2 j -> ln64 x = ln_pow2 j.
Proof.
  intros HS Hc Hf Hx. destruct (rnd64_ln_pow2 j Hc) as (H1 & H2).
  assert (Hp : 0 < B2R x) by (rewrite Hx; apply bpow_gt_0).
  assert (Hl : Rpower.ln (B2R x) = IZR j * ln 2).
  { rewrite Hx. rewrite bpow_exp, ln_exp. reflexivity. }
  pose proof (ln_round _ HS x Hf Hp) as R1. rewrite Hl, H1 in R1. pose proof (ln_finite _ HS x Hf Hp) as R2.
  apply B2R_inj; auto. destruct (ln_pow2 j) as [| | |s m e Hme]; try discriminate.
  destruct (ln64 x) as [s'| | |]; try discriminate; auto. exfalso. cbn [B2R] in R1. symmetry in R1. apply eq_0_F2R in R1. destruct s; discriminate.
Qed.

(* the powers of two as floats *)
Definition is_pow2f (j : Z) (x : f64) : bool :=
  match B2SF x with
  | SpecFloat.S754_finite false m e => ((Z.pos m =? 2 ^ 52) && (e =? j - 52))%Z
  | _ => false
  end.
Lemma is_pow2f_ok j x : is_pow2f j x = true -> is_finite x = true /\ B2R x = bpow radix2 j.
Proof.
  unfold is_pow2f. destruct x as [s|s| |s m e H]; try discriminate. cbn [B2SF]. destruct s; [discriminate|]. intros K. apply andb_true_iff in K.
  destruct K as (K1 & K2). apply Z.eqb_eq in K1, K2. split; [reflexivity|]. unfold B2R, cond_Zopp, F2R. cbn [Fnum Fexp]. rewrite K1, K2.
  change (IZR (2 ^ 52)) with (bpow radix2 52). rewrite <- bpow_plus. f_equal. lia.
Qed.

(* everything needed about one pair (m, a), by computation *)
Definition pair_chk (m a : N) : bool :=
  (ln_pow2_chk (Z.of_N (m + a)) && ln_pow2_chk (Z.of_N m) &&
   is_pow2f (Z.of_N m) (of_usize (2 ^ m)) && is_pow2f (Z.of_N (m + a)) (f64_mul (of_usize (2 ^ m)) (of_usize (2 ^ a))) &&
   (to_usize (f64_div (ln_pow2 (Z.of_N (m + a))) (ln_pow2 (Z.of_N m))) =? (m + a) / m)%N)%bool.
Lemma pair_chk_ok ln64 m a : ln_spec ln64 -> pair_chk m a = true -> row_count_f64 ln64 (2 ^ a) (2 ^ m) = ((m + a) / m)%N.
Proof.
  intros HS H. unfold pair_chk in H. repeat (apply andb_true_iff in H; destruct H as (H & ?)).
  apply is_pow2f_ok in H1, H2. destruct H1 as (F1 & V1), H2 as (F2 & V2). apply N.eqb_eq in H0.
  unfold row_count_f64, f64_log. rewrite (ln_pow2_ok ln64 _ _ HS H F1 V1), (ln_pow2_ok ln64 _ _ HS H3 F2 V2). exact H0.
Qed.
Definition all_of (P : N -> N -> bool) (ms la : list N) : bool := forallb (fun m => forallb (P m) la) ms.
Lemma all_of_ok P ms la m a : all_of P ms la = true -> In m ms -> In a la -> P m a = true.
Proof. unfold all_of. rewrite forallb_forall. intros H Hm. specialize (H m Hm). cbv beta in H. rewrite forallb_forall in H. exact (H a). Qed.
Definition but_one (m a : N) : bool := ((m =? 21)%N && (a =? 42)%N) || pair_chk m a.
Lemma but_one_or m a : but_one m a = true -> (m, a) = (21%N, 42%N) \/ pair_chk m a = true.
Proof. unfold but_one. generalize (pair_chk m a). intros c H. apply orb_true_iff in H. destruct H as [H|H]; [left|right; exact H]. apply andb_true_iff in H. destruct H as (H1 & H2). apply N.eqb_eq in H1, H2. congruence. Qed.
Definition small_N (lo n : nat) : list N := map N.of_nat (seq lo n).
Lemma small_N_in lo n x : (N.of_nat lo <= x < N.of_nat (lo + n))%N -> In x (small_N lo n).
Proof. intros H. apply in_map_iff. exists (N.to_nat x). split; [apply N2Nat.id|apply in_seq; lia]. Qed.
Lemma all_pairs_true : all_of but_one (small_N 2 62) (small_N 0 64) = true.
Proof. vm_compute. reflexivity. Qed.
Lemma pairs_ok m a : (2 <= m < 64)%N -> (a < 64)%N -> (m, a) <> (21%N, 42%N) -> pair_chk m a = true.
Proof.
  intros Hm Ha Hne. destruct (but_one_or m a); [|contradiction|assumption].
  apply (all_of_ok _ _ _ _ _ all_pairs_true); apply small_N_in; cbn [Nat.add]; lia.
Qed.

(* a function meeting the specification exists *)
Definition ln_cr (x : f64) : f64 :=
  match x with
  | B754_zero _ => B754_infinity true
  | B754_finite false m e _ =>
      let v := Rpower.ln (B2R x) in
      binary_normalize 53 1024 p53 e1024 mode_NE (ZnearestE (scaled_mantissa radix2 (FLT_exp (3 - 1024 - 53) 53) v))
        (cexp radix2 (FLT_exp (3 - 1024 - 53) 53) v) false
  | B754_infinity false => B754_infinity false
  | _ => B754_nan
  end.
Lemma ln2_lt_1 : 0 < ln 2 < 1.
Proof.
  destruct ln2_bounds as (L1 & L2). assert (HH : 0 < IZR (2 ^ 100)) by (apply IZR_lt; reflexivity). split.
  - apply (Rmult_lt_reg_l (IZR (2 ^ 100))); [exact HH|]. rewrite Rmult_0_r. apply Rlt_trans with (2 := L1). apply IZR_lt. reflexivity.
  - apply (Rmult_lt_reg_l (IZR (2 ^ 100))); [exact HH|]. rewrite Rmult_1_r. apply Rlt_trans with (1 := L2). apply IZR_lt. reflexivity.
Qed.
Lemma ln_range (x : f64) : 0 < B2R x -> Rabs (Rpower.ln (B2R x)) <= bpow radix2 11.
Proof.
  intros Hx. pose proof ln2_lt_1 as (L1 & L2). pose proof (abs_B2R_lt_emax 53 1024 x) as H1.
  assert (H2 : is_finite_strict x = true) by (destruct x; try reflexivity; cbn in Hx; lra).
  pose proof (abs_B2R_ge_emin 53 1024 x H2) as H3. rewrite Rabs_pos_eq in H1, H3 by lra.
  apply ln_increasing in H1; [|exact Hx]. rewrite bpow_exp, ln_exp in H1. change (IZR radix2) with 2 in H1.
  assert (H4 : ln (bpow radix2 (SpecFloat.emin 53 1024)) <= ln (B2R x)).
  { destruct (Rle_lt_or_eq_dec _ _ H3) as [H|H]; [left; apply ln_increasing; [apply bpow_gt_0|exact H]|rewrite H; apply Rle_refl]. }
  rewrite bpow_exp, ln_exp in H4. change (IZR radix2) with 2 in H4. change (SpecFloat.emin 53 1024) with (-1074)%Z in H4.
  change (bpow radix2 11) with 2048. apply Rabs_le. split; nra.
Qed.
Lemma rnd64_range (x : f64) : 0 < B2R x -> Rabs (rnd64 (Rpower.ln (B2R x))) <= bpow radix2 11.
Proof.
  intros Hx. apply abs_round_le_generic; [apply FLT_exp_valid; reflexivity|apply valid_rnd_N| |apply ln_range; exact Hx].
  apply generic_format_bpow. unfold FLT_exp. lia.
Qed.
Lemma ln_cr_spec : ln_spec ln_cr.
Proof.
  assert (H : forall x : f64, is_finite x = true -> 0 < B2R x -> B2R (ln_cr x) = rnd64 (Rpower.ln (B2R x)) /\ is_finite (ln_cr x) = true).
  { intros x Hf Hx. pose proof (rnd64_range x Hx) as HR. destruct x as [s|s| |s m e Hme]; [cbn in Hx; lra|discriminate|discriminate|].
    destruct s. { exfalso. revert Hx. unfold B2R, cond_Zopp. intros Hx. pose proof (F2R_lt_0 radix2 (Float radix2 (Z.neg m) e) ltac:(reflexivity)). cbn [Z.opp] in Hx. lra. }
    set (v := Rpower.ln (B2R (B754_finite false m e Hme))) in *.
    pose proof (binary_normalize_correct 53 1024 p53 e1024 mode_NE (ZnearestE (scaled_mantissa radix2 (FLT_exp (3 - 1024 - 53) 53) v))
        (cexp radix2 (FLT_exp (3 - 1024 - 53) 53) v) false) as HC. cbv zeta in HC.
    change (F2R _) with (rnd64 v) in HC. change (SpecFloat.fexp 53 1024) with (FLT_exp (3 - 1024 - 53) 53) in HC. change (round_mode mode_NE) with ZnearestE in HC.
    assert (HG : round radix2 (FLT_exp (3 - 1024 - 53) 53) ZnearestE (rnd64 v) = rnd64 v).
    { apply round_generic; [apply valid_rnd_N|]. apply generic_format_round; [apply FLT_exp_valid; reflexivity|apply valid_rnd_N]. }
    rewrite HG in HC. rewrite Rlt_bool_true in HC.
    - destruct HC as (HC1 & HC2 & _). split; [exact HC1|exact HC2].
    - apply Rle_lt_trans with (1 := HR). apply bpow_lt. reflexivity. }
  constructor.
  - intros x Hf Hx. apply H; assumption.
  - intros x Hf Hx. apply H; assumption.
  - intros x Hf Hx. destruct x as [s|s| |s m e Hme]; [cbn in Hx; lra|discriminate|discriminate|].
    destruct s. { exfalso. unfold B2R, cond_Zopp in Hx. pose proof (F2R_lt_0 radix2 (Float radix2 (Z.neg m) e) ltac:(reflexivity)). cbn [Z.opp] in Hx. lra. }
    cbn [ln_cr]. rewrite Hx, ln_1. unfold scaled_mantissa. rewrite Rmult_0_l.
    assert (HZ : ZnearestE 0 = 0%Z). { apply Znearest_imp. rewrite Rminus_0_r, Rabs_R0. lra. }
    rewrite HZ. reflexivity.
  - reflexivity.
Qed.

Lemma rnd64_ge x y : generic_format radix2 (FLT_exp (3 - 1024 - 53) 53) x -> x <= y -> x <= rnd64 y.
Proof. intros Hg Hl. apply round_ge_generic; auto. apply FLT_exp_valid; reflexivity. apply valid_rnd_N. Qed.
Lemma fmt_bpow e : (-1000 <= e)%Z -> generic_format radix2 (FLT_exp (3 - 1024 - 53) 53) (bpow radix2 e).
Proof. intros H. apply generic_format_bpow. unfold FLT_exp. lia. Qed.
Lemma of_usize_ok n : (n < 2 ^ 64)%N -> is_finite (of_usize n) = true /\ B2R (of_usize n) = rnd64 (IZR (Z.of_N n)).
Proof.
  intros Hn. pose proof (binary_normalize_correct 53 1024 p53 e1024 mode_NE (Z.of_N n) 0 false) as HC. cbv zeta in HC. fold (of_usize n) in HC.
  change (SpecFloat.fexp 53 1024) with (FLT_exp (3 - 1024 - 53) 53) in HC. change (round_mode mode_NE) with ZnearestE in HC.
  assert (HF : F2R (Float radix2 (Z.of_N n) 0) = IZR (Z.of_N n)) by (unfold F2R; cbn [Fnum Fexp bpow]; ring). rewrite HF in HC. fold (rnd64 (IZR (Z.of_N n))) in HC.
  rewrite Rlt_bool_true in HC; [destruct HC as (H1 & H2 & _); auto|].
  apply Rle_lt_trans with (bpow radix2 64); [|apply bpow_lt; reflexivity].
  apply abs_round_le_generic; [apply FLT_exp_valid; reflexivity|apply valid_rnd_N|apply fmt_bpow; lia|].
  rewrite Rabs_pos_eq by (apply IZR_le; lia). change (bpow radix2 64) with (IZR (2 ^ 64)). apply IZR_le. change (2 ^ 64)%Z with (Z.of_N (2 ^ 64)). lia.
Qed.
Lemma mul_one x : is_finite x = true -> is_finite (f64_mul (of_usize 1) x) = true /\ B2R (f64_mul (of_usize 1) x) = B2R x.
Proof.
  intros Hf. pose proof (Bmult_correct 53 1024 p53 e1024 mode_NE (of_usize 1) x) as HC. fold (f64_mul (of_usize 1) x) in HC.
  change (SpecFloat.fexp 53 1024) with (FLT_exp (3 - 1024 - 53) 53) in HC. change (round_mode mode_NE) with ZnearestE in HC.
  assert (H1 : B2R (of_usize 1) = 1) by (apply (proj2 (is_pow2f_ok 0 (of_usize 1) ltac:(vm_compute; reflexivity)))).
  rewrite H1, Rmult_1_l in HC. rewrite round_generic in HC; [|apply valid_rnd_N|apply (generic_format_B2R 53 1024)].
  rewrite Rlt_bool_true in HC by apply abs_B2R_lt_emax. destruct HC as (HC1 & HC2 & _). split; [|exact HC1]. rewrite HC2. rewrite Hf. reflexivity.
Qed.
Lemma ln_pos_sign ln64 x : ln_spec ln64 -> is_finite x = true -> 2 <= B2R x -> exists m e H, ln64 x = B754_finite false m e H.
Proof.
  intros HS Hf Hx. assert (Hp : 0 < B2R x) by lra. pose proof (ln_finite _ HS x Hf Hp) as F1. pose proof (ln_round _ HS x Hf Hp) as R1.
  assert (Hl : bpow radix2 (-1) <= Rpower.ln (B2R x)).
  { apply Rle_trans with (ln 2).
    - destruct ln2_bounds as (L1 & _). assert (HH : 0 < IZR (2 ^ 100)) by (apply IZR_lt; reflexivity).
      apply (Rmult_le_reg_l (IZR (2 ^ 100))); [exact HH|]. left. apply Rle_lt_trans with (2 := L1).
      replace (IZR (2 ^ 100) * bpow radix2 (-1)) with (IZR (2 ^ 99)); [apply IZR_le; discriminate|].
      change (2 ^ 100)%Z with (2 * 2 ^ 99)%Z. rewrite mult_IZR. change (bpow radix2 (-1)) with (/ 2). field.
    - destruct (Rle_lt_or_eq_dec _ _ Hx) as [H|H]; [left; apply ln_increasing; lra|rewrite H; apply Rle_refl]. }
  apply (rnd64_ge _ _ (fmt_bpow (-1) ltac:(lia))) in Hl. rewrite <- R1 in Hl. pose proof (bpow_gt_0 radix2 (-1)).
  destruct (ln64 x) as [s|s| |s m e He]; [cbn in Hl; lra|discriminate|discriminate|].
  destruct s; [|eauto]. exfalso. unfold B2R, cond_Zopp in Hl. pose proof (F2R_lt_0 radix2 (Float radix2 (Z.neg m) e) ltac:(reflexivity)). cbn [Z.opp] in Hl. lra.
Qed.
