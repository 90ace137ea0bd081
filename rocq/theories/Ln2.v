(* Rational bounds on ln 2 from the series of the area tangent at 1/3. *)
From Coq Require Import Reals ZArith QArith Qreals Lia Lra.
Local Open Scope R_scope.

(* x + x^3/3 + ... , n terms *)
Fixpoint at_sum (n : nat) (x : R) : R :=
  match n with
  | O => 0
  | S n' => at_sum n' x + x ^ (2 * n' + 1) / INR (2 * n' + 1)
  end.
Fixpoint sq_sum (n : nat) (x : R) : R :=
  match n with O => 0 | S n' => sq_sum n' x + x ^ (2 * n') end.

Lemma sq_sum_geom n x : sq_sum n x * (1 - x * x) = 1 - x ^ (2 * n).
Proof.
  induction n as [|n IH]; [simpl; ring|]. cbn [sq_sum]. rewrite Rmult_plus_distr_r, IH.
  replace (2 * S n)%nat with (2 * n + 2)%nat by lia. rewrite (pow_add x (2 * n) 2). ring.
Qed.
Lemma at_sum_deriv n x : derivable_pt_lim (at_sum n) x (sq_sum n x).
Proof.
  induction n as [|n IH]; [apply derivable_pt_lim_const|]. cbn [at_sum sq_sum].
  apply (derivable_pt_lim_plus (at_sum n) (fun x => x ^ (2 * n + 1) / INR (2 * n + 1)) x (sq_sum n x) (x ^ (2 * n)) IH).
  assert (Hn : INR (2 * n + 1) <> 0) by (apply not_0_INR; lia).
  pose proof (derivable_pt_lim_scal (fun y => y ^ (2 * n + 1)) (/ INR (2 * n + 1)) x _ (derivable_pt_lim_pow x (2 * n + 1))) as D.
  replace (x ^ (2 * n)) with (/ INR (2 * n + 1) * (INR (2 * n + 1) * x ^ pred (2 * n + 1))).
  2:{ replace (pred (2 * n + 1)) with (2 * n)%nat by lia. field. exact Hn. }
  intros eps Heps. destruct (D eps Heps) as [d Hd]. exists d. intros h H1 H2. specialize (Hd h H1 H2).
  unfold mult_real_fct in Hd. unfold Rdiv at 2 3. rewrite !(Rmult_comm _ (/ INR (2 * n + 1))). exact Hd.
Qed.

Lemma at_sum_bounds n :
  0 <= ln 2 / 2 - at_sum n (1 / 3) <= 3 / 8 * (1 / 9) ^ n.
Proof.
  set (f := fun x => (ln (1 + x) - ln (1 - x)) / 2 - at_sum n x).
  assert (Hd : forall c, 0 <= c <= 1 / 3 -> derivable_pt_lim f c (c ^ (2 * n) / (1 - c * c))).
  { intros c Hc.
    assert (D1 : derivable_pt_lim (fun x => ln (1 + x)) c (/ (1 + c))).
    { pose proof (derivable_pt_lim_comp (fun x => 1 + x) ln c 1 (/ (1 + c))) as D. rewrite Rmult_1_r in D. apply D.
      - pose proof (derivable_pt_lim_plus (fun _ => 1) (fun x => x) c 0 1 (derivable_pt_lim_const 1 c) (derivable_pt_lim_id c)) as D'. rewrite Rplus_0_l in D'. exact D'.
      - apply derivable_pt_lim_ln. lra. }
    assert (D2 : derivable_pt_lim (fun x => ln (1 - x)) c (- / (1 - c))).
    { pose proof (derivable_pt_lim_comp (fun x => 1 - x) ln c (-1) (/ (1 - c))) as D. replace (- / (1 - c)) with (/ (1 - c) * -1) by ring. apply D.
      - pose proof (derivable_pt_lim_minus (fun _ => 1) (fun x => x) c 0 1 (derivable_pt_lim_const 1 c) (derivable_pt_lim_id c)) as D'. rewrite Rminus_0_l in D'. exact D'.
      - apply derivable_pt_lim_ln. lra. }
    pose proof (derivable_pt_lim_minus _ _ c _ _ D1 D2) as D3.
    pose proof (derivable_pt_lim_scal _ (/ 2) c _ D3) as D4.
    pose proof (derivable_pt_lim_minus _ _ c _ _ D4 (at_sum_deriv n c)) as D5.
    assert (Hne : 1 - c * c <> 0) by nra.
    replace (c ^ (2 * n) / (1 - c * c)) with (/ 2 * (/ (1 + c) - - / (1 - c)) - sq_sum n c).
    2:{ pose proof (sq_sum_geom n c) as G. replace (c ^ (2 * n)) with (1 - sq_sum n c * (1 - c * c)) by lra. field. repeat split; nra. }
    intros eps Heps. destruct (D5 eps Heps) as [d Hd']. exists d. intros h H1 H2. specialize (Hd' h H1 H2).
    unfold f. unfold minus_fct, mult_real_fct in Hd'.
    replace ((ln (1 + (c + h)) - ln (1 - (c + h))) / 2) with (/ 2 * (ln (1 + (c + h)) - ln (1 - (c + h)))) by field.
    replace ((ln (1 + c) - ln (1 - c)) / 2) with (/ 2 * (ln (1 + c) - ln (1 - c))) by field. exact Hd'. }
  destruct (MVT_cor2 f (fun c => c ^ (2 * n) / (1 - c * c)) 0 (1 / 3) ltac:(lra) Hd) as (c & Hc & Hc1).
  assert (H0 : f 0 = 0).
  { unfold f. rewrite Rplus_0_r, Rminus_0_r, ln_1. assert (Hz : at_sum n 0 = 0). { clear. induction n as [|n IH]; [reflexivity|]. cbn [at_sum]. rewrite IH. replace (2 * n + 1)%nat with (S (2 * n)) by lia. rewrite pow_ne_zero by lia. unfold Rdiv. ring. }
    rewrite Hz. lra. }
  assert (Hl : (ln (1 + 1 / 3) - ln (1 - 1 / 3)) = ln 2).
  { replace (1 + 1 / 3) with (2 * (1 - 1 / 3)) by lra. rewrite ln_mult by lra. ring. }
  assert (H1 : f (1 / 3) = ln 2 / 2 - at_sum n (1 / 3)) by (unfold f; rewrite Hl; reflexivity).
  rewrite <- H1. rewrite H0 in Hc. replace (f (1 / 3)) with (c ^ (2 * n) / (1 - c * c) * (1 / 3)) by lra.
  assert (P0 : 0 <= c ^ (2 * n)) by (apply pow_le; lra).
  assert (P1 : c ^ (2 * n) <= (1 / 9) ^ n).
  { replace ((1 / 9) ^ n) with ((1 / 3) ^ (2 * n)). { apply pow_incr. lra. } rewrite pow_mult. f_equal. field. }
  assert (Q : 0 < / (1 - c * c) <= 9 / 8).
  { split; [apply Rinv_0_lt_compat; nra|]. replace (9 / 8) with (/ (8 / 9)) by field. apply Rinv_le_contravar; nra. }
  unfold Rdiv at 1 2. split; [nra|]. unfold Rdiv at 2.
  apply Rle_trans with ((1 / 9) ^ n * (9 / 8) * (1 / 3)); [|nra].
  apply Rmult_le_compat_r; [lra|]. apply Rmult_le_compat; lra.
Qed.

(* the same sum in the rationals *)
Fixpoint q_sum (n : nat) : Q :=
  match n with
  | O => 0%Q
  | S n' => Qred (q_sum n' + (1 # (3 ^ Pos.of_nat (2 * n' + 1) * Pos.of_nat (2 * n' + 1))))%Q
  end.
Lemma q_sum_ok n : Q2R (q_sum n) = at_sum n (1 / 3).
Proof.
  induction n as [|n IH]; [cbn; lra|]. cbn [q_sum at_sum]. rewrite (Qeq_eqR _ _ (Qred_correct _)).
  rewrite Q2R_plus, IH. f_equal. unfold Q2R. cbn [Qnum Qden]. rewrite Pos2Z.inj_mul, mult_IZR, Pos2Z.inj_pow.
  replace (INR (2 * n + 1)) with (IZR (Z.pos (Pos.of_nat (2 * n + 1)))).
  2:{ rewrite INR_IZR_INZ. f_equal. rewrite <- positive_nat_Z, Nat2Pos.id by lia. reflexivity. }
  replace (Z.pos (Pos.of_nat (2 * n + 1))) with (Z.of_nat (2 * n + 1)) at 1 by (rewrite <- positive_nat_Z, Nat2Pos.id by lia; reflexivity).
  rewrite <- pow_IZR. unfold Rdiv. rewrite Rpow_mult_distr, pow1, pow_inv.
  assert (IZR 3 ^ (2 * n + 1) <> 0) by (apply pow_nonzero; lra). assert (IZR (Z.pos (Pos.of_nat (2 * n + 1))) <> 0) by (apply IZR_neq; lia).
  field. split; auto.
Qed.

(* ln 2 = ln2_num / 2^100 up to 2^-80 *)
Definition ln2_num : Z := 878668439483319573618263538048.
Definition ln2_err : Z := 2 ^ 20.
Lemma ln2_bounds : IZR (ln2_num - ln2_err) < IZR (2 ^ 100) * ln 2 < IZR (ln2_num + ln2_err).
Proof.
  destruct (at_sum_bounds 27) as (H1 & H2). rewrite <- q_sum_ok in H1, H2.
  assert (HQ1 : (((ln2_num - ln2_err) # (2 ^ 101)) < q_sum 27)%Q) by (vm_compute; reflexivity).
  assert (HQ2 : (q_sum 27 + (1 # 9 ^ 27) < ((ln2_num + ln2_err) # (2 ^ 101)))%Q) by (vm_compute; reflexivity).
  apply Qlt_Rlt in HQ1, HQ2. rewrite Q2R_plus in HQ2.
  assert (HE : Q2R (1 # 9 ^ 27) = (1 / 9) ^ 27).
  { unfold Q2R. cbn [Qnum Qden]. unfold Rdiv. rewrite Rpow_mult_distr, pow1, pow_inv, Rmult_1_l. rewrite Pos2Z.inj_pow. change 27%positive with (Pos.of_nat 27).
    rewrite <- (positive_nat_Z (Pos.of_nat 27)), Nat2Pos.id by lia. rewrite <- pow_IZR. lra. }
  rewrite HE in HQ2. assert (0 <= (1 / 9) ^ 27) by (apply pow_le; lra).
  assert (HD : forall z, Q2R (z # (2 ^ 101)) = IZR z / IZR (2 ^ 101)) by reflexivity. rewrite HD in HQ1, HQ2.
  assert (E101 : IZR (2 ^ 101) = 2 * IZR (2 ^ 100)) by (rewrite <- mult_IZR; reflexivity).
  assert (P100 : 0 < IZR (2 ^ 100)) by (apply IZR_lt; reflexivity). rewrite E101 in HQ1, HQ2.
  set (w := IZR (2 ^ 100)) in *. set (e9 := (1 / 9) ^ 27) in *. clearbody w e9.
  assert (L1 : IZR (ln2_num - ln2_err) < w * (2 * Q2R (q_sum 27))).
  { apply Rmult_lt_compat_r with (r := 2 * w) in HQ1; [|lra]. unfold Rdiv in HQ1. rewrite Rmult_assoc, Rinv_l in HQ1 by lra. lra. }
  assert (L2 : w * (2 * (Q2R (q_sum 27) + e9)) < IZR (ln2_num + ln2_err)).
  { apply Rmult_lt_compat_r with (r := 2 * w) in HQ2; [|lra]. unfold Rdiv in HQ2. rewrite (Rmult_assoc (IZR _)), Rinv_l in HQ2 by lra. lra. }
  split.
  - apply Rlt_le_trans with (1 := L1). apply Rmult_le_compat_l; lra.
  - apply Rle_lt_trans with (2 := L2). apply Rmult_le_compat_l; lra.
Qed.
