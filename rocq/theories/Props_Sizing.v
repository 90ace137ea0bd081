(* C29 - C35: the size arithmetic.  Statements only; proofs in SizingFacts.v. *)
From Coq Require Import String List Arith Bool Lia ZifyBool ZifyNat.
From Verif Require Import Base Sizing ListFacts Spec SpecFacts SizingFacts.
Import ListNotations.

(* ---------------- C29 ---------------- *)
Theorem C29_tree_len : forall b k,
  arity b -> 1 <= k -> get_merkle_tree_len (b ^ k) b = Ok (geom b k).
Proof. exact get_merkle_tree_len_full. Qed.

Theorem C29_tree_len_errors : forall n b,
  ~ pow2 b \/ n < b -> exists m, get_merkle_tree_len n b = Err m.
Proof.
  intros n b [H|H].
  - apply get_merkle_tree_len_badarity; auto.
  - apply get_merkle_tree_len_small; auto.
Qed.

Example C29_case : get_merkle_tree_len 64 4 = Ok 85 /\ get_merkle_tree_len 8 2 = Ok 15
  /\ is_ok (get_merkle_tree_len 9 3) = false.
Proof. repeat split. Qed.

(* ---------------- C30 ---------------- *)
Definition C30_full : Prop := forall b len, arity b ->
  match get_merkle_tree_leafs len b with
  | Ok n => exists d, len = geom b d /\ n = b ^ d
  | Err _ => forall d, len <> geom b d
  | _ => False
  end.

(* Holds for every arity above 2, and for arity 2 on odd lengths. *)
Theorem C30_leafs_inverse_partial : forall b len, arity b ->
  (b = 2 -> Nat.odd len = true) ->
  match get_merkle_tree_leafs len b with
  | Ok n => exists d, len = geom b d /\ n = b ^ d
  | Err _ => forall d, len <> geom b d
  | _ => False
  end.
Proof. exact get_merkle_tree_leafs_sound. Qed.

Theorem C30_leafs_of_len : forall b d, arity b -> get_merkle_tree_leafs (geom b d) b = Ok (b ^ d).
Proof. exact get_merkle_tree_leafs_full. Qed.

(* Arity 2 accepts even lengths, which no binary tree has: 30 gives 16. *)
Theorem C30_full_refuted : ~ C30_full.
Proof.
  intros H. specialize (H 2 30 (ex_intro _ 1 (conj (le_n 1) eq_refl))).
  change (get_merkle_tree_leafs 30 2) with (@Ok nat 16) in H. cbn beta iota in H.
  destruct H as [d [H1 H2]]. rewrite geom_2 in H1.
  pose proof (pow_pos 2 d ltac:(lia)). cbn [Nat.pow] in H1. lia.
Qed.

Example C30_case : get_merkle_tree_leafs 21 4 = Ok 16 /\ get_merkle_tree_leafs 15 2 = Ok 8
  /\ is_ok (get_merkle_tree_leafs 22 4) = false /\ get_merkle_tree_leafs 0 2 = Ok 1.
Proof. repeat split. Qed.

(* ---------------- C31 ---------------- *)
Theorem C31_cache_size : forall b k r,
  arity b -> r < k -> get_merkle_tree_cache_size (b ^ k) b r = Ok (geom b (k - 1 - r)).
Proof. exact cache_size_full. Qed.

Theorem C31_cache_size_errors : forall b k r,
  arity b -> 1 <= k -> k <= r -> exists m, get_merkle_tree_cache_size (b ^ k) b r = Err m.
Proof. exact cache_size_bad. Qed.

Example C31_case : get_merkle_tree_cache_size 64 4 1 = Ok 5
  /\ get_merkle_tree_cache_size 64 2 0 = Ok 63 /\ is_ok (get_merkle_tree_cache_size 64 4 3) = false.
Proof. repeat split. Qed.

(* ---------------- C32 ---------------- *)
Theorem C32_row_count : forall b k, arity b -> get_merkle_tree_row_count (b ^ k) b = k + 1.
Proof. intros b k H. rewrite row_count_full by auto. lia. Qed.

Example C32_case : get_merkle_tree_row_count 512 8 = 4 /\ get_merkle_tree_row_count 16 2 = 5.
Proof. split; reflexivity. Qed.

(* ---------------- C33 ---------------- *)
Theorem C33_default_rows : forall b k, arity b -> 1 <= k ->
  let r := default_rows_to_discard (b ^ k) b in
  r <= (if b =? 2 then 7 else if b =? 4 then 5 else 2) /\
  exists c, get_merkle_tree_cache_size (b ^ k) b r = Ok c /\ 1 <= c.
Proof.
  intros b k Hb Hk r. subst r. rewrite default_rows_full by auto. split; [lia|].
  eexists. split.
  - apply cache_size_full; auto. lia.
  - apply geom_pos.
Qed.

Example C33_case : default_rows_to_discard 64 4 = 2 /\ default_rows_to_discard 512 2 = 7
  /\ get_merkle_tree_cache_size 64 4 2 = Ok 1.
Proof. repeat split. Qed.

(* ---------------- C34 ---------------- *)
(* The full claim: for every n and b some amount of fuel lets the loop finish
   with the right answer. *)
Definition C34_full : Prop := forall n b, exists fuel v,
  is_merkle_tree_size_valid_fuel fuel n b = Ok v /\ (v = true <-> pow2 b /\ exists d, n = b ^ d).

(* Holds for every n and every b but 1 (there "a power of two" is "an arity"). *)
Theorem C34_size_valid_partial : forall n b, b <> 1 -> exists v,
  is_merkle_tree_size_valid_fuel (S n) n b = Ok v /\ (v = true <-> pow2 b /\ exists d, n = b ^ d).
Proof.
  intros n b H. destruct (size_valid_spec b n H) as (v & H1 & H2). exists v. split; [exact H1|].
  rewrite H2. split; intros [Hb Hd]; split; auto.
  - apply arity_pow2; auto.
  - destruct Hb as [k Hk]. exists k. split; auto. destruct k; [simpl in Hk; lia|lia].
Qed.

(* Arity 1: the loop never ends, whatever the fuel, for every power of two above 1. *)
Theorem C34_arity1_refuted : forall n fuel,
  pow2 n -> 1 < n -> is_merkle_tree_size_valid_fuel fuel n 1 = Diverge.
Proof. exact (fun n fuel => size_valid_arity1_diverges n fuel). Qed.

Theorem C34_full_refuted : ~ C34_full.
Proof.
  intros H. destruct (H 2 1) as (fuel & v & H1 & _).
  rewrite size_valid_arity1_diverges in H1; [discriminate|exists 1; reflexivity|lia].
Qed.

Example C34_case : is_merkle_tree_size_valid 64 4 = Ok true /\ is_merkle_tree_size_valid 32 4 = Ok false
  /\ is_merkle_tree_size_valid 0 2 = Ok false /\ is_merkle_tree_size_valid 27 3 = Ok false.
Proof. repeat split. Qed.

Print Assumptions C29_tree_len.
Print Assumptions C29_tree_len_errors.
Print Assumptions C30_leafs_inverse_partial.
Print Assumptions C30_leafs_of_len.
Print Assumptions C30_full_refuted.
Print Assumptions C31_cache_size.
Print Assumptions C31_cache_size_errors.
Print Assumptions C32_row_count.
Print Assumptions C33_default_rows.
Print Assumptions C34_size_valid_partial.
Print Assumptions C34_arity1_refuted.
Print Assumptions C34_full_refuted.
