(* C47: exactly which types of hashable values feed distinct streams for distinct values.
   Proofs in HashExact.v. *)
From Coq Require Import String List Arith NArith Bool Lia Init.Byte ZifyBool ZifyNat.
From Verif Require Import Base Element Hash ListFacts HashFacts HashExact Cases.
Import ListNotations.

(* the criterion, said without computing: sized t n = every value has n bytes;
   told_apart t = at most one component of a tuple is not sized, elements of slices are
   sized and not empty *)
Inductive sized : hty -> nat -> Prop :=
| sz_int w : sized (TInt w) w
| sz_arr n : sized (TArr n) n
| sz_bool : sized TBool 1
| sz_char : sized TChar 4
| sz_unit : sized (TTup []) 0
| sz_tup t ts n m : sized t n -> sized (TTup ts) m -> sized (TTup (t :: ts)) (n + m).

Inductive told_apart : hty -> Prop :=
| ta_int w : told_apart (TInt w)
| ta_arr n : told_apart (TArr n)
| ta_vec : told_apart TVec
| ta_bool : told_apart TBool
| ta_char : told_apart TChar
| ta_str : told_apart TStr
| ta_slice t n : told_apart t -> sized t n -> 0 < n -> told_apart (TSlice t)
| ta_unit : told_apart (TTup [])
| ta_first t ts n : told_apart t -> sized t n -> told_apart (TTup ts) -> told_apart (TTup (t :: ts))
| ta_rest t ts m : told_apart t -> sized (TTup ts) m -> told_apart (TTup ts) -> told_apart (TTup (t :: ts)).

Lemma sized_fixed t : forall n, sized t n <-> fixed t = Some n.
Proof.
  induction t as [w|m| | | | |ts IH|t IH] using hty_ind'; intros n; split; intros H; try (inversion H; subst; reflexivity); try discriminate H;
    try (injection H as <-; constructor).
  - rewrite fixed_tup. revert n H. induction IH as [|t ts Ht _ IHs]; intros n H; inversion H; subst; [reflexivity|].
    cbn [fixed_all]. rewrite (proj1 (Ht _) H2), (IHs _ H4). reflexivity.
  - rewrite fixed_tup in H. revert n H. induction IH as [|t ts Ht _ IHs]; intros n H; cbn [fixed_all] in H; [injection H as <-; constructor|].
    destruct (fixed t) as [a|] eqn:Q; [|discriminate]. destruct (fixed_all ts) as [c|] eqn:Q2; [|discriminate]. injection H as <-.
    constructor; [apply Ht; reflexivity|apply IHs; reflexivity].
Qed.
Lemma variable_none ts n : fixed_all ts = Some n -> filter (fun t => negb (is_fixed t)) ts = [].
Proof.
  revert n. induction ts as [|t ts IH]; intros n H; [reflexivity|]. cbn [fixed_all filter] in *. unfold is_fixed at 1.
  destruct (fixed t); [|discriminate]. destruct (fixed_all ts) as [c|]; [|discriminate]. apply (IH c). reflexivity.
Qed.
Lemma told_unique t : told_apart t <-> unique t = true.
Proof.
  split.
  - induction 1 as [| | | | | |t n H IH HS Hn| |t ts n H IH HS HT IHT|t ts m H IH HS HT IHT]; try reflexivity.
    + cbn [unique]. rewrite IH, (proj1 (sized_fixed _ _) HS). destruct n; [lia|reflexivity].
    + rewrite unique_tup in *. apply andb_true_iff in IHT. destruct IHT as [I1 I2]. cbn [forallb filter]. unfold is_fixed at 1.
      rewrite IH, I1, (proj1 (sized_fixed _ _) HS). exact I2.
    + rewrite unique_tup in *. apply andb_true_iff in IHT. destruct IHT as [I1 I2]. apply sized_fixed in HS. rewrite fixed_tup in HS.
      cbn [forallb filter]. rewrite IH, I1, (variable_none ts m HS). destruct (negb _); reflexivity.
  - induction t as [w|m| | | | |ts IH|t IH] using hty_ind'; intros H; try constructor.
    + rewrite unique_tup in H. induction IH as [|t ts Ht _ IHs]; [constructor|]. cbn [forallb filter] in H. apply andb_true_iff in H. destruct H as [H1 H2].
      apply andb_true_iff in H1. destruct H1 as [H1 H3].
      destruct (is_fixed t) eqn:Q; cbn [negb] in H2; unfold is_fixed in Q.
      * destruct (fixed t) as [n|] eqn:En; [|discriminate]. apply (ta_first t ts n); [auto|apply sized_fixed; exact En|]. apply IHs. rewrite H3. exact H2.
      * cbn [List.length] in H2. destruct (no_variable ts ltac:(lia)) as [n Hn].
        apply (ta_rest t ts n); [auto|apply sized_fixed; rewrite fixed_tup; exact Hn|]. apply IHs. rewrite H3. cbn [andb]. lia.
    + cbn [unique] in H. apply andb_true_iff in H. destruct H as [H1 H2]. destruct (fixed t) as [[|n]|] eqn:En; try discriminate.
      apply (ta_slice t (S n)); [auto|apply sized_fixed; exact En|lia].
Qed.

(* streams tell all values of a type apart just when the criterion holds of the type *)
Theorem C47_exact : forall t,
  (forall x y, has_type t x -> has_type t y -> stream x = stream y -> x = y) <-> told_apart t.
Proof.
  intros t. rewrite told_unique. split; [|apply unique_inj]. intros H. destruct (unique t) eqn:Q; [reflexivity|exfalso].
  destruct (not_unique_collide t Q) as (x & y & Hx & Hy & Hn & HS). apply Hn. apply H; assumption.
Qed.

(* otherwise two different values feed the same bytes *)
Theorem C47_collisions : forall t, ~ told_apart t ->
  exists x y, has_type t x /\ has_type t y /\ x <> y /\ stream x = stream y.
Proof.
  intros t H. apply not_unique_collide. destruct (unique t) eqn:Q; [|reflexivity]. exfalso. apply H, told_unique, Q.
Qed.

(* (u64, String, u8) is told apart; (String, String), [String] and [()] are not *)
Example C47_exact_case :
  told_apart (TTup [TInt 8; TStr; TInt 1]) /\ readable (TTup [TInt 8; TStr; TInt 1]) = false /\
  ~ told_apart (TTup [TStr; TStr]) /\ ~ told_apart (TSlice TStr) /\ ~ told_apart (TSlice (TTup [])) /\
  told_apart (TSlice (TTup [TInt 4; TBool])).
Proof. rewrite !told_unique. repeat split; try (vm_compute; reflexivity); vm_compute; discriminate. Qed.

(* the calls of Hasher::write, one by one, for any hasher (also one to which the cuts between
   writes matter): components of tuples and slices one after the other, everything else in
   one call, an empty slice of integers or arrays included *)
Theorem C47_writes : forall E (A : AlgOps E) s w v vs bss hs c bs (t : bool) h,
  hash_into A s (HInt w v) = a_write A s (le_bytes w v) /\
  hash_into A s (HBytes bs) = a_write A s bs /\ hash_into A s (HStr bs) = a_write A s bs /\
  hash_into A s (HBool t) = a_write A s [if t then x01 else x00] /\ hash_into A s (HChar c) = a_write A s (le_bytes 4 c) /\
  hash_into A s (HRef h) = hash_into A s h /\
  hash_into A s (HIntSlice w vs) = a_write A s (concat (map (le_bytes w) vs)) /\
  hash_into A s (HBytesSlice bss) = a_write A s (concat bss) /\
  hash_into A s (HTuple []) = s /\ hash_into A s (HTuple (h :: hs)) = hash_into A (hash_into A s h) (HTuple hs) /\
  hash_into A s (HSlice hs) = fold_left (hash_into A) hs s.
Proof.
  intros. unfold hash_into. cbn [feed fold_left flat_map]. rewrite flat_map_concat_map. repeat split.
  - apply fold_left_app.
  - revert s. induction hs as [|x l IH]; intros s; cbn [flat_map fold_left]; [reflexivity|]. rewrite fold_left_app. apply IH.
Qed.
Example C47_writes_case :
  let rec := default_alg BO (list (list byte)) [] (fun s bs => s ++ [bs]) (fun s => (el (List.length s), s)) in
  hash_into rec [] (HTuple [HInt 2 258%N; HStr [x61]; HSlice [HBool true; HRef (HChar 97%N)]; HIntSlice 2 [1%N; 2%N]; HBytesSlice []])
  = [[x02; x01]; [x61]; [x01]; [x61; x00; x00; x00]; [x01; x00; x02; x00]; []].
Proof. vm_compute. reflexivity. Qed.

Print Assumptions C47_writes.
Print Assumptions C47_exact.
Print Assumptions C47_collisions.
