(* Arithmetic of the chunks handed to the worker tasks of a layer. *)
From Coq Require Import String List Arith Bool Lia Init.Byte ZifyBool ZifyNat.
From Verif Require Import Base Element Hash Sizing FS Sched Store ListFacts Spec SpecFacts SizingFacts SchedFacts RowFacts StoreLaws.
Import ListNotations.

Lemma div_up w c : 0 < c -> forall k, k < (w + c - 1) / c <-> k * c < w.
Proof.
  intros Hc k. split; intros H.
  - destruct (Nat.lt_ge_cases (k * c) w) as [L|L]; auto. exfalso.
    assert ((w + c - 1) / c < S k); [|lia]. apply Nat.div_lt_upper_bound; nia.
  - apply Nat.lt_le_trans with (S k); [lia|]. apply Nat.div_le_lower_bound; nia.
Qed.


Section Chunks.
  Variable b chunk : nat.
  Hypothesis Hb : arity b.
  Hypothesis Hchunk : 0 < chunk.
  Hypothesis Hdiv : chunk mod b = 0.
  Lemma CHb2 : 2 <= b. Proof. apply arity_ge. auto. Qed.

  Lemma chunk_eq : chunk = chunk / b * b.
  Proof. pose proof (Nat.div_mod chunk b ltac:(pose proof CHb2; lia)). lia. Qed.
  Lemma chunk_pos : 0 < chunk / b.
  Proof. pose proof chunk_eq. destruct (chunk / b); lia. Qed.

  (* number of parents computed by task k of a layer with w parents *)
  Definition piece (w k : nat) : nat := Nat.min (chunk / b) (w - k * (chunk / b)).

  Lemma chunk_size_eq w k rs :
    k * chunk < w * b -> Nat.min chunk (rs + w * b - (rs + k * chunk)) = piece w k * b.
  Proof.
    intros H. unfold piece. pose proof chunk_eq as C. pose proof chunk_pos. pose proof CHb2.
    set (c := chunk / b) in *. clearbody c. rewrite C in *. 
    assert (k * c < w) by nia.
    destruct (Nat.min_spec c (w - k * c)) as [[? ->]|[? ->]]; nia.
  Qed.
  Lemma piece_le w k : k * chunk < w * b -> k * (chunk / b) + piece w k <= w /\ 0 < piece w k.
  Proof.
    intros H. unfold piece. pose proof chunk_eq as C. pose proof chunk_pos. pose proof CHb2.
    set (c := chunk / b) in *. clearbody c. rewrite C in *. assert (k * c < w) by nia. lia.
  Qed.

  Lemma piece_disj w j k : j < k -> j * (chunk / b) + piece w j <= k * (chunk / b).
  Proof.
    intros H. apply Nat.le_trans with (S j * (chunk / b)).
    - unfold piece. cbn [Nat.mul]. lia.
    - apply Nat.mul_le_mono_r. lia.
  Qed.

  Lemma last_piece w : 1 <= w ->
    let k := (w - 1) / (chunk / b) in
    k * chunk < w * b /\ w <= k * (chunk / b) + piece w k.
  Proof.
    intros Hw k. unfold piece, k. pose proof chunk_eq as C. pose proof chunk_pos as Cp. pose proof CHb2 as H2.
    remember (chunk / b) as c eqn:Ec. clear Ec.
    pose proof (Nat.div_mod (w - 1) c ltac:(lia)) as D.
    pose proof (Nat.mod_upper_bound (w - 1) c ltac:(lia)) as U.
    remember ((w - 1) / c) as x. remember ((w - 1) mod c) as y.
    assert (x * c < w) by lia. split; [|lia].
    rewrite C, Nat.mul_assoc. apply Nat.mul_lt_mono_pos_r; lia.
  Qed.

  Lemma knows_pieces w ws {E} (hashed : list E) v :
    (forall k, k < num_chunks chunk (w * b) -> 
      knows v (ws + k * (chunk / b)) (sub hashed (k * (chunk / b)) (piece w k))) ->
    List.length hashed = w -> knows v ws hashed.
  Proof.
    intros H Hl j Hj. pose proof chunk_pos as Cp. pose proof chunk_eq as C. pose proof CHb2 as H2.
    set (c := chunk / b) in *.
    pose proof (Nat.div_mod j c ltac:(lia)) as D. pose proof (Nat.mod_upper_bound j c ltac:(lia)) as U.
    set (k := j / c) in *. set (i := j mod c) in *.
    assert (Hk : k < num_chunks chunk (w * b)).
    { unfold num_chunks. apply div_up; [lia|]. rewrite C. fold c. nia. }
    assert (Hp : i < piece w k). { unfold piece. fold c. nia. }
    specialize (H k Hk i). rewrite sub_length in H. specialize (H ltac:(unfold piece in *; fold c in Hp |- *; nia)).
    rewrite nth_error_sub in H. replace (i <? piece w k) with true in H by lia.
    replace (ws + j) with (ws + k * c + i) by nia. replace j with (k * c + i) by nia. exact H.
  Qed.


  Context {E : Type} (EO : ElementOps E) (EL : ElementLaws EO) {T : Type} (A : AlgOps E).
  Let St := (T * fs)%type.
  Lemma chunk_task_ok (rr : St -> nat -> nat -> res (list E)) (rowr : list E) w level rs k (st : St) :
    List.length rowr = w * b -> k * chunk < w * b ->
    rr st (rs + k * chunk) (rs + k * chunk + piece w k * b) = Ok (sub rowr (k * (chunk / b) * b) (piece w k * b)) ->
    chunk_task EO A b chunk rr (w * b) level rs k st =
      Ok (encode EO (sub (hash_row A b level rowr) (k * (chunk / b)) (piece w k))).
  Proof.
    intros Hl Hk Hrr. unfold chunk_task. rewrite chunk_size_eq by auto. rewrite Hrr. cbn [rbind].
    pose proof CHb2. destruct (piece_le w k Hk) as [P1 P2].
    rewrite (hash_row_sub A b ltac:(lia) level rowr w) by auto.
    rewrite (encode_length EO EL). rewrite sub_length_le.
    2:{ rewrite (hash_row_length A b ltac:(lia) level rowr w) by auto. exact P1. }
    rewrite Nat.div_mul by lia. rewrite Nat.eqb_refl. reflexivity.
  Qed.

End Chunks.
