(* Rows of a tree as computed by hash_row, and their relation to MRoot/Layout. *)
From Coq Require Import String List Arith Bool Lia Init.Byte ZifyBool ZifyNat.
From Verif Require Import Base Element Hash Sizing FS Sched Store ListFacts Spec SpecFacts SizingFacts.
Import ListNotations.

Section Rows.
  Context {E : Type}.
  Variable A : AlgOps E.
  Variable b : nat.
  Hypothesis Hb : 0 < b.

  Lemma hash_row_length level row w :
    List.length row = w * b -> List.length (hash_row A b level row) = w.
  Proof.
    intros H. unfold hash_row. rewrite map_length, (chunks_full b w) by auto.
    rewrite map_length, seq_length. reflexivity.
  Qed.

  Lemma hash_row_nth level row w j :
    List.length row = w * b -> j < w ->
    nth_error (hash_row A b level row) j = Some (h_node A level (sub row (j * b) b)).
  Proof.
    intros H Hj. unfold hash_row. rewrite nth_error_map, nth_error_chunks by auto.
    replace (j * b <? List.length row) with true by nia. reflexivity.
  Qed.

  Lemma hash_row_sub level row w s n :
    List.length row = w * b -> s + n <= w ->
    hash_row A b level (sub row (s * b) (n * b)) = sub (hash_row A b level row) s n.
  Proof.
    intros H Hs.
    assert (Hl : List.length (sub row (s * b) (n * b)) = n * b).
    { apply sub_length_le. rewrite H. nia. }
    apply list_ext.
    - rewrite (hash_row_length _ _ n Hl), sub_length_le; auto.
      rewrite (hash_row_length _ _ w H). lia.
    - rewrite (hash_row_length _ _ n Hl). intros i Hi.
      rewrite (hash_row_nth _ _ n) by auto. rewrite nth_error_sub.
      replace (i <? n) with true by lia. rewrite (hash_row_nth _ _ w) by (auto; lia).
      f_equal. f_equal. rewrite sub_sub by nia. f_equal. lia.
  Qed.

  (* row r of the tree over [leaves] *)
  Fixpoint row (leaves : list E) (r : nat) : list E :=
    match r with
    | 0 => leaves
    | S r' => hash_row A b r' (row leaves r')
    end.

  Lemma row_length leaves m q r :
    List.length leaves = m * b ^ q -> r <= q -> List.length (row leaves r) = m * b ^ (q - r).
  Proof.
    intros H. induction r; intros Hr.
    - rewrite Nat.sub_0_r. exact H.
    - cbn [row]. apply hash_row_length. rewrite IHr by lia.
      replace (q - r) with (S (q - S r)) by lia. apply mul_pow_S.
  Qed.

  Lemma row_MRoot leaves m q r j :
    List.length leaves = m * b ^ q -> r <= q -> j < m * b ^ (q - r) ->
    exists x, nth_error (row leaves r) j = Some x /\
      MRoot (h_node A) b r (sub leaves (j * b ^ r) (b ^ r)) x.
  Proof.
    intros H. revert j. induction r; intros j Hr Hj.
    - rewrite Nat.sub_0_r, <- H in Hj. destruct (nth_error_ex leaves j Hj) as [x Hx].
      exists x. split; [exact Hx|]. simpl Nat.pow. rewrite Nat.mul_1_r.
      rewrite (sub_cons_nth _ _ _ x Hx), sub_zero. constructor.
    - cbn [row].
      assert (Hl : List.length (row leaves r) = m * b ^ (q - S r) * b).
      { rewrite (row_length leaves m q) by (auto; lia). replace (q - r) with (S (q - S r)) by lia. apply mul_pow_S. }
      rewrite (hash_row_nth _ _ _ _ Hl Hj). eexists. split; [reflexivity|].
      assert (Hlen : j * b ^ S r + b ^ S r <= List.length leaves).
      { rewrite H. replace q with (q - S r + S r) at 1 by lia. rewrite Nat.pow_add_r.
        set (p := b ^ S r). set (c := b ^ (q - S r)) in *. nia. }
      apply MRoot_S_intro; auto.
      + apply sub_length_le. exact Hlen.
      + apply sub_length_le. rewrite Hl. nia.
      + intros i x Hx. pose proof (nth_error_lt _ _ _ Hx) as Hi.
        rewrite sub_length_le in Hi by (rewrite Hl; nia).
        rewrite nth_error_sub in Hx. replace (i <? b) with true in Hx by lia.
        assert (Hji : j * b + i < m * b ^ (q - r)).
        { replace (q - r) with (S (q - S r)) by lia. rewrite mul_pow_S. nia. }
        destruct (IHr (j * b + i) ltac:(lia) Hji) as (y & Hy & HR).
        rewrite Hy in Hx. inv Hx. rewrite sub_sub.
        * replace (j * b ^ S r + i * b ^ r) with ((j * b + i) * b ^ r); [exact HR|].
          simpl Nat.pow. ring.
        * simpl Nat.pow. pose proof (pow_pos b r Hb). nia.
  Qed.

  (* all nodes *)
  Definition all_rows (leaves : list E) (d : nat) : list E :=
    concat (map (row leaves) (seq 0 (S d))).

  Lemma all_rows_S leaves d : all_rows leaves (S d) = all_rows leaves d ++ row leaves (S d).
  Proof.
    unfold all_rows. rewrite (seq_S (S d)), map_app, concat_app. simpl. rewrite app_nil_r. reflexivity.
  Qed.

  Lemma all_rows_length leaves m q d :
    List.length leaves = m * b ^ q -> d <= q -> List.length (all_rows leaves d) = m * row_off b q (S d).
  Proof.
    intros H. induction d; intros Hd.
    - unfold all_rows. simpl. rewrite app_nil_r, Nat.sub_0_r. lia.
    - rewrite all_rows_S, app_length, IHd by lia. rewrite (row_length leaves m q) by auto.
      rewrite (row_off_step b q (S d)). lia.
  Qed.

  Lemma all_rows_nth leaves m q d r j :
    List.length leaves = m * b ^ q -> d <= q -> r <= d -> j < m * b ^ (q - r) ->
    nth_error (all_rows leaves d) (m * row_off b q r + j) = nth_error (row leaves r) j.
  Proof.
    intros H Hd. revert r. induction d; intros r Hr Hj.
    - assert (r = 0) by lia. subst r. unfold all_rows. cbn [seq map concat]. rewrite app_nil_r.
      cbn [row_off]. rewrite Nat.mul_0_r. reflexivity.
    - rewrite all_rows_S, nth_error_app, (all_rows_length leaves m q) by (auto; lia).
      destruct (Nat.eq_dec r (S d)) as [->|Hn].
      + replace (m * row_off b q (S d) + j <? m * row_off b q (S d)) with false by lia.
        f_equal. lia.
      + assert (m * row_off b q r + j < m * row_off b q (S d)).
        { pose proof (row_off_mono b q (S r) (S d) ltac:(lia)) as M. rewrite row_off_step in M. nia. }
        replace (m * row_off b q r + j <? m * row_off b q (S d)) with true by lia.
        apply IHd; auto; lia.
  Qed.

  Lemma all_rows_Layout leaves d :
    List.length leaves = b ^ d -> Layout (h_node A) b d leaves (all_rows leaves d).
  Proof.
    intros H. assert (H' : List.length leaves = 1 * b ^ d) by lia. split; [auto|split].
    - rewrite (all_rows_length leaves 1 d) by auto. rewrite row_off_step, row_off_last, Nat.sub_diag.
      pose proof (geom_pos b d). simpl. lia.
    - intros r j Hr Hj.
      destruct (row_MRoot leaves 1 d r j H' Hr ltac:(lia)) as (x & Hx & HR).
      exists x. split; auto. replace (row_off b d r) with (1 * row_off b d r) by lia.
      rewrite all_rows_nth; auto; lia.
  Qed.

  (* Layout determines the elements *)
  Lemma row_find d i : i < geom b d -> exists r j, r <= d /\ j < b ^ (d - r) /\ i = row_off b d r + j.
  Proof.
    clear A Hb. revert i. induction d; intros i Hi.
    - exists 0, i. simpl in *. lia.
    - destruct (Nat.lt_ge_cases i (b ^ S d)) as [L|L].
      + exists 0, i. rewrite Nat.sub_0_r. simpl row_off. lia.
      + cbn [geom] in Hi. destruct (IHd (i - b ^ S d) ltac:(lia)) as (r & j & Hr & Hj & He).
        exists (S r), j. split; [lia|]. split; [replace (S d - S r) with (d - r) by lia; auto|].
        rewrite row_off_shift by lia. lia.
  Qed.

  Lemma Layout_fun (h : nat -> list E -> E) d leaves els els' :
    Layout h b d leaves els -> Layout h b d leaves els' -> els = els'.
  Proof.
    intros (L1 & L2 & L3) (_ & L2' & L3'). apply list_ext; [congruence|].
    rewrite L2. intros i Hi. destruct (row_find d i Hi) as (r & j & Hr & Hj & ->).
    destruct (L3 r j Hr Hj) as (x & Hx & HR). destruct (L3' r j Hr Hj) as (y & Hy & HR').
    rewrite Hx, Hy. f_equal. eapply MRoot_fun; eauto.
  Qed.

  Lemma Layout_root (h : nat -> list E -> E) d leaves els x :
    Layout h b d leaves els -> nth_error els (geom b d - 1) = Some x -> MRoot h b d leaves x.
  Proof.
    intros (L1 & L2 & L3) Hx. destruct (L3 d 0 (le_n d)) as (y & Hy & HR).
    { rewrite Nat.sub_diag. simpl. lia. }
    rewrite Nat.add_0_r, row_off_last, Hx in Hy. inv Hy.
    rewrite Nat.mul_0_l, sub_0, <- L1, firstn_all in HR. exact HR.
  Qed.

  Lemma Layout_leaf (h : nat -> list E -> E) d leaves els i :
    Layout h b d leaves els -> i < b ^ d -> nth_error els i = nth_error leaves i.
  Proof.
    intros (L1 & L2 & L3) Hi. destruct (L3 0 i ltac:(lia)) as (x & Hx & HR).
    { rewrite Nat.sub_0_r. auto. }
    cbn [row_off Nat.add] in Hx. rewrite Hx. simpl Nat.pow in HR. rewrite Nat.mul_1_r in HR.
    destruct (nth_error_ex leaves i ltac:(lia)) as [y Hy].
    rewrite (sub_cons_nth _ _ _ y Hy), sub_zero in HR. inversion HR. subst. auto.
  Qed.
End Rows.
