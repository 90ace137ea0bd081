(* Which leaves a node and a proof depend on. *)
From Coq Require Import String List Arith Bool Lia Init.Byte ZifyBool ZifyNat.
From Verif Require Import Base Element Hash Sizing Store ProofModel Tree ListFacts Spec SpecFacts SizingFacts RowFacts ProofSpec ProofFacts TreeProofs.
Import ListNotations.

(* the lists have the same length and the same elements except perhaps element i *)
Definition same_but {E} (i : nat) (l l' : list E) : Prop :=
  List.length l = List.length l' /\ forall k, k <> i -> nth_error l k = nth_error l' k.

Section Local.
  Context {E : Type} (EO : ElementOps E) (EL : ElementLaws EO).
  Variable b : nat.
  Hypothesis Hb : arity b.
  Variable h : nat -> list E -> E.
  Variables (d : nat) (leaves leaves' els els' : list E).
  Hypothesis HL : Layout h b d leaves els.
  Hypothesis HL' : Layout h b d leaves' els'.

  Lemma layout_local r j : r <= d -> j < b ^ (d - r) ->
    sub leaves (j * b ^ r) (b ^ r) = sub leaves' (j * b ^ r) (b ^ r) ->
    nth_error els (row_off b d r + j) = nth_error els' (row_off b d r + j).
  Proof.
    intros Hr Hj HE. pose proof (arity_ge b Hb). destruct HL as (_ & _ & L3). destruct HL' as (_ & _ & L3').
    destruct (L3 r j Hr Hj) as (x & Hx & HR). destruct (L3' r j Hr Hj) as (y & Hy & HR').
    rewrite Hx, Hy. f_equal. rewrite <- HE in HR'. eapply MRoot_fun; eauto.
  Qed.

  Variable i : nat.
  Hypothesis HI : same_but i leaves leaves'.

  Lemma layout_outside r j : r <= d -> j < b ^ (d - r) -> j <> i / b ^ r ->
    nth_error els (row_off b d r + j) = nth_error els' (row_off b d r + j).
  Proof.
    intros Hr Hj Hn. apply layout_local; auto. destruct HI as [I1 I2]. pose proof (arity_ge b Hb).
    assert (Hp : b ^ r <> 0) by (apply Nat.pow_nonzero; lia).
    apply list_ext; [rewrite !sub_length, I1; reflexivity|]. intros k Hk. rewrite !nth_error_sub.
    destruct (k <? b ^ r) eqn:Q; [|reflexivity]. apply I2. intros He. apply Hn. rewrite <- He.
    rewrite Nat.div_add_l by auto. rewrite (Nat.div_small k) by lia. symmetry. apply Nat.add_0_r.
  Qed.

  (* element 1 + r*(b-1) + c of the proof of leaf j *)
  Definition sib_pos (j r c : nat) : nat :=
    j / b ^ S r * b + (if c <? digit b r j then c else S c).

  Lemma sib_pos_lt j r c : j < b ^ d -> r < d -> c < b - 1 -> sib_pos j r c < b ^ (d - r).
  Proof.
    intros Hj Hr Hc. pose proof (arity_ge b Hb). unfold sib_pos.
    pose proof (anc_lt b Hb d (S r) j Hj Hr) as M. replace (d - r) with (S (d - S r)) by lia. rewrite (Nat.pow_succ_r' b (d - S r)).
    assert (G : b * S (j / b ^ S r) <= b * b ^ (d - S r)) by (apply Nat.mul_le_mono_l; lia).
    rewrite Nat.mul_succ_r in G. rewrite (Nat.mul_comm (j / b ^ S r) b). destruct (c <? digit b r j); lia.
  Qed.

  Lemma lemma_of_nth l (e : list E) j r c : Layout h b d l e -> j < b ^ d -> r < d -> c < b - 1 ->
    nth_error (lemma_of b e d j) (1 + r * (b - 1) + c) = nth_error e (row_off b d r + sib_pos j r c).
  Proof.
    intros HX Hj Hr Hc. pose proof (arity_ge b Hb).
    pose proof (groups_lemma_of b Hb d l e h HX j Hj) as G. unfold groups in G.
    apply (f_equal (fun x => nth_error x r)) in G. rewrite !nth_error_map, !seq_nth_k in G by auto. cbn [option_map] in G.
    apply (f_equal (fun x => match x with Some y => nth_error y c | None => None end)) in G. cbv beta iota in G.
    rewrite nth_error_sub in G. replace (c <? b - 1) with true in G by lia. rewrite G.
    pose proof (digit_lt b Hb r j) as D. pose proof (kids_length b Hb d l e h HX r j Hj Hr) as K.
    unfold remove_at. rewrite nth_error_app, firstn_length, K.
    replace (Nat.min (digit b r j) b) with (digit b r j) by lia. unfold sib_pos.
    destruct (c <? digit b r j) eqn:Q.
    - rewrite nth_error_firstn. rewrite Q. unfold kids. rewrite nth_error_sub. replace (c <? b) with true by lia. f_equal. lia.
    - rewrite nth_error_skipn. unfold kids. rewrite nth_error_sub.
      replace (S (digit b r j) + (c - digit b r j) <? b) with true by lia. f_equal. lia.
  Qed.

  Lemma sib_pos_other j r c : r < d -> c < b - 1 -> sib_pos j r c <> j / b ^ r.
  Proof.
    intros Hr Hc He. pose proof (anc_pos b Hb d r j) as P. unfold sib_pos in He.
    set (y := j / b ^ S r * b) in *. set (x := j / b ^ r) in *. set (g := digit b r j) in *. clearbody x y g. destruct (c <? g) eqn:R; lia.
  Qed.

  Lemma sib_pos_up j r c : c < b - 1 -> sib_pos j r c / b = j / b ^ S r.
  Proof.
    intros Hc. pose proof (arity_ge b Hb). unfold sib_pos. pose proof (digit_lt b Hb r j).
    rewrite Nat.div_add_l by lia. rewrite (Nat.div_small (if c <? digit b r j then c else S c) b); [apply Nat.add_0_r|]. destruct (c <? digit b r j) eqn:Q; lia.
  Qed.

  Lemma sib_pos_inj j r c c' : c < b - 1 -> c' < b - 1 -> sib_pos j r c = sib_pos j r c' -> c = c'.
  Proof.
    intros Hc Hc'. unfold sib_pos. generalize (j / b ^ S r * b). intros y. destruct (c <? digit b r j) eqn:Q; destruct (c' <? digit b r j) eqn:Q'; lia.
  Qed.

  Lemma sib_pos_find j r k : k / b = j / b ^ S r -> k <> j / b ^ r -> exists c, c < b - 1 /\ sib_pos j r c = k.
  Proof.
    intros Hk Hn. pose proof (arity_ge b Hb). pose proof (Nat.div_mod k b ltac:(lia)) as M.
    pose proof (Nat.mod_upper_bound k b ltac:(lia)). pose proof (anc_pos b Hb d r j) as P. pose proof (digit_lt b Hb r j).
    assert (k mod b <> digit b r j) by lia.
    unfold sib_pos. rewrite <- Hk. destruct (Nat.lt_ge_cases (k mod b) (digit b r j)) as [L|L].
    - exists (k mod b). replace (k mod b <? digit b r j) with true by lia. lia.
    - exists (k mod b - 1). replace (k mod b - 1 <? digit b r j) with false by lia. lia.
  Qed.

  (* a position strictly between the leaf and the root *)
  Lemma mid_pos k : 0 < k <= (b - 1) * d -> exists r c, r < d /\ c < b - 1 /\ k = 1 + r * (b - 1) + c.
  Proof.
    intros Hk. pose proof (arity_ge b Hb).
    assert (2 <= b) by auto. assert (Hc : b - 1 <> 0) by lia.
    pose proof (Nat.div_mod (k - 1) (b - 1) Hc) as M. pose proof (Nat.mod_upper_bound (k - 1) (b - 1) Hc) as U.
    exists ((k - 1) / (b - 1)), ((k - 1) mod (b - 1)). split; [|split; [exact U|]].
    - apply Nat.div_lt_upper_bound; lia.
    - rewrite (Nat.mul_comm ((k - 1) / (b - 1))). generalize dependent ((b - 1) * ((k - 1) / (b - 1))). lia.
  Qed.

  Lemma lemma_own : i < b ^ d -> forall k, k <> 0 -> k <> S ((b - 1) * d) ->
    nth_error (lemma_of b els d i) k = nth_error (lemma_of b els' d i) k.
  Proof.
    intros Hi k K0 K1. destruct (Nat.le_gt_cases k ((b - 1) * d)) as [L|L].
    - destruct (mid_pos k ltac:(lia)) as (r & c & Hr & Hc & ->).
      rewrite (lemma_of_nth _ _ _ _ _ HL), (lemma_of_nth _ _ _ _ _ HL') by auto.
      apply layout_outside; [lia|apply sib_pos_lt; auto|apply sib_pos_other; auto].
    - pose proof (lemma_of_length b Hb d leaves els h HL i Hi). pose proof (lemma_of_length b Hb d leaves' els' h HL' i Hi).
      rewrite (proj2 (nth_error_None _ _)), (proj2 (nth_error_None _ _)) by lia. reflexivity.
  Qed.

  Lemma lemma_head l (e : list E) j : Layout h b d l e -> j < b ^ d ->
    nth_error (lemma_of b e d j) 0 = nth_error e j.
  Proof.
    intros (_ & L2 & _) Hj. pose proof (geom_gt b d). pose proof (geom_pos b d).
    destruct (nth_error_ex e j ltac:(lia)) as [x Hx]. destruct (nth_error_ex e (geom b d - 1) ltac:(lia)) as [ro Hro].
    rewrite (lemma_of_eq b d e j x ro) by auto. symmetry. exact Hx.
  Qed.

  (* the row in which the paths of two leaves meet *)
  Lemma meet j : i < b ^ d -> j < b ^ d -> i <> j ->
    exists r, r < d /\ i / b ^ r <> j / b ^ r /\ i / b ^ S r = j / b ^ S r.
  Proof.
    intros Hi Hj Hn. pose proof (arity_ge b Hb).
    assert (G : forall n, n <= d -> i / b ^ n <> j / b ^ n \/ exists r, r < n /\ i / b ^ r <> j / b ^ r /\ i / b ^ S r = j / b ^ S r).
    { induction n; intros Hd.
      - left. rewrite Nat.pow_0_r, !Nat.div_1_r. exact Hn.
      - destruct (IHn ltac:(lia)) as [G|(r & R1 & R2)]; [|right; exists r; split; [lia|exact R2]].
        destruct (Nat.eq_dec (i / b ^ S n) (j / b ^ S n)) as [D|D]; [right; exists n; auto|left; exact D]. }
    destruct (G d (le_n d)) as [D|D]; [|exact D]. exfalso. apply D. rewrite !Nat.div_small by auto. reflexivity.
  Qed.

  Lemma div_up r s x y : r <= s -> x / b ^ r = y / b ^ r -> x / b ^ s = y / b ^ s.
  Proof.
    intros Hs He. induction s; [assert (r = 0) by lia; subst; exact He|].
    destruct (Nat.eq_dec r (S s)) as [->|]; [exact He|]. rewrite <- !(div_pow b Hb). rewrite IHs by lia. reflexivity.
  Qed.

  Lemma lemma_other j : i < b ^ d -> j < b ^ d -> i <> j ->
    exists r c, r < d /\ c < b - 1 /\ i / b ^ r <> j / b ^ r /\ i / b ^ S r = j / b ^ S r /\
      nth_error (lemma_of b els d j) (1 + r * (b - 1) + c) = nth_error els (row_off b d r + i / b ^ r) /\
      nth_error (lemma_of b els' d j) (1 + r * (b - 1) + c) = nth_error els' (row_off b d r + i / b ^ r) /\
      forall k, k <> 1 + r * (b - 1) + c -> k <> S ((b - 1) * d) ->
        nth_error (lemma_of b els d j) k = nth_error (lemma_of b els' d j) k.
  Proof.
    intros Hi Hj Hn. pose proof (arity_ge b Hb) as H2. destruct (meet j Hi Hj Hn) as (r & Hr & M1 & M2).
    destruct (sib_pos_find j r (i / b ^ r)) as (c & Hc & Hp); [rewrite (div_pow b Hb); exact M2|exact M1|].
    exists r, c. split; [exact Hr|]. split; [exact Hc|]. split; [exact M1|]. split; [exact M2|].
    rewrite (lemma_of_nth _ _ _ _ _ HL), (lemma_of_nth _ _ _ _ _ HL'), Hp by auto.
    split; [reflexivity|]. split; [reflexivity|]. intros k K1 K2.
    destruct (Nat.eq_dec k 0) as [->|K0].
    - rewrite (lemma_head _ _ j HL Hj), (lemma_head _ _ j HL' Hj).
      pose proof (layout_outside 0 j (Nat.le_0_l d)) as O. cbn [row_off Nat.add] in O.
      apply O; [rewrite Nat.sub_0_r; exact Hj|rewrite Nat.pow_0_r, Nat.div_1_r; congruence].
    - destruct (Nat.le_gt_cases k ((b - 1) * d)) as [L|L].
      + destruct (mid_pos k ltac:(lia)) as (r' & c' & Hr' & Hc' & ->).
        rewrite (lemma_of_nth _ _ _ _ _ HL), (lemma_of_nth _ _ _ _ _ HL') by auto.
        apply layout_outside; [lia|apply sib_pos_lt; auto|]. intros He.
        destruct (Nat.lt_trichotomy r' r) as [T|[T|T]].
        * apply M1. apply (div_up (S r') r); [lia|]. rewrite <- (div_pow b Hb). rewrite <- He. apply sib_pos_up. exact Hc'.
        * subst r'. apply K1. f_equal. apply (sib_pos_inj j r); auto. congruence.
        * apply (sib_pos_other j r' c' Hr' Hc'). rewrite He. apply (div_up (S r) r'); [lia|exact M2].
      + pose proof (lemma_of_length b Hb d leaves els h HL j Hj). pose proof (lemma_of_length b Hb d leaves' els' h HL' j Hj).
        rewrite (proj2 (nth_error_None _ _)), (proj2 (nth_error_None _ _)) by lia. reflexivity.
  Qed.

  (* a changed leaf changes its ancestors, or two lists of children collide *)
  Lemma path_changes : i < b ^ d -> nth_error leaves i <> nth_error leaves' i ->
    forall r, r <= d ->
    nth_error els (row_off b d r + i / b ^ r) <> nth_error els' (row_off b d r + i / b ^ r) \/
    exists q, q < r /\ kids b els d q i <> kids b els' d q i /\ h q (kids b els d q i) = h q (kids b els' d q i).
  Proof.
    intros Hi Hn. pose proof (arity_ge b Hb) as H2. induction r; intros Hr.
    - left. cbn [row_off]. rewrite Nat.pow_0_r, Nat.div_1_r. cbn [Nat.add].
      rewrite (Layout_leaf b ltac:(lia) h d leaves els i HL Hi), (Layout_leaf b ltac:(lia) h d leaves' els' i HL' Hi). exact Hn.
    - destruct (IHr ltac:(lia)) as [D|(q & Hq & C)]; [|right; exists q; split; [lia|exact C]].
      assert (KD : kids b els d r i <> kids b els' d r i).
      { intros He. apply D. rewrite <- (kids_nth b Hb d els r i), <- (kids_nth b Hb d els' r i) by lia.
        rewrite He. reflexivity. }
      pose proof (anc_lt b Hb d (S r) i Hi Hr) as Ha.
      rewrite (layout_parent b Hb d leaves els h HL r (i / b ^ S r)), (layout_parent b Hb d leaves' els' h HL' r (i / b ^ S r)) by lia.
      fold (kids b els d r i). fold (kids b els' d r i).
      destruct (el_dec EO EL (h r (kids b els d r i)) (h r (kids b els' d r i))) as [Q|Q].
      + right. exists r. split; [lia|]. split; [exact KD|exact Q].
      + left. congruence.
  Qed.
End Local.
