(* Inclusion proofs over one tree: generation and validation. *)
From Coq Require Import String List Arith Bool Lia Init.Byte ZifyBool ZifyNat.
From Verif Require Import Base Element Hash Sizing FS Sched Store VecStore ProofModel Tree ListFacts Spec SpecFacts SizingFacts RowFacts ProofSpec.
Import ListNotations.

Section ListPart.
  Context {E : Type}.
  Lemma insert_remove c x (l : list E) : nth_error l c = Some x -> insert_at c x (remove_at c l) = l.
  Proof.
    intros H. unfold insert_at, remove_at. pose proof (nth_error_lt _ _ _ H) as L.
    rewrite firstn_app, firstn_firstn, firstn_length, Nat.min_id, (Nat.min_l c) by lia. rewrite Nat.sub_diag.
    cbn [firstn]. rewrite app_nil_r.
    rewrite skipn_app, firstn_length, (Nat.min_l c), Nat.sub_diag by lia.
    rewrite skipn_all2 by (rewrite firstn_length; lia). cbn [skipn app].
    rewrite <- (firstn_skipn c l) at 3. f_equal. clear L. revert l H. induction c as [|c IH]; intros [|y l] H; cbn in *; try discriminate; [congruence|auto].
  Qed.
  Lemma remove_length c (l : list E) : c < List.length l -> List.length (remove_at c l) = List.length l - 1.
  Proof. intros H. unfold remove_at. rewrite app_length, firstn_length, skipn_length. lia. Qed.
  Lemma insert_length c x (l : list E) : List.length (insert_at c x l) = S (List.length l).
  Proof. unfold insert_at. rewrite app_length, firstn_length. cbn. rewrite skipn_length. lia. Qed.
  Lemma insert_nth_same c x (l : list E) : c <= List.length l -> nth_error (insert_at c x l) c = Some x.
  Proof.
    intros H. unfold insert_at. rewrite nth_error_app2; rewrite firstn_length, Nat.min_l by lia; [|lia].
    rewrite Nat.sub_diag. reflexivity.
  Qed.
  Lemma insert_inj c x y (l m : list E) : c <= List.length l -> c <= List.length m ->
    insert_at c x l = insert_at c y m -> x = y /\ l = m.
  Proof.
    intros Hl Hm H. assert (x = y).
    { pose proof (insert_nth_same c x l Hl) as A. rewrite H, insert_nth_same in A by auto. congruence. }
    subst y. split; [auto|]. unfold insert_at in H.
    assert (F : firstn c l = firstn c m).
    { apply (f_equal (firstn c)) in H. rewrite !firstn_app, !firstn_firstn, !firstn_length, !Nat.min_id, !(Nat.min_l c), !Nat.sub_diag in H by lia.
      cbn in H. rewrite !app_nil_r in H. exact H. }
    rewrite F in H. apply app_inv_head in H. injection H as H. rewrite <- (firstn_skipn c l), <- (firstn_skipn c m). congruence.
  Qed.
End ListPart.

(* ---- generation ---- *)
Section Gen.
  Context {E : Type} (b : nat) (Hb : arity b).

  Lemma read_siblings_spec (rd : nat -> res E) j : forall n s (l : list E),
    List.length l = n -> (forall k, k < n -> exists x, nth_error l k = Some x /\ rd (s + k) = Ok x) ->
    s <= j -> j < s + n ->
    read_siblings rd j (seq s n) = Ok (remove_at (j - s) l).
  Proof.
    assert (G : forall n s (l : list E), List.length l = n ->
       (forall k, k < n -> exists x, nth_error l k = Some x /\ rd (s + k) = Ok x) -> j < s ->
       read_siblings rd j (seq s n) = Ok l).
    { induction n; intros s l Hl H Hj; destruct l as [|y l]; try discriminate; [reflexivity|].
      cbn [seq read_siblings]. replace (s =? j) with false by lia.
      destruct (H 0 ltac:(lia)) as (x & Hx & Hr). rewrite Nat.add_0_r in Hr. rewrite Hr. cbn [rbind]. cbn in Hx. inv Hx.
      rewrite (IHn (S s) l); [reflexivity|cbn in Hl; lia| |lia].
      intros k Hk. destruct (H (S k) ltac:(lia)) as (x' & Hx & Hr'). exists x'. split; [exact Hx|]. rewrite <- Hr'. f_equal. lia. }
    induction n; intros s l Hl H Hs Hj; [lia|]. destruct l as [|y l]; try discriminate. cbn in Hl.
    destruct (H 0 ltac:(lia)) as (x & Hx & Hr). rewrite Nat.add_0_r in Hr. cbn in Hx. inv Hx.
    assert (H' : forall k, k < n -> exists x0, nth_error l k = Some x0 /\ rd (S s + k) = Ok x0).
    { intros k Hk. destruct (H (S k) ltac:(lia)) as (x' & Hx' & Hr'). exists x'. split; [exact Hx'|]. rewrite <- Hr'. f_equal. lia. }
    cbn [seq read_siblings]. destruct (s =? j) eqn:Q.
    - apply Nat.eqb_eq in Q. subst j. rewrite Nat.sub_diag. apply G; auto; lia.
    - rewrite Hr. cbn [rbind]. rewrite (IHn (S s) l) by (auto; lia). cbn [rbind].
      replace (j - s) with (S (j - S s)) by lia. reflexivity.
  Qed.

  Lemma div_pow i r : i / b ^ r / b = i / b ^ S r.
  Proof.
    pose proof (arity_ge b Hb). assert (b ^ r <> 0) by (apply Nat.pow_nonzero; lia).
    rewrite Nat.div_div by lia. rewrite Nat.pow_succ_r'. f_equal. lia.
  Qed.

  Lemma anc_lt d r i : i < b ^ d -> r <= d -> i / b ^ r < b ^ (d - r).
  Proof.
    intros H Hr. pose proof (arity_ge b Hb). apply Nat.div_lt_upper_bound; [apply Nat.pow_nonzero; lia|].
    rewrite <- Nat.pow_add_r. replace (r + (d - r)) with d by lia. auto.
  Qed.

  Variables (d : nat) (leaves els : list E) (h : nat -> list E -> E).
  Hypothesis HL : Layout h b d leaves els.

  Lemma kids_in_row r i : i < b ^ d -> r < d ->
    row_off b d r + i / b ^ S r * b + b <= row_off b d (S r).
  Proof.
    intros Hi Hr. pose proof (arity_ge b Hb). rewrite row_off_step.
    pose proof (anc_lt d (S r) i Hi Hr) as M. replace (d - r) with (S (d - S r)) by lia. rewrite (Nat.pow_succ_r' b (d - S r)).
    assert (G : b * S (i / b ^ S r) <= b * b ^ (d - S r)) by (apply Nat.mul_le_mono_l; lia).
    rewrite Nat.mul_succ_r in G. rewrite (Nat.mul_comm (i / b ^ S r) b). lia.
  Qed.

  Lemma row_off_geom r : r <= d -> row_off b d r <= geom b d.
  Proof. intros Hr. rewrite (geom_row_off b d r Hr). lia. Qed.

  Lemma kids_length r i : i < b ^ d -> r < d -> List.length (kids b els d r i) = b.
  Proof.
    intros Hi Hr. destruct HL as (L1 & L2 & L3). unfold kids. apply sub_length_le.
    pose proof (kids_in_row r i Hi Hr). pose proof (row_off_geom (S r) Hr). lia.
  Qed.

  Lemma digit_lt r i : digit b r i < b.
  Proof. pose proof (arity_ge b Hb). apply Nat.mod_upper_bound. lia. Qed.

  Lemma anc_pos r i : row_off b d r + i / b ^ S r * b + digit b r i = row_off b d r + i / b ^ r.
  Proof.
    pose proof (arity_ge b Hb). rewrite <- div_pow. unfold digit.
    pose proof (Nat.div_mod (i / b ^ r) b ltac:(lia)). lia.
  Qed.

  Lemma kids_nth r i : i < b ^ d -> r < d ->
    nth_error (kids b els d r i) (digit b r i) = nth_error els (row_off b d r + i / b ^ r).
  Proof.
    intros Hi Hr. unfold kids. rewrite nth_error_sub. pose proof (digit_lt r i).
    replace (digit b r i <? b) with true by lia. rewrite anc_pos. reflexivity.
  Qed.

  (* parent = hash of its children *)
  Lemma layout_parent r j : r < d -> j < b ^ (d - S r) ->
    nth_error els (row_off b d (S r) + j) = Some (h r (sub els (row_off b d r + j * b) b)).
  Proof.
    intros Hr Hj. destruct HL as (L1 & L2 & L3). pose proof (arity_ge b Hb) as H2.
    destruct (L3 (S r) j Hr Hj) as (x & Hx & HR). rewrite Hx. f_equal.
    apply MRoot_S_inv in HR.
    destruct HR as (roots & Hroots & Hlen & HF). subst x. f_equal.
    assert (Hw : b * S j <= b ^ (d - r)).
    { replace (d - r) with (S (d - S r)) by lia. rewrite Nat.pow_succ_r'. apply Nat.mul_le_mono_l. lia. }
    apply nth_error_ext. intros c. rewrite nth_error_sub.
    destruct (c <? b) eqn:Hc.
    - destruct (nth_error_ex roots c ltac:(lia)) as [y Hy]. rewrite Hy.
      destruct (L3 r (j * b + c) ltac:(lia) ltac:(lia)) as (z & Hz & HRz).
      rewrite Nat.add_assoc in Hz. rewrite Hz. f_equal. specialize (HF c y Hy).
      rewrite sub_sub in HF.
      2:{ rewrite Nat.pow_succ_r'. rewrite <- (Nat.mul_1_l (b ^ r)) at 2. rewrite <- Nat.mul_add_distr_r. apply Nat.mul_le_mono_r. lia. }
      replace (j * b ^ S r + c * b ^ r) with ((j * b + c) * b ^ r) in HF by (rewrite Nat.pow_succ_r'; ring).
      eapply MRoot_fun; eauto.
    - apply nth_error_None. lia.
  Qed.

  Lemma anc_some r i : i < b ^ d -> r <= d -> exists x, nth_error els (row_off b d r + i / b ^ r) = Some x.
  Proof.
    intros Hi Hr. destruct HL as (L1 & L2 & L3).
    destruct (L3 r (i / b ^ r) Hr (anc_lt d r i Hi Hr)) as (x & Hx & _). eauto.
  Qed.

  Lemma proof_loop_spec (rd : nat -> nat -> res E) i :
    (forall l k x, nth_error els k = Some x -> rd l k = Ok x) -> i < b ^ d ->
    forall n r fuel, r + n = d -> n < fuel ->
    proof_loop b fuel rd (log2_pow2 b) (geom b d) (row_off b d r) (b ^ n) (i / b ^ r) r =
      Ok (flat_map (fun r => remove_at (digit b r i) (kids b els d r i)) (seq r n), map (fun r => digit b r i) (seq r n)).
  Proof.
    intros Hrd Hi. pose proof (arity_ge b Hb) as H2.
    induction n; intros r fuel Hr Hf; (destruct fuel as [|fuel]; [lia|]); cbn [proof_loop].
    - replace (row_off b d r + 1 <? geom b d) with false; [reflexivity|].
      assert (r = d) by lia. subst r. rewrite row_off_last. pose proof (geom_pos b d). lia.
    - pose proof (geom_row_off b d r ltac:(lia)) as G. replace (d - r) with (S n) in G by lia.
      pose proof (geom_gt b (S n)) as G2. pose proof (Nat.pow_gt_lin_r b (S n) ltac:(lia)) as G3.
      replace (row_off b d r + 1 <? geom b d) with true by lia.
      rewrite (read_siblings_spec _ (i / b ^ r) b (i / b ^ r / b * b) (kids b els d r i)).
      + cbn [rbind]. rewrite !arity_shift by auto. rewrite div_pow.
        replace (b ^ S n / b) with (b ^ n) by (rewrite Nat.pow_succ_r', Nat.mul_comm, Nat.div_mul; lia).
        replace (row_off b d r + b ^ S n) with (row_off b d (S r)) by (rewrite row_off_step; do 2 f_equal; lia).
        rewrite IHn by lia. cbn [rbind seq flat_map map]. do 3 f_equal.
        rewrite <- div_pow. unfold digit. f_equal. pose proof (Nat.div_mod (i / b ^ r) b ltac:(lia)). lia.
      + apply kids_length; auto; lia.
      + intros k Hk. destruct (nth_error_ex (kids b els d r i) k) as [x Hx]; [rewrite kids_length; auto; lia|].
        exists x. split; [exact Hx|]. apply Hrd. rewrite <- Hx. unfold kids. rewrite nth_error_sub.
        replace (k <? b) with true by lia. rewrite div_pow. f_equal. lia.
      + rewrite Nat.mul_comm. apply Nat.mul_div_le. lia.
      + pose proof (Nat.div_mod (i / b ^ r) b ltac:(lia)). pose proof (Nat.mod_upper_bound (i / b ^ r) b ltac:(lia)). lia.
  Qed.

  Lemma sib_len r i : i < b ^ d -> r < d -> List.length (remove_at (digit b r i) (kids b els d r i)) = b - 1.
  Proof. intros Hi Hr. pose proof (digit_lt r i). rewrite remove_length; rewrite kids_length; auto. Qed.

  Lemma flat_map_len {X} (g : nat -> list X) c : forall n s, (forall r, s <= r < s + n -> List.length (g r) = c) ->
    List.length (flat_map g (seq s n)) = n * c.
  Proof.
    induction n; intros s H; [reflexivity|]. cbn [seq flat_map]. rewrite app_length, IHn, H by (try intros r Hr; try apply H; lia). lia.
  Qed.

  Lemma lemma_of_length i : i < b ^ d -> List.length (lemma_of b els d i) = 2 + (b - 1) * d.
  Proof.
    intros Hi. destruct HL as (L1 & L2 & L3). unfold lemma_of. pose proof (geom_gt b d). pose proof (geom_pos b d).
    rewrite !app_length, !sub_length_le by lia. rewrite (flat_map_len _ (b - 1)); [lia|].
    intros r Hr. apply sib_len; auto. lia.
  Qed.

  Lemma path_of_length i : List.length (path_of b d i) = d.
  Proof. unfold path_of. rewrite map_length, seq_length. reflexivity. Qed.

  Lemma lemma_of_eq i x root : i < b ^ d -> nth_error els i = Some x -> nth_error els (geom b d - 1) = Some root ->
    lemma_of b els d i = x :: flat_map (fun r => remove_at (digit b r i) (kids b els d r i)) (seq 0 d) ++ [root].
  Proof.
    intros Hi Hx Hr. unfold lemma_of. rewrite (sub_cons_nth _ _ _ _ Hx), (sub_cons_nth _ _ _ _ Hr), !sub_zero. reflexivity.
  Qed.

  Lemma sub_flat_map {X} (g : nat -> list X) c (tl : list X) : forall n s k, (forall r, s <= r < s + n -> List.length (g r) = c) -> k < n ->
    sub (flat_map g (seq s n) ++ tl) (k * c) c = g (s + k).
  Proof.
    induction n; intros s k H Hk; [lia|]. cbn [seq flat_map]. rewrite <- app_assoc. destruct k.
    - rewrite Nat.mul_0_l, Nat.add_0_r, sub_app_l by (rewrite H; lia). rewrite <- (H s) at 1 by lia. apply sub_all.
    - rewrite sub_app_r by (rewrite H; lia). rewrite H by lia. replace (S k * c - c) with (k * c) by lia.
      rewrite IHn by (try intros r Hr; try apply H; lia). f_equal. lia.
  Qed.

  Lemma groups_lemma_of i : i < b ^ d ->
    groups b (lemma_of b els d i) d = map (fun r => remove_at (digit b r i) (kids b els d r i)) (seq 0 d).
  Proof.
    intros Hi. destruct HL as (L1 & L2 & L3). pose proof (geom_gt b d).
    destruct (nth_error_ex els i ltac:(lia)) as [x Hx]. destruct (nth_error_ex els (geom b d - 1)) as [root Hr]; [pose proof (geom_pos b d); lia|].
    rewrite (lemma_of_eq i x root) by auto. unfold groups. apply map_ext_in. intros k Hk. apply in_seq in Hk.
    change (1 + k * (b - 1)) with (S (k * (b - 1))).
    change (sub (?y :: ?l) (S ?n) ?m) with (sub l n m).
    rewrite sub_flat_map; [reflexivity| |lia]. intros r Hr'. apply sib_len; auto. lia.
  Qed.

  (* climbing with the siblings of the tree reaches the root *)
  Lemma climb_complete (hv : nat -> list E -> E) i :
    (forall k nodes, List.length nodes = b -> hv k nodes = h k nodes) -> i < b ^ d ->
    forall n k x, k + n = d -> nth_error els (row_off b d k + i / b ^ k) = Some x ->
      Some (climb hv k x (map (fun r => remove_at (digit b r i) (kids b els d r i)) (seq k n)) (map (fun r => digit b r i) (seq k n)))
      = nth_error els (geom b d - 1).
  Proof.
    intros Hh Hi. induction n; intros k x Hk Hx.
    - assert (k = d) by lia. subst k. cbn [seq map climb]. rewrite <- Hx, row_off_last. f_equal.
      pose proof (anc_lt d d i Hi (le_n d)) as M. rewrite Nat.sub_diag in M. change (b ^ 0) with 1 in M. apply Nat.lt_1_r in M. rewrite M. lia.
    - cbn [seq map climb]. apply IHn; [lia|].
      rewrite insert_remove by (rewrite kids_nth by lia; exact Hx).
      rewrite Hh by (apply kids_length; lia).
      rewrite layout_parent; [reflexivity|lia|]. apply anc_lt; auto. lia.
  Qed.
End Gen.

(* ---- validation ---- *)
Section Val.
  Context {E : Type} (EO : ElementOps E) (EL : ElementLaws EO).
  Variable A : AlgOps E.
  Hypothesis AL : AlgLaws A.
  Variable b : nat.
  Hypothesis Hb : 2 <= b.

  (* what validate hashes at level k: the height argument is k*(b-1) *)
  Definition hv (k : nat) (nodes : list E) : E := h_node A (k * (b - 1)) nodes.

  Lemma place_out (lemma : list E) off c mid : forall n s cur, c < s \/ s + n <= c ->
    (off + cur + n <= List.length lemma ->
      place_nodes lemma off (Ok c) mid (seq s n) cur = Ok (sub lemma (off + cur) n, cur + n)) /\
    (List.length lemma < off + cur + n -> 0 < n -> exists m, place_nodes lemma off (Ok c) mid (seq s n) cur = Panic m).
  Proof.
    induction n; intros s cur Hc.
    - cbn [seq place_nodes]. split; [|lia]. intros _. rewrite sub_zero, Nat.add_0_r. reflexivity.
    - cbn [seq place_nodes rbind]. replace (s =? c) with false by lia.
      destruct (IHn (S s) (S cur) ltac:(lia)) as [I1 I2].
      destruct (nth_error lemma (off + cur)) as [x|] eqn:Ex; unfold rnth; rewrite Ex; cbn [rbind].
      + pose proof (nth_error_lt _ _ _ Ex). split.
        * intros G. rewrite I1 by lia. cbn [rbind].
          rewrite (sub_cons_nth _ _ _ _ Ex). replace (off + S cur) with (S (off + cur)) by lia.
          replace (S cur + n) with (cur + S n) by lia. reflexivity.
        * intros H1 _. destruct n; [lia|]. destruct I2 as [m Hm]; [lia|lia|]. rewrite Hm. eexists. reflexivity.
      + apply nth_error_None in Ex. split; [lia|]. intros _ _. eexists. reflexivity.
  Qed.

  Lemma place_in (lemma : list E) off c x : forall n s cur, s <= c < s + n ->
    (off + cur + (n - 1) <= List.length lemma ->
      place_nodes lemma off (Ok c) (Ok x) (seq s n) cur = Ok (insert_at (c - s) x (sub lemma (off + cur) (n - 1)), cur + (n - 1))) /\
    (off + cur <= List.length lemma -> List.length lemma < off + cur + (n - 1) ->
      exists m, place_nodes lemma off (Ok c) (Ok x) (seq s n) cur = Panic m).
  Proof.
    induction n; intros s cur Hc; [lia|]. cbn [seq place_nodes rbind]. replace (S n - 1) with n by lia.
    destruct (s =? c) eqn:Q.
    - apply Nat.eqb_eq in Q. subst c. destruct (place_out lemma off s (Ok x) n (S s) cur ltac:(lia)) as [P1 P2]. split.
      + intros H. rewrite P1 by lia. cbn [rbind].
        rewrite Nat.sub_diag. reflexivity.
      + intros H0 H. destruct P2 as [m Hm]; [lia|lia|]. rewrite Hm. eexists. reflexivity.
    - destruct n; [lia|]. destruct (IHn (S s) (S cur) ltac:(lia)) as [I1 I2]. cbn [Nat.sub] in I1, I2. rewrite Nat.sub_0_r in I1, I2.
      split.
      + intros H. destruct (nth_error_ex lemma (off + cur) ltac:(lia)) as [y Hy]. unfold rnth. rewrite Hy. cbn [rbind].
        rewrite I1 by lia. cbn [rbind]. replace (c - s) with (S (c - S s)) by lia. rewrite (sub_cons_nth _ _ _ _ Hy).
        unfold insert_at. cbn [firstn skipn app]. replace (off + S cur) with (S (off + cur)) by lia. replace (S cur + n) with (cur + S n) by lia. reflexivity.
      + intros H0 H. destruct (nth_error lemma (off + cur)) as [y|] eqn:Ey; unfold rnth; rewrite Ey; cbn [rbind]; [|eexists; reflexivity].
        apply nth_error_lt in Ey. destruct I2 as [m Hm]; [lia|lia|]. rewrite Hm. eexists. reflexivity.
  Qed.

  Lemma place_panic_at (lemma : list E) off m mid n cur s : 0 < n ->
    place_nodes lemma off (Panic m) mid (seq s n) cur = Panic m.
  Proof. destruct n; [lia|]. reflexivity. Qed.

  Lemma one_sub x : 1 + x - 1 = x.
  Proof. lia. Qed.
  Lemma reset_multi a nodes k : fst (a_multi_node A (a_reset A a) nodes k) = h_node A k nodes.
  Proof. rewrite AL. reflexivity. Qed.

  Lemma base_loop_ok (p : proof E) D : List.length (pf_lemma p) = 2 + (b - 1) * D -> D <= List.length (pf_path p) ->
    forall n k fuel a x, k + n = D -> n < fuel ->
    base_loop A b fuel p (List.length (pf_lemma p)) (1 + k * (b - 1)) (S k) a x =
      Ok (if forallb (fun c => c <? b) (sub (pf_path p) k n)
          then Some (climb hv k x (map (fun k => sub (pf_lemma p) (1 + k * (b - 1)) (b - 1)) (seq k n)) (sub (pf_path p) k n))
          else None).
  Proof.
    intros Hl Hp. induction n; intros k fuel a x Hk Hf; (destruct fuel as [|fuel]; [lia|]); cbn [base_loop].
    - assert (k = D) by lia. subst k. destruct (_ <? _) eqn:G.
      { exfalso. apply Nat.ltb_lt in G. rewrite Hl, (Nat.mul_comm D) in G. revert G. generalize ((b - 1) * D). intros z G. lia. }
      rewrite sub_zero. reflexivity.
    - assert (HS : (S k) * (b - 1) <= (b - 1) * D) by (rewrite Nat.mul_comm; apply Nat.mul_le_mono_l; lia).
      cbn [Nat.mul] in HS.
      replace (_ <? _) with true by lia.
      destruct (nth_error_ex (pf_path p) k ltac:(lia)) as [c Hc].
      replace (S k - 1) with k by lia. unfold rnth at 1. rewrite Hc. rewrite (sub_cons_nth _ _ _ _ Hc). cbn [forallb].
      rewrite checked_sub_ok by lia.
      destruct (c <? b) eqn:Hcb.
      + destruct (place_in (pf_lemma p) (1 + k * (b - 1)) c x b 0 0 ltac:(lia)) as [P _].
        rewrite P by lia. cbn [rbind]. rewrite Nat.eqb_refl. cbn [negb].
        destruct (a_multi_node A (a_reset A a) _ (1 + k * (b - 1) - 1)) as [h' a'] eqn:EM.
        replace (1 + k * (b - 1) + (b - 1)) with (1 + S k * (b - 1)) by lia. rewrite IHn by lia.
        cbn [seq map climb andb]. rewrite Nat.add_0_r, Nat.sub_0_r in EM.
        assert (HE : h' = hv k (insert_at c x (sub (pf_lemma p) (1 + k * (b - 1)) (b - 1)))).
        { unfold hv. rewrite <- (reset_multi a). rewrite one_sub in EM. rewrite EM. reflexivity. }
        rewrite HE. reflexivity.
      + destruct (place_out (pf_lemma p) (1 + k * (b - 1)) c (Ok x) b 0 0 ltac:(lia)) as [P _].
        rewrite P by lia. cbn [rbind]. replace (0 + b =? b - 1) with false by lia. reflexivity.
  Qed.

  (* number of levels the loop goes through *)
  Definition levels_at (size n : nat) : Prop :=
    (forall m, m < n -> 1 + m * (b - 1) < size - 1) /\ size - 1 <= 1 + n * (b - 1).

  Lemma base_loop_inv (p : proof E) : forall fuel k a x y,
    base_loop A b fuel p (List.length (pf_lemma p)) (1 + k * (b - 1)) (S k) a x = Ok (Some y) ->
    exists n, (forall m, m < n -> 1 + (k + m) * (b - 1) < List.length (pf_lemma p) - 1) /\
      List.length (pf_lemma p) - 1 <= 1 + (k + n) * (b - 1) /\
      k + n <= Nat.max k (List.length (pf_path p)) /\
      forallb (fun c => c <? b) (sub (pf_path p) k n) = true /\
      (0 < n -> (k + n) * (b - 1) + 1 <= List.length (pf_lemma p)) /\
      y = climb hv k x (map (fun k => sub (pf_lemma p) (1 + k * (b - 1)) (b - 1)) (seq k n)) (sub (pf_path p) k n).
  Proof.
    induction fuel as [|fuel IH]; intros k a x y H; [discriminate|]. cbn [base_loop] in H.
    destruct (_ <? _) eqn:G in H.
    2:{ exists 0. rewrite sub_zero, !Nat.add_0_r. inv H. repeat split; try lia. }
    replace (S k - 1) with k in H by lia. unfold rnth at 1 in H.
    destruct (nth_error (pf_path p) k) as [c|] eqn:Hc; [|rewrite place_panic_at in H by lia; discriminate].
    pose proof (nth_error_lt _ _ _ Hc) as Lc.
    rewrite checked_sub_ok in H by lia.
    destruct (c <? b) eqn:Hcb.
    - destruct (place_in (pf_lemma p) (1 + k * (b - 1)) c x b 0 0 ltac:(lia)) as [P P'].
      destruct (le_lt_dec (1 + k * (b - 1) + 0 + (b - 1)) (List.length (pf_lemma p))) as [L|L].
      2:{ destruct P' as [m Hm]; [lia|lia|]. rewrite Hm in H. discriminate. }
      rewrite P in H by lia. cbn [rbind] in H. rewrite Nat.eqb_refl in H. cbn [negb] in H.
      destruct (a_multi_node A (a_reset A a) _ (1 + k * (b - 1) - 1)) as [h' a'] eqn:EM.
      replace (1 + k * (b - 1) + (b - 1)) with (1 + S k * (b - 1)) in H by lia. apply IH in H.
      destruct H as (n & H1 & H2 & H3 & H4 & H5 & H6). exists (S n). repeat split.
      + intros m Hm. destruct m; [rewrite Nat.add_0_r; lia|]. specialize (H1 m ltac:(lia)). replace (k + S m) with (S k + m) by lia. exact H1.
      + replace (k + S n) with (S k + n) by lia. exact H2.
      + lia.
      + rewrite (sub_cons_nth _ _ _ _ Hc). cbn [forallb]. rewrite Hcb. exact H4.
      + intros _. replace (k + S n) with (S k + n) by lia. destruct n; [|apply H5; lia].
        rewrite Nat.add_0_r. cbn [Nat.mul]. lia.
      + rewrite (sub_cons_nth _ _ _ _ Hc). cbn [seq map climb]. rewrite H6. f_equal.
        unfold hv. rewrite <- (reset_multi a).
        rewrite Nat.add_0_r, Nat.sub_0_r, one_sub in EM. rewrite EM. reflexivity.
    - destruct (place_out (pf_lemma p) (1 + k * (b - 1)) c (Ok x) b 0 0 ltac:(lia)) as [P P'].
      destruct (le_lt_dec (1 + k * (b - 1) + 0 + b) (List.length (pf_lemma p))) as [L|L].
      + rewrite P in H by lia. cbn [rbind] in H. replace (0 + b =? b - 1) with false in H by lia. discriminate.
      + destruct P' as [m Hm]; [lia|lia|]. rewrite Hm in H. discriminate.
  Qed.

  (* a base proof of D levels *)
  Definition base_shape (p : proof E) (D : nat) : Prop :=
    pf_sub p = None /\ pf_top_nodes p = 0 /\ pf_sub_nodes p = 0 /\
    List.length (pf_lemma p) = 2 + (b - 1) * D /\ D <= List.length (pf_path p).

  Lemma lemma_ends (l : list E) n : List.length l = 2 + n ->
    exists x root, nth_error l 0 = Some x /\ nth_error l (S n) = Some root /\ (exists t, l = x :: t) /\ (exists t, rev l = root :: t).
  Proof.
    intros H. destruct (nth_error_ex l 0 ltac:(lia)) as [x Hx]. destruct (nth_error_ex l (S n) ltac:(lia)) as [root Hr].
    exists x, root. repeat split; auto.
    - destruct l; [discriminate|]. cbn in Hx. inv Hx. eauto.
    - destruct (rev l) as [|y t] eqn:ER; [apply (f_equal (@List.length _)) in ER; rewrite rev_length in ER; cbn in ER; lia|].
      exists t. f_equal. apply (f_equal (@rev _)) in ER. rewrite rev_involutive in ER. cbn [rev] in ER.
      rewrite ER in Hr. rewrite nth_error_app2 in Hr.
      2:{ apply (f_equal (@List.length _)) in ER. rewrite app_length in ER. cbn in ER. lia. }
      replace (S n - List.length (rev t)) with 0 in Hr; [cbn in Hr; congruence|].
      apply (f_equal (@List.length _)) in ER. rewrite app_length in ER. cbn in ER. lia.
  Qed.

  Lemma validate_base_ok p D x root : base_shape p D ->
    nth_error (pf_lemma p) 0 = Some x -> nth_error (pf_lemma p) (S ((b - 1) * D)) = Some root ->
    validate EO A b p = Ok (forallb (fun c => c <? b) (firstn D (pf_path p)) &&
       e_eqb EO (climb hv 0 x (groups b (pf_lemma p) D) (firstn D (pf_path p))) root).
  Proof.
    intros (S1 & S2 & S3 & S4 & S5) Hx Hr.
    destruct (lemma_ends _ _ S4) as (x' & r' & Hx' & Hr' & [t1 E1] & [t2 E2]).
    rewrite Hx in Hx'. inv Hx'. rewrite Hr in Hr'. inv Hr'.
    destruct p as [sp tn sn lem pa]. cbn [pf_sub pf_top_nodes pf_sub_nodes pf_lemma pf_path] in *. subst sp tn sn.
    cbn [validate pf_top_nodes pf_sub_nodes Nat.ltb Nat.leb]. unfold validate_base. cbn [pf_sub pf_top_nodes pf_sub_nodes Nat.eqb ensure rbind pf_lemma].
    replace (List.length lem <? 2) with false by (symmetry; apply Nat.ltb_ge; rewrite S4; apply Nat.le_add_r). unfold pf_item, pf_root. cbn [pf_lemma]. rewrite E2. rewrite E1 at 1. cbn [rbind].
    rewrite checked_sub_ok by lia. cbn [rbind]. replace (b - 1 =? 0) with false by lia.
    pose proof (base_loop_ok (mk_proof None 0 0 lem pa) D S4 S5 D 0 (List.length lem) (a_default A) x' eq_refl) as HB.
    cbn [pf_lemma pf_path Nat.mul Nat.add] in HB.
    replace (List.length lem) with (List.length lem) in HB by reflexivity.
    assert (D < List.length lem). { rewrite S4. assert (1 * D <= (b - 1) * D) by (apply Nat.mul_le_mono_r; lia). lia. }
    rewrite HB by auto. cbn [rbind]. rewrite sub_0. destruct (forallb _ _); reflexivity.
  Qed.

  Lemma validate_base_true p y : pf_sub_nodes p = 0 -> pf_top_nodes p = 0 ->
    validate EO A b p = Ok true -> pf_root p = Ok y ->
    exists x n, nth_error (pf_lemma p) 0 = Some x /\ levels_at (List.length (pf_lemma p)) n /\
      n <= List.length (pf_path p) /\
      (forall g, In g (groups b (pf_lemma p) n) -> List.length g = b - 1) /\
      Forall (fun c => c < b) (firstn n (pf_path p)) /\
      climb hv 0 x (groups b (pf_lemma p) n) (firstn n (pf_path p)) = y.
  Proof.
    destruct p as [sp tn sn lem pa]. cbn [pf_sub pf_top_nodes pf_sub_nodes pf_lemma pf_path]. intros -> -> H Hy.
    cbn [validate pf_top_nodes pf_sub_nodes Nat.ltb Nat.leb] in H. unfold validate_base in H.
    cbn [pf_sub pf_top_nodes pf_sub_nodes Nat.eqb ensure rbind pf_lemma] in H.
    destruct sp; [discriminate|]. cbn [ensure rbind] in H. destruct (_ <? 2) eqn:G in H; [discriminate|].
    destruct lem as [|x lem]; [discriminate|]. unfold pf_item in H. cbn [pf_lemma rbind] in H.
    rewrite checked_sub_ok in H by lia. cbn [rbind] in H. replace (b - 1 =? 0) with false in H by lia.
    destruct (base_loop A b _ _ _ 1 1 _ x) as [[z|]|?|?|] eqn:EB; try discriminate. cbn [rbind] in H.
    rewrite Hy in H. cbn [rbind] in H. injection H as H. apply (eqb_eq EO EL) in H. subst z.
    pose proof (base_loop_inv (mk_proof None 0 0 (x :: lem) pa) (List.length (x :: lem)) 0 (a_default A) x y) as HI.
    cbn [pf_lemma pf_path Nat.mul Nat.add] in HI. specialize (HI EB).
    destruct HI as (n & H1 & H2 & H3 & H4 & H5 & H6). exists x, n. rewrite sub_0 in *.
    repeat split; auto; try lia.
    - intros g Hg. unfold groups in Hg. apply in_map_iff in Hg. destruct Hg as (k & <- & Hk). apply in_seq in Hk.
      apply sub_length_le.
      assert (S k * (b - 1) <= n * (b - 1)) by (apply Nat.mul_le_mono_r; lia). specialize (H5 ltac:(lia)). cbn [Nat.mul] in *. lia.
    - apply Forall_forall. intros c Hc. rewrite forallb_forall in H4. apply H4 in Hc. lia.
  Qed.

  Lemma levels_at_unique size n m : levels_at size n -> levels_at size m -> n = m.
  Proof.
    intros [A1 A2] [B1 B2]. destruct (lt_eq_lt_dec n m) as [[L|L]|L]; auto; exfalso.
    - specialize (B1 n L). lia.
    - specialize (A1 m L). lia.
  Qed.
  Lemma levels_at_full D : levels_at (2 + (b - 1) * D) D.
  Proof.
    split.
    - intros m Hm. assert (G : (S m) * (b - 1) <= D * (b - 1)) by (apply Nat.mul_le_mono_r; lia). cbn [Nat.mul] in G.
      rewrite (Nat.mul_comm (b - 1) D). revert G. generalize (m * (b - 1)) (D * (b - 1)). intros. lia.
    - rewrite (Nat.mul_comm (b - 1) D). generalize (D * (b - 1)). intros. lia.
  Qed.
End Val.

(* ---- soundness ---- *)
Section PathIndex.
  Variable b : nat.
  Hypothesis Hb : arity b.
  Lemma path_index_lt : forall cs, Forall (fun c => c < b) cs -> path_index b cs < b ^ List.length cs.
  Proof.
    pose proof (arity_ge b Hb). induction 1 as [|c cs Hc _ IH]; [cbn; lia|]. cbn [path_index List.length]. rewrite Nat.pow_succ_r'.
    assert (b * S (path_index b cs) <= b * b ^ List.length cs) by (apply Nat.mul_le_mono_l; lia). lia.
  Qed.

  Lemma path_index_div : forall cs m, Forall (fun c => c < b) cs -> path_index b cs / b ^ m = path_index b (skipn m cs).
  Proof.
    pose proof (arity_ge b Hb). induction cs as [|c cs IH]; intros m HF.
    - rewrite skipn_nil. cbn [path_index]. apply Nat.div_0_l, Nat.pow_nonzero. lia.
    - destruct m; [change (b ^ 0) with 1; apply Nat.div_1_r|]. inversion HF; subst. cbn [skipn]. rewrite <- IH by auto.
      rewrite Nat.pow_succ_r', <- Nat.div_div; [|lia|apply Nat.pow_nonzero; lia]. f_equal.
      cbn [path_index]. rewrite Nat.mul_comm, Nat.div_add, Nat.div_small; lia.
  Qed.

End PathIndex.

Section Sound.
  Context {E : Type} (EO : ElementOps E) (EL : ElementLaws EO).
  Variable b : nat.
  Hypothesis Hb : arity b.
  Variable hvf : nat -> list E -> E.

  Lemma el_dec (x y : E) : x = y \/ x <> y.
  Proof. destruct (e_eqb EO x y) eqn:G; [left; apply (eqb_eq EO EL); auto|right; intros ->; rewrite (eqb_refl EO EL) in G; discriminate]. Qed.
  Lemma list_dec : forall l m : list E, l = m \/ l <> m.
  Proof.
    induction l as [|x l IH]; intros [|y m]; try (right; discriminate); [left; reflexivity|].
    destruct (el_dec x y) as [->|]; [|right; congruence]. destruct (IH m) as [->|]; [left; reflexivity|right; congruence].
  Qed.

  Variables (d : nat) (leaves els : list E) (h : nat -> list E -> E).
  Hypothesis HL : Layout h b d leaves els.

  Lemma climb_sound : forall n k x gs cs,
    k + n = d -> List.length gs = n -> List.length cs = n ->
    (forall g, In g gs -> List.length g = b - 1) -> Forall (fun c => c < b) cs ->
    Some (climb hvf k x gs cs) = nth_error els (geom b d - 1) ->
    nth_error els (row_off b d k + path_index b cs) = Some x \/
    exists m, m < n /\
      let mine := climb_nodes hvf k x gs cs m in
      let theirs := sub els (row_off b d (k + m) + path_index b (skipn (S m) cs) * b) b in
      mine <> theirs /\ List.length mine = b /\ List.length theirs = b /\ hvf (k + m) mine = h (k + m) theirs.
  Proof.
    pose proof (arity_ge b Hb) as H2.
    induction n; intros k x gs cs Hk Hg Hc HG HC Hroot; destruct gs as [|g gs]; destruct cs as [|c cs]; try discriminate.
    - left. cbn [climb path_index] in *. assert (k = d) by lia. subst k. rewrite row_off_last, Nat.add_0_r. auto.
    - cbn [List.length] in Hg, Hc. pose proof (Forall_inv HC) as Hcb. cbn beta in Hcb. pose proof (Forall_inv_tail HC) as HC'. cbn [climb] in Hroot.
      destruct (IHn (S k) (hvf k (insert_at c x g)) gs cs) as [H|H]; auto; try lia.
      { intros g' Hg'. apply HG. right. auto. }
      + (* the parent agrees with the tree *)
        pose proof (path_index_lt b Hb cs HC') as HI. replace (List.length cs) with (d - S k) in HI by lia.
        rewrite (layout_parent b Hb d leaves els h HL k _ ltac:(lia) HI) in H. injection H as H.
        set (T := sub els (row_off b d k + path_index b cs * b) b) in *.
        assert (HT : List.length T = b).
        { unfold T. apply sub_length_le. destruct HL as (_ & L2 & _). rewrite L2.
          assert (G1 : b * S (path_index b cs) <= b * b ^ (d - S k)) by (apply Nat.mul_le_mono_l; lia).
          pose proof (row_off_geom b d (S k) ltac:(lia)) as G2.
          rewrite row_off_step in G2. replace (d - k) with (S (d - S k)) in G2 by lia. rewrite (Nat.pow_succ_r' b (d - S k)) in G2. lia. }
        pose proof (HG g (or_introl eq_refl)) as Hgl.
        destruct (list_dec (insert_at c x g) T) as [HE|HE].
        * left. cbn [path_index]. pose proof (insert_nth_same c x g ltac:(lia)) as HN. rewrite HE in HN. unfold T in HN.
          rewrite nth_error_sub in HN. replace (c <? b) with true in HN by lia. rewrite <- HN. f_equal. rewrite (Nat.mul_comm b). lia.
        * right. exists 0. split; [lia|]. cbn zeta. cbn [climb_nodes skipn]. rewrite Nat.add_0_r. fold T.
          repeat split; auto. rewrite insert_length. lia.
      + right. destruct H as (m & Hm & H). exists (S m). split; [lia|]. cbn [climb_nodes]. change (skipn (S (S m)) (c :: cs)) with (skipn (S m) cs).
        replace (k + S m) with (S k + m) by lia. exact H.
  Qed.

  (* two climbs with the same positions *)
  Lemma climb_same : forall n k x x' gs gs' (cs : list nat),
    List.length gs = n -> List.length gs' = n -> List.length cs = n ->
    (forall g, In g gs -> List.length g = b - 1) -> (forall g, In g gs' -> List.length g = b - 1) -> Forall (fun c => c < b) cs ->
    climb hvf k x gs cs = climb hvf k x' gs' cs ->
    (x = x' /\ gs = gs') \/
    exists m, m < n /\ climb_nodes hvf k x gs cs m <> climb_nodes hvf k x' gs' cs m /\
      hvf (k + m) (climb_nodes hvf k x gs cs m) = hvf (k + m) (climb_nodes hvf k x' gs' cs m).
  Proof.
    pose proof (arity_ge b Hb) as H2.
    induction n; intros k x x' gs gs' cs Hg Hg' Hc HG HG' HC He; destruct gs as [|g gs]; destruct gs' as [|g' gs']; destruct cs as [|c cs]; try discriminate.
    - left. auto.
    - cbn [List.length] in *. pose proof (Forall_inv HC) as Hcb. cbn beta in Hcb. pose proof (Forall_inv_tail HC) as HC'. cbn [climb] in He.
      assert (I1 : List.length gs = n) by lia. assert (I2 : List.length gs' = n) by lia. assert (I3 : List.length cs = n) by lia.
      pose proof (HG g (or_introl eq_refl)) as Hgl. pose proof (HG' g' (or_introl eq_refl)) as Hgl'.
      destruct (IHn (S k) _ _ gs gs' cs I1 I2 I3 (fun q Hq => HG q (or_intror Hq)) (fun q Hq => HG' q (or_intror Hq)) HC' He) as [[H1 H3]|(m & Hm & H)].
      + destruct (list_dec (insert_at c x g) (insert_at c x' g')) as [HE|HE].
        * left. apply insert_inj in HE; [|lia|lia]. destruct HE as [-> ->]. subst. auto.
        * right. exists 0. cbn [climb_nodes]. rewrite Nat.add_0_r. auto with arith.
      + right. exists (S m). cbn [climb_nodes]. replace (k + S m) with (S k + m) by lia. split; [lia|exact H].
  Qed.
End Sound.
