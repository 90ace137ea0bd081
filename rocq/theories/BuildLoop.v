(* The level loops and Store::build over any store satisfying CoreLaws. *)
From Coq Require Import String List Arith Bool Lia Init.Byte ZifyBool ZifyNat.
From Verif Require Import Base Element Hash Sizing FS Sched Store ListFacts Spec SpecFacts SizingFacts SchedFacts RowFacts StoreLaws BuildFacts.
Import ListNotations.

Lemma pow_fuel m b q : 0 < m -> 2 <= b -> q < m * b ^ q.
Proof. intros Hm Hb. pose proof (Nat.pow_gt_lin_r b q ltac:(lia)). nia. Qed.

Lemma all_rows_weaken {E} (A : AlgOps E) b leaves d (v : nat -> option E) :
  0 < b -> List.length leaves = b ^ d ->
  (forall r, r <= d -> knows v (row_off b d r) (row A b leaves r)) ->
  forall i e, nth_error (all_rows A b leaves d) i = Some e -> v i = Some e.
Proof.
  intros Hb Hl Hk i e He. pose proof (nth_error_lt _ _ _ He) as Hi.
  assert (Hl1 : List.length leaves = 1 * b ^ d) by lia.
  destruct (all_rows_Layout A b Hb leaves d Hl) as (_ & L2 & _). rewrite L2 in Hi.
  destruct (row_find b d i Hi) as (r & j & Hr & Hj & ->).
  rewrite (Hk r Hr) by (rewrite (row_length A b Hb leaves 1 d) by (auto; lia); lia).
  rewrite <- He. symmetry.
  replace (row_off b d r) with (1 * row_off b d r) by lia.
  apply all_rows_nth; auto; lia.
Qed.

Section Loop.
  Context {E : Type} (EO : ElementOps E) (EL : ElementLaws EO).
  Context {T : Type}.
  Let St := (T * fs)%type.
  Variable len : T -> nat.
  Variable read_at : St -> nat -> res E.
  Variable read_range : St -> nat -> nat -> res (list E).
  Variable write_at : E -> nat -> SM St unit.
  Variable copy_from_slice : list byte -> nat -> SM St unit.
  Variable owner : T -> option nat.
  Variable W : T -> Prop.
  Variable Rep : nat -> nat -> (nat -> option E) -> St -> Prop.
  Variable np : bool.
  Hypothesis CL : CoreLaws EO len read_at read_range write_at copy_from_slice owner W Rep np.
  Variable A : AlgOps E.
  Variable b : nat.
  Hypothesis Hb : arity b.
  Let SStep := Step owner.
  Let sh := log2_pow2 b.

  Section Fixed.
  Variable leaves : list E.
  Variables m q : nat.
  Hypothesis Hm : 0 < m < b.
  Hypothesis HL : List.length leaves = m * b ^ q.
  Let at_lev := at_level W Rep A b leaves m q.

  Lemma bounds_at cap r st : r <= q -> at_lev cap r st ->
    level_bounds len r (m * row_off b q r) (m * b ^ (q - r)) st =
      (Ok (m * row_off b q r, m * row_off b q (S r)), st).
  Proof.
    intros Hr (_ & v & HR & _). unfold level_bounds.
    rewrite (cl_len _ _ _ _ _ _ _ _ _ _ CL _ _ _ _ HR).
    destruct r.
    - cbn [Nat.eqb row_off]. rewrite Nat.mul_0_r. reflexivity.
    - cbn [Nat.eqb]. rewrite (row_off_step b q (S r)), Nat.mul_add_distr_l. reflexivity.
  Qed.

  Lemma small_loop_run cap : m * geom b q <= cap ->
    forall k r fuel st, r + k = q -> at_lev cap r st ->
    exists st', small_tree_loop len read_range write_at A b (k + fuel) sh r (m * b ^ k) (m * row_off b q r) st
                = small_tree_loop len read_range write_at A b fuel sh q m (m * row_off b q q) st' /\
                at_lev cap q st' /\ SStep st st'.
  Proof.
    intros Hcap. pose proof (arity_ge b Hb) as H2.
    induction k; intros r fuel st Hrk Hat.
    - assert (r = q) by lia. subst r. exists st. simpl Nat.pow. rewrite Nat.mul_1_r. split; [reflexivity|].
      split; [exact Hat|apply Step_refl].
    - replace (S k + fuel) with (S (k + fuel)) by lia. cbn [small_tree_loop].
      pose proof (mul_pow_ge m b k ltac:(lia) ltac:(lia)) as Hge.
      replace (1 <? m * b ^ S k) with true by lia.
      replace (S k) with (q - r) by lia.
      rewrite (sbind_ok _ _ _ _ _ (bounds_at cap r st ltac:(lia) Hat)).
      destruct (small_layer_ok EO len read_at read_range write_at copy_from_slice owner W Rep np CL
                  A b leaves m q Hb Hm HL cap Hcap r st ltac:(lia) Hat) as (st1 & H1 & Hat1 & HS1).
      unfold small_layer in H1. unfold sbind in H1 |- *. unfold sreads in H1 |- *.
      destruct (read_range st (m * row_off b q r) (m * row_off b q r + m * b ^ (q - r))) eqn:Er; try discriminate.
      rewrite H1.
      destruct (IHk (S r) fuel st1 ltac:(lia) Hat1) as (st2 & H3 & Hat2 & HS2).
      exists st2. split; [|split; [exact Hat2|eapply Step_trans; eauto]].
      rewrite <- H3. f_equal.
      + unfold sh. rewrite arity_shift by auto. replace (q - r) with (S k) by lia. rewrite div_step by lia. reflexivity.
      + rewrite row_off_step. lia.
  Qed.

  Variable chunk : nat.
  Hypothesis Hchunk : 0 < chunk.
  Hypothesis Hdiv : chunk mod b = 0.

  Lemma build_loop_run cap sched : m * geom b q <= cap ->
    forall k r fuel st, r + k = q -> at_lev cap r st ->
    exists st', build_loop EO len read_range copy_from_slice A b chunk sched (k + fuel) sh r (m * b ^ k) (m * row_off b q r) st
                = build_loop EO len read_range copy_from_slice A b chunk sched fuel sh q m (m * row_off b q q) st' /\
                at_lev cap q st' /\ SStep st st'.
  Proof.
    intros Hcap. pose proof (arity_ge b Hb) as H2.
    induction k; intros r fuel st Hrk Hat.
    - assert (r = q) by lia. subst r. exists st. simpl Nat.pow. rewrite Nat.mul_1_r. split; [reflexivity|].
      split; [exact Hat|apply Step_refl].
    - replace (S k + fuel) with (S (k + fuel)) by lia. cbn [build_loop].
      pose proof (mul_pow_ge m b k ltac:(lia) ltac:(lia)) as Hge.
      replace (1 <? m * b ^ S k) with true by lia.
      replace (S k) with (q - r) by lia.
      rewrite (sbind_ok _ _ _ _ _ (bounds_at cap r st ltac:(lia) Hat)).
      destruct (process_layer_ok EO EL len read_at read_range write_at copy_from_slice owner W Rep np CL
                  A b leaves m q Hb Hm HL chunk Hchunk Hdiv cap (sched r) Hcap r st ltac:(lia) Hat) as (st1 & H1 & Hat1 & HS1).
      rewrite (sbind_ok _ _ _ _ _ H1).
      destruct (IHk (S r) fuel st1 ltac:(lia) Hat1) as (st2 & H3 & Hat2 & HS2).
      exists st2. split; [|split; [exact Hat2|eapply Step_trans; eauto]].
      rewrite <- H3. f_equal.
      + unfold sh. rewrite arity_shift by auto. replace (q - r) with (S k) by lia. rewrite div_step by lia. reflexivity.
      + rewrite row_off_step. lia.
  Qed.
  End Fixed.

  (* the state before the first level *)
  Lemma at_level_start cap v st leaves m q :
    List.length leaves = m * b ^ q -> W (fst st) -> Rep cap (m * b ^ q) v st -> knows v 0 leaves ->
    at_level W Rep A b leaves m q cap 0 st.
  Proof.
    intros HL HW HR Hk. split; [exact HW|]. exists v. split.
    - cbn [row_off]. rewrite Nat.sub_0_r. exact HR.
    - intros r' Hr'. assert (r' = 0) by lia. subst r'. cbn [row_off row]. rewrite Nat.mul_0_r. exact Hk.
  Qed.

  (* a complete store *)
  Definition Full (cap : nat) (st : St) (els : list E) : Prop :=
    Rep cap (List.length els) (nth_error els) st.

  Lemma full_at_level cap leaves d st :
    List.length leaves = b ^ d -> at_level W Rep A b leaves 1 d cap d st ->
    Full cap st (all_rows A b leaves d) /\
    exists root, nth_error (all_rows A b leaves d) (geom b d - 1) = Some root /\
      default_last len read_at st = (Ok root, st).
  Proof.
    intros HL (HW & v & HR & Hk). pose proof (arity_ge b Hb) as H2.
    pose proof (all_rows_Layout A b ltac:(lia) leaves d HL) as LL.
    assert (Hn : 1 * row_off b d (S d) = geom b d).
    { rewrite row_off_step, row_off_last, Nat.sub_diag. pose proof (geom_pos b d). simpl. lia. }
    rewrite Hn in HR.
    assert (HF : Full cap st (all_rows A b leaves d)).
    { unfold Full. destruct LL as (_ & L2 & _). rewrite L2.
      eapply (cl_weaken _ _ _ _ _ _ _ _ _ _ CL); [|exact HR].
      apply all_rows_weaken; auto; [lia|]. intros r Hr. specialize (Hk r Hr). rewrite Nat.mul_1_l in Hk. exact Hk. }
    split; [exact HF|].
    destruct LL as (_ & L2 & _). pose proof (geom_pos b d) as Hg.
    destruct (nth_error_ex (all_rows A b leaves d) (geom b d - 1) ltac:(lia)) as [root Hroot].
    exists root. split; [exact Hroot|].
    unfold default_last. unfold Full in HF. rewrite (cl_len _ _ _ _ _ _ _ _ _ _ CL _ _ _ _ HF).
    rewrite L2, checked_sub_ok by lia. cbn [rbind]. f_equal.
    eapply (cl_read_at _ _ _ _ _ _ _ _ _ _ CL); [exact HF|lia|exact Hroot].
  Qed.

  Lemma even_leafs m q : 0 < m -> 1 <= q -> (m * b ^ q) mod 2 = 0.
  Proof.
    intros Hm Hq. destruct Hb as [s [Hs He]]. destruct q; [lia|]. destruct s; [lia|].
    apply Nat.mod_divides; [lia|]. exists (m * (2 ^ s * b ^ q)).
    assert (He' : b = 2 * 2 ^ s) by (rewrite He; reflexivity).
    rewrite Nat.pow_succ_r'. rewrite He' at 1. ring.
  Qed.

  (* ---- success ---- *)
  Variable chunk : nat.
  Let build := default_build_fuel EO len read_at read_range write_at copy_from_slice A b chunk.

  Lemma default_build_ok small sched leaves d cap v st :
    List.length leaves = b ^ d -> 1 <= d -> geom b d <= cap ->
    (b ^ d <= small \/ (0 < chunk /\ chunk mod b = 0)) ->
    W (fst st) -> Rep cap (b ^ d) v st -> knows v 0 leaves ->
    exists root st', build (S (b ^ d)) small sched (b ^ d) (S d) st = (Ok root, st') /\
      nth_error (all_rows A b leaves d) (geom b d - 1) = Some root /\
      Full cap st' (all_rows A b leaves d) /\ SStep st st' /\ W (fst st').
  Proof.
    intros HL Hd Hcap Hch HW HR Hk. pose proof (arity_ge b Hb) as H2.
    assert (HL1 : List.length leaves = 1 * b ^ d) by lia.
    pose proof (even_leafs 1 d ltac:(lia) Hd) as Hev. rewrite Nat.mul_1_l in Hev.
    pose proof (pow_fuel 1 b d ltac:(lia) H2) as Hf. rewrite Nat.mul_1_l in Hf.
    assert (Hat : at_level W Rep A b leaves 1 d cap 0 st).
    { eapply at_level_start; eauto. rewrite Nat.mul_1_l. exact HR. }
    unfold build, default_build_fuel. rewrite (arity_next b Hb), Nat.eqb_refl.
    unfold ensure at 1. rewrite (sbind_ok _ _ st tt st) by reflexivity.
    rewrite (sbind_ok _ _ st st st) by reflexivity.
    rewrite (cl_len _ _ _ _ _ _ _ _ _ _ CL _ _ _ _ HR), Nat.eqb_refl.
    unfold ensure at 1. rewrite (sbind_ok _ _ st tt st) by reflexivity.
    rewrite Hev, Nat.eqb_refl.
    unfold ensure at 1. rewrite (sbind_ok _ _ st tt st) by reflexivity.
    destruct (b ^ d <=? small) eqn:Es.
    - unfold build_small_tree_fuel. rewrite Hev, Nat.eqb_refl.
      unfold ensure at 1. rewrite (sbind_ok _ _ st tt st) by reflexivity.
      destruct (small_loop_run leaves 1 d ltac:(lia) HL1 cap ltac:(lia) d 0 (S (b ^ d) - d) st ltac:(lia) Hat)
        as (st1 & H1 & Hat1 & HS1).
      rewrite Nat.mul_1_l in H1. cbn [row_off] in H1. rewrite Nat.mul_0_r in H1.
      replace (d + (S (b ^ d) - d)) with (S (b ^ d)) in H1 by lia.
      replace (S (b ^ d) - d) with (S (b ^ d - d)) in H1 by lia.
      cbn [small_tree_loop] in H1. cbn [Nat.ltb Nat.leb] in H1.
      fold sh. rewrite (sbind_ok _ _ st d st1) by (exact H1).
      replace (S d =? d + 1) with true by lia.
      unfold ensure. rewrite (sbind_ok _ _ st1 tt st1) by reflexivity.
      destruct (full_at_level cap leaves d st1 HL Hat1) as (HF & root & Hroot & Hlast).
      exists root, st1. split; [exact Hlast|]. repeat split; auto; try apply HS1. apply Hat1.
    - destruct Hch as [Hch|[Hc1 Hc2]]; [lia|].
      destruct (build_loop_run leaves 1 d ltac:(lia) HL1 chunk Hc1 Hc2 cap sched ltac:(lia) d 0 (S (b ^ d) - d) st ltac:(lia) Hat)
        as (st1 & H1 & Hat1 & HS1).
      rewrite Nat.mul_1_l in H1. cbn [row_off] in H1. rewrite Nat.mul_0_r in H1.
      replace (d + (S (b ^ d) - d)) with (S (b ^ d)) in H1 by lia.
      replace (S (b ^ d) - d) with (S (b ^ d - d)) in H1 by lia.
      cbn [build_loop] in H1. cbn [Nat.ltb Nat.leb] in H1.
      fold sh. rewrite (sbind_ok _ _ st d st1) by (exact H1).
      replace (S d =? d + 1) with true by lia.
      unfold ensure. rewrite (sbind_ok _ _ st1 tt st1) by reflexivity.
      destruct (full_at_level cap leaves d st1 HL Hat1) as (HF & root & Hroot & Hlast).
      exists root, st1. split; [exact Hlast|]. repeat split; auto; try apply HS1. apply Hat1.
  Qed.

  (* ---- failures ---- *)
  (* an error value, or a panic where the store panics on oversized writes *)
  Definition failed {X} (r : res X) : Prop :=
    match r with
    | Ok _ => False
    | Err _ => True
    | Panic _ => np = false
    | Diverge => False
    end.

  Lemma default_build_len fuel small sched leafs rc st :
    len (fst st) <> leafs -> exists e, build fuel small sched leafs rc st = (Err e, st).
  Proof.
    intros H. unfold build, default_build_fuel. rewrite (arity_next b Hb), Nat.eqb_refl.
    unfold ensure at 1. rewrite (sbind_ok _ _ st tt st) by reflexivity.
    rewrite (sbind_ok _ _ st st st) by reflexivity.
    replace (len (fst st) =? leafs) with false by lia. eexists. reflexivity.
  Qed.

  Lemma hash_row_small level row : 0 < List.length row < b -> hash_row A b level row = [h_node A level row].
  Proof.
    intros H. unfold hash_row. rewrite chunks_cons; [|lia|destruct row; simpl in *; [lia|congruence]].
    rewrite firstn_all2, skipn_all2 by lia. rewrite chunks_nil. reflexivity.
  Qed.

  Lemma default_build_bad small sched leaves m q cap v st :
    List.length leaves = m * b ^ q -> 1 < m < b -> 1 <= q -> m * geom b q <= cap ->
    (m * b ^ q <= small \/ (0 < chunk /\ chunk mod b = 0)) ->
    W (fst st) -> Rep cap (m * b ^ q) v st -> knows v 0 leaves ->
    exists r st', build (S (m * b ^ q)) small sched (m * b ^ q) (S q) st = (r, st') /\ failed r.
  Proof.
    intros HL Hm Hq Hcap Hch HW HR Hk. pose proof (arity_ge b Hb) as H2.
    pose proof (even_leafs m q ltac:(lia) Hq) as Hev.
    pose proof (pow_fuel m b q ltac:(lia) H2) as Hf.
    assert (Hat : at_level W Rep A b leaves m q cap 0 st) by (eapply at_level_start; eauto).
    unfold build, default_build_fuel. rewrite (arity_next b Hb), Nat.eqb_refl.
    unfold ensure at 1. rewrite (sbind_ok _ _ st tt st) by reflexivity.
    rewrite (sbind_ok _ _ st st st) by reflexivity.
    rewrite (cl_len _ _ _ _ _ _ _ _ _ _ CL _ _ _ _ HR), Nat.eqb_refl.
    unfold ensure at 1. rewrite (sbind_ok _ _ st tt st) by reflexivity.
    rewrite Hev, Nat.eqb_refl.
    unfold ensure at 1. rewrite (sbind_ok _ _ st tt st) by reflexivity.
    assert (Hlr : List.length (row A b leaves q) = m).
    { rewrite (row_length A b ltac:(lia) leaves m q) by auto. rewrite Nat.sub_diag. simpl. lia. }
    assert (Hrow : forall st1, at_level W Rep A b leaves m q cap q st1 ->
              read_range st1 (m * row_off b q q) (m * row_off b q q + m) = Ok (row A b leaves q)).
    { intros st1 (HW1 & v1 & HR1 & Hk1).
      eapply (cl_read_range _ _ _ _ _ _ _ _ _ _ CL); [exact HR1|lia| |rewrite Hlr; lia|apply Hk1; auto].
      rewrite row_off_step, Nat.sub_diag. simpl. lia. }
    destruct (m * b ^ q <=? small) eqn:Es.
    - unfold build_small_tree_fuel. rewrite Hev, Nat.eqb_refl.
      unfold ensure at 1. rewrite (sbind_ok _ _ st tt st) by reflexivity.
      destruct (small_loop_run leaves m q ltac:(lia) HL cap ltac:(lia) q 0 (S (m * b ^ q) - q) st ltac:(lia) Hat)
        as (st1 & H1 & Hat1 & HS1).
      cbn [row_off] in H1. rewrite Nat.mul_0_r in H1.
      replace (q + (S (m * b ^ q) - q)) with (S (m * b ^ q)) in H1 by lia.
      pose proof (pow_fuel 1 b q ltac:(lia) H2) as Hf1.
      assert (Hf2 : S q < m * b ^ q) by nia.
      replace (S (m * b ^ q) - q) with (S (S (m * b ^ q - q - 1))) in H1 by lia.
      unfold sbind at 1. fold sh. rewrite H1. cbn [small_tree_loop].
      replace (1 <? m) with true by lia.
      assert (Hbd : level_bounds len q (m * row_off b q q) m st1 = (Ok (m * row_off b q q, m * row_off b q (S q)), st1)).
      { pose proof (bounds_at leaves m q cap q st1 (le_n q) Hat1) as B.
        rewrite Nat.sub_diag in B. simpl Nat.pow in B. rewrite Nat.mul_1_r in B. exact B. }
      rewrite (sbind_ok _ _ _ _ _ Hbd).
      rewrite (sbind_ok _ _ st1 (row A b leaves q) st1) by (unfold sreads; rewrite (Hrow st1 Hat1); reflexivity).
      rewrite hash_row_small by lia.
      cbn [write_nodes].
      pose proof (cl_write_any _ _ _ _ _ _ _ _ _ _ CL (h_node A q (row A b leaves q)) (m * row_off b q (S q)) st1) as Hany.
      unfold sbind at 2. unfold sbind at 1.
      destruct (write_at (h_node A q (row A b leaves q)) (m * row_off b q (S q)) st1) as [[u|e|e|] st2] eqn:Ew;
        cbn [write_any] in Hany.
      + unfold sret at 1. unfold sh at 1. rewrite arity_shift by auto. rewrite Nat.div_small by lia.
        cbn [Nat.ltb Nat.leb]. unfold sret at 1. cbv beta iota.
        replace (S q =? S q + 1) with false by lia. unfold ensure, slift, sbind. eexists _, _. split; [reflexivity|exact I].
      + eexists _, _. split; [reflexivity|exact I].
      + eexists _, _. split; [reflexivity|exact Hany].
      + destruct Hany.
    - destruct Hch as [Hch|[Hc1 Hc2]]; [lia|].
      destruct (build_loop_run leaves m q ltac:(lia) HL chunk Hc1 Hc2 cap sched ltac:(lia) q 0 (S (m * b ^ q) - q) st ltac:(lia) Hat)
        as (st1 & H1 & Hat1 & HS1).
      cbn [row_off] in H1. rewrite Nat.mul_0_r in H1.
      replace (q + (S (m * b ^ q) - q)) with (S (m * b ^ q)) in H1 by lia.
      replace (S (m * b ^ q) - q) with (S (m * b ^ q - q)) in H1 by lia.
      unfold sbind at 1. fold sh. rewrite H1. cbn [build_loop].
      replace (1 <? m) with true by lia.
      assert (Hbd : level_bounds len q (m * row_off b q q) m st1 = (Ok (m * row_off b q q, m * row_off b q (S q)), st1)).
      { pose proof (bounds_at leaves m q cap q st1 (le_n q) Hat1) as B.
        rewrite Nat.sub_diag in B. simpl Nat.pow in B. rewrite Nat.mul_1_r in B. exact B. }
      rewrite (sbind_ok _ _ _ _ _ Hbd).
      unfold process_layer. rewrite Hc2, Nat.eqb_refl.
      unfold ensure at 1. unfold sbind at 1. rewrite (sbind_ok _ _ st1 tt st1) by reflexivity.
      assert (Hbc : b <= chunk).
      { apply Nat.mod_divides in Hc2; [|lia]. destruct Hc2 as [c ->]. destruct c; nia. }
      assert (Hn1 : num_chunks chunk m = 1).
      { unfold num_chunks. symmetry. apply Nat.div_unique with (m - 1); lia. }
      rewrite Hn1. erewrite run_tasks_1_err; [eexists _, _; split; [reflexivity|exact I]|].
      unfold chunk_task. rewrite Nat.mul_0_l, Nat.add_0_r.
      replace (Nat.min chunk (m * row_off b q q + m - m * row_off b q q)) with m by lia.
      rewrite (Hrow st1 Hat1). cbn [rbind].
      rewrite hash_row_small by lia. rewrite Nat.div_small by lia.
      pose proof (bl_pos EO EL) as Hbl.
      replace (List.length (encode EO [h_node A q (row A b leaves q)]) =? 0 * e_byte_len EO) with false; [reflexivity|].
      rewrite encode_length by auto. simpl List.length. lia.
  Qed.
End Loop.
