(* Two- and three-layer trees: reads, proofs, completeness, soundness. *)
From Coq Require Import String List Arith Bool Lia Init.Byte ZifyBool ZifyNat.
From Verif Require Import Base Element Hash Sizing FS Sched Store VecStore ProofModel Tree ListFacts Spec SpecFacts SizingFacts StoreLaws StoreSpec RowFacts ProofSpec ProofFacts TreeProofs TreeObs CompoundFacts.
Import ListNotations.

Section C.
  Context {E : Type} (EO : ElementOps E) (EL : ElementLaws EO) (SO : StoreOps E) (A : AlgOps E) (AL : AlgLaws A).
  Variable b : nat.
  Hypothesis Hb : arity b.
  Local Notation T := (st_t SO).

  (* base trees [ts] over the leaf lists [lss], nodes [ess] *)
  Definition Bases (f : fs) (d : nat) (ts : list (mtree T E)) (lss ess : list (list E)) : Prop :=
    List.length lss = List.length ts /\ List.length ess = List.length ts /\
    forall k tk, nth_error ts k = Some tk -> exists lv es, nth_error lss k = Some lv /\ nth_error ess k = Some es /\
      FullTree SO A b tk f d lv es.

  (* a two-layer tree *)
  Record SubAt (t : mtree T E) (f : fs) (d : nat) (ts : list (mtree T E)) (lss ess : list (list E)) : Prop := {
    sa_data : mt_data t = SubTree ts;
    sa_pos : 0 < List.length ts;
    sa_bases : Bases f d ts lss ess;
    sa_leafs : mt_leafs t = List.length ts * b ^ d;
    sa_len : mt_len SO t = geom b d * List.length ts + 1;
    sa_rows : mt_row_count t = d + 2;
    sa_root : mt_root t = h_node A 1 (map mt_root ts)
  }.

  (* a three-layer tree: every sub-tree has S base trees *)
  Record TopAt (t : mtree T E) (f : fs) (d S : nat) (ts : list (mtree T E)) (ls : list (list (list E))) : Prop := {
    pa_data : mt_data t = TopTree ts;
    pa_pos : 0 < List.length ts;
    pa_subs : List.length ls = List.length ts /\
      forall k tk, nth_error ts k = Some tk -> exists bs lss ess, nth_error ls k = Some lss /\ List.length bs = S /\ SubAt tk f d bs lss ess;
    pa_leafs : mt_leafs t = List.length ts * (S * b ^ d);
    pa_len : mt_len SO t = (geom b d * S + 1) * List.length ts + 1;
    pa_rows : mt_row_count t = d + 3;
    pa_root : mt_root t = h_node A 1 (map mt_root ts)
  }.

  (* ---- construction ---- *)
  Lemma Bases_const f d ts lss ess : Bases f d ts lss ess ->
    Forall (fun t => mt_row_count t = d + 1) ts /\ Forall (fun t => mt_len SO t = geom b d) ts /\ Forall (fun t => mt_leafs t = b ^ d) ts.
  Proof.
    intros (_ & _ & H). repeat split; apply Forall_forall; intros t Ht; apply In_nth_error in Ht; destruct Ht as [k Hk];
      destruct (H k t Hk) as (lv & es & _ & _ & HF); destruct HF; assumption.
  Qed.
  Lemma Bases_lens f d ts lss ess : Bases f d ts lss ess -> Forall (fun l => List.length l = b ^ d) lss.
  Proof.
    intros (H1 & _ & H). apply Forall_forall. intros l Hl. apply In_nth_error in Hl. destruct Hl as [k Hk].
    destruct (nth_error_ex ts k) as [tk Htk]; [apply nth_error_lt in Hk; lia|].
    destruct (H k tk Htk) as (lv & es & G1 & _ & HF). rewrite Hk in G1. inv G1. destruct (ft_layout _ _ _ _ _ _ _ _ HF) as (L & _). exact L.
  Qed.

  Lemma from_trees_SubAt f d ts lss ess : 0 < List.length ts -> Bases f d ts lss ess ->
    exists t, from_trees SO A (List.length ts) ts = Ok t /\ SubAt t f d ts lss ess.
  Proof.
    intros H0 HB. destruct (Bases_const _ _ _ _ _ HB) as (C1 & C2 & C3).
    eexists. split; [apply (from_trees_ok SO A _ ts (d + 1) (geom b d) (b ^ d)); auto|].
    constructor; cbn [mt_data mt_leafs mt_row_count mt_root mt_len mt_len_field]; auto. lia.
  Qed.

  (* whatever the trees, if from_trees accepts base trees of the library they have equal depth *)
  Lemma from_trees_inv_SubAt f sub_ ts t lss :
    Forall2 (fun lv tk => exists d es, FullTree SO A b tk f d lv es) lss ts ->
    from_trees SO A sub_ ts = Ok t ->
    exists d ess, List.length ts = sub_ /\ SubAt t f d ts lss ess.
  Proof.
    intros HF HT. pose proof (from_trees_inv SO A _ _ _ HT) as (H0 & H1 & (rc & H2) & _).
    assert (HX : exists d ess, Bases f d ts lss ess).
    { exists (rc - 1). clear HT H1. unfold Bases. induction HF as [|lv tk lss ts (d & es & HFT) HF IH].
      - exists []. repeat split; auto. intros k tk Hk. destruct k; discriminate.
      - inversion H2; subst. destruct (IH H4) as (ess & I1 & I2 & I3). exists (es :: ess).
        assert (Hd : mt_row_count tk - 1 = d) by (destruct HFT; lia).
        repeat split; cbn [List.length]; auto. intros [|k] tk' Hk.
        + cbn in Hk. injection Hk as <-. exists lv, es. rewrite Hd. auto.
        + cbn in Hk. destruct (I3 k tk' Hk) as (lv' & es' & J1 & J2 & J3). exists lv', es'. auto. }
    destruct HX as (d & ess & HB). exists d, ess. split; [exact H1|].
    destruct (from_trees_SubAt f d ts lss ess) as (t' & G1 & G2); auto; [lia|]. rewrite H1 in G1. rewrite HT in G1. inv G1. exact G2.
  Qed.

  Lemma from_sub_trees_TopAt f d S ts ls : 0 < List.length ts ->
    (List.length ls = List.length ts /\
      forall k tk, nth_error ts k = Some tk -> exists bs lss ess, nth_error ls k = Some lss /\ List.length bs = S /\ SubAt tk f d bs lss ess) ->
    exists t, from_sub_trees SO A (List.length ts) ts = Ok t /\ TopAt t f d S ts ls.
  Proof.
    intros H0 HS. pose proof HS as (S1 & S2).
    eexists. split; [apply (from_sub_trees_ok SO A _ ts (d + 2) (geom b d * S + 1) (S * b ^ d)); auto|].
    1,2,3: apply Forall_forall; intros t Ht; apply In_nth_error in Ht; destruct Ht as [k Hk];
      destruct (S2 k t Hk) as (bs & lss & ess & G1 & G2 & G3); destruct G3; subst S; assumption.
    constructor; cbn [mt_data mt_leafs mt_row_count mt_root mt_len mt_len_field]; auto. lia.
  Qed.

  Lemma from_sub_trees_inv_TopAt f S top ts t ls :
    Forall2 (fun lss tk => exists d bs ess, List.length bs = S /\ SubAt tk f d bs lss ess) ls ts ->
    from_sub_trees SO A top ts = Ok t ->
    exists d, List.length ts = top /\ TopAt t f d S ts ls.
  Proof.
    intros HF HT. pose proof (from_sub_trees_inv SO A _ _ _ HT) as (H0 & H1 & (rc & H2) & _).
    assert (HX : exists d, List.length ls = List.length ts /\
      forall k tk, nth_error ts k = Some tk -> exists bs lss ess, nth_error ls k = Some lss /\ List.length bs = S /\ SubAt tk f d bs lss ess).
    { exists (rc - 2). clear HT H1. split; [eapply Forall2_length; eauto|]. induction HF as [|lss tk ls ts (d & bs & ess & HFT) HF IH].
      - intros k tk Hk. destruct k; discriminate.
      - inversion H2; subst. specialize (IH H4). assert (Hd : mt_row_count tk - 2 = d) by (destruct HFT as [_ []]; lia).
        intros [|k] tk' Hk.
        + cbn in Hk. injection Hk as <-. exists bs, lss, ess. rewrite Hd. cbn. tauto.
        + cbn in Hk. destruct (IH k tk' Hk) as (bs' & lss' & ess' & J1 & J2 & J3). exists bs', lss', ess'. auto. }
    destruct HX as (d & HB). exists d. split; [exact H1|].
    destruct (from_sub_trees_TopAt f d S ts ls) as (t' & G1 & G2); auto; [lia|]. rewrite H1 in G1. rewrite HT in G1. inv G1. exact G2.
  Qed.

  (* ---- addressing ---- *)
  Lemma pow_pos d : 0 < b ^ d.
  Proof. pose proof (arity_ge b Hb). assert (b ^ d <> 0) by (apply Nat.pow_nonzero; lia). lia. Qed.

  Lemma SubAt_over t f d ts lss ess : SubAt t f d ts lss ess -> Over SO t ts (b ^ d).
  Proof.
    intros [H1 H2 H3 H4 _ _ _]. destruct (Bases_const _ _ _ _ _ H3) as (_ & _ & C3).
    repeat split; auto. apply pow_pos.
  Qed.
  Lemma SubAt_leaves t f d ts lss ess : SubAt t f d ts lss ess -> List.length (concat lss) = mt_leafs t.
  Proof.
    intros [H1 H2 H3 H4 _ _ _]. rewrite (concat_length_const lss (b ^ d)) by (eapply Bases_lens; eauto).
    destruct H3 as (G & _). rewrite G, H4. reflexivity.
  Qed.
  Lemma TopAt_over t f d S ts ls : TopAt t f d S ts ls -> Over SO t ts (S * b ^ d).
  Proof.
    intros [H1 H2 [H3 H3'] H4 _ _ _]. repeat split; auto.
    - destruct ts as [|t0 ts]; [cbn in H2; lia|]. destruct (H3' 0 t0 eq_refl) as (bs & lss & ess & _ & G & HS). subst S.
      pose proof (sa_pos _ _ _ _ _ _ HS). pose proof (pow_pos d). nia.
    - apply Forall_forall. intros tk Ht. apply In_nth_error in Ht. destruct Ht as [k Hk].
      destruct (H3' k tk Hk) as (bs & lss & ess & _ & G & HS). subst S. apply (sa_leafs _ _ _ _ _ _ HS).
  Qed.
  Lemma TopAt_lens t f d S ts ls : TopAt t f d S ts ls -> Forall (fun lss => List.length (concat lss) = S * b ^ d) ls.
  Proof.
    intros [H1 H2 [H3 H3'] H4 _ _ _]. apply Forall_forall. intros lss Hl. apply In_nth_error in Hl. destruct Hl as [k Hk].
    destruct (nth_error_ex ts k) as [tk Htk]; [apply nth_error_lt in Hk; lia|].
    destruct (H3' k tk Htk) as (bs & lss' & ess & G1 & G2 & HS). rewrite Hk in G1. inv G1.
    rewrite (SubAt_leaves _ _ _ _ _ _ HS), (sa_leafs _ _ _ _ _ _ HS). reflexivity.
  Qed.
  Lemma TopAt_leaves t f d S ts ls : TopAt t f d S ts ls -> List.length (concat (map (@concat E) ls)) = mt_leafs t.
  Proof.
    intros H. rewrite (concat_length_const _ (S * b ^ d)).
    - rewrite map_length. destruct H as [H1 H2 [H3 H3'] H4 _ _ _]. rewrite H3, H4. reflexivity.
    - apply Forall_map. eapply TopAt_lens; eauto.
  Qed.

  Lemma div_mod_lt i n : 0 < n -> i mod n < n /\ i = i / n * n + i mod n.
  Proof. intros. split; [apply Nat.mod_upper_bound; lia|]. rewrite Nat.mul_comm. apply Nat.div_mod. lia. Qed.

  Lemma TopAt_ls t f d S ts ls : TopAt t f d S ts ls -> Forall (fun lss => List.length lss = S) ls.
  Proof.
    intros [H1 H2 [H3 H3'] H4 _ _ _]. apply Forall_forall. intros lss Hl. apply In_nth_error in Hl. destruct Hl as [k Hk].
    destruct (nth_error_ex ts k) as [tk Htk]; [apply nth_error_lt in Hk; lia|].
    destruct (H3' k tk Htk) as (bs & lss' & ess & G1 & G2 & HS). rewrite Hk in G1. inv G1.
    destruct (sa_bases _ _ _ _ _ _ HS) as (G & _ & _). exact G.
  Qed.
  Lemma SubAt_child t f d ts lss ess i : SubAt t f d ts lss ess -> i < mt_leafs t ->
    exists tk lv es, nth_error ts (i / b ^ d) = Some tk /\ nth_error lss (i / b ^ d) = Some lv /\ nth_error ess (i / b ^ d) = Some es /\
      FullTree SO A b tk f d lv es /\ nth_error (concat lss) i = nth_error lv (i mod b ^ d).
  Proof.
    intros HS Hi. pose proof (SubAt_over _ _ _ _ _ _ HS) as HO. destruct (over_div SO t ts (b ^ d) i HO Hi) as [_ Hk].
    destruct (nth_error_ex ts _ Hk) as [tk Htk]. pose proof (sa_bases _ _ _ _ _ _ HS) as HB. pose proof HB as (_ & _ & HB').
    destruct (HB' _ _ Htk) as (lv & es & G1 & G2 & G3). exists tk, lv, es. repeat split; auto; try apply G3.
    destruct (div_mod_lt i (b ^ d) (pow_pos d)) as [M1 M2]. rewrite M2 at 1. apply nth_error_concat; auto.
    eapply Bases_lens; eauto.
  Qed.
  Lemma TopAt_child t f d S ts ls i : TopAt t f d S ts ls -> i < mt_leafs t ->
    exists tk bs lss ess, nth_error ts (i / (S * b ^ d)) = Some tk /\ nth_error ls (i / (S * b ^ d)) = Some lss /\ List.length bs = S /\
      SubAt tk f d bs lss ess /\ i mod (S * b ^ d) < mt_leafs tk /\ nth_error (concat (map (@concat E) ls)) i = nth_error (concat lss) (i mod (S * b ^ d)).
  Proof.
    intros HS Hi. pose proof (TopAt_over _ _ _ _ _ _ HS) as HO. destruct (over_div SO t ts _ i HO Hi) as [_ Hk].
    destruct (nth_error_ex ts _ Hk) as [tk Htk]. pose proof (pa_subs _ _ _ _ _ _ HS) as [_ HB'].
    destruct (HB' _ _ Htk) as (bs & lss & ess & G1 & G2 & G3). exists tk, bs, lss, ess.
    pose proof HO as (_ & On & _). destruct (div_mod_lt i _ On) as [M1 M2].
    repeat split; auto; try apply G3.
    - rewrite (sa_leafs _ _ _ _ _ _ G3), G2. exact M1.
    - rewrite M2 at 1. apply nth_error_concat; auto.
      + apply Forall_map. eapply TopAt_lens; eauto.
      + rewrite nth_error_map, G1. reflexivity.
  Qed.

  (* ---- reads ---- *)
  Lemma read_base n sub_ top tk f d lv es i : FullTree SO A b tk f d lv es -> i < geom b d ->
    mt_read_at_n SO (S n) sub_ top tk f i = rnth es i.
  Proof.
    intros HF Hi. rewrite <- (ft_read_at _ _ _ _ _ _ _ _ HF i Hi). destruct (ft_base _ _ _ _ _ _ _ _ HF) as [s Hs].
    unfold mt_read_at. cbn [mt_read_at_n]. rewrite Hs. reflexivity.
  Qed.
  Lemma full_leaf tk f d lv es i : FullTree SO A b tk f d lv es -> i < b ^ d -> rnth es i = rnth lv i.
  Proof.
    intros HF Hi. unfold rnth. pose proof (arity_ge b Hb).
    rewrite (Layout_leaf b ltac:(lia) (h_node A) d lv es i (ft_layout _ _ _ _ _ _ _ _ HF) Hi). reflexivity.
  Qed.

  Lemma SubAt_read n t f d ts lss ess i : SubAt t f d ts lss ess -> i < mt_leafs t ->
    mt_read_at_n SO (S (S n)) (List.length ts) 0 t f i = rnth (concat lss) i.
  Proof.
    intros HS Hi. pose proof (SubAt_over _ _ _ _ _ _ HS) as HO.
    destruct (SubAt_child _ _ _ _ _ _ _ HS Hi) as (tk & lv & es & C1 & C2 & C3 & HF & C4).
    rewrite (read_at_over SO (S n) (List.length ts) 0 (List.length ts) 0 t ts f i (b ^ d) tk); auto.
    2:{ left. split; [apply (sa_data _ _ _ _ _ _ HS)|auto]. }
    destruct (div_mod_lt i (b ^ d) (pow_pos d)) as [M1 M2]. pose proof (geom_gt b d).
    rewrite (read_base n 0 0 tk f d lv es) by (auto; lia). rewrite (full_leaf tk f d lv es) by auto. unfold rnth. rewrite C4. reflexivity.
  Qed.
  Lemma TopAt_read n t f d Sa ts ls i : TopAt t f d Sa ts ls -> i < mt_leafs t ->
    mt_read_at_n SO (S (S (S n))) Sa (List.length ts) t f i = rnth (concat (map (@concat E) ls)) i.
  Proof.
    intros HS Hi. pose proof (TopAt_over _ _ _ _ _ _ HS) as HO.
    destruct (TopAt_child _ _ _ _ _ _ _ HS Hi) as (tk & bs & lss & ess & C1 & C2 & C3 & HF & C4 & C5).
    rewrite (read_at_over SO (S (S n)) (List.length ts) Sa Sa (List.length ts) t ts f i (Sa * b ^ d) tk); auto.
    2:{ right. split; [apply (pa_data _ _ _ _ _ _ HS)|auto]. }
    rewrite <- C3. rewrite C3 at 2. rewrite (SubAt_read n tk f d bs lss ess _ HF C4). unfold rnth. rewrite C5. reflexivity.
  Qed.

  (* ---- proofs ---- *)
  Lemma gen_base n tk f d lv es i : FullTree SO A b tk f d lv es -> i < b ^ d ->
    gen_proof_n SO b (S n) 0 0 tk f i = Ok (canon b es d i).
  Proof.
    intros HF Hi. unfold canon. rewrite <- (ft_proof _ _ _ _ _ _ _ _ HF i Hi). destruct (ft_base _ _ _ _ _ _ _ _ HF) as [s Hs].
    unfold gen_proof. cbn [gen_proof_n]. rewrite Hs. reflexivity.
  Qed.

  Definition sub_proof (ts : list (mtree T E)) (root : E) (d : nat) (es : list E) (i : nat) : proof E :=
    mk_proof (Some (canon b es d (i mod b ^ d))) 0 (List.length ts)
      (remove_at (i / b ^ d) (map mt_root ts) ++ [root]) [i / b ^ d].

  Lemma SubAt_gen n t f d ts lss ess i es : SubAt t f d ts lss ess -> i < mt_leafs t -> nth_error ess (i / b ^ d) = Some es ->
    gen_proof_n SO b (S (S n)) (List.length ts) 0 t f i = Ok (sub_proof ts (mt_root t) d es i).
  Proof.
    intros HS Hi He. pose proof (SubAt_over _ _ _ _ _ _ HS) as HO.
    destruct (SubAt_child _ _ _ _ _ _ _ HS Hi) as (tk & lv & es' & C1 & C2 & C3 & HF & C4). rewrite He in C3. inv C3.
    rewrite (gen_sub_tree_proof_unfold_sub SO b (S n) _ 0 t f i ts (sa_data _ _ _ _ _ _ HS)).
    rewrite (gen_sub_tree_proof_ok SO b _ (List.length ts) 0 t ts (b ^ d) i false tk (canon b es' d (i mod b ^ d))); auto.
    - unfold mt_base_trees. rewrite (sa_data _ _ _ _ _ _ HS). reflexivity.
    - right. apply (sa_pos _ _ _ _ _ _ HS).
    - exact (gen_base n tk f d lv es' (i mod b ^ d) HF (proj1 (div_mod_lt i (b ^ d) (pow_pos d)))).
  Qed.

  Lemma TopAt_gen n t f d Sa ts ls i tk bs lss ess es : TopAt t f d Sa ts ls -> i < mt_leafs t ->
    nth_error ts (i / (Sa * b ^ d)) = Some tk -> List.length bs = Sa -> SubAt tk f d bs lss ess ->
    nth_error ess (i mod (Sa * b ^ d) / b ^ d) = Some es ->
    gen_proof_n SO b (S (S (S n))) Sa (List.length ts) t f i =
      Ok (mk_proof (Some (sub_proof bs (mt_root tk) d es (i mod (Sa * b ^ d)))) (List.length ts) Sa
            (remove_at (i / (Sa * b ^ d)) (map mt_root ts) ++ [mt_root t]) [i / (Sa * b ^ d)]).
  Proof.
    intros HT Hi Htk HSa HS He. pose proof (TopAt_over _ _ _ _ _ _ HT) as HO. pose proof HO as (O1 & On & _).
    rewrite (gen_sub_tree_proof_unfold_top SO b (S (S n)) Sa (List.length ts) t f i ts (pa_data _ _ _ _ _ _ HT)).
    rewrite (gen_sub_tree_proof_ok SO b _ Sa (List.length ts) t ts (Sa * b ^ d) i true tk (sub_proof bs (mt_root tk) d es (i mod (Sa * b ^ d)))); auto.
    - unfold mt_sub_trees. rewrite (pa_data _ _ _ _ _ _ HT). reflexivity.
    - rewrite <- HSa. apply (SubAt_gen n tk f d bs lss ess); auto.
      + rewrite (sa_leafs _ _ _ _ _ _ HS). apply div_mod_lt. rewrite HSa. exact On.
      + rewrite HSa. exact He.
  Qed.

  (* ---- completeness ---- *)
  Lemma canon_root tk f d lv es i : FullTree SO A b tk f d lv es -> i < b ^ d ->
    pf_root (canon b es d i) = Ok (mt_root tk) /\ pf_item (canon b es d i) = rnth lv i /\ is_ok (pf_item (canon b es d i)) = true.
  Proof.
    intros HF Hi. pose proof (ft_layout _ _ _ _ _ _ _ _ HF) as HL. pose proof HL as (L1 & L2 & _). pose proof (geom_gt b d).
    destruct (nth_error_ex es i ltac:(lia)) as [x Hx]. rewrite <- (full_leaf tk f d lv es i HF Hi).
    unfold pf_root, pf_item, canon. cbn [pf_lemma]. rewrite (lemma_of_eq b d es i x (mt_root tk) Hi Hx (ft_root _ _ _ _ _ _ _ _ HF)).
    cbn [rev]. rewrite rev_app_distr. unfold rnth. rewrite Hx. auto.
  Qed.

  Lemma validate_layer p sp ar : pf_sub p = Some sp -> 0 < ar ->
    (pf_top_nodes p = ar \/ (pf_top_nodes p = 0 /\ pf_sub_nodes p = ar)) ->
    validate EO A b p = (do v <- validate EO A b sp; if negb v then Ok v else validate_top EO A p ar).
  Proof.
    destruct p as [s tn sn lem pa]. cbn [pf_sub pf_top_nodes pf_sub_nodes]. intros -> Ha [->|[-> ->]]; cbn [validate pf_top_nodes pf_sub_nodes pf_sub].
    - replace (0 <? ar) with true by lia. reflexivity.
    - replace (0 <? ar) with true by lia. reflexivity.
  Qed.

  Hypothesis HAG : height_agnostic A.

  Lemma sub_proof_valid t f d ts lss ess i es : SubAt t f d ts lss ess -> i < mt_leafs t -> nth_error ess (i / b ^ d) = Some es ->
    validate EO A b (sub_proof ts (mt_root t) d es i) = Ok true.
  Proof.
    intros HS Hi He.
    destruct (SubAt_child _ _ _ _ _ _ _ HS Hi) as (tk & lv & es' & C1 & C2 & C3 & HF & C4). rewrite He in C3. inv C3.
    pose proof (proj1 (div_mod_lt i (b ^ d) (pow_pos d))) as Hm. pose proof (sa_pos _ _ _ _ _ _ HS) as HP.
    rewrite (validate_layer _ (canon b es' d (i mod b ^ d)) (List.length ts)); auto.
    rewrite (canon_valid EO EL A AL b Hb d lv es' (i mod b ^ d)); auto; [|apply (ft_layout _ _ _ _ _ _ _ _ HF)]. cbn [rbind negb].
    rewrite <- (map_length mt_root ts).
    rewrite (validate_top_ok EO A AL _ (canon b es' d (i mod b ^ d)) (map mt_root ts) (mt_root t) (i / b ^ d) (mt_root tk)); auto.
    - f_equal. apply (eqb_eq EO EL). rewrite (sa_root _ _ _ _ _ _ HS). apply HAG.
    - eapply canon_root; eauto.
    - rewrite nth_error_map, C1. reflexivity.
  Qed.

  Lemma top_proof_valid t f d Sa ts ls i tk bs lss ess es : TopAt t f d Sa ts ls -> i < mt_leafs t ->
    nth_error ts (i / (Sa * b ^ d)) = Some tk -> List.length bs = Sa -> SubAt tk f d bs lss ess ->
    nth_error ess (i mod (Sa * b ^ d) / b ^ d) = Some es ->
    validate EO A b (mk_proof (Some (sub_proof bs (mt_root tk) d es (i mod (Sa * b ^ d)))) (List.length ts) Sa
            (remove_at (i / (Sa * b ^ d)) (map mt_root ts) ++ [mt_root t]) [i / (Sa * b ^ d)]) = Ok true.
  Proof.
    intros HT Hi Htk HSa HS He. pose proof (TopAt_over _ _ _ _ _ _ HT) as HO. pose proof HO as (O1 & On & _).
    pose proof (sa_pos _ _ _ _ _ _ HS) as HP.
    assert (Hm : i mod (Sa * b ^ d) < mt_leafs tk).
    { rewrite (sa_leafs _ _ _ _ _ _ HS), HSa. apply div_mod_lt. exact On. }
    rewrite (validate_layer _ (sub_proof bs (mt_root tk) d es (i mod (Sa * b ^ d))) (List.length ts)); auto.
    rewrite (sub_proof_valid tk f d bs lss ess); auto. cbn [rbind negb].
    match goal with |- validate_top _ _ ?p _ = _ =>
      pose proof (validate_top_ok EO A AL p (sub_proof bs (mt_root tk) d es (i mod (Sa * b ^ d))) (map mt_root ts) (mt_root t) (i / (Sa * b ^ d)) (mt_root tk)) as HV
    end.
    rewrite map_length in HV. rewrite HV; auto; clear HV.
    - f_equal. apply (eqb_eq EO EL). rewrite (pa_root _ _ _ _ _ _ HT). apply HAG.
    - cbn [pf_sub_nodes]. lia.
    - unfold pf_root, sub_proof. cbn [pf_lemma]. rewrite rev_app_distr. reflexivity.
    - rewrite nth_error_map, Htk. reflexivity.
  Qed.
End C.

Section Sound.
  Context {E : Type} (EO : ElementOps E) (EL : ElementLaws EO) (SO : StoreOps E) (A : AlgOps E) (AL : AlgLaws A).
  Variable b : nat.
  Hypothesis Hb : arity b.
  Local Notation T := (st_t SO).

  (* two different lists with the same hash: what the proof hashes at level m against
     the children stored in the tree *)
  Definition base_collision (p : proof E) (d : nat) (els : list E) : Prop :=
    exists m, m < d /\
      proof_nodes A b p d m <> kids b els d m (claimed_index b p d) /\
      List.length (proof_nodes A b p d m) = b /\ List.length (kids b els d m (claimed_index b p d)) = b /\
      h_node A (m * (b - 1)) (proof_nodes A b p d m) = h_node A m (kids b els d m (claimed_index b p d)).
  (* the same for a layer of roots *)
  Definition layer_collision (p : proof E) (roots : list E) : Prop :=
    exists sp k rk, pf_sub p = Some sp /\ nth_error (pf_path p) 0 = Some k /\ pf_root sp = Ok rk /\
      layer_nodes p (List.length roots) k rk <> roots /\
      List.length (layer_nodes p (List.length roots) k rk) = List.length roots /\
      h_node A 0 (layer_nodes p (List.length roots) k rk) = h_node A 1 roots.

  Definition base_proof_shape (p : proof E) (d : nat) : Prop :=
    pf_sub_nodes p = 0 /\ pf_top_nodes p = 0 /\ List.length (pf_lemma p) = 2 + (b - 1) * d.

  Lemma layer_step p sp ar (ts : list (mtree T E)) root : pf_sub p = Some sp -> 0 < ar -> List.length ts = ar ->
    (pf_top_nodes p = ar \/ (pf_top_nodes p = 0 /\ pf_sub_nodes p = ar)) ->
    validate EO A b p = Ok true -> pf_root p = Ok root -> root = h_node A 1 (map mt_root ts) ->
    exists k, nth_error (pf_path p) 0 = Some k /\ k < ar /\ validate EO A b sp = Ok true /\
      ((exists tk, nth_error ts k = Some tk /\ pf_root sp = Ok (mt_root tk)) \/ layer_collision p (map mt_root ts)).
  Proof.
    intros Hsp Ha Hts Hn Hv Hr Hroot. rewrite (validate_layer EO A b p sp ar Hsp Ha Hn) in Hv.
    destruct (validate EO A b sp) as [[|]|?|?|] eqn:HV; try discriminate. cbn [rbind negb] in Hv.
    destruct (validate_top_true EO EL A AL p ar root Ha Hv Hr) as (k & sp' & rk & G1 & G2 & G3 & G4 & G5 & G6 & G7).
    rewrite Hsp in G3. injection G3 as <-. exists k. repeat (split; [assumption || reflexivity|]).
    destruct (list_dec EO EL (layer_nodes p ar k rk) (map mt_root ts)) as [Q|Q].
    - left. rewrite Q, nth_error_map in G6. destruct (nth_error ts k) as [tk|]; [|discriminate]. injection G6 as <-. eauto.
    - right. exists sp, k, rk. rewrite map_length, Hts. repeat split; auto. congruence.
  Qed.

  Lemma sub_sound t f d ts lss ess p sp : SubAt SO A b t f d ts lss ess ->
    pf_sub p = Some sp -> pf_top_nodes p = 0 -> pf_sub_nodes p = List.length ts -> base_proof_shape sp d ->
    validate EO A b p = Ok true -> pf_root p = Ok (mt_root t) ->
    exists k, nth_error (pf_path p) 0 = Some k /\ k < List.length ts /\
      claimed_index b sp d < b ^ d /\
      (pf_item sp = rnth (concat lss) (k * b ^ d + claimed_index b sp d) \/
       layer_collision p (map mt_root ts) \/
       exists es, nth_error ess k = Some es /\ base_collision sp d es).
  Proof.
    intros HS Hsp Ht Hn (B1 & B2 & B3) Hv Hr. pose proof (arity_ge b Hb) as H2.
    destruct (layer_step p sp (List.length ts) ts (mt_root t)) as (k & K1 & K2 & K3 & K4); auto.
    { apply (sa_pos _ _ _ _ _ _ _ _ _ HS). } { apply (sa_root _ _ _ _ _ _ _ _ _ HS). }
    exists k. split; [exact K1|]. split; [exact K2|].
    pose proof (sa_bases _ _ _ _ _ _ _ _ _ HS) as HB. pose proof HB as (_ & _ & HB').
    destruct (nth_error_ex ts k K2) as [tk' Htk']. destruct (HB' k tk' Htk') as (lv & es & G1 & G2 & HF).
    pose proof (ft_layout _ _ _ _ _ _ _ _ HF) as HL.
    assert (Hlev : levels_at b (List.length (pf_lemma sp)) d) by (rewrite B3; apply levels_at_full; exact H2).
    assert (Hci : claimed_index b sp d < b ^ d).
    { destruct (pf_root sp) as [rs|?|?|] eqn:ER.
      2,3,4: destruct K4 as [(tk & _ & Q)|(sp' & k' & rk & Q1 & _ & Q2 & _)]; [discriminate|rewrite Hsp in Q1; injection Q1 as <-; congruence].
      destruct (validate_base_true EO EL A AL b H2 sp rs B1 B2 K3 ER) as (x & n & Hx & Hnn & Hp & HG & HC & Hcl).
      assert (n = d) by (eapply levels_at_unique; eauto). subst n.
      assert (Lc : List.length (firstn d (pf_path sp)) = d) by (rewrite firstn_length; lia).
      unfold claimed_index. rewrite <- Lc at 2. apply path_index_lt; auto. }
    split; [exact Hci|].
    destruct K4 as [(tk & Q1 & Q2)|Q]; [|auto]. rewrite Htk' in Q1. injection Q1 as <-.
    destruct (base_sound EO EL A AL b Hb d lv es (mt_root tk') sp) as [H1 H]; auto.
    { apply (ft_root _ _ _ _ _ _ _ _ HF). }
    destruct H as [H|H].
    - left. rewrite H. unfold rnth. rewrite (nth_error_concat lss (b ^ d) k (claimed_index b sp d) lv); auto.
      eapply Bases_lens; eauto.
    - right. right. exists es. split; [exact G2|]. exact H.
  Qed.

  Lemma top_sound t f d Sa ts ls p sp bp : TopAt SO A b t f d Sa ts ls ->
    pf_sub p = Some sp -> pf_top_nodes p = List.length ts ->
    pf_sub sp = Some bp -> pf_top_nodes sp = 0 -> pf_sub_nodes sp = Sa -> base_proof_shape bp d ->
    validate EO A b p = Ok true -> pf_root p = Ok (mt_root t) ->
    exists j k, nth_error (pf_path p) 0 = Some j /\ j < List.length ts /\ nth_error (pf_path sp) 0 = Some k /\ k < Sa /\
      claimed_index b bp d < b ^ d /\
      (pf_item bp = rnth (concat (map (@concat E) ls)) (j * (Sa * b ^ d) + (k * b ^ d + claimed_index b bp d)) \/
       layer_collision p (map mt_root ts) \/
       exists tj bs lss ess, nth_error ts j = Some tj /\ nth_error ls j = Some lss /\ SubAt SO A b tj f d bs lss ess /\
         (layer_collision sp (map mt_root bs) \/ exists es, nth_error ess k = Some es /\ base_collision bp d es)).
  Proof.
    intros HT Hsp Hn Hbp Ht Hs HBS Hv Hr.
    destruct (layer_step p sp (List.length ts) ts (mt_root t)) as (j & K1 & K2 & K3 & K4); auto.
    { apply (pa_pos _ _ _ _ _ _ _ _ _ HT). } { apply (pa_root _ _ _ _ _ _ _ _ _ HT). }
    pose proof (pa_subs _ _ _ _ _ _ _ _ _ HT) as [HB1 HB].
    destruct (nth_error_ex ts j K2) as [tj Htj]. destruct (HB j tj Htj) as (bs & lss & ess & G1 & G2 & HS).
    pose proof (sa_pos _ _ _ _ _ _ _ _ _ HS) as Hpos.
    (* the inner proof validates, so its own path component and its base index are in range *)
    assert (HV2 : exists k, nth_error (pf_path sp) 0 = Some k /\ k < Sa /\ claimed_index b bp d < b ^ d).
    { assert (HK : exists rs, pf_root sp = Ok rs).
      { destruct K4 as [(tk & _ & Q)|(sp' & k' & rk & Q1 & _ & Q2 & _)]; [eauto|rewrite Hsp in Q1; injection Q1 as <-; eauto]. }
      destruct HK as [rs Hrs].
      rewrite (validate_layer EO A b sp bp Sa Hbp) in K3; [|lia|auto].
      destruct (validate EO A b bp) as [[|]|?|?|] eqn:HVb; try discriminate. cbn [rbind negb] in K3.
      destruct (validate_top_true EO EL A AL sp Sa rs ltac:(lia) K3 Hrs) as (k & bp' & rk & P1 & P2 & P3 & P4 & _).
      rewrite Hbp in P3. injection P3 as <-. exists k. split; [exact P1|]. split; [exact P2|].
      destruct HBS as (B1 & B2 & B3). pose proof (arity_ge b Hb) as H2.
      destruct (validate_base_true EO EL A AL b H2 bp rk B1 B2 HVb P4) as (x & n & Hx & Hnn & Hp & HG & HC & Hcl).
      assert (n = d). { eapply levels_at_unique; eauto. rewrite B3. apply levels_at_full. exact H2. } subst n.
      assert (Lc : List.length (firstn d (pf_path bp)) = d) by (rewrite firstn_length; lia).
      unfold claimed_index. rewrite <- Lc at 2. apply path_index_lt; auto. }
    destruct HV2 as (k & P1 & P2 & P3). exists j, k. repeat (split; [assumption|]).
    destruct K4 as [(tj' & Q1 & Q2)|Q]; [|auto]. rewrite Htj in Q1. injection Q1 as <-.
    destruct (sub_sound tj f d bs lss ess sp bp HS Hbp Ht) as (k' & R1 & R2 & R3 & R4); auto; [congruence|].
    rewrite P1 in R1. injection R1 as <-. destruct R4 as [R4|[R4|R4]].
    - left. rewrite R4. unfold rnth.
      rewrite (nth_error_concat (map (@concat E) ls) (Sa * b ^ d) j (k * b ^ d + claimed_index b bp d) (concat lss)); auto.
      + apply Forall_map. eapply TopAt_lens; eauto.
      + rewrite nth_error_map, G1. reflexivity.
      + assert (S k * b ^ d <= Sa * b ^ d) by (apply Nat.mul_le_mono_r; lia). cbn [Nat.mul] in H. lia.
    - right. right. exists tj, bs, lss, ess. auto.
    - right. right. exists tj, bs, lss, ess. auto.
  Qed.
End Sound.
