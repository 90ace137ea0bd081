(* Compound trees: one layer of roots over equally shaped trees. *)
From Coq Require Import String List Arith Bool Lia Init.Byte ZifyBool ZifyNat.
From Verif Require Import Base Element Hash Sizing FS Sched Store VecStore ProofModel Tree ListFacts Spec SpecFacts SizingFacts StoreLaws StoreSpec ProofSpec ProofFacts TreeProofs TreeObs.
Import ListNotations.

Section L.
  Context {E : Type}.
  Lemma remove_at_nth (l : list E) k : k < List.length l -> List.length (remove_at k l) = List.length l - 1.
  Proof. intros. unfold remove_at. rewrite app_length, firstn_length, skipn_length. lia. Qed.
End L.

Section Layer.
  Context {E : Type} (EO : ElementOps E) (EL : ElementLaws EO) (A : AlgOps E) (AL : AlgLaws A).

  (* ---- validation of one layer ---- *)
  Lemma validate_top_ok p sp roots root k rk :
    pf_sub p = Some sp -> 0 < pf_sub_nodes p -> pf_lemma p = remove_at k roots ++ [root] -> nth_error (pf_path p) 0 = Some k ->
    pf_root sp = Ok rk -> nth_error roots k = Some rk ->
    validate_top EO A p (List.length roots) = Ok (e_eqb EO (h_node A 0 roots) root).
  Proof.
    intros H1 H2 H3 H4 H5 H6. pose proof (nth_error_lt _ _ _ H6) as Lk. unfold validate_top.
    unfold rnth at 1. rewrite H4. unfold pf_sub_tree_root. rewrite H1. replace (0 <? pf_sub_nodes p) with true by lia. rewrite H5.
    destruct (place_in 2 (le_n 2) (pf_lemma p) 0 k rk (List.length roots) 0 0 ltac:(lia)) as [P _].
    assert (Ll : List.length (remove_at k roots) = List.length roots - 1) by (apply remove_at_nth; auto).
    rewrite P by (rewrite H3, app_length; cbn [List.length]; lia). cbn [rbind]. rewrite checked_sub_ok by lia. cbn [rbind].
    rewrite Nat.add_0_l, Nat.eqb_refl. cbn [negb]. rewrite Nat.sub_0_r, Nat.add_0_l.
    replace (sub (pf_lemma p) 0 (List.length roots - 1)) with (remove_at k roots).
    2:{ rewrite H3, sub_0, <- Ll, firstn_app, firstn_all, Nat.sub_diag. cbn. rewrite app_nil_r. reflexivity. }
    rewrite (insert_remove k rk roots H6).
    destruct (a_multi_node A (a_reset A (a_default A)) roots 0) as [h a'] eqn:EM.
    unfold pf_root. rewrite H3, rev_app_distr. cbn [rev app rbind]. f_equal. f_equal.
    pose proof (reset_multi A AL (a_default A) roots 0) as HR. rewrite EM in HR. exact HR.
  Qed.

  (* the nodes a layer of the proof hashes *)
  Definition layer_nodes (p : proof E) (arity k : nat) (rk : E) : list E :=
    insert_at k rk (firstn (arity - 1) (pf_lemma p)).

  Lemma validate_top_true p arity root : 0 < arity ->
    validate_top EO A p arity = Ok true -> pf_root p = Ok root ->
    exists k sp rk, nth_error (pf_path p) 0 = Some k /\ k < arity /\ pf_sub p = Some sp /\ pf_root sp = Ok rk /\
      List.length (layer_nodes p arity k rk) = arity /\ nth_error (layer_nodes p arity k rk) k = Some rk /\
      h_node A 0 (layer_nodes p arity k rk) = root.
  Proof.
    intros Ha H Hr. unfold validate_top in H. unfold rnth at 1 in H.
    destruct (nth_error (pf_path p) 0) as [k|] eqn:Hk; [|rewrite (place_panic_at 2 (le_n 2)) in H by lia; discriminate].
    destruct (le_lt_dec arity k) as [L|L].
    - destruct (place_out 2 (le_n 2) (pf_lemma p) 0 k (pf_sub_tree_root p) arity 0 0 ltac:(lia)) as [P P'].
      destruct (le_lt_dec (0 + 0 + arity) (List.length (pf_lemma p))) as [Q|Q].
      + rewrite P in H by lia. cbn [rbind] in H. rewrite checked_sub_ok in H by lia. cbn [rbind] in H.
        replace (0 + arity =? arity - 1) with false in H by lia. discriminate.
      + destruct P' as [m Hm]; [lia|lia|]. rewrite Hm in H. discriminate.
    - assert (HM : exists rk, pf_sub_tree_root p = Ok rk \/ ~ exists v, place_nodes (pf_lemma p) 0 (Ok k) (pf_sub_tree_root p) (seq 0 arity) 0 = Ok v).
      { destruct (pf_sub_tree_root p) as [rk|e|e|] eqn:HS; [exists rk; auto| | |];
        exists root; right; intros [v Hv]; revert Hv; assert (G : forall n s c, s <= k < s + n -> forall bad, (forall x, bad <> Ok x) ->
          forall v, place_nodes (pf_lemma p) 0 (Ok k) bad (seq s n) c <> Ok v).
        1,3,5: (induction n as [|n IH]; intros s c Hs bad Hbad v0; [lia|]; cbn [seq place_nodes rbind]; destruct (s =? k) eqn:Q;
          [destruct bad as [x|e0|e0|]; cbn [rbind]; try discriminate; exfalso; apply (Hbad x); reflexivity|];
          destruct (rnth (pf_lemma p) (0 + c)) as [y|e0|e0|]; cbn [rbind]; try discriminate;
          specialize (IH (S s) (S c) ltac:(lia) bad Hbad);
          destruct (place_nodes (pf_lemma p) 0 (Ok k) bad (seq (S s) n) (S c)) as [[nodes c0]|e0|e0|]; cbn [rbind]; try discriminate;
          exfalso; eapply IH; reflexivity).
        all: apply G; [lia|discriminate]. }
      destruct HM as (rk & [HM|HM]).
      2:{ exfalso. destruct (place_nodes _ _ _ _ _ _) as [v|e|e|] eqn:HP in H; try discriminate. apply HM. eauto. }
      rewrite HM in H. destruct (place_in 2 (le_n 2) (pf_lemma p) 0 k rk arity 0 0 ltac:(lia)) as [P P'].
      destruct (le_lt_dec (0 + 0 + (arity - 1)) (List.length (pf_lemma p))) as [Q|Q].
      2:{ destruct P' as [m Hm]; [lia|lia|]. rewrite Hm in H. discriminate. }
      rewrite P in H by lia. cbn [rbind] in H. rewrite checked_sub_ok in H by lia. cbn [rbind] in H.
      rewrite Nat.add_0_l, Nat.eqb_refl, Nat.sub_0_r, sub_0 in H. cbn [negb] in H.
      fold (layer_nodes p arity k rk) in H.
      destruct (a_multi_node A (a_reset A (a_default A)) _ 0) as [h a'] eqn:EM. rewrite Hr in H. cbn [rbind] in H. injection H as H.
      apply (eqb_eq EO EL) in H. subst h. unfold pf_sub_tree_root in HM. destruct (pf_sub p) as [sp|] eqn:HS; [|discriminate].
      destruct (0 <? pf_sub_nodes p); [|discriminate].
      exists k, sp, rk. unfold layer_nodes in *. assert (List.length (firstn (arity - 1) (pf_lemma p)) = arity - 1) by (rewrite firstn_length; lia).
      repeat split; auto.
      + rewrite insert_length. lia.
      + apply insert_nth_same. lia.
      + rewrite <- (reset_multi A AL (a_default A)), EM. reflexivity.
  Qed.
End Layer.

Section Trees.
  Context {E : Type} (SO : StoreOps E) (A : AlgOps E).
  Local Notation T := (st_t SO).

  Lemma other_roots_ok (l : list (mtree T E)) k : k < List.length l ->
    other_roots SO l (List.length l) k = Ok (remove_at k (map mt_root l)).
  Proof.
    intros Hk. unfold other_roots.
    assert (G : forall (l1 l2 : list (mtree T E)), l = l1 ++ l2 ->
      rmap (fun j => do t <- rnth l j; Ok (mt_root t)) (filter (fun j => negb (j =? k)) (seq (List.length l1) (List.length l2)))
      = Ok (if k <? List.length l1 then map mt_root l2 else remove_at (k - List.length l1) (map mt_root l2))).
    { intros l1 l2. revert l1. induction l2 as [|x l2 IH]; intros l1 Hl.
      - cbn [List.length seq filter rmap map]. destruct (k <? List.length l1); [reflexivity|]. unfold remove_at. rewrite firstn_nil. destruct (S _); reflexivity.
      - cbn [List.length seq filter]. assert (Hx : nth_error l (List.length l1) = Some x).
        { rewrite Hl, nth_error_app2, Nat.sub_diag by lia. reflexivity. }
        specialize (IH (l1 ++ [x])). rewrite <- app_assoc in IH. specialize (IH Hl). rewrite app_length, Nat.add_1_r in IH. 
        destruct (List.length l1 =? k) eqn:Q; cbn [negb].
        + apply Nat.eqb_eq in Q. rewrite IH. replace (k <? S (List.length l1)) with true by lia. replace (k <? List.length l1) with false by lia.
          replace (k - List.length l1) with 0 by lia. reflexivity.
        + cbn [rmap]. unfold rnth at 1. rewrite Hx. cbn [rbind]. rewrite IH. cbn [rbind]. destruct (k <? List.length l1) eqn:Q2.
          * replace (k <? S (List.length l1)) with true by lia. reflexivity.
          * replace (k <? S (List.length l1)) with false by lia. replace (k - List.length l1) with (S (k - S (List.length l1))) by lia.
            reflexivity. }
    specialize (G [] l eq_refl). cbn [List.length Nat.ltb Nat.leb] in G. rewrite G, Nat.sub_0_r. reflexivity.
  Qed.

  (* a compound node over [ts]: S trees of n leaves each *)
  Definition Over (t : mtree T E) (ts : list (mtree T E)) (n : nat) : Prop :=
    0 < List.length ts /\ 0 < n /\ Forall (fun t => mt_leafs t = n) ts /\ mt_leafs t = List.length ts * n.

  Lemma over_div t ts n i : Over t ts n -> i < mt_leafs t -> mt_leafs t / List.length ts = n /\ i / n < List.length ts.
  Proof.
    intros (H1 & H2 & _ & H3) Hi. rewrite H3 in *. split; [rewrite Nat.mul_comm; apply Nat.div_mul; lia|].
    apply Nat.div_lt_upper_bound; [lia|]. rewrite Nat.mul_comm. exact Hi.
  Qed.
  Lemma over_nth t ts n k : Over t ts n -> k < List.length ts -> exists tk, nth_error ts k = Some tk /\ mt_leafs tk = n.
  Proof.
    intros (_ & _ & H & _) Hk. destruct (nth_error_ex ts k Hk) as [tk Htk]. exists tk. split; [exact Htk|].
    rewrite Forall_forall in H. apply H. eapply nth_error_In; eauto.
  Qed.

  Lemma gen_sub_tree_proof_ok b rec sub_ top t ts n i (top_layer : bool) tk sp :
    Over t ts n -> i < mt_leafs t ->
    (if top_layer then mt_sub_trees SO t else mt_base_trees SO t) = Ok ts ->
    (0 < top \/ 0 < sub_) ->
    nth_error ts (i / n) = Some tk -> rec tk (i mod n) = Ok sp ->
    gen_sub_tree_proof SO b rec sub_ top t i top_layer (List.length ts) =
      Ok (mk_proof (Some sp) top sub_ (remove_at (i / n) (map mt_root ts) ++ [mt_root t]) [i / n]).
  Proof.
    intros HO Hi Hl Hts Hk Hsp. destruct (over_div t ts n i HO Hi) as [D1 D2]. pose proof HO as (O1 & O2 & O3 & O4).
    unfold gen_sub_tree_proof. replace (List.length ts =? 0) with false by lia. cbn [negb ensure rbind].
    rewrite D1. replace (n =? 0) with false by lia. rewrite Hl. cbn [rbind]. rewrite Nat.eqb_refl. cbn [ensure rbind].
    unfold rnth. rewrite Hk. cbn [rbind]. rewrite Forall_forall in O3. rewrite (O3 tk) by (eapply nth_error_In; eauto).
    replace (n =? 0) with false by lia. rewrite Hsp. cbn [rbind]. rewrite (other_roots_ok ts (i / n) D2). cbn [rbind].
    unfold proof_new. replace ((top =? 0) && (sub_ =? 0)) with false by lia. reflexivity.
  Qed.

  (* ---- construction ---- *)
  Lemma sum_by_same (g : mtree T E -> nat) n : forall l, Forall (fun t => g t = n) l -> sum_by SO g l = List.length l * n.
  Proof.
    assert (G : forall l acc, Forall (fun t => g t = n) l -> fold_left (fun acc t => acc + g t) l acc = acc + List.length l * n).
    { induction l as [|x l IH]; intros acc H; cbn [fold_left List.length]; [cbn; lia|]. inversion H; subst. rewrite IH by auto. lia. }
    intros l H. unfold sum_by. rewrite G by auto. reflexivity.
  Qed.
  Lemma all_same_iff (g : mtree T E -> nat) l : all_same SO g l = true <-> exists n, Forall (fun t => g t = n) l.
  Proof.
    destruct l as [|t0 l]; cbn [all_same].
    - split; auto. intros _. exists 0. constructor.
    - rewrite forallb_forall. split.
      + intros H. exists (g t0). apply Forall_forall. intros x Hx. apply Nat.eqb_eq. auto.
      + intros [n H] x Hx. rewrite Forall_forall in H. rewrite (H x Hx), (H t0) by (left; reflexivity). apply Nat.eqb_refl.
  Qed.
  Lemma all_same_const (g : mtree T E -> nat) n l : Forall (fun t => g t = n) l -> all_same SO g l = true.
  Proof. intros. apply all_same_iff. eauto. Qed.

  (* merkle.rs 517-577: exact behaviour *)
  Lemma from_trees_ok sub_ ts rc len n : 0 < sub_ -> List.length ts = sub_ ->
    Forall (fun t => mt_row_count t = rc) ts -> Forall (fun t => mt_len SO t = len) ts -> Forall (fun t => mt_leafs t = n) ts ->
    from_trees SO A sub_ ts = Ok (mk_tree (SubTree ts) (sub_ * n) (len * sub_ + 1) (rc + 1) (h_node A 1 (map mt_root ts))).
  Proof.
    intros H0 H1 H2 H3 H4. unfold from_trees. replace (0 <? sub_) with true by lia. cbn [ensure rbind].
    rewrite (all_same_const _ rc), (all_same_const _ len) by auto. cbn [ensure rbind]. rewrite H1, Nat.eqb_refl. cbn [ensure rbind].
    destruct ts as [|t0 ts]; [cbn in H1; lia|]. unfold rnth. cbn [nth_error rbind]. inversion H2; subst. inversion H3; subst.
    rewrite (sum_by_same mt_leafs n) by auto. reflexivity.
  Qed.
  Lemma from_sub_trees_ok top ts rc len n : 0 < top -> List.length ts = top ->
    Forall (fun t => mt_row_count t = rc) ts -> Forall (fun t => mt_len SO t = len) ts -> Forall (fun t => mt_leafs t = n) ts ->
    from_sub_trees SO A top ts = Ok (mk_tree (TopTree ts) (top * n) (len * top + 1) (rc + 1) (h_node A 1 (map mt_root ts))).
  Proof.
    intros H0 H1 H2 H3 H4. unfold from_sub_trees. replace (0 <? top) with true by lia. cbn [ensure rbind].
    rewrite (all_same_const _ rc), (all_same_const _ len) by auto. cbn [ensure rbind]. rewrite H1, Nat.eqb_refl. cbn [ensure rbind].
    destruct ts as [|t0 ts]; [cbn in H1; lia|]. unfold rnth. cbn [nth_error rbind]. inversion H2; subst. inversion H3; subst.
    rewrite (sum_by_same mt_leafs n) by auto. reflexivity.
  Qed.

  Lemma from_trees_inv sub_ ts t : from_trees SO A sub_ ts = Ok t ->
    0 < sub_ /\ List.length ts = sub_ /\ (exists rc, Forall (fun t => mt_row_count t = rc) ts) /\ (exists len, Forall (fun t => mt_len SO t = len) ts).
  Proof.
    unfold from_trees. intros H. destruct (0 <? sub_) eqn:G1; [|discriminate]. cbn [ensure rbind] in H.
    destruct (all_same SO mt_row_count ts) eqn:G2; [|discriminate]. cbn [ensure rbind] in H.
    destruct (all_same SO (mt_len SO) ts) eqn:G3; [|discriminate]. cbn [ensure rbind] in H.
    destruct (List.length ts =? sub_) eqn:G4; [|discriminate]. apply all_same_iff in G2, G3. apply Nat.eqb_eq in G4. repeat split; auto. lia.
  Qed.
  Lemma from_sub_trees_inv top ts t : from_sub_trees SO A top ts = Ok t ->
    0 < top /\ List.length ts = top /\ (exists rc, Forall (fun t => mt_row_count t = rc) ts) /\ (exists len, Forall (fun t => mt_len SO t = len) ts).
  Proof.
    unfold from_sub_trees. intros H. destruct (0 <? top) eqn:G1; [|discriminate]. cbn [ensure rbind] in H.
    destruct (all_same SO mt_row_count ts) eqn:G2; [|discriminate]. cbn [ensure rbind] in H.
    destruct (all_same SO (mt_len SO) ts) eqn:G3; [|discriminate]. cbn [ensure rbind] in H.
    destruct (List.length ts =? top) eqn:G4; [|discriminate]. apply all_same_iff in G2, G3. apply Nat.eqb_eq in G4. repeat split; auto. lia.
  Qed.
  (* refused with an error, never a panic *)
  Lemma from_trees_total sub_ ts : (exists t, from_trees SO A sub_ ts = Ok t) \/ (exists e, from_trees SO A sub_ ts = Err e).
  Proof.
    unfold from_trees. destruct (0 <? sub_) eqn:G1; [|right; eexists; reflexivity]. cbn [ensure rbind].
    destruct (all_same SO mt_row_count ts); [|right; eexists; reflexivity]. cbn [ensure rbind].
    destruct (all_same SO (mt_len SO) ts); [|right; eexists; reflexivity]. cbn [ensure rbind].
    destruct (List.length ts =? sub_) eqn:G2; [|right; eexists; reflexivity]. cbn [ensure rbind].
    destruct ts; [apply Nat.eqb_eq in G2; cbn in G2; lia|]. left. eexists. reflexivity.
  Qed.
  Lemma from_sub_trees_total top ts : (exists t, from_sub_trees SO A top ts = Ok t) \/ (exists e, from_sub_trees SO A top ts = Err e).
  Proof.
    unfold from_sub_trees. destruct (0 <? top) eqn:G1; [|right; eexists; reflexivity]. cbn [ensure rbind].
    destruct (all_same SO mt_row_count ts); [|right; eexists; reflexivity]. cbn [ensure rbind].
    destruct (all_same SO (mt_len SO) ts); [|right; eexists; reflexivity]. cbn [ensure rbind].
    destruct (List.length ts =? top) eqn:G2; [|right; eexists; reflexivity]. cbn [ensure rbind].
    destruct ts; [apply Nat.eqb_eq in G2; cbn in G2; lia|]. left. eexists. reflexivity.
  Qed.

  Lemma gen_sub_tree_proof_unfold_top b n sub_ top t f i ts : mt_data t = TopTree ts ->
    gen_proof_n SO b (S n) sub_ top t f i = gen_sub_tree_proof SO b (fun t' i' => gen_proof_n SO b n sub_ 0 t' f i') sub_ top t i true top.
  Proof. intros H. cbn [gen_proof_n]. rewrite H. reflexivity. Qed.
  Lemma gen_sub_tree_proof_unfold_sub b n sub_ top t f i ts : mt_data t = SubTree ts ->
    gen_proof_n SO b (S n) sub_ top t f i = gen_sub_tree_proof SO b (fun t' i' => gen_proof_n SO b n 0 0 t' f i') sub_ top t i false sub_.
  Proof. intros H. cbn [gen_proof_n]. rewrite H. reflexivity. Qed.

  Lemma read_at_over n arity sub' sub_ top t ts (f : fs) i m tk :
    (mt_data t = SubTree ts /\ arity = sub_ /\ sub' = 0) \/ (mt_data t = TopTree ts /\ arity = top /\ sub' = sub_) ->
    arity = List.length ts -> Over t ts m -> i < mt_leafs t -> nth_error ts (i / m) = Some tk ->
    mt_read_at_n SO (S n) sub_ top t f i = mt_read_at_n SO n sub' 0 tk f (i mod m).
  Proof.
    intros HD Ha HO Hi Hk. destruct (over_div t ts m i HO Hi) as [D1 D2]. pose proof HO as (O1 & O2 & O3 & O4).
    rewrite Forall_forall in O3. specialize (O3 tk (nth_error_In _ _ Hk)).
    destruct HD as [(H1 & H2 & H3)|(H1 & H2 & H3)]; cbn [mt_read_at_n]; rewrite H1, <- H2, Ha, Nat.eqb_refl; cbn [ensure rbind];
      rewrite D1; replace ((List.length ts =? 0) || (m =? 0)) with false by lia; unfold rnth; rewrite Hk; cbn [rbind];
      rewrite O3; replace (m =? 0) with false by lia; rewrite ?H3; reflexivity.
  Qed.

  Lemma sum_by_fold (g : mtree T E -> nat) l : sum_by SO g l = fold_right (fun x n => g x + n) 0 l.
  Proof.
    unfold sum_by. assert (G : forall l acc, fold_left (fun acc t => acc + g t) l acc = acc + fold_right (fun x n => g x + n) 0 l).
    { induction l0 as [|x l0 IH]; intros acc; cbn [fold_left fold_right]; [lia|]. rewrite IH. lia. }
    rewrite G. reflexivity.
  Qed.
  Lemma from_trees_fields sub_ ts t : from_trees SO A sub_ ts = Ok t ->
    mt_leafs t = fold_right (fun x n => mt_leafs x + n) 0 ts /\ mt_root t = h_node A 1 (map mt_root ts) /\
    (forall t0, nth_error ts 0 = Some t0 -> mt_len SO t = mt_len SO t0 * sub_ + 1) /\
    (forall t0, nth_error ts 0 = Some t0 -> mt_row_count t = mt_row_count t0 + 1).
  Proof.
    unfold from_trees. intros H. destruct (0 <? sub_); [|discriminate]. cbn [ensure rbind] in H.
    destruct (all_same SO mt_row_count ts); [|discriminate]. cbn [ensure rbind] in H.
    destruct (all_same SO (mt_len SO) ts); [|discriminate]. cbn [ensure rbind] in H.
    destruct (List.length ts =? sub_) eqn:G4; [|discriminate]. apply Nat.eqb_eq in G4. cbn [ensure rbind] in H.
    destruct ts as [|t0 ts]; [discriminate|]. unfold rnth in H. cbn [nth_error rbind] in H. injection H as <-.
    cbn [mt_leafs mt_root mt_row_count]. rewrite sum_by_fold. repeat split; intros t1 H1; injection H1 as <-; [|reflexivity].
    subst sub_. reflexivity.
  Qed.
  Lemma from_sub_trees_fields sub_ ts t : from_sub_trees SO A sub_ ts = Ok t ->
    mt_leafs t = fold_right (fun x n => mt_leafs x + n) 0 ts /\ mt_root t = h_node A 1 (map mt_root ts) /\
    (forall t0, nth_error ts 0 = Some t0 -> mt_len SO t = mt_len SO t0 * sub_ + 1) /\
    (forall t0, nth_error ts 0 = Some t0 -> mt_row_count t = mt_row_count t0 + 1).
  Proof.
    unfold from_sub_trees. intros H. destruct (0 <? sub_); [|discriminate]. cbn [ensure rbind] in H.
    destruct (all_same SO mt_row_count ts); [|discriminate]. cbn [ensure rbind] in H.
    destruct (all_same SO (mt_len SO) ts); [|discriminate]. cbn [ensure rbind] in H.
    destruct (List.length ts =? sub_) eqn:G4; [|discriminate]. apply Nat.eqb_eq in G4. cbn [ensure rbind] in H.
    destruct ts as [|t0 ts]; [discriminate|]. unfold rnth in H. cbn [nth_error rbind] in H. injection H as <-.
    cbn [mt_leafs mt_root mt_row_count]. rewrite sum_by_fold. repeat split; intros t1 H1; injection H1 as <-; [|reflexivity].
    subst sub_. reflexivity.
  Qed.
  Lemma from_trees_data sub_ ts t : from_trees SO A sub_ ts = Ok t -> mt_data t = SubTree ts.
  Proof.
    unfold from_trees. intros H. destruct (0 <? sub_); [|discriminate]. cbn [ensure rbind] in H.
    destruct (all_same SO mt_row_count ts); [|discriminate]. cbn [ensure rbind] in H.
    destruct (all_same SO (mt_len SO) ts); [|discriminate]. cbn [ensure rbind] in H.
    destruct (List.length ts =? sub_) eqn:G4; [|discriminate]. cbn [ensure rbind] in H.
    destruct (rnth ts 0); try discriminate. cbn [rbind] in H. injection H as <-. reflexivity.
  Qed.
End Trees.
