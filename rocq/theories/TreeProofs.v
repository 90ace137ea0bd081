(* Proofs generated from and checked against trees over one store. *)
From Coq Require Import String List Arith Bool Lia Init.Byte ZifyBool ZifyNat.
From Verif Require Import Base Element Hash Sizing FS Sched Store VecStore ProofModel Tree ListFacts Spec SpecFacts SizingFacts SchedFacts StoreLaws RowFacts ChunkFacts BuildFacts BuildLoop StoreSpec FileFacts PopFacts TreeFacts ProofSpec ProofFacts.
Import ListNotations.

(* multi_node ignores its height argument (as the trait's default does) *)
Definition height_agnostic {E} (A : AlgOps E) : Prop :=
  forall k k' nodes, h_node A k nodes = h_node A k' nodes.

Lemma seq_nth_k n k : k < n -> nth_error (seq 0 n) k = Some k.
Proof.
  intros H. rewrite (nth_error_nth' _ 0) by (rewrite seq_length; auto). rewrite seq_nth by auto. reflexivity.
Qed.

Section Canon.
  Context {E : Type} (EO : ElementOps E) (EL : ElementLaws EO).
  Variable A : AlgOps E.
  Hypothesis AL : AlgLaws A.
  Variable b : nat.
  Hypothesis Hb : arity b.

  Definition canon (els : list E) (d i : nat) : proof E :=
    mk_proof None 0 0 (lemma_of b els d i) (path_of b d i).

  Lemma hv_ok : b = 2 \/ height_agnostic A -> forall k nodes, hv A b k nodes = h_node A k nodes.
  Proof. intros [->|H] k nodes; unfold hv; [cbn [Nat.sub]; rewrite Nat.mul_1_r; reflexivity|apply H]. Qed.

  Lemma canon_shape d leaves els i : Layout (h_node A) b d leaves els -> i < b ^ d -> base_shape b (canon els d i) d.
  Proof.
    intros HL Hi. repeat split. cbn [canon pf_lemma]. eapply lemma_of_length; eauto.
    cbn [canon pf_path]. rewrite path_of_length. lia.
  Qed.

  Lemma canon_ends d leaves els i x root : Layout (h_node A) b d leaves els -> i < b ^ d ->
    nth_error els i = Some x -> nth_error els (geom b d - 1) = Some root ->
    nth_error (lemma_of b els d i) 0 = Some x /\ nth_error (lemma_of b els d i) (S ((b - 1) * d)) = Some root.
  Proof.
    intros HL Hi Hx Hr. rewrite (lemma_of_eq b d els i x root) by auto. split; [reflexivity|].
    cbn [nth_error]. rewrite nth_error_app2; rewrite (flat_map_len _ (b - 1)).
    - rewrite (Nat.mul_comm d), Nat.sub_diag. reflexivity.
    - intros r Hr'. eapply sib_len; eauto. lia.
    - rewrite (Nat.mul_comm d). lia.
    - intros r Hr'. eapply sib_len; eauto. lia.
  Qed.

  Lemma path_of_digits d i : forallb (fun c => c <? b) (path_of b d i) = true.
  Proof.
    apply forallb_forall. intros c Hc. unfold path_of in Hc. apply in_map_iff in Hc. destruct Hc as (r & <- & _).
    pose proof (digit_lt b Hb r i). lia.
  Qed.

  (* climbing from leaf i along its canonical proof *)
  Lemma canon_valid d leaves els i : (b = 2 \/ height_agnostic A) ->
    Layout (h_node A) b d leaves els -> i < b ^ d -> validate EO A b (canon els d i) = Ok true.
  Proof.
    intros HA HL Hi. pose proof (arity_ge b Hb). pose proof HL as (L1 & L2 & L3). pose proof (geom_gt b d). pose proof (geom_pos b d).
    destruct (nth_error_ex els i ltac:(lia)) as [x Hx]. destruct (nth_error_ex els (geom b d - 1) ltac:(lia)) as [root Hr].
    destruct (canon_ends d leaves els i x root HL Hi Hx Hr) as [C1 C2].
    rewrite (validate_base_ok EO A AL b ltac:(lia) (canon els d i) d x root); auto.
    2:{ eapply canon_shape; eauto. }
    cbn [canon pf_lemma pf_path]. rewrite !(firstn_all2 (path_of b d i)) by (rewrite path_of_length; lia). rewrite path_of_digits. cbn [andb].
    rewrite (groups_lemma_of b Hb d leaves els _ HL i Hi). f_equal. apply (eqb_eq EO EL).
    pose proof (climb_complete b Hb d leaves els (h_node A) HL (hv A b) i) as HC.
    specialize (HC (fun k nodes _ => hv_ok HA k nodes) Hi d 0 x eq_refl). cbn [row_off Nat.add] in HC.
    change (b ^ 0) with 1 in HC. rewrite Nat.div_1_r in HC. specialize (HC Hx). rewrite Hr in HC. injection HC as HC. exact HC.
  Qed.

  (* the digits spell the index *)
  Lemma path_of_index : forall d i, i < b ^ d -> path_index b (path_of b d i) = i.
  Proof.
    pose proof (arity_ge b Hb) as H2.
    assert (G : forall n r i, i / b ^ r < b ^ n -> path_index b (map (fun r => digit b r i) (seq r n)) = i / b ^ r).
    { induction n; intros r i Hi; cbn [seq map path_index]; [change (b ^ 0) with 1 in Hi; apply Nat.lt_1_r in Hi; auto|].
      rewrite IHn.
      - rewrite <- (div_pow b Hb). unfold digit. pose proof (Nat.div_mod (i / b ^ r) b ltac:(lia)). lia.
      - rewrite <- (div_pow b Hb). apply Nat.div_lt_upper_bound; [lia|]. rewrite <- Nat.pow_succ_r'. exact Hi. }
    intros d i Hi. specialize (G d 0 i). change (b ^ 0) with 1 in G. rewrite Nat.div_1_r in G. auto.
  Qed.

  (* ---- soundness against a layout ---- *)
  Definition claimed_index (p : proof E) (n : nat) : nat := path_index b (firstn n (pf_path p)).

  (* the nodes validate hashes at level m *)
  Definition proof_nodes (p : proof E) (n m : nat) : list E :=
    match pf_lemma p with
    | x :: _ => climb_nodes (hv A b) 0 x (groups b (pf_lemma p) n) (firstn n (pf_path p)) m
    | [] => []
    end.

  Lemma base_sound d leaves els root p :
    Layout (h_node A) b d leaves els -> nth_error els (geom b d - 1) = Some root ->
    pf_sub_nodes p = 0 -> pf_top_nodes p = 0 -> levels_at b (List.length (pf_lemma p)) d ->
    validate EO A b p = Ok true -> pf_root p = Ok root ->
    claimed_index p d < b ^ d /\
    (pf_item p = rnth leaves (claimed_index p d) \/
     exists m, m < d /\
       proof_nodes p d m <> kids b els d m (claimed_index p d) /\
       List.length (proof_nodes p d m) = b /\ List.length (kids b els d m (claimed_index p d)) = b /\
       h_node A (m * (b - 1)) (proof_nodes p d m) = h_node A m (kids b els d m (claimed_index p d))).
  Proof.
    intros HL Hroot Hs Ht Hlev Hv Hr. pose proof (arity_ge b Hb) as H2.
    destruct (validate_base_true EO EL A AL b H2 p root Hs Ht Hv Hr) as (x & n & Hx & Hn & Hp & HG & HC & Hcl).
    assert (n = d) by (eapply levels_at_unique; eauto). subst n.
    assert (Lc : List.length (firstn d (pf_path p)) = d) by (rewrite firstn_length; lia).
    assert (Hi : claimed_index p d < b ^ d).
    { unfold claimed_index. rewrite <- Lc at 2. apply path_index_lt; auto. }
    split; [exact Hi|].
    destruct (climb_sound EO EL b Hb (hv A b) d leaves els (h_node A) HL d 0 x (groups b (pf_lemma p) d) (firstn d (pf_path p)))
      as [H|(m & Hm & H)]; auto.
    - unfold groups. rewrite map_length, seq_length. reflexivity.
    - rewrite Hcl, Hroot. reflexivity.
    - left. cbn [row_off Nat.add] in H. fold (claimed_index p d) in H. 
      unfold pf_item, rnth. destruct (pf_lemma p) as [|y l]; [discriminate|]. cbn in Hx. inv Hx.
      rewrite <- (Layout_leaf b ltac:(lia) (h_node A) d leaves els _ HL Hi), H. reflexivity.
    - right. exists m. split; [exact Hm|]. cbn zeta in H. unfold proof_nodes.
      destruct (pf_lemma p) as [|y l] eqn:EL'; [discriminate|]. cbn in Hx. inv Hx.
      unfold kids. unfold claimed_index at 1 2 3. rewrite path_index_div by auto. exact H.
  Qed.

  (* ---- replacing an element ---- *)
  Definition replace_nth (i : nat) (y : E) (l : list E) : list E := firstn i l ++ y :: skipn (S i) l.

  Lemma replace_nth_length i y l : i < List.length l -> List.length (replace_nth i y l) = List.length l.
  Proof. intros H. unfold replace_nth. rewrite app_length, firstn_length. cbn [List.length]. rewrite skipn_length. lia. Qed.
  Lemma replace_nth_nth i y l k : i < List.length l ->
    nth_error (replace_nth i y l) k = if k =? i then Some y else nth_error l k.
  Proof.
    intros H. unfold replace_nth. rewrite nth_error_app, firstn_length, Nat.min_l by lia.
    destruct (k <? i) eqn:G.
    - replace (k =? i) with false by lia. rewrite nth_error_firstn, G. reflexivity.
    - destruct (k =? i) eqn:G2; [replace (k - i) with 0 by lia; reflexivity|].
      replace (k - i) with (S (k - S i)) by lia. cbn [nth_error]. rewrite nth_error_skipn. f_equal. lia.
  Qed.

  Lemma base_tamper p D i y old :
    base_shape b p D -> validate EO A b p = Ok true ->
    nth_error (pf_lemma p) i = Some old -> y <> old ->
    let p' := mk_proof (pf_sub p) (pf_top_nodes p) (pf_sub_nodes p) (replace_nth i y (pf_lemma p)) (pf_path p) in
    validate EO A b p' = Ok false \/
    (validate EO A b p' = Ok true /\
     exists m, m < D /\ proof_nodes p D m <> proof_nodes p' D m /\
       h_node A (m * (b - 1)) (proof_nodes p D m) = h_node A (m * (b - 1)) (proof_nodes p' D m)).
  Proof.
    intros HS HV Hi Hy p'. pose proof (arity_ge b Hb) as H2. pose proof (nth_error_lt _ _ _ Hi) as Li.
    pose proof HS as (S1 & S2 & S3 & S4 & S5).
    assert (HS' : base_shape b p' D).
    { repeat split; auto. unfold p'. cbn [pf_lemma]. rewrite replace_nth_length by auto. exact S4. }
    destruct (lemma_ends b H2 _ _ S4) as (x & root & Hx & Hr & [t1 E1] & _).
    pose proof HS' as (_ & _ & _ & S4' & _).
    destruct (lemma_ends b H2 _ _ S4') as (x' & root' & Hx' & Hr' & [t1' E1'] & _).
    pose proof (validate_base_ok EO A AL b H2 p D x root HS Hx Hr) as V.
    pose proof (validate_base_ok EO A AL b H2 p' D x' root' HS' Hx' Hr') as V'.
    rewrite HV in V. injection V as V. symmetry in V. apply andb_prop in V. destruct V as [VF VE]. apply (eqb_eq EO EL) in VE.
    change (pf_path p') with (pf_path p) in V'. rewrite VF in V'. cbn [andb] in V'.
    destruct (e_eqb EO (climb (hv A b) 0 x' (groups b (pf_lemma p') D) (firstn D (pf_path p))) root') eqn:GE; [|left; exact V'].
    right. split; [exact V'|]. apply (eqb_eq EO EL) in GE.
    assert (HF : Forall (fun c => c < b) (firstn D (pf_path p))).
    { apply Forall_forall. intros c Hc. rewrite forallb_forall in VF. specialize (VF c Hc). lia. }
    assert (Gl : forall q : proof E, List.length (pf_lemma q) = 2 + (b - 1) * D -> forall g, In g (groups b (pf_lemma q) D) -> List.length g = b - 1).
    { intros q Hq g Hg. unfold groups in Hg. apply in_map_iff in Hg. destruct Hg as (k & <- & Hk). apply in_seq in Hk.
      apply sub_length_le. rewrite Hq. assert (GG : S k * (b - 1) <= D * (b - 1)) by (apply Nat.mul_le_mono_r; lia).
      cbn [Nat.mul] in GG. rewrite (Nat.mul_comm (b - 1) D). revert GG. generalize (k * (b - 1)) (D * (b - 1)). intros; lia. }
    assert (LG : forall q : proof E, List.length (groups b (pf_lemma q) D) = D) by (intros q; unfold groups; rewrite map_length, seq_length; reflexivity).
    unfold proof_nodes. rewrite E1, E1'. rewrite <- E1, <- E1'. change (pf_path p') with (pf_path p).
    assert (Nth : forall k, nth_error (pf_lemma p') k = if k =? i then Some y else nth_error (pf_lemma p) k).
    { intros k. unfold p'. cbn [pf_lemma]. apply replace_nth_nth. auto. }
    destruct (Nat.eq_dec i (S ((b - 1) * D))) as [Hil|Hil].
    - (* the root: the climb is unchanged *)
      exfalso. rewrite Nth, <- Hil, Nat.eqb_refl in Hr'. rewrite <- Hil, Hi in Hr.
      rewrite Nth in Hx'. replace (0 =? i) with false in Hx' by (rewrite Hil; reflexivity).
      assert (Q1 : root' = y) by congruence. assert (Q2 : root = old) by congruence. assert (Q3 : x' = x) by congruence.
      apply Hy. rewrite <- Q1, <- Q2, <- VE, <- GE, Q3. f_equal. unfold groups. apply map_ext_in. intros k Hk. apply in_seq in Hk.
      apply nth_error_ext. intros j. rewrite !nth_error_sub. destruct (j <? b - 1) eqn:Gj; [|reflexivity]. rewrite Nth.
      replace (_ =? _) with false; [reflexivity|].
      assert (GG : S k * (b - 1) <= D * (b - 1)) by (apply Nat.mul_le_mono_r; lia).
      cbn [Nat.mul] in GG. symmetry. apply Nat.eqb_neq. rewrite Hil, (Nat.mul_comm (b - 1) D).
      apply Nat.ltb_lt in Gj. clear - GG Gj. revert GG Gj. generalize (k * (b - 1)) (D * (b - 1)). intros; lia.
    - assert (QR : root' = root).
      { rewrite Nth in Hr'. replace (S ((b - 1) * D) =? i) with false in Hr' by (symmetry; apply Nat.eqb_neq; auto). congruence. }
      rewrite QR, <- VE in GE. symmetry in GE.
      destruct (climb_same EO EL b Hb (hv A b) D 0 x x' (groups b (pf_lemma p) D) (groups b (pf_lemma p') D) (firstn D (pf_path p)))
        as [[X1 X2]|(m & Hm & H)]; auto.
      + rewrite firstn_length. lia.
      + apply Gl; auto.
      + apply Gl; auto.
      + (* all parts equal: contradiction *)
        exfalso. apply Hy. destruct i as [|i].
        * rewrite Nth in Hx'. cbn in Hx'. congruence.
        * (* i is in group i/(b-1) *)
          set (k := i / (b - 1)). set (j := i mod (b - 1)).
          assert (Hdm : i = (b - 1) * k + j) by (apply Nat.div_mod; lia).
          assert (Hj : j < b - 1) by (apply Nat.mod_upper_bound; lia).
          assert (Hk : k < D). { apply Nat.div_lt_upper_bound; [lia|]. rewrite S4 in Li. lia. }
          assert (XK : sub (pf_lemma p) (1 + k * (b - 1)) (b - 1) = sub (pf_lemma p') (1 + k * (b - 1)) (b - 1)).
          { unfold groups in X2. apply (f_equal (fun l => nth_error l k)) in X2.
            rewrite !(map_nth_error _ _ _ (seq_nth_k D k Hk)) in X2. congruence. }
          apply (f_equal (fun l => nth_error l j)) in XK. rewrite !nth_error_sub in XK. replace (j <? b - 1) with true in XK by lia.
          replace (1 + k * (b - 1) + j) with (S i) in XK by (rewrite (Nat.mul_comm k); lia).
          rewrite Nth, Nat.eqb_refl, Hi in XK. congruence.
      + exists m. auto.
  Qed.

  (* ---- two trees with the same root ---- *)
  Lemma children_collision d leaves els leaves' els' :
    Layout (h_node A) b d leaves els -> Layout (h_node A) b d leaves' els' ->
    nth_error els (geom b d - 1) = nth_error els' (geom b d - 1) ->
    leaves = leaves' \/
    exists r j, r < d /\ j < b ^ (d - S r) /\
      let mine := sub els (row_off b d r + j * b) b in
      let theirs := sub els' (row_off b d r + j * b) b in
      List.length mine = b /\ List.length theirs = b /\ mine <> theirs /\ h_node A r mine = h_node A r theirs.
  Proof.
    intros HL HL' Hroot. pose proof (arity_ge b Hb) as H2.
    set (Coll := exists r j, _).
    assert (G : forall n r, r + n = d ->
      (forall j, j < b ^ n -> nth_error els (row_off b d r + j) = nth_error els' (row_off b d r + j)) \/ Coll).
    { induction n; intros r Hr.
      - left. intros j Hj. change (b ^ 0) with 1 in Hj. assert (r = d) by lia. subst r.
        replace j with 0 by lia. rewrite row_off_last, Nat.add_0_r. exact Hroot.
      - assert (Step : (forall q, q <= b ^ n -> (forall c, c < q -> sub els (row_off b d (r) + c * b) b = sub els' (row_off b d r + c * b) b) \/ Coll) -> 
          (forall j, j < b ^ S n -> nth_error els (row_off b d r + j) = nth_error els' (row_off b d r + j)) \/ Coll).
        { intros Hq. destruct (Hq (b ^ n) (le_n _)) as [HE|HC]; [left|right; exact HC].
          intros j Hj. assert (Hd : j / b < b ^ n) by (apply Nat.div_lt_upper_bound; [lia|rewrite <- Nat.pow_succ_r'; exact Hj]).
          specialize (HE (j / b) Hd). apply (f_equal (fun l => nth_error l (j mod b))) in HE.
          rewrite !nth_error_sub in HE. pose proof (Nat.mod_upper_bound j b ltac:(lia)).
          replace (j mod b <? b) with true in HE by lia.
          replace (row_off b d r + j) with (row_off b d r + j / b * b + j mod b); [exact HE|].
          pose proof (Nat.div_mod j b ltac:(lia)). lia. }
        apply Step. clear Step.
        destruct (IHn (S r) ltac:(lia)) as [HP|HC]; [|intros; right; exact HC].
        induction q; intros Hq; [left; lia|]. destruct (IHq ltac:(lia)) as [HE|HC]; [|right; exact HC].
        destruct (list_dec EO EL (sub els (row_off b d r + q * b) b) (sub els' (row_off b d r + q * b) b)) as [D|D].
        + left. intros c Hc. destruct (Nat.eq_dec c q) as [->|]; [exact D|apply HE; lia].
        + right. exists r, q. assert (Hq' : q < b ^ (d - S r)) by (replace (d - S r) with n by lia; lia).
          split; [lia|]. split; [exact Hq'|]. cbn zeta.
          assert (HB : row_off b d r + q * b + b <= geom b d).
          { pose proof (row_off_geom b d (S r) ltac:(lia)) as G. rewrite row_off_step in G.
            replace (d - r) with (S n) in G by lia. rewrite Nat.pow_succ_r' in G.
            assert (b * S q <= b * b ^ n) by (apply Nat.mul_le_mono_l; lia). lia. }
          pose proof HL as (_ & LE & _). pose proof HL' as (_ & LE' & _).
          repeat split; auto; try (apply sub_length_le; lia).
          specialize (HP q ltac:(lia)).
          rewrite (layout_parent b Hb d leaves els _ HL) in HP by (auto; lia).
          rewrite (layout_parent b Hb d leaves' els' _ HL') in HP by (auto; lia). congruence. }
    destruct (G d 0 eq_refl) as [H|H]; [left|right; exact H].
    cbn [row_off Nat.add] in H. pose proof HL as (L1 & _ & _). pose proof HL' as (L1' & _ & _).
    apply list_ext; [congruence|]. intros i Hi. rewrite L1 in Hi.
    rewrite <- (Layout_leaf b ltac:(lia) _ d leaves els i HL Hi), <- (Layout_leaf b ltac:(lia) _ d leaves' els' i HL' Hi). auto.
  Qed.

  (* ---- validate is total on what Proof::new accepts ---- *)
  Lemma proof_new_inv (lemma : list E) path p : proof_new b 0 0 None lemma path = Ok p ->
    p = mk_proof None 0 0 lemma path /\ List.length lemma = 2 + (b - 1) * List.length path.
  Proof.
    clear Hb. unfold proof_new. cbn [Nat.eqb andb]. destruct (2 <? List.length lemma); [|discriminate]. cbn [ensure rbind].
    destruct (get_merkle_proof_lemma_len (List.length path + 1) b) as [n| | |] eqn:EN; try discriminate. cbn [rbind].
    destruct (List.length lemma =? n) eqn:G; [|discriminate]. cbn [ensure rbind]. intros H. inv H. split; [reflexivity|].
    apply Nat.eqb_eq in G. rewrite G. unfold get_merkle_proof_lemma_len in EN.
    destruct (checked_sub b 1) as [b1| | |] eqn:E1; try discriminate. cbn [rbind] in EN.
    destruct (checked_sub (List.length path + 1) 1) as [r1| | |] eqn:E2; try discriminate. cbn [rbind] in EN.
    unfold checked_sub in E1, E2. destruct (1 <=? b); [|discriminate]. destruct (1 <=? List.length path + 1); [|discriminate].
    inv E1. inv E2. inv EN. rewrite Nat.add_sub. reflexivity.
  Qed.
End Canon.

Section TreeP.
  Context {E : Type} (EO : ElementOps E) (EL : ElementLaws EO) (SO : StoreOps E).
  Local Notation T := (st_t SO).
  Variable owner : T -> option nat.
  Variable W : T -> Prop.
  Variable Rep : nat -> nat -> (nat -> option E) -> T * fs -> Prop.
  Variable np : bool.
  Hypothesis SL : StoreLaws EO SO owner W Rep np.
  Variable A : AlgOps E.
  Hypothesis AL : AlgLaws A.
  Variable b : nat.
  Hypothesis Hb : arity b.

  Lemma gen_proof_base_ok t s f d leaves els i :
    TreeAt SO Rep A b t s f d leaves els -> i < b ^ d ->
    gen_proof_base SO b 0 0 t s f i = Ok (canon b els d i).
  Proof.
    intros HT Hi. pose proof (arity_ge b Hb) as H2. pose proof HT as [T1 T2 T3 T4 T5 T6 T7 T8].
    unfold gen_proof_base. rewrite T3, T5. replace (i <? b ^ d) with true by lia. cbn [ensure rbind].
    replace (b ^ d =? next_pow2 (b ^ d)) with true by (symmetry; apply next_pow2_eqb', pow2_pow, arity_pow2; auto).
    rewrite (arity_next b Hb), Nat.eqb_refl. cbn [ensure rbind].
    rewrite lemma_len_ok by lia. cbn [rbind]. rewrite checked_sub_ok by lia. cbn [rbind Nat.eqb ensure].
    pose proof T6 as (L1 & L2 & L3). pose proof (geom_gt b d).
    destruct (nth_error_ex els i ltac:(lia)) as [x Hx].
    rewrite (ta_read_at EO SO owner W Rep np SL A b t s f d leaves els i x HT Hx). cbn [rbind].
    rewrite (ta_mt_len EO SO owner W Rep np SL A b t s f d leaves els HT).
    pose proof (proof_loop_spec b Hb d leaves els _ T6 (fun _ idx => st_read_at SO (s, f) idx) i) as PL.
    specialize (PL (fun _ k x Hk => ta_read_at EO SO owner W Rep np SL A b t s f d leaves els k x HT Hk) Hi d 0 (S (geom b d)) eq_refl).
    cbn [row_off] in PL. change (b ^ 0) with 1 in PL. rewrite Nat.div_1_r in PL.
    rewrite PL.
    2:{ pose proof (Nat.pow_gt_lin_r b d ltac:(lia)). lia. }
    cbn [rbind]. rewrite <- (lemma_of_eq b d els i x (mt_root t) Hi Hx T7).
    rewrite (lemma_of_length b Hb d leaves els _ T6 i Hi). replace (S d - 1) with d by lia. rewrite Nat.eqb_refl. cbn [ensure rbind].
    fold (path_of b d i). rewrite path_of_length, Nat.eqb_refl. cbn [ensure rbind].
    unfold proof_new. cbn [Nat.eqb andb]. rewrite (lemma_of_length b Hb d leaves els _ T6 i Hi).
    replace (2 <? 2 + (b - 1) * d) with true.
    2:{ symmetry. apply Nat.ltb_lt. assert (1 * 1 <= (b - 1) * d) by (apply Nat.mul_le_mono; lia). lia. }
    cbn [ensure rbind]. rewrite path_of_length, lemma_len_ok by lia. cbn [rbind].
    rewrite Nat.add_sub, Nat.eqb_refl. reflexivity.
  Qed.

  Lemma gen_proof_ok t s f d leaves els i :
    TreeAt SO Rep A b t s f d leaves els -> i < b ^ d ->
    gen_proof SO b 0 0 t f i = Ok (canon b els d i).
  Proof.
    intros HT Hi. unfold gen_proof. cbn [gen_proof_n]. rewrite (ta_data _ _ _ _ _ _ _ _ _ _ HT).
    eapply gen_proof_base_ok; eauto.
  Qed.

  Lemma gen_proof_base_oob t s f d leaves els i sub_ top :
    TreeAt SO Rep A b t s f d leaves els -> b ^ d <= i ->
    exists e, gen_proof_base SO b sub_ top t s f i = Err e.
  Proof.
    intros HT Hi. pose proof HT as [T1 T2 T3 T4 T5 T6 T7 T8]. unfold gen_proof_base. rewrite T3.
    replace (i <? b ^ d) with false by lia. eexists. reflexivity.
  Qed.
End TreeP.

Lemma proof_new_ge2 {E} b (lemma : list E) path p : proof_new b 0 0 None lemma path = Ok p -> 2 <= b.
Proof.
  intros H. destruct (proof_new_inv b lemma path p H) as [_ HL]. revert H. unfold proof_new. cbn [Nat.eqb andb].
  destruct (2 <? List.length lemma) eqn:G; [|discriminate]. intros _.
  destruct b as [|[|b]]; [| |lia]; cbn in HL; lia.
Qed.
Lemma gen_proof_base_oob' {E} (SO : StoreOps E) b (t : mtree (st_t SO) E) s f i sub_ top :
  mt_data t = BaseTree s -> mt_leafs t <= i -> exists e, gen_proof SO b sub_ top t f i = Err e.
Proof.
  intros Hs Hi. unfold gen_proof. cbn [gen_proof_n]. rewrite Hs. unfold gen_proof_base.
  replace (i <? mt_leafs t) with false by lia. eexists. reflexivity.
Qed.
