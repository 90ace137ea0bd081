(* What exactly happens in the cases left out by partial theorems: C21, C30, C44, C45, C61. *)
From Coq Require Import String List Arith NArith Bool Lia Init.Byte ZifyBool ZifyNat.
From Verif Require Import Base Element Hash Sizing FS Sched Store VecStore DiskStore MmapStore LevelCache ProofModel Tree ListFacts Spec SpecFacts SizingFacts SchedFacts StoreLaws RowFacts ChunkFacts BuildFacts BuildLoop StoreSpec FileFacts VecFacts DiskFacts MmapFacts PopFacts TreeFacts ProofSpec ProofFacts TreeProofs TreeObs Builders CompoundFacts CompoundTrees CompoundGroups CompoundBuilt Cases Props_Build Props_Proof Props_Compound Props_Tamper.
Import ListNotations.

(* ---------------- C30 ---------------- *)
(* the lengths accepted for arity 2: those of binary trees, and those minus one *)
Theorem C30_arity2 : forall len,
  (forall n, get_merkle_tree_leafs len 2 = Ok n <-> exists d, n = 2 ^ d /\ (len = 2 * n - 1 \/ len = 2 * n - 2)) /\
  ((forall d, len <> 2 * 2 ^ d - 1 /\ len <> 2 * 2 ^ d - 2) -> exists e, get_merkle_tree_leafs len 2 = Err e).
Proof.
  intros len. unfold get_merkle_tree_leafs. change (next_pow2 2) with 2. cbn [Nat.eqb ensure rbind].
  assert (HD : Nat.shiftr len 1 = len / 2) by (rewrite Nat.shiftr_div_pow2; reflexivity). rewrite HD.
  pose proof (Nat.div_mod len 2 ltac:(lia)) as DM. pose proof (Nat.mod_upper_bound len 2 ltac:(lia)) as MU.
  revert DM MU. clear HD. generalize (len / 2) (len mod 2). intros q m DM MU.
  destruct (q + 1 =? next_pow2 (q + 1)) eqn:G; cbn [ensure rbind].
  - apply next_pow2_eqb' in G. split.
    + intros n. split.
      * intros H. assert (Hn : q + 1 = n) by congruence. destruct G as [d G]. exists d. split; [congruence|lia].
      * intros (d & Hn & H). f_equal. assert (0 < n) by (rewrite Hn; apply SpecFacts.pow_pos; lia). lia.
    + intros H. destruct G as [d G]. specialize (H d). lia.
  - apply next_pow2_neqb' in G. split; [|eauto].
    intros n. split; [discriminate|]. intros (d & Hn & H). exfalso. apply G. exists d.
    assert (0 < n) by (rewrite Hn; apply SpecFacts.pow_pos; lia). lia.
Qed.
Example C30_arity2_case : get_merkle_tree_leafs 14 2 = Ok 8 /\ get_merkle_tree_leafs 15 2 = Ok 8 /\
  match get_merkle_tree_leafs 13 2, get_merkle_tree_leafs 16 2 with Err _, Err _ => True | _, _ => False end.
Proof. vm_compute. auto. Qed.

(* ---------------- C21 ---------------- *)
(* every out-of-range index of a compound tree: a panic *)
Lemma over_out {E} (SO : StoreOps E) (t : mtree (st_t SO) E) ts n i : Over SO t ts n -> mt_leafs t <= i ->
  mt_leafs t / List.length ts = n /\ nth_error ts (i / n) = None.
Proof.
  intros (H1 & H2 & _ & H3) Hi. rewrite H3 in *. split; [rewrite Nat.mul_comm; apply Nat.div_mul; lia|].
  apply nth_error_None. apply Nat.div_le_lower_bound; [lia|]. rewrite Nat.mul_comm. exact Hi.
Qed.

Lemma over_panics {E} (SO : StoreOps E) b sub_ top (t : mtree (st_t SO) E) f ts n i :
  Over SO t ts n -> mt_leafs t <= i ->
  (mt_data t = SubTree ts /\ sub_ = List.length ts) \/ (mt_data t = TopTree ts /\ top = List.length ts) ->
  (exists m, gen_proof SO b sub_ top t f i = Panic m) /\ (exists m, mt_read_at SO sub_ top t f i = Panic m).
Proof.
  intros HO Hi HD. destruct (over_out SO t ts n i HO Hi) as [D1 D2]. pose proof HO as (O1 & O2 & _).
  unfold gen_proof, mt_read_at. cbn [gen_proof_n mt_read_at_n].
  destruct HD as [[HD ->]|[HD ->]]; rewrite HD; unfold gen_sub_tree_proof; replace (List.length ts =? 0) with false by lia; cbn [negb ensure rbind orb];
    rewrite D1; unfold mt_sub_trees, mt_base_trees; rewrite HD; replace (n =? 0) with false by lia;
    cbn [rbind]; rewrite Nat.eqb_refl; cbn [ensure rbind]; unfold rnth; rewrite D2; split; eexists; reflexivity.
Qed.

Theorem C21_compound_panics : forall E (EO : ElementOps E) A SO np en b,
  setting EO A SO np en b ->
  (forall lss f ts f' sub_ t i, built_all EO SO A en b lss f ts f' -> from_trees SO A sub_ ts = Ok t -> mt_leafs t <= i ->
     (exists m, gen_proof SO b sub_ 0 t f' i = Panic m) /\ (exists m, mt_read_at SO sub_ 0 t f' i = Panic m)) /\
  (forall lss f gs f' sub_ top subs t i, built_all EO SO A en b lss f (concat gs) f' ->
     rmap (from_trees SO A sub_) gs = Ok subs -> from_sub_trees SO A top subs = Ok t -> mt_leafs t <= i ->
     (exists m, gen_proof SO b sub_ top t f' i = Panic m) /\ (exists m, mt_read_at SO sub_ top t f' i = Panic m)).
Proof.
  intros E EO A SO np en b (EL & AL & HS & Hb & Hch). split.
  - intros lss f ts f' sub_ t i HB HT Hi.
    destruct (built_sub EO EL A AL en b Hb Hch SO np HS lss f ts f' sub_ t HB HT) as (d & ess & HL & HSA).
    eapply over_panics; [eapply SubAt_over; eauto|exact Hi|]. left. split; [apply (sa_data _ _ _ _ _ _ _ _ _ HSA)|auto].
  - intros lss f gs f' sub_ top subs t i HB HR HT Hi.
    destruct (built_top EO EL A AL en b Hb Hch SO np HS lss f gs f' sub_ top subs t HB HR HT) as (d & ls & HL & Hls & HTA).
    eapply over_panics; [eapply TopAt_over; eauto|exact Hi|]. right. split; [apply (pa_data _ _ _ _ _ _ _ _ _ HTA)|auto].
Qed.

(* and every out-of-range read of a tree in memory *)
Theorem C21_vec_panics : forall E (EO : ElementOps E) sub_ top (t : mtree (st_t (vec_store EO)) E) s f i,
  mt_data t = BaseTree s -> st_len (vec_store EO) s <= i -> exists m, mt_read_at (vec_store EO) sub_ top t f i = Panic m.
Proof.
  intros E EO sub_ top t s f i HD Hi. unfold mt_read_at. cbn [mt_read_at_n]. rewrite HD.
  cbn [st_read_at vec_store st_len] in *. unfold vec_read_at, rnth. cbn [fst]. rewrite (proj2 (nth_error_None _ _)) by exact Hi.
  eexists. reflexivity.
Qed.
Example C21_panics_case :
  match case_sub (disk_store BO) sum_alg 2 3 [xs4 1; xs4 9; xs4 5] with
  | Some (t, f) => mt_leafs t = 12 /\ is_ok (mt_read_at (disk_store BO) 3 0 t f 11) = true /\
      match mt_read_at (disk_store BO) 3 0 t f 12, gen_proof (disk_store BO) 2 3 0 t f 40 with Panic _, Panic _ => True | _, _ => False end
  | None => False
  end.
Proof. vm_compute. auto. Qed.

(* ---------------- C45 ---------------- *)
(* the item of a proof of a two-layer tree: the root of the first other tree, or the root
   of the whole when there is no other *)
Theorem C45_compound_item : forall E (EO : ElementOps E) A SO np en b lss f ts f' sub_ t i y,
  setting EO A SO np en b -> height_agnostic A -> built_all EO SO A en b lss f ts f' -> from_trees SO A sub_ ts = Ok t ->
  i < mt_leafs t ->
  let n := mt_leafs t / sub_ in
  exists p r, gen_proof SO b sub_ 0 t f' i = Ok p /\ pf_item p = Ok r /\
    r = nth (if i / n =? 0 then 1 else 0) (map mt_root ts) (mt_root t) /\
    validate_with_data EO A b p y = Ok (e_eqb EO (h_leaf A (hash_of A y)) r).
Proof.
  intros E EO A SO np en b lss f ts f' sub_ t i y HSet HA HB HT Hi n. pose proof HSet as (EL & AL & HS & Hb & Hch).
  destruct (built_sub EO EL A AL en b Hb Hch SO np HS lss f ts f' sub_ t HB HT) as (d & ess & HL & HSA).
  pose proof (SubAt_over SO A b Hb t f' d ts lss ess HSA) as HO. destruct (over_div SO t ts (b ^ d) i HO Hi) as [D1 D2].
  assert (Hn : n = b ^ d) by (unfold n; rewrite <- HL; exact D1). rewrite Hn. clear n Hn.
  destruct (SubAt_child SO A b Hb t f' d ts lss ess i HSA Hi) as (tk & lv & es & C1 & C2 & C3 & HF & C4).
  assert (G : gen_proof SO b sub_ 0 t f' i = Ok (sub_proof SO b ts (mt_root t) d es i)).
  { unfold gen_proof. rewrite <- HL. eapply (SubAt_gen SO A b Hb 1); eauto. }
  destruct (C12_complete E EO A SO np en b lss f ts f' sub_ t i HSet HA HB HT Hi) as (p & P1 & P2).
  rewrite G in P1. injection P1 as <-.
  set (k := i / b ^ d) in *.
  assert (HI : pf_item (sub_proof SO b ts (mt_root t) d es i) = Ok (nth (if k =? 0 then 1 else 0) (map mt_root ts) (mt_root t))).
  { unfold pf_item, sub_proof. cbn [pf_lemma]. fold k. unfold remove_at.
    destruct ts as [|t0 ts]; [cbn in D2; lia|]. destruct k as [|k]; cbn [Nat.eqb map firstn skipn app nth].
    - destruct ts as [|t1 ts]; reflexivity.
    - reflexivity. }
  eexists _, _. split; [exact G|]. split; [exact HI|]. split; [reflexivity|].
  unfold validate_with_data, hash_of, h_leaf.
  destruct (a_hash A (hash_into A (a_default A) y)) as [item a]. rewrite AL. cbn [fst].
  destruct (a_leaf A (a_default A) item) as [lh a2]. cbn [fst]. rewrite HI. cbn [rbind]. rewrite P2. destruct (e_eqb EO _ _); reflexivity.
Qed.

Lemma Ok_inj {X} (x y : X) : Ok x = Ok y -> x = y.
Proof. congruence. Qed.

(* ---------------- C61 ---------------- *)
(* a layer above the base has what the check of that layer touches *)
Definition solid {E} (p : proof E) : Prop :=
  let n := layer_arity p in
  match pf_path p with
  | [] => False
  | c :: _ => if c <? n then 0 < pf_sub_nodes p /\ n - 1 <= List.length (pf_lemma p) /\ 0 < List.length (pf_lemma p)
              else n <= List.length (pf_lemma p)
  end.

Lemma place_mid_panic {E} (lemma : list E) off c m0 : forall n s cur, s <= c < s + n ->
  exists m, place_nodes lemma off (Ok c) (Panic m0) (seq s n) cur = Panic m.
Proof.
  induction n; intros s cur H; [lia|]. cbn [seq place_nodes rbind]. destruct (s =? c) eqn:G; cbn [rbind]; [eauto|].
  unfold rnth. destruct (nth_error lemma (off + cur)) as [x|]; cbn [rbind]; [|eauto].
  destruct (IHn (S s) (S cur) ltac:(lia)) as [m ->]. cbn [rbind]. eauto.
Qed.

Lemma layer_value {E} (EO : ElementOps E) A b (AL : AlgLaws A) sp top sub_ lemma c path x r :
  let p := mk_proof (Some sp) top sub_ lemma (c :: path) in
  let n := layer_arity p in
  0 < sub_ -> c < n -> n - 1 <= List.length lemma -> pf_root sp = Ok x -> pf_root p = Ok r ->
  validate EO A b sp = Ok true ->
  validate EO A b p = Ok (e_eqb EO (h_node A 0 (insert_at c x (firstn (n - 1) lemma))) r).
Proof.
  intros p n Hs Hc Hl Hx Hr HV.
  transitivity (validate_top EO A p n).
  { subst n p. unfold layer_arity. cbn [validate pf_top_nodes pf_sub_nodes pf_sub]. rewrite HV. cbn [rbind negb].
    destruct (0 <? top); [reflexivity|]. replace (0 <? sub_) with true by lia. reflexivity. }
  unfold validate_top. unfold rnth at 1. cbn [pf_path p nth_error].
  unfold pf_sub_tree_root. cbn [pf_sub pf_sub_nodes p]. replace (0 <? sub_) with true by lia. rewrite Hx.
  destruct (place_in 2 (le_n 2) (pf_lemma p) 0 c x n 0 0 ltac:(lia)) as [P _]. rewrite P by (cbn [pf_lemma p]; lia). cbn [rbind].
  rewrite checked_sub_ok by lia. cbn [rbind]. rewrite Nat.add_0_l, Nat.eqb_refl, Nat.sub_0_r, sub_0. cbn [negb].
  pose proof (reset_multi A AL (a_default A) (insert_at c x (firstn (n - 1) (pf_lemma p))) 0) as HR.
  destruct (a_multi_node A (a_reset A (a_default A)) _ 0) as [h a'] eqn:EM. cbn [fst] in HR. rewrite Hr. cbn [rbind]. rewrite HR. reflexivity.
Qed.

(* one layer, whatever is in it: the outcome of the inner proof, or Ok exactly when the
   layer is solid and a panic otherwise *)
Theorem C61_layers_exact : forall E (EO : ElementOps E) A b p,
  AlgLaws A -> 0 < pf_top_nodes p \/ 0 < pf_sub_nodes p ->
  match pf_sub p with
  | None => exists e, validate EO A b p = Err e
  | Some sp =>
      match validate EO A b sp with
      | Ok true => (solid p -> exists v, validate EO A b p = Ok v) /\ (~ solid p -> exists m, validate EO A b p = Panic m)
      | r => validate EO A b p = r
      end
  end.
Proof.
  intros E EO A b p AL HN. destruct p as [sp top sub_ lemma path]. cbn [pf_sub pf_top_nodes pf_sub_nodes] in *.
  assert (HE : forall s, sp = Some s -> forall r, validate EO A b s = r -> r <> Ok true ->
    validate EO A b (mk_proof (Some s) top sub_ lemma path) = r).
  { intros s -> r Hr Hne. cbn [validate pf_top_nodes pf_sub_nodes pf_sub]. rewrite Hr.
    destruct (0 <? top) eqn:G; [|replace (0 <? sub_) with true by lia]; destruct r as [[]|?|?|]; try reflexivity; congruence. }
  destruct sp as [sp|].
  2:{ cbn [validate pf_top_nodes pf_sub_nodes pf_sub]. destruct (0 <? top) eqn:G; [|replace (0 <? sub_) with true by lia]; eauto. }
  destruct (validate EO A b sp) as [[]|?|?|] eqn:HV; try (eapply HE; eauto; congruence). clear HE.
  set (p := mk_proof (Some sp) top sub_ lemma path). set (n := layer_arity p).
  assert (Hn0 : 0 < n) by (unfold n, layer_arity; cbn [pf_top_nodes pf_sub_nodes p]; destruct (0 <? top) eqn:G; lia).
  destruct (validate_root EO A b sp HV) as [x Hx].
  assert (T : validate EO A b p = validate_top EO A p n).
  { subst n p. unfold layer_arity. cbn [validate pf_top_nodes pf_sub_nodes pf_sub]. rewrite HV. cbn [rbind negb].
    destruct (0 <? top) eqn:G; [reflexivity|]. replace (0 <? sub_) with true by lia. reflexivity. }
  assert (R0 : lemma <> [] -> exists r, pf_root p = Ok r).
  { intros H. unfold pf_root. cbn [pf_lemma p]. destruct (rev lemma) as [|y l] eqn:ER; [|eauto]. exfalso. apply H.
    rewrite <- (rev_involutive lemma), ER. reflexivity. }
  unfold solid. fold n. change (pf_path p) with path. change (pf_lemma p) with lemma. change (pf_sub_nodes p) with sub_.
  destruct path as [|c path].
  { split; [tauto|]. intros _. rewrite T. unfold validate_top. unfold rnth at 1. cbn [pf_path p nth_error].
    rewrite (place_panic_at 2 (le_n 2)) by lia. eexists. reflexivity. }
  destruct (c <? n) eqn:G.
  - apply Nat.ltb_lt in G. destruct (Nat.eq_dec sub_ 0) as [Z|NZ].
    { split; [lia|]. intros _. rewrite T. unfold validate_top. unfold rnth at 1. cbn [pf_path p nth_error].
      unfold pf_sub_tree_root. cbn [pf_sub pf_sub_nodes p]. replace (0 <? sub_) with false by lia.
      destruct (place_mid_panic (pf_lemma p) 0 c "assertion failed: sub_tree_layer_nodes > 0 && sub_tree_proof.is_some()" n 0 0 ltac:(lia)) as [m Hm].
      rewrite Hm. eexists. reflexivity. }
    split.
    + intros (_ & H1 & H2). destruct R0 as [r Hr]; [intros ->; cbn in H2; lia|].
      eexists. apply (layer_value EO A b AL sp top sub_ lemma c path x r); auto. lia.
    + intros H. rewrite T. unfold validate_top. unfold rnth at 1. cbn [pf_path p nth_error].
      unfold pf_sub_tree_root. cbn [pf_sub pf_sub_nodes p]. replace (0 <? sub_) with true by lia. rewrite Hx. change (pf_lemma p) with lemma.
      destruct (place_in 2 (le_n 2) lemma 0 c x n 0 0 ltac:(lia)) as [P P'].
      destruct (le_lt_dec (n - 1) (List.length lemma)) as [L|L].
      * destruct lemma as [|y l]; [|cbn [List.length] in *; lia].
        rewrite P by lia. cbn [rbind]. rewrite checked_sub_ok by lia. cbn [rbind]. rewrite Nat.add_0_l, Nat.eqb_refl. cbn [negb].
        destruct (a_multi_node A _ _ 0) as [h a']. eexists. reflexivity.
      * destruct P' as [m Hm]; [lia|lia|]. rewrite Hm. eexists. reflexivity.
  - apply Nat.ltb_ge in G. rewrite T. unfold validate_top. change (rnth (pf_path p) 0) with (@Ok nat c). change (pf_lemma p) with lemma.
    destruct (place_out 2 (le_n 2) lemma 0 c (pf_sub_tree_root p) n 0 0 ltac:(lia)) as [P P'].
    split; intros H.
    + rewrite P by lia. cbn [rbind]. rewrite checked_sub_ok by lia. cbn [rbind]. replace (0 + n =? n - 1) with false by lia. eexists. reflexivity.
    + destruct P' as [m Hm]; [lia|lia|]. rewrite Hm. eexists. reflexivity.
Qed.

(* ---------------- C44 ---------------- *)
(* from_trees through a type with a top arity: the proof is made; it validates exactly when
   the two arities are equal *)
Theorem C44_from_trees_exact : forall E (EO : ElementOps E) A SO np en b lss f ts f' sub_ top t i,
  setting EO A SO np en b -> height_agnostic A -> built_all EO SO A en b lss f ts f' ->
  from_trees SO A sub_ ts = Ok t -> 0 < top -> i < mt_leafs t ->
  exists p, gen_proof SO b sub_ top t f' i = Ok p /\
    (top = sub_ -> validate EO A b p = Ok true) /\
    (S sub_ < top -> exists m, validate EO A b p = Panic m) /\
    (top < sub_ \/ top = S sub_ -> validate EO A b p = Ok false \/
       exists xs, List.length xs = top /\ List.length (map mt_root ts) = sub_ /\ h_node A 0 xs = h_node A 0 (map mt_root ts)).
Proof.
  intros E EO A SO np en b lss f ts f' sub_ top t i HSet HA HB HT Htop Hi. pose proof HSet as (EL & AL & HS & Hb & Hch).
  destruct (built_sub EO EL A AL en b Hb Hch SO np HS lss f ts f' sub_ t HB HT) as (d & ess & HL & HSA).
  pose proof (SubAt_over SO A b Hb t f' d ts lss ess HSA) as HO. destruct (over_div SO t ts (b ^ d) i HO Hi) as [D1 D2].
  destruct (SubAt_child SO A b Hb t f' d ts lss ess i HSA Hi) as (tk & lv & es & C1 & C2 & C3 & HF & C4).
  destruct (div_mod_lt i (b ^ d) (CompoundTrees.pow_pos b Hb d)) as [M1 M2].
  set (k := i / b ^ d) in *. set (sp := canon b es d (i mod b ^ d)).
  set (lemma := remove_at k (map mt_root ts) ++ [mt_root t]).
  assert (HV : validate EO A b sp = Ok true).
  { apply (canon_valid EO EL A AL b Hb d lv es); auto; apply (ft_layout _ _ _ _ _ _ _ _ HF). }
  assert (HX : pf_root sp = Ok (mt_root tk)) by (apply (canon_root SO A b Hb tk f' d lv es (i mod b ^ d) HF M1)).
  assert (LL : List.length (remove_at k (map mt_root ts)) = sub_ - 1).
  { rewrite remove_at_nth, map_length by (rewrite map_length; exact D2). lia. }
  assert (G : gen_proof SO b sub_ top t f' i = Ok (mk_proof (Some sp) top sub_ lemma [k])).
  { unfold gen_proof. rewrite (gen_sub_tree_proof_unfold_sub SO b 2 _ top t f' i ts (sa_data _ _ _ _ _ _ _ _ _ HSA)). rewrite <- HL.
    apply (gen_sub_tree_proof_ok SO b _ (List.length ts) top t ts (b ^ d) i false tk sp); auto.
    - unfold mt_base_trees. rewrite (sa_data _ _ _ _ _ _ _ _ _ HSA). reflexivity.
    - eapply (gen_base SO A b 1); eauto. }
  eexists. split; [exact G|].
  assert (HR : pf_root (mk_proof (Some sp) top sub_ lemma [k]) = Ok (mt_root t)).
  { unfold pf_root, lemma. cbn [pf_lemma]. rewrite rev_app_distr. reflexivity. }
  assert (LM : List.length lemma = sub_) by (unfold lemma; rewrite app_length, LL; cbn [List.length]; lia).
  assert (LA : layer_arity (mk_proof (Some sp) top sub_ lemma [k]) = top).
  { unfold layer_arity. cbn [pf_top_nodes]. replace (0 <? top) with true by lia. reflexivity. }
  assert (RT : mt_root t = h_node A 0 (map mt_root ts)) by (rewrite (sa_root _ _ _ _ _ _ _ _ _ HSA); apply HA).
  assert (VAL : k < top -> top - 1 <= sub_ -> validate EO A b (mk_proof (Some sp) top sub_ lemma [k]) =
    Ok (e_eqb EO (h_node A 0 (insert_at k (mt_root tk) (firstn (top - 1) lemma))) (mt_root t))).
  { intros K1 K2. pose proof (layer_value EO A b AL sp top sub_ lemma k [] (mt_root tk) (mt_root t)) as V. cbv zeta in V. rewrite LA in V.
    apply V; auto; lia. }
  split; [|split].
  - intros ->. rewrite VAL by lia. f_equal. apply (eqb_eq EO EL). rewrite RT. f_equal.
    unfold lemma. rewrite firstn_app, firstn_all2, LL, Nat.sub_diag by lia. cbn [firstn]. rewrite app_nil_r.
    apply insert_remove. rewrite nth_error_map, C1. reflexivity.
  - intros H. pose proof (C61_layers_exact E EO A b (mk_proof (Some sp) top sub_ lemma [k]) AL (or_introl Htop)) as X.
    cbn [pf_sub] in X. rewrite HV in X. apply X. unfold solid. rewrite LA. cbn [pf_path pf_lemma]. rewrite LM.
    destruct (k <? top); lia.
  - intros H. destruct (k <? top) eqn:K.
    + apply Nat.ltb_lt in K. rewrite VAL by lia. destruct (e_eqb EO _ _) eqn:Q; [|left; reflexivity]. right.
      apply (eqb_eq EO EL) in Q. eexists. split; [|split; [rewrite map_length; exact HL|exact (eq_trans Q RT)]].
      rewrite insert_length, firstn_length, LM. lia.
    + left. apply Nat.ltb_ge in K.
      pose proof (C61_layers_exact E EO A b (mk_proof (Some sp) top sub_ lemma [k]) AL (or_introl Htop)) as X.
      assert (Q : validate EO A b (mk_proof (Some sp) top sub_ lemma [k]) = validate_top EO A (mk_proof (Some sp) top sub_ lemma [k]) top).
      { cbn [validate pf_top_nodes pf_sub_nodes pf_sub]. rewrite HV. replace (0 <? top) with true by lia. reflexivity. }
      rewrite Q. unfold validate_top. unfold rnth at 1. cbn [pf_path nth_error pf_lemma].
      destruct (place_out 2 (le_n 2) lemma 0 k (pf_sub_tree_root (mk_proof (Some sp) top sub_ lemma [k])) top 0 0 ltac:(lia)) as [P _].
      rewrite P by lia. cbn [rbind]. rewrite checked_sub_ok by lia. cbn [rbind]. replace (0 + top =? top - 1) with false by lia. reflexivity.
Qed.

(* from_sub_trees directly over base trees: no proof at all when the type has a sub arity,
   and one that makes validate panic when it has none *)
Theorem C44_top_over_base_exact : forall E (EO : ElementOps E) A SO np en b lss f ts f' sub_ top t i,
  setting EO A SO np en b -> height_agnostic A -> built_all EO SO A en b lss f ts f' ->
  from_sub_trees SO A top ts = Ok t -> i < mt_leafs t ->
  (0 < sub_ -> exists e, gen_proof SO b sub_ top t f' i = Err e) /\
  (sub_ = 0 -> exists p m, gen_proof SO b sub_ top t f' i = Ok p /\ validate EO A b p = Panic m).
Proof.
  intros E EO A SO np en b lss f ts f' sub_ top t i HSet HA HB HT Hi. pose proof HSet as (EL & AL & HS & Hb & Hch).
  destruct (from_sub_trees_inv SO A top ts t HT) as (H0 & HL & _).
  destruct (from_sub_trees_inv SO A top ts t HT) as (_ & _ & (rc & Hrc) & (len & Hlen)).
  pose proof (built_all_full EO EL A AL en b Hb Hch SO np HS _ _ _ _ HB) as HF2.
  assert (HC : forall tk, In tk ts -> exists lv es, FullTree SO A b tk f' (rc - 1) lv es).
  { intros tk Hk. rewrite Forall_forall in Hrc. specialize (Hrc tk Hk).
    apply In_nth_error in Hk. destruct Hk as [k Hk]. clear - HF2 Hk Hrc. revert k Hk. induction HF2 as [|lv t0 lss ts (d & es & HF) HF2 IH]; intros [|k] Hk; try discriminate.
    - cbn in Hk. injection Hk as ->. replace (rc - 1) with d by (rewrite <- Hrc, (ft_rows _ _ _ _ _ _ _ _ HF); lia). eauto.
    - exact (IH k Hk). }
  set (d := rc - 1) in *.
  assert (HLf : Forall (fun t => mt_leafs t = b ^ d) ts).
  { apply Forall_forall. intros tk Hk. destruct (HC tk Hk) as (lv & es & HF). apply (ft_leafs _ _ _ _ _ _ _ _ HF). }
  rewrite (from_sub_trees_ok SO A top ts rc len (b ^ d)) in HT by auto. apply Ok_inj in HT.
  assert (HD : mt_data t = TopTree ts) by (rewrite <- HT; reflexivity).
  assert (HO : Over SO t ts (b ^ d)).
  { split; [lia|]. split; [apply CompoundTrees.pow_pos; exact Hb|]. split; [exact HLf|]. rewrite <- HT. cbn [mt_leafs]. rewrite HL. reflexivity. }
  clear HT. destruct (over_div SO t ts (b ^ d) i HO Hi) as [D1 D2].
  destruct (over_nth SO t ts (b ^ d) _ HO D2) as (tk & Hk & Hkl). destruct (HC tk (nth_error_In _ _ Hk)) as (lv & es & HF).
  destruct (div_mod_lt i (b ^ d) (CompoundTrees.pow_pos b Hb d)) as [M1 M2].
  pose proof HO as (O1 & O2 & _). destruct (ft_base _ _ _ _ _ _ _ _ HF) as [s Hs].
  unfold gen_proof. rewrite (gen_sub_tree_proof_unfold_top SO b 2 sub_ top t f' i ts HD). split.
  - intros Hsub. unfold gen_sub_tree_proof. rewrite <- HL. replace (List.length ts =? 0) with false by lia. cbn [negb ensure rbind].
    rewrite D1. replace (b ^ d =? 0) with false by lia. unfold mt_sub_trees. rewrite HD. cbn [rbind]. rewrite Nat.eqb_refl. cbn [ensure rbind].
    unfold rnth at 1. rewrite Hk. cbn [rbind]. rewrite Hkl. replace (b ^ d =? 0) with false by lia.
    assert (Q : exists e, gen_proof_n SO b 2 sub_ 0 tk f' (i mod b ^ d) = Err e).
    { cbn [gen_proof_n]. rewrite Hs. unfold gen_proof_base.
      destruct (ensure (_ <? _) _) as [u|m|m|] eqn:Q1; cbn [rbind]; [|eauto|unfold ensure in Q1; destruct (_ <? _); discriminate|unfold ensure in Q1; destruct (_ <? _); discriminate].
      unfold ensure at 1. destruct (_ =? _); cbn [rbind]; [|eauto]. unfold ensure at 1. destruct (_ =? _); cbn [rbind]; [|eauto].
      unfold get_merkle_proof_lemma_len. pose proof (arity_ge b Hb). rewrite (checked_sub_ok b 1), (checked_sub_ok (mt_row_count tk) 1) by (rewrite ?(ft_rows _ _ _ _ _ _ _ _ HF); lia).
      cbn [rbind]. replace (sub_ =? 0) with false by lia. cbn [ensure rbind]. eauto. }
    destruct Q as [e ->]. cbn [rbind]. eauto.
  - intros ->. rewrite <- HL.
    rewrite (gen_sub_tree_proof_ok SO b _ 0 (List.length ts) t ts (b ^ d) i true tk (canon b es d (i mod b ^ d))); auto.
    + set (p := mk_proof _ _ _ _ _). exists p.
      pose proof (C61_layers_exact E EO A b p AL (or_introl O1)) as X. cbn [pf_sub p] in X.
      rewrite (canon_valid EO EL A AL b Hb d lv es) in X; auto; [|apply (ft_layout _ _ _ _ _ _ _ _ HF)].
      destruct X as [_ X]. destruct X as [m Hm].
      * unfold solid, layer_arity. cbn [pf_top_nodes pf_sub_nodes pf_path pf_lemma p]. replace (0 <? List.length ts) with true by lia.
        replace (i / b ^ d <? List.length ts) with true by lia. lia.
      * exists m. split; [reflexivity|exact Hm].
    + unfold mt_sub_trees. rewrite HD. reflexivity.
    + eapply (gen_base SO A b 1); eauto.
Qed.

(* leaf 0 of two trees through types with top arities 0 to 5 *)
Example C44_exact_case :
  match mk_trees (vec_store BO) sum_alg 2 [xs4 1; xs4 9] fs_empty with
  | Some (ts, f) =>
      match from_trees (vec_store BO) sum_alg 2 ts with
      | Ok t => map (fun top => match rbind (gen_proof (vec_store BO) 2 2 top t f 0) (validate BO sum_alg 2) with
                                | Ok true => 1 | Ok false => 0 | Panic _ => 2 | _ => 3 end) [0; 1; 2; 3; 4; 5] = [1; 0; 1; 0; 2; 2]
      | _ => False end
  | _ => False end.
Proof. vm_compute. reflexivity. Qed.

(* the proof of leaf 6 with its outer layer changed: nothing, a wrong sibling, an index past
   the arity, a missing sibling, no path, no lemma, no inner proof *)
Example C61_layers_case :
  match case_sub (disk_store BO) sum_alg 2 3 [xs4 1; xs4 9; xs4 5] with
  | Some (t, f) =>
      match gen_proof (disk_store BO) 2 3 0 t f 6 with
      | Ok p =>
          let l := pf_lemma p in
          let out := fun q => match validate BO sum_alg 2 q with Ok true => 1 | Ok false => 0 | Err _ => 2 | Panic _ => 3 | Diverge => 4 end in
          map (fun q => out (mk_proof (fst q) 0 3 (fst (snd q)) (snd (snd q))))
            [(pf_sub p, (l, pf_path p)); (pf_sub p, (el 1 :: tl l, pf_path p)); (pf_sub p, (l, [7]));
             (pf_sub p, (firstn 1 l, pf_path p)); (pf_sub p, (l, [])); (pf_sub p, ([], pf_path p)); (None, (l, pf_path p))]
          = [1; 0; 0; 3; 3; 3; 2]
      | _ => False end
  | None => False end.
Proof. vm_compute. reflexivity. Qed.
(* the item of the outer proof is the root of the first other tree, so no datum of the tree passes *)
Example C45_compound_case :
  match mk_trees (disk_store BO) sum_alg 2 [xs4 1; xs4 9; xs4 5] fs_empty with
  | Some (ts, f) =>
      match from_trees (disk_store BO) sum_alg 3 ts with
      | Ok t => map (fun i => rbind (gen_proof (disk_store BO) 2 3 0 t f i) (fun p => rbind (pf_item p) (fun x => Ok (val x)))) [0; 3; 4; 11]
          = map (fun k => Ok (nth k (map (fun t => val (mt_root t)) ts) 0)) [1; 1; 0; 0]
      | _ => False end
  | None => False end.
Proof. vm_compute. reflexivity. Qed.

Print Assumptions C30_arity2.
Print Assumptions C21_compound_panics.
Print Assumptions C21_vec_panics.
Print Assumptions C45_compound_item.
Print Assumptions C61_layers_exact.
Print Assumptions C44_from_trees_exact.
Print Assumptions C44_top_over_base_exact.
