(* C61: nested proofs, arbitrary depth: what validate accepts, panics on and ignores. *)
From Coq Require Import String List Arith NArith Bool Lia Init.Byte ZifyBool ZifyNat.
From Verif Require Import Base Element Hash Sizing FS Sched Store VecStore DiskStore MmapStore LevelCache ProofModel Tree ListFacts Spec SpecFacts SizingFacts SchedFacts StoreLaws RowFacts ChunkFacts BuildFacts BuildLoop StoreSpec FileFacts VecFacts DiskFacts MmapFacts PopFacts TreeFacts ProofSpec ProofFacts TreeProofs TreeObs Builders CompoundFacts CompoundTrees CompoundGroups CompoundBuilt Cases Props_Build Props_Proof Props_Compound.
Import ListNotations.

(* the number of trees the layer of a compound proof joins *)
Definition layer_arity {E} (p : proof E) : nat := if 0 <? pf_top_nodes p then pf_top_nodes p else pf_sub_nodes p.

(* the base proof has the lengths Proof::new asks for; each layer above has a position and
   enough nodes (spare = true), or exactly the siblings and the root (spare = false), as
   the proofs gen_proof returns *)
Inductive shaped {E} (b : nat) (spare : bool) : proof E -> Prop :=
| shaped_base lemma path :
    List.length lemma = 2 + (b - 1) * List.length path ->
    shaped b spare (mk_proof None 0 0 lemma path)
| shaped_layer sp top sub_ lemma c path :
    shaped b spare sp -> 0 < sub_ ->
    (let n := if 0 <? top then top else sub_ in if spare then n <= List.length lemma else List.length lemma = n) ->
    shaped b spare (mk_proof (Some sp) top sub_ lemma (c :: path)).

(* p' is p with one node, somewhere, replaced by another *)
Inductive tampered {E} : proof E -> proof E -> Prop :=
| tampered_here sp top sub_ lemma path i old y :
    nth_error lemma i = Some old -> y <> old ->
    tampered (mk_proof sp top sub_ lemma path) (mk_proof sp top sub_ (firstn i lemma ++ y :: skipn (S i) lemma) path)
| tampered_below sp sp' top sub_ lemma path :
    tampered sp sp' -> tampered (mk_proof (Some sp) top sub_ lemma path) (mk_proof (Some sp') top sub_ lemma path).

(* p and p' make validate hash two different lists of nodes to the same value *)
Inductive collides {E} (A : AlgOps E) (b : nat) : proof E -> proof E -> Prop :=
| collides_base lemma lemma' path m k :
    let xs := proof_nodes A b (mk_proof None 0 0 lemma path) (List.length path) k in
    let ys := proof_nodes A b (mk_proof None 0 0 lemma' path) (List.length path) k in
    xs <> ys -> h_node A m xs = h_node A m ys ->
    collides A b (mk_proof None 0 0 lemma path) (mk_proof None 0 0 lemma' path)
| collides_layer sp top sub_ lemma lemma' c path x :
    let n := if 0 <? top then top else sub_ in
    let xs := insert_at c x (firstn (n - 1) lemma) in
    let ys := insert_at c x (firstn (n - 1) lemma') in
    pf_root sp = Ok x -> xs <> ys -> h_node A 0 xs = h_node A 0 ys ->
    collides A b (mk_proof (Some sp) top sub_ lemma (c :: path)) (mk_proof (Some sp) top sub_ lemma' (c :: path))
| collides_below sp sp' top sub_ lemma path :
    collides A b sp sp' ->
    collides A b (mk_proof (Some sp) top sub_ lemma path) (mk_proof (Some sp') top sub_ lemma path).

(* One layer: exactly when validate accepts it. *)
Theorem C61_layer : forall E (EO : ElementOps E) A b sp top sub_ sibs root c path x,
  AlgLaws A -> 0 < sub_ ->
  let n := if 0 <? top then top else sub_ in
  n <= S (List.length sibs) -> pf_root sp = Ok x ->
  validate EO A b sp = Ok true ->
  validate EO A b (mk_proof (Some sp) top sub_ (sibs ++ [root]) (c :: path)) =
  Ok ((c <? n) && e_eqb EO (h_node A 0 (insert_at c x (firstn (n - 1) sibs))) root).
Proof.
  intros E EO A b sp top sub_ sibs root c path x AL Hs n Hn Hx HV.
  assert (Hn0 : 0 < n) by (unfold n; destruct (0 <? top) eqn:G; lia).
  set (p := mk_proof (Some sp) top sub_ (sibs ++ [root]) (c :: path)).
  transitivity (validate_top EO A p n).
  { unfold p, n. cbn [validate pf_top_nodes pf_sub_nodes pf_sub]. rewrite HV. cbn [rbind negb].
    destruct (0 <? top); [reflexivity|]. replace (0 <? sub_) with true by lia. reflexivity. }
  unfold validate_top. unfold rnth at 1. cbn [pf_path p nth_error].
  unfold pf_sub_tree_root. cbn [pf_sub pf_sub_nodes p]. replace (0 <? sub_) with true by lia. rewrite Hx.
  assert (Hl : List.length (pf_lemma p) = S (List.length sibs)) by (cbn [pf_lemma p]; rewrite app_length; cbn; lia).
  destruct (c <? n) eqn:G.
  - destruct (place_in 2 (le_n 2) (pf_lemma p) 0 c x n 0 0 ltac:(lia)) as [P _]. rewrite P by lia. cbn [rbind].
    rewrite checked_sub_ok by lia. cbn [rbind]. rewrite Nat.add_0_l, Nat.eqb_refl, Nat.sub_0_r, sub_0. cbn [negb andb].
    cbn [pf_lemma p]. rewrite firstn_app. replace (n - 1 - List.length sibs) with 0 by lia. cbn [firstn]. rewrite app_nil_r.
    destruct (a_multi_node A (a_reset A (a_default A)) _ 0) as [h a'] eqn:EM.
    unfold pf_root. cbn [pf_lemma p]. rewrite rev_app_distr. cbn [rev app rbind].
    pose proof (reset_multi A AL (a_default A) (insert_at c x (firstn (n - 1) sibs)) 0) as HR. rewrite EM in HR. cbn [fst] in HR. rewrite HR. reflexivity.
  - destruct (place_out 2 (le_n 2) (pf_lemma p) 0 c (Ok x) n 0 0 ltac:(lia)) as [P _]. rewrite P by lia. cbn [rbind].
    rewrite checked_sub_ok by lia. cbn [rbind]. replace (0 + n =? n - 1) with false by lia. reflexivity.
Qed.

(* A validating proof has a root. *)
Lemma validate_root {E} (EO : ElementOps E) A b p : validate EO A b p = Ok true -> exists x, pf_root p = Ok x.
Proof.
  intros H. destruct p as [sp top sub_ lemma path]. unfold pf_root. cbn [pf_lemma].
  destruct (rev lemma) as [|x l] eqn:R; [|eauto]. exfalso.
  assert (lemma = []) by (rewrite <- (rev_involutive lemma), R; reflexivity). subst lemma.
  assert (G : forall n q, pf_lemma q = [] -> validate_top EO A q n <> Ok true).
  { intros n q Hq. unfold validate_top. destruct (place_nodes _ _ _ _ _ _) as [[nodes ci]|?|?|]; cbn [rbind]; try discriminate.
    destruct (checked_sub n 1) as [n1|?|?|]; cbn [rbind]; try discriminate. destruct (negb _); [discriminate|].
    destruct (a_multi_node A _ nodes 0) as [h a']. unfold pf_root. rewrite Hq. discriminate. }
  cbn [validate pf_top_nodes pf_sub_nodes pf_sub] in H.
  destruct (0 <? top); [destruct sp as [sp|]; [|discriminate]|destruct (0 <? sub_); [destruct sp as [sp|]; [|discriminate]|]].
  - destruct (validate EO A b sp) as [[]|?|?|]; try discriminate. eapply G; [|exact H]. reflexivity.
  - destruct (validate EO A b sp) as [[]|?|?|]; try discriminate. eapply G; [|exact H]. reflexivity.
  - unfold validate_base in H. cbn [pf_lemma] in H. destruct (ensure _ _) in H; try discriminate. cbn [rbind] in H.
    destruct (ensure _ _) in H; try discriminate. cbn [rbind] in H. destruct (ensure _ _) in H; try discriminate.
Qed.

Lemma last_split {E} (l : list E) n : n <= List.length l -> 0 < n -> exists s r, l = s ++ [r].
Proof. intros H1 H2. destruct (exists_last (l := l)) as (s & r & ->); [intros ->; cbn in H1; lia|eauto]. Qed.

(* validate returns Ok on every well-shaped nested proof. *)
Theorem C61_total_partial : forall E (EO : ElementOps E) A b spare p,
  AlgLaws A -> 2 <= b -> shaped b spare p ->
  exists v, validate EO A b p = Ok v.
Proof.
  intros E EO A b spare p AL Hb HS. induction HS as [lemma path Hl|sp top sub_ lemma c path _ IH Hs Hn].
  - destruct (lemma_ends b Hb _ _ Hl) as (x & root & Hx & Hr & _).
    eexists. apply (validate_base_ok EO A AL b Hb _ (List.length path) x root); auto. repeat split; auto.
  - destruct IH as [v IH].
    assert (Hn' : (if 0 <? top then top else sub_) <= List.length lemma) by (destruct spare; cbv zeta in Hn; lia).
    destruct (last_split lemma _ Hn' ltac:(destruct (0 <? top) eqn:G; lia)) as (sibs & root & ->).
    destruct v.
    + destruct (validate_root EO A b sp IH) as [x Hx]. eexists. apply (C61_layer E EO A b sp top sub_ sibs root c path x); auto.
      rewrite app_length in Hn'. cbn [List.length] in Hn'. lia.
    + exists false. cbn [validate pf_top_nodes pf_sub_nodes pf_sub]. rewrite IH. cbn [rbind negb].
      destruct (0 <? top); [reflexivity|]. replace (0 <? sub_) with true by lia. reflexivity.
Qed.

(* Replacing one node, in whatever layer, of a proof of the shape gen_proof gives. *)
Theorem C61_tamper_partial : forall E (EO : ElementOps E) A b p p',
  ElementLaws EO -> AlgLaws A -> arity b ->
  shaped b false p -> validate EO A b p = Ok true -> tampered p p' ->
  validate EO A b p' = Ok false \/ collides A b p p'.
Proof.
  intros E EO A b p p' EL AL Hb HS. revert p'.
  induction HS as [lemma path Hl|sp top sub_ lemma c path HS IH Hs Hn]; intros p' HV HT.
  - inversion HT; subst.
    destruct (base_tamper EO EL A AL b Hb (mk_proof None 0 0 lemma path) (List.length path) i y old) as [H|(H & m & Hm & G1 & G2)]; auto.
    + repeat split; auto.
    + right. econstructor; [exact G1|exact G2].
  - set (n := if 0 <? top then top else sub_) in *. cbv zeta in Hn.
    assert (Hn0 : 0 < n) by (unfold n; destruct (0 <? top) eqn:G; lia).
    assert (HVs : validate EO A b sp = Ok true).
    { cbn [validate pf_top_nodes pf_sub_nodes pf_sub] in HV. destruct (0 <? top); [|replace (0 <? sub_) with true in HV by lia];
      destruct (validate EO A b sp) as [[]|?|?|]; try discriminate; reflexivity. }
    inversion HT; subst.
    + match goal with H1 : nth_error lemma _ = Some _, H2 : _ <> _ |- _ => rename H1 into Hi, H2 into Hy end. pose proof (nth_error_lt _ _ _ Hi) as Li.
      destruct (validate_root EO A b sp HVs) as [x Hx].
      destruct (last_split lemma n ltac:(lia) Hn0) as (sibs & root & ->). rewrite app_length in Hn, Li. cbn [List.length] in Hn, Li.
      rewrite (C61_layer E EO A b sp top sub_ sibs root c path x AL Hs) in HV; auto; [|fold n; lia].
      fold n in HV. injection HV as HV. apply andb_true_iff in HV. destruct HV as [V1 V2]. apply (eqb_eq EO EL) in V2.
      destruct (Nat.eq_dec i (List.length sibs)) as [->|Ni].
      * rewrite nth_error_app2, Nat.sub_diag in Hi by lia. cbn in Hi. injection Hi as <-.
        rewrite firstn_app, firstn_all, Nat.sub_diag, firstn_O, app_nil_r.
        rewrite (skipn_all2 (sibs ++ [root])) by (rewrite app_length; cbn; lia).
        left. rewrite (C61_layer E EO A b sp top sub_ sibs y c path x AL Hs); auto; [|fold n; lia]. fold n. rewrite V1, V2. cbn [andb].
        f_equal. destruct (e_eqb EO root y) eqn:Q; [|reflexivity]. apply (eqb_eq EO EL) in Q. congruence.
      * rewrite nth_error_app1 in Hi by lia.
        set (sibs' := firstn i sibs ++ y :: skipn (S i) sibs).
        replace (firstn i (sibs ++ [root]) ++ y :: skipn (S i) (sibs ++ [root])) with (sibs' ++ [root]).
        2:{ rewrite firstn_app, skipn_app. replace (i - List.length sibs) with 0 by lia. replace (S i - List.length sibs) with 0 by lia.
            unfold sibs'. cbn [firstn skipn]. rewrite app_nil_r, <- app_assoc. reflexivity. }
        assert (L' : List.length sibs' = List.length sibs) by (unfold sibs'; rewrite app_length, firstn_length; cbn [List.length]; rewrite skipn_length; lia).
        rewrite (C61_layer E EO A b sp top sub_ sibs' root c path x AL Hs); auto; [|fold n; lia]. fold n. rewrite V1. cbn [andb].
        destruct (e_eqb EO _ root) eqn:Q; [right|left; reflexivity]. apply (eqb_eq EO EL) in Q.
        assert (F : firstn (n - 1) sibs = sibs) by (apply firstn_all2; lia).
        assert (F' : firstn (n - 1) sibs' = sibs') by (apply firstn_all2; lia).
        apply collides_layer with (x := x); [exact Hx| |]; fold n; rewrite !firstn_app; replace (n - 1 - List.length sibs) with 0 by lia;
          replace (n - 1 - List.length sibs') with 0 by lia; cbn [firstn]; rewrite !app_nil_r; rewrite F, F' in *.
        -- intros HE. apply insert_inj in HE; [|lia|lia]. destruct HE as [_ HE].
           assert (HN : nth_error sibs' i = Some y).
           { unfold sibs'. rewrite nth_error_app2; rewrite firstn_length, Nat.min_l by lia; [|lia]. rewrite Nat.sub_diag. reflexivity. }
           rewrite <- HE, Hi in HN. congruence.
        -- congruence.
    + match goal with H1 : tampered sp _ |- _ => rename H1 into HT' end. destruct (IH _ HVs HT') as [H|H]; [left|right; constructor; exact H].
      cbn [validate pf_top_nodes pf_sub_nodes pf_sub]. rewrite H. cbn [rbind negb].
      destruct (0 <? top); [reflexivity|]. replace (0 <? sub_) with true by lia. reflexivity.
Qed.

(* ------------------------------------------------------------------ *)
(* The proofs of the library have this shape. *)
Lemma canon_shaped {E} (A : AlgOps E) b (Hb : arity b) d lv es i : Layout (h_node A) b d lv es -> i < b ^ d ->
  shaped b false (canon b es d i).
Proof.
  intros HL Hi. destruct (canon_shape A b Hb d lv es i HL Hi) as (_ & _ & _ & S4 & _). cbn [canon pf_lemma] in S4.
  unfold canon. constructor. rewrite path_of_length. exact S4.
Qed.
Lemma sub_proof_shaped {E} (SO : StoreOps E) (A : AlgOps E) b (Hb : arity b) ts root d lv es i :
  Layout (h_node A) b d lv es -> i / b ^ d < List.length ts -> shaped b false (sub_proof SO b ts root d es i).
Proof.
  intros HL Hk. unfold sub_proof. pose proof (Nat.le_lt_trans _ _ _ (Nat.le_0_l _) Hk) as H0. constructor; [|exact H0|].
  - eapply canon_shaped; eauto. apply (div_mod_lt i (b ^ d) (pow_pos b Hb d)).
  - cbn [Nat.ltb Nat.leb]. rewrite app_length, remove_at_nth, map_length by (rewrite map_length; exact Hk). cbn [List.length]. clear - H0. lia.
Qed.

Theorem C61_generated : forall E (EO : ElementOps E) A SO np en b,
  setting EO A SO np en b ->
  (forall leaves f t f' i p, builder EO SO A en b leaves f (Ok t, f') -> i < mt_leafs t ->
     gen_proof SO b 0 0 t f' i = Ok p -> shaped b false p) /\
  (forall lss f ts f' sub_ t i p, built_all EO SO A en b lss f ts f' -> from_trees SO A sub_ ts = Ok t -> i < mt_leafs t ->
     gen_proof SO b sub_ 0 t f' i = Ok p -> shaped b false p) /\
  (forall lss f gs f' sub_ top subs t i p, built_all EO SO A en b lss f (concat gs) f' ->
     rmap (from_trees SO A sub_) gs = Ok subs -> from_sub_trees SO A top subs = Ok t -> i < mt_leafs t ->
     gen_proof SO b sub_ top t f' i = Ok p -> shaped b false p).
Proof.
  intros E EO A SO np en b (EL & AL & HS & Hb & Hch). split; [|split].
  - intros leaves f t f' i p HB Hi HP.
    destruct (builder_tree EO EL A AL en b SO np HS leaves f t f' Hb Hch HB) as (d & els & Hn & HF).
    rewrite (ft_leafs _ _ _ _ _ _ _ _ HF) in Hi. rewrite (ft_proof _ _ _ _ _ _ _ _ HF) in HP by exact Hi. injection HP as <-.
    eapply canon_shaped; eauto. apply (ft_layout _ _ _ _ _ _ _ _ HF).
  - intros lss f ts f' sub_ t i p HB HT Hi HP.
    destruct (built_sub EO EL A AL en b Hb Hch SO np HS lss f ts f' sub_ t HB HT) as (d & ess & HL & HSA).
    destruct (SubAt_child SO A b Hb t f' d ts lss ess i HSA Hi) as (tk & lv & es & C1 & C2 & C3 & HF & C4).
    assert (G : gen_proof SO b sub_ 0 t f' i = Ok (sub_proof SO b ts (mt_root t) d es i)).
    { unfold gen_proof. rewrite <- HL. eapply (SubAt_gen SO A b Hb 1); eauto. }
    rewrite HP in G. injection G as ->. eapply sub_proof_shaped; eauto; [apply (ft_layout _ _ _ _ _ _ _ _ HF)|].
    eapply nth_error_lt; eauto.
  - intros lss f gs f' sub_ top subs t i p HB HR HT Hi HP.
    destruct (built_top EO EL A AL en b Hb Hch SO np HS lss f gs f' sub_ top subs t HB HR HT) as (d & ls & HL & Hls & HTA).
    destruct (TopAt_child SO A b Hb t f' d sub_ subs ls i HTA Hi) as (tk & bs & lss' & ess & C1 & C2 & C3 & HSA & C4 & C5).
    destruct (SubAt_child SO A b Hb tk f' d bs lss' ess _ HSA C4) as (tk' & lv & es & D1 & D2 & D3 & HF & D4).
    assert (G := TopAt_gen SO A b Hb 0 t f' d sub_ subs ls i tk bs lss' ess es HTA Hi C1 C3 HSA D3).
    unfold gen_proof in HP. rewrite HL in G. rewrite G in HP. injection HP as <-.
    pose proof (nth_error_lt _ _ _ D1) as L1. pose proof (nth_error_lt _ _ _ C1) as L2.
    constructor; [|rewrite <- C3; clear - L1; revert L1; generalize (i mod (sub_ * b ^ d) / b ^ d); intros; lia|].
    + eapply sub_proof_shaped; eauto. apply (ft_layout _ _ _ _ _ _ _ _ HF).
    + cbv zeta. assert (H0 : 0 < List.length subs) by (clear - L2; revert L2; generalize (i / (sub_ * b ^ d)); intros; lia).
      rewrite app_length, remove_at_nth, map_length by (rewrite map_length; exact L2). cbn [List.length]. rewrite HL in *.
      replace (0 <? top) with true by (symmetry; apply Nat.ltb_lt; exact H0). apply Nat.sub_add. exact H0.
Qed.

(* Tampering with a proof of a tree of the library, any layer of it. *)
Theorem C61_library : forall E (EO : ElementOps E) A SO np en b,
  setting EO A SO np en b -> height_agnostic A ->
  (forall lss f ts f' sub_ t i, built_all EO SO A en b lss f ts f' -> from_trees SO A sub_ ts = Ok t -> i < mt_leafs t ->
     exists p, gen_proof SO b sub_ 0 t f' i = Ok p /\
       forall p', tampered p p' -> validate EO A b p' = Ok false \/ collides A b p p') /\
  (forall lss f gs f' sub_ top subs t i, built_all EO SO A en b lss f (concat gs) f' ->
     rmap (from_trees SO A sub_) gs = Ok subs -> from_sub_trees SO A top subs = Ok t -> i < mt_leafs t ->
     exists p, gen_proof SO b sub_ top t f' i = Ok p /\
       forall p', tampered p p' -> validate EO A b p' = Ok false \/ collides A b p p').
Proof.
  intros E EO A SO np en b HSet HA. destruct (C61_generated E EO A SO np en b HSet) as (_ & G1 & G2).
  pose proof HSet as (EL & AL & HS & Hb & Hch). split.
  - intros lss f ts f' sub_ t i HB HT Hi.
    destruct (C12_complete E EO A SO np en b lss f ts f' sub_ t i HSet HA HB HT Hi) as (p & P1 & P2).
    exists p. split; [exact P1|]. intros p' HT'. eapply C61_tamper_partial; eauto.
  - intros lss f gs f' sub_ top subs t i HB HR HT Hi.
    destruct (C13_complete_nested E EO A SO np en b lss f gs f' sub_ top subs t i HSet HA HB HR HT Hi) as (p & P1 & P2).
    exists p. split; [exact P1|]. intros p' HT'. eapply C61_tamper_partial; eauto.
Qed.

(* ------------------------------------------------------------------ *)
(* Proof::new checks nothing about a layer above the base. *)
Inductive accepted {E} (b : nat) : proof E -> Prop :=
| accepted_base lemma path p : proof_new b 0 0 None lemma path = Ok p -> accepted b p
| accepted_layer sp top sub_ lemma path p : accepted b sp -> 0 < sub_ ->
    proof_new b top sub_ (Some sp) lemma path = Ok p -> accepted b p.

Definition C61_total_full : Prop := forall E (EO : ElementOps E) A b p,
  ElementLaws EO -> AlgLaws A -> arity b -> accepted b p -> exists v, validate EO A b p = Ok v.
Definition C61_tamper_full : Prop := forall E (EO : ElementOps E) A b p p',
  ElementLaws EO -> AlgLaws A -> arity b -> accepted b p -> validate EO A b p = Ok true -> tampered p p' ->
  validate EO A b p' = Ok false \/ collides A b p p'.

(* No position, or too few siblings: validate panics once the inner proof is right. *)
Theorem C61_panics : forall E (EO : ElementOps E) A b sp top sub_ lemma path,
  validate EO A b sp = Ok true -> 0 < sub_ ->
  let n := if 0 <? top then top else sub_ in
  path = [] \/ List.length lemma < n - 1 ->
  proof_new b top sub_ (Some sp) lemma path = Ok (mk_proof (Some sp) top sub_ lemma path) /\
  exists m, validate EO A b (mk_proof (Some sp) top sub_ lemma path) = Panic m.
Proof.
  intros E EO A b sp top sub_ lemma path HV Hs n HX.
  assert (Hn0 : 0 < n) by (unfold n; destruct (0 <? top) eqn:G; lia). split.
  { unfold proof_new. replace ((top =? 0) && (sub_ =? 0)) with false by lia. reflexivity. }
  destruct (validate_root EO A b sp HV) as [x Hx].
  set (p := mk_proof (Some sp) top sub_ lemma path).
  assert (T : validate EO A b p = validate_top EO A p n).
  { unfold p, n. cbn [validate pf_top_nodes pf_sub_nodes pf_sub]. rewrite HV. cbn [rbind negb].
    destruct (0 <? top); [reflexivity|]. replace (0 <? sub_) with true by lia. reflexivity. }
  rewrite T. unfold validate_top. destruct path as [|c path].
  - unfold rnth at 1. cbn [pf_path p nth_error]. rewrite (place_panic_at 2 (le_n 2)) by lia. eexists. reflexivity.
  - destruct HX as [HX|HX]; [discriminate|]. unfold rnth at 1. cbn [pf_path p nth_error].
    unfold pf_sub_tree_root. cbn [pf_sub pf_sub_nodes p]. replace (0 <? sub_) with true by lia. rewrite Hx.
    change (pf_lemma p) with lemma. destruct (le_lt_dec n c) as [L|L].
    + destruct (place_out 2 (le_n 2) lemma 0 c (Ok x) n 0 0 ltac:(lia)) as [_ P]. destruct P as [m Hm]; [lia|lia|]. rewrite Hm. eexists. reflexivity.
    + destruct (place_in 2 (le_n 2) lemma 0 c x n 0 0 ltac:(lia)) as [_ P]. destruct P as [m Hm]; [lia|lia|]. rewrite Hm. eexists. reflexivity.
Qed.

(* Nodes between the siblings and the root, and positions after the first, are ignored. *)
Theorem C61_ignored : forall E (EO : ElementOps E) A b sp top sub_ sibs root c path junk path',
  AlgLaws A -> 0 < sub_ ->
  let n := if 0 <? top then top else sub_ in
  List.length sibs = n - 1 ->
  validate EO A b (mk_proof (Some sp) top sub_ (sibs ++ [root]) (c :: path)) = Ok true ->
  validate EO A b (mk_proof (Some sp) top sub_ (sibs ++ junk ++ [root]) (c :: path')) = Ok true.
Proof.
  intros E EO A b sp top sub_ sibs root c path junk path' AL Hs n Hl HV.
  assert (Hn0 : 0 < n) by (unfold n; destruct (0 <? top) eqn:G; lia).
  assert (HVs : validate EO A b sp = Ok true).
  { cbn [validate pf_top_nodes pf_sub_nodes pf_sub] in HV. destruct (0 <? top); [|replace (0 <? sub_) with true in HV by lia];
    destruct (validate EO A b sp) as [[]|?|?|]; try discriminate; reflexivity. }
  destruct (validate_root EO A b sp HVs) as [x Hx].
  rewrite (C61_layer E EO A b sp top sub_ sibs root c path x) in HV; auto; [|fold n; lia]. rewrite <- HV.
  rewrite app_assoc, (C61_layer E EO A b sp top sub_ (sibs ++ junk) root c path' x); auto; [|fold n; rewrite app_length; lia].
  fold n. rewrite firstn_app, Hl, Nat.sub_diag, firstn_O, app_nil_r. reflexivity.
Qed.

(* ------------------------------------------------------------------ *)
(* Leaf 6 of a compound tree of three four-leaf trees. *)
Definition case61 : res (proof B1) :=
  match case_sub (disk_store BO) sum_alg 2 3 [xs4 1; xs4 9; xs4 5] with
  | Some (t, f) => gen_proof (disk_store BO) 2 3 0 t f 6
  | None => Err ""%string
  end.
Definition with_lemma (p : proof B1) l := mk_proof (pf_sub p) (pf_top_nodes p) (pf_sub_nodes p) l (pf_path p).
Definition with_sub (p : proof B1) sp := mk_proof (Some sp) (pf_top_nodes p) (pf_sub_nodes p) (pf_lemma p) (pf_path p).
Definition poke (i : nat) (y : B1) (l : list B1) : list B1 := firstn i l ++ y :: skipn (S i) l.

Example C61_case :
  match case61 with
  | Ok p => match pf_sub p with
      | Some sp =>
          validate BO sum_alg 2 p = Ok true /\
          map (fun i => validate BO sum_alg 2 (with_lemma p (poke i (el 200) (pf_lemma p)))) [0; 1; 2] = repeat (Ok false) 3 /\
          map (fun i => validate BO sum_alg 2 (with_sub p (with_lemma sp (poke i (el 200) (pf_lemma sp))))) [0; 1; 2; 3] = repeat (Ok false) 4
      | None => False
      end
  | _ => False
  end.
Proof. vm_compute. auto. Qed.

Definition some_sub (p : proof B1) : proof B1 := match pf_sub p with Some sp => sp | None => p end.
Lemma case61_sub : match case61 with
  | Ok p => match pf_sub p with
      | Some sp => proof_new 2 0 0 None (pf_lemma sp) (pf_path sp) = Ok sp /\ validate BO sum_alg 2 sp = Ok true /\
          pf_lemma p = firstn 2 (pf_lemma p) ++ skipn 2 (pf_lemma p) /\ pf_top_nodes p = 0 /\ pf_sub_nodes p = 3 /\ pf_path p = [1] /\
          List.length (pf_lemma p) = 3 /\ validate BO sum_alg 2 p = Ok true
      | None => False end
  | _ => False end.
Proof. vm_compute. auto 20. Qed.

Theorem C61_total_refuted : ~ C61_total_full.
Proof.
  intros H. pose proof case61_sub as C. destruct case61 as [p| | |]; try contradiction.
  destruct (pf_sub p) as [sp|]; [|contradiction]. destruct C as (C1 & C2 & _).
  destruct (C61_panics B1 BO sum_alg 2 sp 0 3 [] [] C2 ltac:(lia) (or_introl eq_refl)) as [P1 [m P2]].
  destruct (H B1 BO sum_alg 2 _ BL sum_laws arity_2 (accepted_layer 2 sp 0 3 [] [] _ (accepted_base 2 _ _ _ C1) ltac:(lia) P1)) as [v Hv].
  rewrite P2 in Hv. discriminate.
Qed.

Theorem C61_tamper_refuted : ~ C61_tamper_full.
Proof.
  intros H. pose proof case61_sub as C. destruct case61 as [p| | |]; try contradiction.
  destruct p as [[sp|] top sub_ lemma path]; cbn [pf_sub] in C; [|contradiction].
  cbn [pf_lemma pf_top_nodes pf_sub_nodes pf_path] in C. destruct C as (C1 & C2 & _ & -> & -> & -> & C7 & C8).
  destruct lemma as [|s1 [|s2 [|root [|]]]]; try discriminate C7. clear C7.
  pose proof (fun junk => C61_ignored B1 BO sum_alg 2 sp 0 3 [s1; s2] root 1 [] junk [] sum_laws ltac:(lia) eq_refl C8) as G.
  pose (j y := mk_proof (Some sp) 0 3 [s1; s2; y; root] [1]).
  destruct (H B1 BO sum_alg 2 (j (el 1)) (j (el 2)) BL sum_laws arity_2) as [X|X].
  - eapply (accepted_layer 2 sp 0 3); [eapply accepted_base; exact C1|lia|reflexivity].
  - exact (G [el 1]).
  - exact (tampered_here (Some sp) 0 3 [s1; s2; el 1; root] [1] 2 (el 1) (el 2) eq_refl ltac:(discriminate)).
  - unfold j in X. pose proof (G [el 2]) as Y. cbn [app] in Y. rewrite Y in X. discriminate.
  - unfold j in X. inversion X as [| ? ? ? ? ? ? ? ? n xs ys R N|? ? ? ? ? ? R]; subst.
    apply N. reflexivity.
Qed.

Print Assumptions C61_layer.
Print Assumptions C61_total_partial.
Print Assumptions C61_tamper_partial.
Print Assumptions C61_generated.
Print Assumptions C61_library.
Print Assumptions C61_panics.
Print Assumptions C61_ignored.
Print Assumptions C61_total_refuted.
Print Assumptions C61_tamper_refuted.
