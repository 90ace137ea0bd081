(* C19, exactly: for which algorithms the proofs of a tree validate.  validate hashes with height
   m * (b - 1) where the builder used m, and with 0 where from_trees used 1. *)
From Coq Require Import String List Arith NArith Bool Lia Init.Byte ZifyBool ZifyNat.
From Verif Require Import Base Element Hash Sizing FS Sched Store VecStore DiskStore MmapStore LevelCache ProofModel Tree ListFacts Spec SpecFacts SizingFacts SchedFacts StoreLaws RowFacts ChunkFacts BuildFacts BuildLoop StoreSpec FileFacts VecFacts DiskFacts MmapFacts PopFacts TreeFacts ProofSpec ProofFacts TreeProofs TreeObs Builders CompoundFacts CompoundTrees CompoundGroups CompoundBuilt Cases Props_Sizing Props_Build Props_Proof Props_Compound Props_Height.
Import ListNotations.

(* the digest does not depend on whether height 0 or 1 is given *)
Definition same01 {E} (EO : ElementOps E) (A : AlgOps E) (roots : list E) : bool :=
  e_eqb EO (h_node A 0 roots) (h_node A 1 roots).

Section X.
  Context {E : Type} (EO : ElementOps E) (EL : ElementLaws EO) (SO : StoreOps E) (A : AlgOps E) (AL : AlgLaws A).
  Variable b : nat.
  Hypothesis Hb : arity b.
  Local Notation T := (st_t SO).

  (* one level: height 0 on both sides *)
  Lemma canon_valid_one leaves els i : Layout (h_node A) b 1 leaves els -> i < b ^ 1 ->
    validate EO A b (canon b els 1 i) = Ok true.
  Proof.
    intros HL Hi. pose proof (arity_ge b Hb) as H2. pose proof HL as (L1 & L2 & L3). pose proof (geom_gt b 1).
    destruct (nth_error_ex els i ltac:(lia)) as [x Hx]. destruct (nth_error_ex els (geom b 1 - 1)) as [root Hr]; [rewrite L2; pose proof (geom_pos b 1); lia|].
    destruct (canon_ends A b Hb 1 leaves els i x root HL Hi Hx Hr) as [HE0 HE1].
    rewrite (validate_base_ok EO A AL b H2 _ 1 x root); [|eapply canon_shape; eauto|exact HE0|exact HE1].
    cbn [canon pf_lemma pf_path]. rewrite !(firstn_all2 (path_of b 1 i)) by (rewrite path_of_length; lia).
    rewrite (path_of_digits b Hb). cbn [andb]. rewrite (groups_lemma_of b Hb 1 leaves els _ HL i Hi). f_equal. apply (eqb_eq EO EL).
    pose proof (climb_complete b Hb 1 leaves els (h_node A) HL (h_node A) i (fun _ _ _ => eq_refl) Hi 1 0 x eq_refl) as HC.
    cbn [row_off Nat.add] in HC. change (b ^ 0) with 1 in HC. rewrite Nat.div_1_r in HC. specialize (HC Hx). rewrite Hr in HC.
    injection HC as HC. exact HC.
  Qed.

  Lemma canon_total d leaves els i : Layout (h_node A) b d leaves els -> i < b ^ d -> exists v, validate EO A b (canon b els d i) = Ok v.
  Proof.
    intros HL Hi. pose proof (arity_ge b Hb) as H2. pose proof HL as (L1 & L2 & L3). pose proof (geom_gt b d).
    destruct (nth_error_ex els i ltac:(lia)) as [x Hx].
    destruct (nth_error_ex els (geom b d - 1)) as [root Hr]; [rewrite L2; pose proof (geom_pos b d); lia|].
    destruct (canon_ends A b Hb d leaves els i x root HL Hi Hx Hr) as [HE0 HE1].
    rewrite (validate_base_ok EO A AL b H2 _ d x root); [|eapply canon_shape; eauto|exact HE0|exact HE1]. eexists. reflexivity.
  Qed.

  Lemma sub_proof_outcome t f d ts lss ess i es : SubAt SO A b t f d ts lss ess -> i < mt_leafs t -> nth_error ess (i / b ^ d) = Some es ->
    forall v, validate EO A b (canon b es d (i mod b ^ d)) = Ok v ->
    validate EO A b (sub_proof SO b ts (mt_root t) d es i) = Ok (v && same01 EO A (map mt_root ts)).
  Proof.
    intros HS Hi He v HV.
    destruct (SubAt_child SO A b Hb _ _ _ _ _ _ _ HS Hi) as (tk & lv & es' & C1 & C2 & C3 & HF & C4). rewrite He in C3. inv C3.
    pose proof (sa_pos _ _ _ _ _ _ _ _ _ HS) as HP.
    rewrite (validate_layer EO A b _ (canon b es' d (i mod b ^ d)) (List.length ts)); auto.
    rewrite HV. cbn [rbind]. destruct v; [|reflexivity]. cbn [negb andb].
    rewrite <- (map_length mt_root ts).
    rewrite (validate_top_ok EO A AL _ (canon b es' d (i mod b ^ d)) (map mt_root ts) (mt_root t) (i / b ^ d) (mt_root tk)); auto.
    - f_equal. unfold same01. f_equal. apply (sa_root _ _ _ _ _ _ _ _ _ HS).
    - eapply canon_root; eauto. apply (proj1 (div_mod_lt i (b ^ d) (pow_pos b Hb d))).
    - rewrite nth_error_map, C1. reflexivity.
  Qed.

  Lemma top_proof_outcome t f d Sa ts ls i tk bs lss ess es : TopAt SO A b t f d Sa ts ls -> i < mt_leafs t ->
    nth_error ts (i / (Sa * b ^ d)) = Some tk -> List.length bs = Sa -> SubAt SO A b tk f d bs lss ess ->
    nth_error ess (i mod (Sa * b ^ d) / b ^ d) = Some es ->
    forall v, validate EO A b (sub_proof SO b bs (mt_root tk) d es (i mod (Sa * b ^ d))) = Ok v ->
    validate EO A b (mk_proof (Some (sub_proof SO b bs (mt_root tk) d es (i mod (Sa * b ^ d)))) (List.length ts) Sa
            (remove_at (i / (Sa * b ^ d)) (map mt_root ts) ++ [mt_root t]) [i / (Sa * b ^ d)]) = Ok (v && same01 EO A (map mt_root ts)).
  Proof.
    intros HT Hi Htk HSa HS He v HV. pose proof (pa_pos _ _ _ _ _ _ _ _ _ HT) as O1.
    pose proof (sa_pos _ _ _ _ _ _ _ _ _ HS) as HP.
    rewrite (validate_layer EO A b _ (sub_proof SO b bs (mt_root tk) d es (i mod (Sa * b ^ d))) (List.length ts)); auto.
    rewrite HV. cbn [rbind]. destruct v; [|reflexivity]. cbn [negb andb].
    match goal with |- validate_top _ _ ?p _ = _ =>
      pose proof (validate_top_ok EO A AL p (sub_proof SO b bs (mt_root tk) d es (i mod (Sa * b ^ d))) (map mt_root ts) (mt_root t) (i / (Sa * b ^ d)) (mt_root tk)) as HV'
    end.
    rewrite map_length in HV'. rewrite HV'; auto; clear HV'.
    - f_equal. unfold same01. f_equal. apply (pa_root _ _ _ _ _ _ _ _ _ HT).
    - cbn [pf_sub_nodes]. lia.
    - unfold pf_root, sub_proof. cbn [pf_lemma]. rewrite rev_app_distr. reflexivity.
    - rewrite nth_error_map, Htk. reflexivity.
  Qed.
End X.

(* Base trees: with two branches or one level every algorithm does; otherwise a proof that
   validates needs a collision between different heights or nodes (C89_wide). *)
Theorem C19_base_exact : forall E (EO : ElementOps E) A SO np en b leaves f t f' d i,
  setting EO A SO np en b -> builder EO SO A en b leaves f (Ok t, f') -> List.length leaves = b ^ d -> i < mt_leafs t ->
  exists p v, gen_proof SO b 0 0 t f' i = Ok p /\ validate EO A b p = Ok v /\
    (b = 2 \/ d = 1 \/ height_agnostic A -> v = true) /\
    (b <> 2 -> d <> 1 -> v = true ->
     exists els m row q, mt_read_range SO t f' 0 (mt_len SO t) = Ok els /\ m < d /\ row < d /\
       asked A b p d m <> stored els b d row q /\
       h_node A (m * (b - 1)) (proof_nodes A b p d m) = h_node A row (sub els (row_off b d row + q * b) b)).
Proof.
  intros E EO A SO np en b leaves f t f' d i HSet HB Hl Hi. pose proof HSet as (EL & AL & HS & Hb & Hch).
  destruct (builder_tree EO EL A AL en b SO np HS leaves f t f' Hb Hch HB) as (d' & els & Hn & HF).
  rewrite Hl in Hn. apply same_leaves_pow in Hn; auto. subst d'.
  pose proof HF as [F1 F2 F3 F4 F5 F6 F7 F8 F9 _]. rewrite F3 in Hi. specialize (F9 i Hi).
  change (mk_proof None 0 0 (lemma_of b els d i) (path_of b d i)) with (canon b els d i) in F9.
  destruct (canon_total EO A AL b Hb d leaves els i F2 Hi) as [v Hv].
  exists (canon b els d i), v. split; [exact F9|]. split; [exact Hv|]. split.
  - intros [H|[H|H]].
    + rewrite (canon_valid EO EL A AL b Hb d leaves els i (or_introl H) F2 Hi) in Hv. congruence.
    + subst d. rewrite (canon_valid_one EO EL A AL b Hb leaves els i F2 Hi) in Hv. congruence.
    + rewrite (canon_valid EO EL A AL b Hb d leaves els i (or_intror H) F2 Hi) in Hv. congruence.
  - intros N2 N1 ->.
    destruct (C14_base E EO A SO np en b leaves f t f' i _ HSet HB F9) as (_ & _ & _ & G2 & _).
    assert (HN : proof_new b 0 0 None (lemma_of b els d i) (path_of b d i) = Ok (canon b els d i)).
    { pose proof (arity_ge b Hb) as H2. unfold proof_new. cbn [Nat.eqb andb]. rewrite (lemma_of_length b Hb d leaves els _ F2 i Hi).
      replace (2 <? 2 + (b - 1) * d) with true.
      2:{ symmetry. apply Nat.ltb_lt. assert (1 * 1 <= (b - 1) * d) by (apply Nat.mul_le_mono; lia). lia. }
      cbn [ensure rbind]. rewrite path_of_length, lemma_len_ok by lia. cbn [rbind].
      rewrite Nat.add_sub, Nat.eqb_refl. reflexivity. }
    destruct (C89_wide E EO A SO np en b leaves f t f' d _ _ _ HSet N2 ltac:(lia) HB Hl HN Hv G2) as (els' & m & row & q & H).
    rewrite path_of_length in H. exists els', m, row, q. exact H.
Qed.

(* Two layers: the outcome for the base proof inside, and the roots hashed with height 0 must
   give what they give with height 1. *)
Theorem C19_sub_exact : forall E (EO : ElementOps E) A SO np en b lss f ts f' sub_ t i,
  setting EO A SO np en b -> built_all EO SO A en b lss f ts f' -> from_trees SO A sub_ ts = Ok t -> i < mt_leafs t ->
  exists p sp tk v, gen_proof SO b sub_ 0 t f' i = Ok p /\ pf_sub p = Some sp /\
    nth_error ts (i / mt_leafs tk) = Some tk /\ gen_proof SO b 0 0 tk f' (i mod mt_leafs tk) = Ok sp /\
    validate EO A b sp = Ok v /\
    validate EO A b p = Ok (v && same01 EO A (map mt_root ts)).
Proof.
  intros E EO A SO np en b lss f ts f' sub_ t i (EL & AL & HS & Hb & Hch) HB HT Hi.
  destruct (built_sub EO EL A AL en b Hb Hch SO np HS lss f ts f' sub_ t HB HT) as (d & ess & HL & HSA).
  destruct (SubAt_child SO A b Hb t f' d ts lss ess i HSA Hi) as (tk & lv & es & C1 & C2 & C3 & HF & C4).
  pose proof (proj1 (div_mod_lt i (b ^ d) (pow_pos b Hb d))) as Hm.
  destruct (canon_total EO A AL b Hb d lv es (i mod b ^ d) (ft_layout _ _ _ _ _ _ _ _ HF) Hm) as [v Hv].
  eexists _, _, tk, v. split; [unfold gen_proof; rewrite <- HL; eapply (SubAt_gen SO A b Hb 1); eauto|].
  rewrite (ft_leafs _ _ _ _ _ _ _ _ HF). split; [reflexivity|]. split; [exact C1|].
  split; [apply (ft_proof _ _ _ _ _ _ _ _ HF); exact Hm|]. split; [exact Hv|].
  eapply sub_proof_outcome; eauto.
Qed.

(* Three layers: the same once more. *)
Theorem C19_top_exact : forall E (EO : ElementOps E) A SO np en b lss f gs f' sub_ top subs t i,
  setting EO A SO np en b -> built_all EO SO A en b lss f (concat gs) f' ->
  rmap (from_trees SO A sub_) gs = Ok subs -> from_sub_trees SO A top subs = Ok t -> i < mt_leafs t ->
  exists p sp bp bs sk v, gen_proof SO b sub_ top t f' i = Ok p /\ pf_sub p = Some sp /\ pf_sub sp = Some bp /\
    nth_error subs (i / mt_leafs sk) = Some sk /\ mt_data sk = SubTree bs /\
    gen_proof SO b sub_ 0 sk f' (i mod mt_leafs sk) = Ok sp /\
    validate EO A b bp = Ok v /\
    validate EO A b p = Ok (v && same01 EO A (map mt_root bs) && same01 EO A (map mt_root subs)).
Proof.
  intros E EO A SO np en b lss f gs f' sub_ top subs t i (EL & AL & HS & Hb & Hch) HB HR HT Hi.
  destruct (built_top EO EL A AL en b Hb Hch SO np HS lss f gs f' sub_ top subs t HB HR HT) as (d & ls & HL & Hls & HTA).
  destruct (TopAt_child SO A b Hb t f' d sub_ subs ls i HTA Hi) as (tk & bs & lss' & ess & C1 & C2 & C3 & HSA & C4 & C5).
  destruct (SubAt_child SO A b Hb tk f' d bs lss' ess _ HSA C4) as (tk' & lv & es & D1 & D2 & D3 & HF & D4).
  pose proof (proj1 (div_mod_lt (i mod (sub_ * b ^ d)) (b ^ d) (pow_pos b Hb d))) as Hm.
  destruct (canon_total EO A AL b Hb d lv es _ (ft_layout _ _ _ _ _ _ _ _ HF) Hm) as [v Hv].
  eexists _, _, _, bs, tk, v. split; [unfold gen_proof; rewrite <- HL; eapply (TopAt_gen SO A b Hb 0); eauto|].
  rewrite (sa_leafs _ _ _ _ _ _ _ _ _ HSA), C3. split; [reflexivity|]. split; [reflexivity|]. split; [exact C1|].
  split; [apply (sa_data _ _ _ _ _ _ _ _ _ HSA)|]. split.
  { unfold gen_proof. rewrite <- C3 at 1. eapply (SubAt_gen SO A b Hb 1); eauto. }
  split; [exact Hv|].
  eapply top_proof_outcome; eauto. eapply sub_proof_outcome; eauto.
Qed.

(* one algorithm that mixes in the height, one that does not, and one that does only from 2 up *)
Definition late_alg : AlgOps B1 := {|
  a_state := unit; a_default := tt; a_write := fun s _ => s; a_hash := fun s => (el 7, s);
  a_reset := fun s => s; a_leaf := fun s x => (x, s);
  a_node := fun s l r h => (el (val l + 3 * val r + 10 * (h - 1)), s);
  a_multi_node := fun s nodes h => (el (fold_left (fun a x => 3 * a + val x) nodes 0 + 10 * (h - 1)), s)
|}.
Example C19_exact_case :
  let out A r := match r with Some (t, f) => Some (rbind (gen_proof (vec_store BO) 2 2 0 t f 5) (validate BO A 2)) | None => None end in
  let base A := match mt_new BO (vec_store BO) A env1 4 (firstn 4 leaves8) fs_empty with
                | (Ok t, f) => Some (rbind (gen_proof (vec_store BO) 4 0 0 t f 2) (validate BO A 4)) | _ => None end in
  (out height_alg (case_sub (vec_store BO) height_alg 2 2 [xs4 1; xs4 9]),
   out sum_alg (case_sub (vec_store BO) sum_alg 2 2 [xs4 1; xs4 9]),
   out late_alg (case_sub (vec_store BO) late_alg 2 2 [xs4 1; xs4 9]), base height_alg) =
  (Some (Ok false), Some (Ok true), Some (Ok true), Some (Ok true)).
Proof. vm_compute. reflexivity. Qed.

Print Assumptions C19_base_exact.
Print Assumptions C19_sub_exact.
Print Assumptions C19_top_exact.
