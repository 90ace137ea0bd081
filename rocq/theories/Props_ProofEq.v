(* C95: comparing proofs with ==. *)
From Coq Require Import String List Arith NArith Bool Lia Init.Byte ZifyBool ZifyNat.
From Verif Require Import Base Element Hash Sizing FS Sched Store VecStore DiskStore MmapStore LevelCache ProofModel ProofEq Tree ListFacts Spec SpecFacts SizingFacts StoreLaws StoreSpec VecFacts DiskFacts MmapFacts TreeFacts ProofSpec ProofFacts TreeProofs TreeObs Builders BuiltFacts CompoundFacts CompoundTrees CompoundGroups CompoundBuilt RowFacts Cases Props_Build Props_Proof Props_Compound Props_Tamper Props_Unique.
Import ListNotations.

Lemma items_eqb_eq {X} (eqb : X -> X -> bool) : (forall a b, eqb a b = true <-> a = b) -> forall l m, items_eqb eqb l m = true <-> l = m.
Proof.
  intros H. induction l as [|x l IH]; intros [|y m]; cbn [items_eqb]; try (split; [discriminate|discriminate]).
  - split; reflexivity.
  - rewrite andb_true_iff, H, IH. split; [intros [-> ->]; reflexivity|]. intros Q. injection Q as -> ->. auto.
Qed.
Lemma vec_eqb_eq {X} (eqb : X -> X -> bool) : (forall a b, eqb a b = true <-> a = b) -> forall l m, vec_eqb eqb l m = true <-> l = m.
Proof.
  intros H l m. unfold vec_eqb. rewrite andb_true_iff, (items_eqb_eq eqb H), Nat.eqb_eq. split; [intros [_ G]; exact G|intros ->; auto].
Qed.

(* == says whether the proofs are the same in everything *)
Theorem C95_decides : forall E (EO : ElementOps E) p q, ElementLaws EO -> (proof_eqb EO p q = true <-> p = q).
Proof.
  intros E EO p q EL. revert p q. fix IH 1. intros [sp top sub_ lemma path] [sp' top' sub' lemma' path']. cbn [proof_eqb].
  rewrite !andb_true_iff, !Nat.eqb_eq, (vec_eqb_eq (e_eqb EO) (el_eqb EO EL)), (vec_eqb_eq Nat.eqb Nat.eqb_eq).
  destruct sp as [x|], sp' as [y|].
  - rewrite (IH x y). split; [intros ((((-> & ->) & ->) & ->) & ->); reflexivity|]. intros Q. injection Q as -> -> -> -> ->. auto.
  - split; [intros ((((Q & _) & _) & _) & _); discriminate Q|intros Q; discriminate Q].
  - split; [intros ((((Q & _) & _) & _) & _); discriminate Q|intros Q; discriminate Q].
  - split; [intros ((((_ & ->) & ->) & ->) & ->); reflexivity|]. intros Q. injection Q as -> -> -> ->. auto.
Qed.

(* so == proofs are treated alike by every verifier, whatever the algorithm and arity *)
Theorem C95_verdict : forall E (EO : ElementOps E) p q, ElementLaws EO -> proof_eqb EO p q = true ->
  forall A b, validate EO A b p = validate EO A b q /\ (forall d, validate_with_data EO A b p d = validate_with_data EO A b q d) /\
    pf_item p = pf_item q /\ pf_root p = pf_root q.
Proof. intros E EO p q EL H A b. apply C95_decides in H; [|exact EL]. subst q. auto. Qed.

(* Proofs of trees of the same leaves, in any stores and built in any way, are == exactly
   if they are for the same leaf. *)
Theorem C95_base : forall E (EO : ElementOps E) A SO np SO' np' en en' b leaves f t f1 f' t' f1' i j p q,
  setting EO A SO np en b -> setting EO A SO' np' en' b ->
  builder EO SO A en b leaves f (Ok t, f1) -> builder EO SO' A en' b leaves f' (Ok t', f1') ->
  gen_proof SO b 0 0 t f1 i = Ok p -> gen_proof SO' b 0 0 t' f1' j = Ok q ->
  (proof_eqb EO p q = true <-> i = j).
Proof.
  intros E EO A SO np SO' np' en en' b leaves f t f1 f' t' f1' i j p q HS HS' HB HB' HP HQ. pose proof HS as (EL & AL & HS0 & Hb & Hch). pose proof HS' as (_ & _ & HS0' & _ & Hch').
  rewrite (C95_decides E EO p q EL).
  destruct (C14_base E EO A SO np en b leaves f t f1 i p HS HB HP) as (I1 & _ & _ & _ & I5 & _).
  destruct (C14_base E EO A SO' np' en' b leaves f' t' f1' j q HS' HB' HQ) as (_ & _ & _ & _ & J5 & _).
  split; [intros ->; congruence|intros ->].
  destruct (builder_tree EO EL A AL en b SO np HS0 leaves f t f1 Hb Hch HB) as (d & els & Hn & HF).
  destruct (builder_tree EO EL A AL en' b SO' np' HS0' leaves f' t' f1' Hb Hch' HB') as (d' & els' & Hn' & HF').
  pose proof (ft_layout _ _ _ _ _ _ _ _ HF) as HL. pose proof (ft_layout _ _ _ _ _ _ _ _ HF') as HL'.
  assert (d' = d) by (apply (same_leaves_pow b); [auto|rewrite <- (proj1 HL), <- (proj1 HL'); reflexivity]). subst d'.
  assert (els' = els) by (eapply Layout_fun; eauto). subst els'.
  rewrite (ft_leafs _ _ _ _ _ _ _ _ HF) in I1.
  rewrite (ft_proof _ _ _ _ _ _ _ _ HF) in HP by exact I1. rewrite (ft_proof _ _ _ _ _ _ _ _ HF') in HQ by exact I1. congruence.
Qed.

(* within a compound tree *)
Theorem C95_sub : forall E (EO : ElementOps E) A SO np en b lss f ts f' sub_ t i j p q,
  setting EO A SO np en b -> built_all EO SO A en b lss f ts f' -> from_trees SO A sub_ ts = Ok t ->
  i < mt_leafs t -> j < mt_leafs t -> gen_proof SO b sub_ 0 t f' i = Ok p -> gen_proof SO b sub_ 0 t f' j = Ok q ->
  (proof_eqb EO p q = true <-> i = j).
Proof.
  intros E EO A SO np en b lss f ts f' sub_ t i j p q HS HB HT Hi Hj HP HQ. pose proof HS as (EL & _). rewrite (C95_decides E EO p q EL).
  split; [|congruence]. intros <-.
  destruct (C14_sub E EO A SO np en b lss f ts f' sub_ t i HS HB HT Hi) as (p1 & sp1 & tk1 & G1 & S1 & _ & _ & _ & _ & _ & _ & P1 & Q1 & R1 & _).
  destruct (C14_sub E EO A SO np en b lss f ts f' sub_ t j HS HB HT Hj) as (p2 & sp2 & tk2 & G2 & S2 & _ & _ & _ & _ & _ & _ & P2 & Q2 & R2 & _).
  assert (p1 = p) by congruence. assert (p2 = p) by congruence. subst p1 p2. assert (sp2 = sp1) by congruence. subst sp2.
  rewrite P1 in P2. injection P2 as P2. rewrite R1, R2, <- Q1, <- Q2, P2. reflexivity.
Qed.
Theorem C95_top : forall E (EO : ElementOps E) A SO np en b lss f gs f' sub_ top subs t i j p q,
  setting EO A SO np en b -> built_all EO SO A en b lss f (concat gs) f' ->
  rmap (from_trees SO A sub_) gs = Ok subs -> from_sub_trees SO A top subs = Ok t ->
  i < mt_leafs t -> j < mt_leafs t -> gen_proof SO b sub_ top t f' i = Ok p -> gen_proof SO b sub_ top t f' j = Ok q ->
  (proof_eqb EO p q = true <-> i = j).
Proof.
  intros E EO A SO np en b lss f gs f' sub_ top subs t i j p q (EL & AL & HS & Hb & Hch) HB HR HT Hi Hj HP HQ. rewrite (C95_decides E EO p q EL).
  split; [|congruence]. intros <-.
  destruct (built_top EO EL A AL en b Hb Hch SO np HS lss f gs f' sub_ top subs t HB HR HT) as (d & ls & HL & Hls & HTA).
  assert (G : forall k, k < mt_leafs t -> gen_proof SO b sub_ top t f' k = Ok p ->
    exists c c' path, pf_path p = [c] /\ (exists sp bp, pf_sub p = Some sp /\ pf_path sp = [c'] /\ pf_sub sp = Some bp /\ pf_path bp = path) /\
      k = c * (sub_ * b ^ d) + (c' * b ^ d + path_index b path)).
  { intros k Hk HG.
    destruct (TopAt_child SO A b Hb t f' d sub_ subs ls k HTA Hk) as (tk & bs & lss' & ess & C1 & C2 & C3 & HSA & C4 & C5).
    destruct (SubAt_child SO A b Hb tk f' d bs lss' ess _ HSA C4) as (tk' & lv & es & E1 & E2 & E3 & HF & E4).
    pose proof (TopAt_over SO A b Hb _ _ _ _ _ _ HTA) as (_ & On & _).
    destruct (div_mod_lt k (sub_ * b ^ d) On) as [_ M0].
    destruct (div_mod_lt (k mod (sub_ * b ^ d)) (b ^ d) (pow_pos b Hb d)) as [M1 M2].
    assert (HE : gen_proof SO b sub_ top t f' k = Ok (mk_proof (Some (sub_proof SO b bs (mt_root tk) d es (k mod (sub_ * b ^ d)))) (List.length subs) sub_
            (remove_at (k / (sub_ * b ^ d)) (map mt_root subs) ++ [mt_root t]) [k / (sub_ * b ^ d)])).
    { rewrite <- HL. eapply (TopAt_gen SO A b Hb 0); eauto. }
    rewrite HG in HE. injection HE as ->. eexists _, _, _. split; [reflexivity|]. cbn [pf_sub].
    split; [eexists _, _; split; [reflexivity|]; split; [reflexivity|]; split; reflexivity|].
    cbn [canon pf_path]. rewrite path_of_index by auto. rewrite <- M2. exact M0. }
  destruct (G i Hi HP) as (c & c' & w & P1 & (sp & bp & S1 & P2 & S2 & P3) & ->).
  destruct (G j Hj HQ) as (e & e' & w' & P1' & (sp' & bp' & S1' & P2' & S2' & P3') & ->).
  assert (e = c) by congruence. assert (sp' = sp) by congruence. subst sp'. assert (e' = c') by congruence. assert (bp' = bp) by congruence. subst bp' e e'. congruence.
Qed.

(* Valid proofs of one shape and path for one root are ==, or they exhibit a collision. *)
Theorem C95_unique : forall E (EO : ElementOps E) A b p q r,
  ElementLaws EO -> AlgLaws A -> arity b -> shaped b false p -> shaped b false q -> twin p q ->
  validate EO A b p = Ok true -> validate EO A b q = Ok true -> pf_root p = Ok r -> pf_root q = Ok r ->
  proof_eqb EO p q = true \/ clashes A b p q.
Proof.
  intros E EO A b p q r EL AL Hb S1 S2 T V1 V2 R1 R2. destruct (C85_partial E EO A b p q r EL AL Hb S1 S2 T V1 V2 R1 R2) as [->|C]; [left|right; exact C].
  apply C95_decides; auto.
Qed.

(* on eight leaves, from the disk and from memory *)
Definition pf_of {T} (SO : StoreOps B1) (r : res (mtree (st_t SO) B1) * T) (g : mtree (st_t SO) B1 -> T -> res (proof B1)) : option (proof B1) :=
  match r with (Ok t, f) => match g t f with Ok p => Some p | _ => None end | _ => None end.
Definition eq_disk i := pf_of (disk_store BO) (mt_new_with_config BO (disk_store BO) sum_alg env1 2 leaves8 cfg0 fs_empty) (fun t f => gen_proof (disk_store BO) 2 0 0 t f i).
Definition eq_vec i := pf_of (vec_store BO) (mt_new BO (vec_store BO) sum_alg env1 2 leaves8 fs_empty) (fun t f => gen_proof (vec_store BO) 2 0 0 t f i).
Definition eq_opt (p q : option (proof B1)) : option bool := match p, q with Some x, Some y => Some (proof_eqb BO x y) | _, _ => None end.
Example C95_case :
  eq_opt (eq_disk 5) (eq_vec 5) = Some true /\ eq_opt (eq_disk 5) (eq_vec 4) = Some false /\
  (* one with a longer lemma, one with a proof inside *)
  match eq_vec 5 with
  | Some p => proof_eqb BO p (mk_proof None 0 0 (pf_lemma p ++ [el 0]) (pf_path p)) = false /\
      proof_eqb BO p (mk_proof (Some p) 0 0 (pf_lemma p) (pf_path p)) = false /\ proof_eqb BO p (mk_proof None 0 1 (pf_lemma p) (pf_path p)) = false
  | None => False
  end.
Proof. vm_compute. repeat split. Qed.

Print Assumptions C95_decides.
Print Assumptions C95_verdict.
Print Assumptions C95_base.
Print Assumptions C95_sub.
Print Assumptions C95_top.
Print Assumptions C95_unique.
