(* C22: cached proofs over the two stores whose Store::read_range_into is
   unimplemented!() (vec.rs 94-96, mmap.rs 228-235). Proofs in NoRange.v. *)
From Coq Require Import String List Arith NArith Bool Lia Init.Byte ZifyBool ZifyNat.
From Verif Require Import Base Element Hash Sizing FS Sched Store VecStore DiskStore MmapStore LevelCache ProofModel Tree ListFacts Spec SpecFacts SizingFacts SchedFacts StoreLaws RowFacts ChunkFacts BuildFacts BuildLoop StoreSpec FileFacts VecFacts MapLayer DiskFacts MmapFacts PopFacts TreeFacts ProofSpec ProofFacts TreeProofs TreeObs Builders BuiltFacts CompoundFacts CompoundTrees CompoundGroups CompoundBuilt CachedFacts NoRange Cases Props_Build Props_Proof Props_Compound Props_Compact Props_Cached.
Import ListNotations.

(* stores that hold every node but cannot be read by byte ranges *)
Inductive unranged {E} (EO : ElementOps E) : StoreOps E -> bool -> Prop :=
| ur_vec : unranged EO (vec_store EO) true
| ur_mmap : unranged EO (mmap_store_ops EO) false.
Lemma unranged_basic {E} (EO : ElementOps E) SO np : unranged EO SO np -> basic_store EO SO np.
Proof. intros []; constructor. Qed.
Lemma unranged_no {E} (EO : ElementOps E) SO np : unranged EO SO np ->
  exists m, forall st s e buf, st_read_range_into SO st s e buf = Panic m.
Proof. intros []; eexists; reflexivity. Qed.

(* every request in range panics, whatever the tree, the index and the rows asked for *)
Theorem C22_panics : forall E (EO : ElementOps E) SO np A en b leaves f t f' i rows,
  ElementLaws EO -> AlgLaws A -> arity b -> chunk_ok en b -> unranged EO SO np ->
  builder EO SO A en b leaves f (Ok t, f') ->
  i < mt_leafs t ->
  exists p m, gen_proof SO b 0 0 t f' i = Ok p /\ gen_cached_proof EO SO A en b 0 0 t f' i rows = Panic m.
Proof.
  intros E EO SO np A en b leaves f t f' i rows EL AL Hb Hch HU HB Hi.
  destruct (unranged_no EO SO np HU) as [m Hm]. apply unranged_basic in HU.
  destruct (builder_tree EO EL A AL en b SO np HU leaves f t f' Hb Hch HB) as (d & els & Hn & HF).
  rewrite (ft_leafs _ _ _ _ _ _ _ _ HF) in Hi. eexists. exists m.
  split; [apply (ft_proof _ _ _ _ _ _ _ _ HF); exact Hi|].
  unfold gen_cached_proof.
  exact (full_panics EO SO A en b Hb rows m Hm 2 0 0 t f' d leaves els i HF (ft_d _ _ _ _ _ _ _ _ HF) Hi (ft_base _ _ _ _ _ _ _ _ HF)).
Qed.

Theorem C22_panics_sub : forall E (EO : ElementOps E) SO np A en b lss f ts f' sub_ t i rows,
  ElementLaws EO -> AlgLaws A -> arity b -> chunk_ok en b -> unranged EO SO np ->
  built_all EO SO A en b lss f ts f' ->
  from_trees SO A sub_ ts = Ok t ->
  i < mt_leafs t ->
  exists p m, gen_proof SO b sub_ 0 t f' i = Ok p /\ gen_cached_proof EO SO A en b sub_ 0 t f' i rows = Panic m.
Proof.
  intros E EO SO np A en b lss f ts f' sub_ t i rows EL AL Hb Hch HU HB HT Hi.
  destruct (unranged_no EO SO np HU) as [m Hm]. apply unranged_basic in HU.
  destruct (built_sub EO EL A AL en b Hb Hch SO np HU lss f ts f' sub_ t HB HT) as (d & ess & HL & HSA).
  destruct (SubAt_child SO A b Hb t f' d ts lss ess i HSA Hi) as (tk & lv & es & C1 & C2 & C3 & HF & C4).
  eexists. exists m. rewrite <- HL. unfold gen_proof, gen_cached_proof.
  split; [apply (SubAt_gen SO A b Hb 1 t f' d ts lss ess i es HSA Hi C3)|].
  apply (sub_panics EO SO A en b Hb rows m Hm 1 t f' d ts lss ess i HSA Hi).
  intros j tk' lv' es' HF' Hj.
  exact (full_panics EO SO A en b Hb rows m Hm 1 0 0 tk' f' d lv' es' j HF' (ft_d _ _ _ _ _ _ _ _ HF') Hj (ft_base _ _ _ _ _ _ _ _ HF')).
Qed.

Theorem C22_panics_top : forall E (EO : ElementOps E) SO np A en b lss f gs f' sub_ top subs t i rows,
  ElementLaws EO -> AlgLaws A -> arity b -> chunk_ok en b -> unranged EO SO np ->
  built_all EO SO A en b lss f (concat gs) f' ->
  rmap (from_trees SO A sub_) gs = Ok subs ->
  from_sub_trees SO A top subs = Ok t ->
  i < mt_leafs t ->
  exists p m, gen_proof SO b sub_ top t f' i = Ok p /\ gen_cached_proof EO SO A en b sub_ top t f' i rows = Panic m.
Proof.
  intros E EO SO np A en b lss f gs f' sub_ top subs t i rows EL AL Hb Hch HU HB HR HT Hi.
  destruct (unranged_no EO SO np HU) as [m Hm]. apply unranged_basic in HU.
  destruct (built_top EO EL A AL en b Hb Hch SO np HU lss f gs f' sub_ top subs t HB HR HT) as (d & ls & HL & Hls & HTA).
  destruct (TopAt_child SO A b Hb t f' d sub_ subs ls i HTA Hi) as (tk & bs & lss' & ess & C1 & C2 & C3 & HSA & C4 & C5).
  destruct (SubAt_child SO A b Hb tk f' d bs lss' ess _ HSA C4) as (bk & lv & es & D1 & D2 & D3 & HF & D4).
  eexists. exists m. unfold gen_proof, gen_cached_proof. rewrite <- HL.
  split; [apply (TopAt_gen SO A b Hb 0 t f' d sub_ subs ls i tk bs lss' ess es HTA Hi C1 C3 HSA D3)|].
  apply (top_panics EO SO A en b Hb rows m Hm 0 t f' d sub_ subs ls i HTA Hi).
  intros j tk' lv' es' HF' Hj.
  exact (full_panics EO SO A en b Hb rows m Hm 0 0 0 tk' f' d lv' es' j HF' (ft_d _ _ _ _ _ _ _ _ HF') Hj (ft_base _ _ _ _ _ _ _ _ HF')).
Qed.

Example C22_panics_case :
  let r := mt_new BO (vec_store BO) sum_alg env1 2 leaves8 fs_empty in
  let q := mt_new BO (mmap_store_ops BO) sum_alg env1 2 leaves8 fs_empty in
  forallb (fun i => forallb (fun rows =>
    match cached_at (vec_store BO) 2 r i rows, cached_at (mmap_store_ops BO) 2 q i rows with
    | Panic _, Panic _ => true | _, _ => false end) [None; Some 0; Some 1; Some 9]) (seq 0 8) = true.
Proof. vm_compute. reflexivity. Qed.

Print Assumptions C22_panics.
Print Assumptions C22_panics_sub.
Print Assumptions C22_panics_top.
