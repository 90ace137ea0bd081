(* Trees built by the library whose stores answer range reads: cached proofs equal
   full proofs, also in compound trees. *)
From Coq Require Import String List Arith Bool Lia Init.Byte ZifyBool ZifyNat.
From Verif Require Import Base Element Hash Sizing FS Sched Store VecStore DiskStore MmapStore LevelCache ProofModel Tree ListFacts Spec SpecFacts SizingFacts SchedFacts StoreLaws RowFacts ChunkFacts BuildFacts BuildLoop StoreSpec FileFacts VecFacts MapLayer DiskFacts MmapFacts PopFacts TreeFacts ProofSpec ProofFacts TreeProofs TreeObs Builders BuiltFacts CompoundFacts CompoundTrees CompoundGroups CompoundBuilt CachedFacts CachedTrees.
Import ListNotations.

Section CachedBuilt.
  Context {E : Type} (EO : ElementOps E) (EL : ElementLaws EO) (A : AlgOps E) (AL : AlgLaws A).
  Variables (en : env) (b : nat).
  Hypothesis Hb : arity b.
  Hypothesis Hch : chunk_ok en b.
  Local Notation DO := (disk_store EO).
  Local Notation T := (st_t DO).

  (* the trees of a DiskStore keep their representation while other files are made *)
  Lemma disk_built_at leaves f t f1 f2 : builder EO DO A en b leaves f (Ok t, f1) -> fs_ext f1 f2 ->
    exists d s els, 1 <= d /\ List.length leaves = b ^ d /\ TreeAt DO (disk_rep EO) A b t s f2 d leaves els.
  Proof.
    intros HB HX.
    destruct (builder_built EO EL DO disk_owner disk_W (disk_rep EO) true (disk_laws EO EL) A AL en b Hb Hch leaves f t f1 HB)
      as (d & p & Hd & Hl & HBt).
    destruct (built_at DO disk_owner disk_W (disk_rep EO) A b f p d leaves t f1 HBt) as (s & els & HT & _ & _ & HC).
    exists d, s, els. split; [exact Hd|]. split; [exact Hl|].
    refine (TreeAt_frame EO DO disk_owner disk_W (disk_rep EO) true (disk_laws EO EL) A b t s f1 f2 d leaves els HT _).
    intros i Hi. apply HX. destruct HC as (_ & _ & C3 & _). specialize (C3 i Hi). lia.
  Qed.

  Lemma disk_cached_full leaves f t f1 f2 i rows : builder EO DO A en b leaves f (Ok t, f1) -> fs_ext f1 f2 ->
    i < mt_leafs t -> gen_cached_proof EO DO A en b 0 0 t f2 i rows = gen_proof DO b 0 0 t f2 i.
  Proof.
    intros HB HX Hi. destruct (disk_built_at _ _ _ _ _ HB HX) as (d & s & els & Hd & Hl & HT).
    rewrite (ta_leafs _ _ _ _ _ _ _ _ _ _ HT) in Hi.
    pose proof (TreeAt_Full EO DO disk_owner disk_W (disk_rep EO) true (disk_laws EO EL) A b Hb t s f2 d leaves els HT) as HF.
    rewrite (ft_proof _ _ _ _ _ _ _ _ HF i Hi).
    unfold gen_cached_proof. cbn [gen_cached_proof_n]. rewrite (ta_data _ _ _ _ _ _ _ _ _ _ HT).
    apply (disk_cached_base EO EL A en b Hb Hch t s f2 d leaves els i rows HT Hi).
  Qed.

  Lemma disk_all_cached lss f ts f' : built_all EO DO A en b lss f ts f' ->
    Forall (fun tk => forall i rows, i < mt_leafs tk -> gen_cached_proof EO DO A en b 0 0 tk f' i rows = gen_proof DO b 0 0 tk f' i) ts.
  Proof.
    intros H. induction H as [|leaves lss f t f1 ts f2 HB HA IH]; [constructor|]. constructor; [|exact IH].
    intros i rows Hi. eapply disk_cached_full; eauto. exact (built_all_ext EO EL A AL en b Hb Hch DO true (bs_disk EO) _ _ _ _ HA).
  Qed.

  Lemma full_cached_base rows tk f d lv es : FullTree DO A b tk f d lv es ->
    (forall i rows, i < mt_leafs tk -> gen_cached_proof EO DO A en b 0 0 tk f i rows = gen_proof DO b 0 0 tk f i) ->
    CachedBase EO DO A en b rows tk f d es.
  Proof.
    intros HF H. split; [apply (ft_base _ _ _ _ _ _ _ _ HF)|]. split; [apply (ft_leafs _ _ _ _ _ _ _ _ HF)|].
    intros i Hi. rewrite H by (rewrite (ft_leafs _ _ _ _ _ _ _ _ HF); exact Hi). apply (ft_proof _ _ _ _ _ _ _ _ HF). exact Hi.
  Qed.

  Lemma sub_cached_full lss f ts f' sub_ t i rows : built_all EO DO A en b lss f ts f' -> from_trees DO A sub_ ts = Ok t ->
    i < mt_leafs t -> gen_cached_proof EO DO A en b sub_ 0 t f' i rows = gen_proof DO b sub_ 0 t f' i.
  Proof.
    intros HB HT Hi. destruct (built_sub EO EL A AL en b Hb Hch DO true (bs_disk EO) lss f ts f' sub_ t HB HT) as (d & ess & HL & HSA).
    destruct (SubAt_child DO A b Hb t f' d ts lss ess i HSA Hi) as (tk & lv & es & C1 & C2 & C3 & HF & C4).
    unfold gen_proof, gen_cached_proof. rewrite <- HL. rewrite (SubAt_gen DO A b Hb 1 t f' d ts lss ess i es HSA Hi C3).
    apply (sub_cached EO DO A en b rows 1 t f' d ts i tk es); auto.
    - apply (sa_data _ _ _ _ _ _ _ _ _ HSA).
    - apply (SubAt_over DO A b Hb _ _ _ _ _ _ HSA).
    - apply (full_cached_base rows tk f' d lv es HF). pose proof (disk_all_cached _ _ _ _ HB) as HA. rewrite Forall_forall in HA.
      apply HA. eapply nth_error_In; eauto.
  Qed.

  Lemma top_cached_full lss f gs f' sub_ top subs t i rows : built_all EO DO A en b lss f (concat gs) f' ->
    rmap (from_trees DO A sub_) gs = Ok subs -> from_sub_trees DO A top subs = Ok t ->
    i < mt_leafs t -> gen_cached_proof EO DO A en b sub_ top t f' i rows = gen_proof DO b sub_ top t f' i.
  Proof.
    intros HB HR HT Hi.
    destruct (built_top EO EL A AL en b Hb Hch DO true (bs_disk EO) lss f gs f' sub_ top subs t HB HR HT) as (d & ls & HL & Hls & HTA).
    destruct (TopAt_child DO A b Hb t f' d sub_ subs ls i HTA Hi) as (tk & bs & lss' & ess & C1 & C2 & C3 & HSA & C4 & C5).
    destruct (SubAt_child DO A b Hb tk f' d bs lss' ess _ HSA C4) as (bk & lv & es & D1 & D2 & D3 & HF & D4).
    unfold gen_proof, gen_cached_proof. rewrite <- HL.
    rewrite (TopAt_gen DO A b Hb 0 t f' d sub_ subs ls i tk bs lss' ess es HTA Hi C1 C3 HSA D3).
    apply (top_cached EO DO A en b rows 0 t f' d sub_ subs i tk bs bk es); auto.
    - apply (pa_data _ _ _ _ _ _ _ _ _ HTA).
    - apply (TopAt_over DO A b Hb _ _ _ _ _ _ HTA).
    - apply (sa_data _ _ _ _ _ _ _ _ _ HSA).
    - apply (SubAt_over DO A b Hb _ _ _ _ _ _ HSA).
    - apply (full_cached_base rows bk f' d lv es HF). pose proof (disk_all_cached _ _ _ _ HB) as HA. rewrite Forall_forall in HA.
      apply HA. apply nth_error_In in C1. apply nth_error_In in D1.
      assert (HG : exists g, In g gs /\ from_trees DO A sub_ g = Ok tk).
      { clear - HR C1. apply rmap_ok_Forall2 in HR. induction HR as [|g tk' gs subs HG HR IH]; [contradiction|].
        destruct C1 as [->|C1]; [exists g; split; [left; reflexivity|exact HG]|]. destruct (IH C1) as (g' & G1 & G2). exists g'. split; [right; exact G1|exact G2]. }
      destruct HG as (g & G1 & G2). apply in_concat. exists g. split; [exact G1|].
      assert (Hd' : mt_data tk = SubTree g).
      { apply (from_trees_data DO A sub_ g tk G2). }
      rewrite (sa_data _ _ _ _ _ _ _ _ _ HSA) in Hd'. injection Hd' as <-. exact D1.
  Qed.
End CachedBuilt.
