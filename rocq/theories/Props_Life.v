(* C92: from data to an accepted proof over the whole life of a tree: build from data on disk,
   compact, open the compacted file as a level-cache store (a later process), make a cached
   proof, check it against the data.  Compositions of C03, C11, C23, C27 and C45. *)
From Coq Require Import String List Arith NArith Bool Lia Init.Byte ZifyBool ZifyNat.
From Verif Require Import Base Element Hash Sizing FS Sched Store VecStore DiskStore MmapStore LevelCache ProofModel Tree ListFacts Spec SpecFacts SizingFacts SchedFacts StoreLaws RowFacts ChunkFacts BuildFacts BuildLoop StoreSpec FileFacts VecFacts MapLayer DiskFacts MmapFacts PopFacts TreeFacts ProofSpec ProofFacts TreeProofs TreeObs Builders BuiltFacts CompoundFacts CompoundTrees CompoundGroups CompoundBuilt CachedFacts CachedTrees LcReads LcTrees CachedBuilt FrameFacts CompactFacts CompactTrees LcBuild LcCreate Cases Props_Build Props_Proof Props_Compound Props_Compact Props_Cached Props_LC.
Import ListNotations.

(* the leaf a datum becomes *)
Definition leaf_of {E} (A : AlgOps E) (x : hval) : E := h_leaf A (hash_of A x).

(* p convinces a verifier who knows the root of exactly the data with the leaf of x, at index i *)
Definition speaks_for {E} (EO : ElementOps E) (A : AlgOps E) (b : nat) (root : E) (i : nat) (x : hval) (p : proof E) : Prop :=
  pf_root p = Ok root /\ path_index b (pf_path p) = i /\
  validate EO A b p = Ok true /\
  forall y, validate_with_data EO A b p y = Ok true <-> leaf_of A y = leaf_of A x.

Lemma built_speaks {E} (EO : ElementOps E) A SO np en b leaves f t f' i x p : setting EO A SO np en b -> b = 2 \/ height_agnostic A ->
  builder EO SO A en b leaves f (Ok t, f') -> nth_error leaves i = Some (leaf_of A x) ->
  gen_proof SO b 0 0 t f' i = Ok p -> speaks_for EO A b (mt_root t) i x p.
Proof.
  intros HS HA HB Hx HP. pose proof HS as (EL & AL & HS' & Hb & Hch).
  destruct (C14_base E EO A SO np en b _ f t f' i p HS HB HP) as (Hi & Hit & _ & Hr & Hpi & _).
  destruct (C11_proofs_validate E EO A SO np en b _ f t f' i HS HB HA Hi) as (p' & HP' & HV).
  rewrite HP in HP'. injection HP' as <-. split; [exact Hr|]. split; [exact Hpi|]. split; [exact HV|].
  unfold rnth in Hit. rewrite Hx in Hit.
  assert (G : forall z, validate_with_data EO A b p z = if e_eqb EO (leaf_of A z) (leaf_of A x) then Ok true else Ok false).
  { intros z. unfold validate_with_data, leaf_of at 1, hash_of at 1, h_leaf at 1.
    destruct (a_hash A (hash_into A (a_default A) z)) as [item a]. rewrite AL. cbn [fst].
    destruct (a_leaf A (a_default A) item) as [lh a2]. cbn [fst]. rewrite Hit. cbn [rbind]. rewrite HV. reflexivity. }
  intros y. rewrite G. destruct (e_eqb EO (leaf_of A y) (leaf_of A x)) eqn:Q.
  - split; [|reflexivity]. intros _. apply (eqb_eq EO EL). exact Q.
  - split; [discriminate|]. intros K. apply (eqb_eq EO EL) in K. congruence.
Qed.

(* the tree built from xs at c, in f, exists, with the Merkle root of the leaves *)
Lemma data_built {E} (EO : ElementOps E) A en b d c xs f : ElementLaws EO -> AlgLaws A -> arity b -> chunk_ok en b ->
  1 <= d -> List.length xs = b ^ d -> fs_dir f (cfg_path c) = None ->
  exists t f1, from_data_with_config EO (disk_store EO) A en b xs c f = (Ok t, f1) /\
    builder EO (disk_store EO) A en b (map (leaf_of A) xs) f (Ok t, f1) /\
    disk_tree EO A en b (cfg_path c) (map (leaf_of A) xs) t f1 /\ mt_leafs t = b ^ d /\ mt_row_count t = d + 1 /\
    MRoot (h_node A) b d (map (leaf_of A) xs) (mt_root t).
Proof.
  intros EL AL Hb Hch Hd Hl Hp.
  assert (HB : builder EO (disk_store EO) A en b (map (leaf_of A) xs) f (from_data_with_config EO (disk_store EO) A en b xs c f)) by (apply B_data_config; exact Hp).
  assert (HC : cfg_builder EO (disk_store EO) A en b c (map (leaf_of A) xs) f (from_data_with_config EO (disk_store EO) A en b xs c f)) by apply CB_data.
  assert (HS : setting EO A (disk_store EO) true en b) by (split; [exact EL|split; [exact AL|split; [apply bs_disk|split; assumption]]]).
  pose proof (C03_vec_disk E EO A (disk_store EO) en b _ f _ HS HB) as H3. rewrite map_length in H3.
  destruct (from_data_with_config EO (disk_store EO) A en b xs c f) as [[t|e|e|] f1]; cbn [fst] in H3; try contradiction.
  2:{ exfalso. exact (H3 d Hd Hl). }
  exists t, f1. split; [reflexivity|]. split; [exact HB|].
  split. { split; [exact EL|]. split; [exact AL|]. split; [exact Hb|]. split; [exact Hch|]. exists c, f. auto. }
  destruct (builder_tree EO EL A AL en b (disk_store EO) true (bs_disk EO) _ f t f1 Hb Hch HB) as (d' & els & Hn & HF).
  rewrite map_length, Hl in Hn. apply same_leaves_pow in Hn; auto. subst d'.
  split; [exact (ft_leafs _ _ _ _ _ _ _ _ HF)|]. split; [exact (ft_rows _ _ _ _ _ _ _ _ HF)|].
  apply (Layout_root b ltac:(pose proof (arity_ge b Hb); lia) (h_node A) d _ els); [exact (ft_layout _ _ _ _ _ _ _ _ HF)|exact (ft_root _ _ _ _ _ _ _ _ HF)].
Qed.

(* build, compact to version 1, open: every datum has a cached proof, which speaks for it *)
Theorem C92_compacted : forall E (EO : ElementOps E) A en en' b d c xs f sizes,
  ElementLaws EO -> AlgLaws A -> arity b -> chunk_ok en b -> chunk_ok en' b -> b = 2 \/ height_agnostic A ->
  List.length xs = b ^ d -> sc_rows_to_discard c < d -> sc_rows_to_discard c <= default_rows_to_discard (b ^ d) b ->
  fs_dir f (cfg_path c) = None ->
  exists t f1 t' f2 ls lt root,
    from_data_with_config EO (disk_store EO) A en b xs c f = (Ok t, f1) /\
    mt_compact (disk_store EO) b sizes c 1 (t, f1) = (Ok true, (t', f2)) /\
    lc_new_from_disk EO (mt_len (disk_store EO) t) b c f2 = (Ok ls, f2) /\
    from_data_store (lc_store EO) b 0 0 ls (b ^ d) f2 = (Ok lt, f2) /\
    MRoot (h_node A) b d (map (leaf_of A) xs) root /\ mt_root t = root /\ mt_root lt = root /\
    forall i x, nth_error xs i = Some x ->
      exists p, gen_cached_proof EO (lc_store EO) A en' b 0 0 lt f2 i None = Ok p /\ speaks_for EO A b root i x p.
Proof.
  intros E EO A en en' b d c xs f sizes EL AL Hb Hch Hch' HA Hl HR Hdef Hp.
  destruct (data_built EO A en b d c xs f EL AL Hb Hch ltac:(lia) Hl Hp) as (t & f1 & B1 & B2 & B3 & B4 & B5 & B6).
  destruct (C23_opens E EO A en b c 1 _ t f1 sizes B3 ltac:(lia)) as (t' & f2 & K1 & K2 & _).
  destruct (K2 eq_refl) as (ls & K3).
  assert (HO : reopened EO A en b c 1 (map (leaf_of A) xs) t f1 ls f2).
  { split; [exact B3|]. split; [lia|]. split; [exists sizes, t'; exact K1|]. left. auto. }
  destruct (reopened_at _ _ _ _ _ _ _ _ _ _ _ HO) as (d' & els & lt & _ & _ & _ & _ & HF & HR' & Hv & Q1 & HLT).
  assert (d' = d) by (pose proof (ft_rows _ _ _ _ _ _ _ _ HF); lia). subst d'. rewrite B4 in Q1.
  exists t, f1, t', f2, ls, lt, (mt_root t). split; [exact B1|]. split; [exact K1|]. split; [exact K3|]. split; [exact Q1|].
  split; [exact B6|]. split; [reflexivity|].
  split. { pose proof (ft_root _ _ _ _ _ _ _ _ HF). pose proof (lt_root _ _ _ _ _ _ _ _ _ _ HLT). congruence. }
  intros i x Hx. assert (Hi : i < b ^ d) by (rewrite <- Hl; apply nth_error_Some; congruence).
  pose proof (ft_proof _ _ _ _ _ _ _ _ HF i Hi) as HP.
  eexists. split.
  { unfold gen_cached_proof. cbn [gen_cached_proof_n]. rewrite (lt_data _ _ _ _ _ _ _ _ _ _ HLT).
    apply (lc_cached_ok EO EL A en' b Hb Hch' lt ls f2 d (sc_rows_to_discard c) (map (leaf_of A) xs) els i); auto; unfold capped; lia. }
  apply (built_speaks EO A (disk_store EO) true en b (map (leaf_of A) xs) f t f1 i x); auto.
  - split; [exact EL|split; [exact AL|split; [apply bs_disk|split; assumption]]].
  - rewrite nth_error_map, Hx. reflexivity.
Qed.

(* build, compact to another version, open over a replica file that starts with the leaves *)
Theorem C92_replica : forall E (EO : ElementOps E) A en en' b d c xs f sizes v,
  ElementLaws EO -> AlgLaws A -> arity b -> chunk_ok en b -> chunk_ok en' b -> b = 2 \/ height_agnostic A ->
  List.length xs = b ^ d -> sc_rows_to_discard c < d -> sc_rows_to_discard c <= default_rows_to_discard (b ^ d) b ->
  fs_dir f (cfg_path c) = None -> v <> 1 ->
  exists t f1 t' f2 root,
    from_data_with_config EO (disk_store EO) A en b xs c f = (Ok t, f1) /\
    mt_compact (disk_store EO) b sizes c v (t, f1) = (Ok true, (t', f2)) /\
    MRoot (h_node A) b d (map (leaf_of A) xs) root /\ mt_root t = root /\
    forall path rest, fs_file f2 path = Some (encode EO (map (leaf_of A) xs) ++ rest) ->
      exists r ls lt, er_new_from_path f2 path = Ok r /\
        lc_new_from_disk_with_reader EO (mt_len (disk_store EO) t) b c r f2 = (Ok ls, f2) /\
        from_data_store (lc_store EO) b 0 0 ls (b ^ d) f2 = (Ok lt, f2) /\ mt_root lt = root /\
        forall i x, nth_error xs i = Some x ->
          exists p, gen_cached_proof EO (lc_store EO) A en' b 0 0 lt f2 i None = Ok p /\ speaks_for EO A b root i x p.
Proof.
  intros E EO A en en' b d c xs f sizes v EL AL Hb Hch Hch' HA Hl HR Hdef Hp Hv1.
  destruct (data_built EO A en b d c xs f EL AL Hb Hch ltac:(lia) Hl Hp) as (t & f1 & B1 & B2 & B3 & B4 & B5 & B6).
  destruct (C23_opens E EO A en b c v _ t f1 sizes B3 ltac:(lia)) as (t' & f2 & K1 & _ & K2).
  exists t, f1, t', f2, (mt_root t). split; [exact B1|]. split; [exact K1|]. split; [exact B6|]. split; [reflexivity|].
  intros path rest Hf.
  destruct (C23_reader E EO (map (leaf_of A) xs) f2 path _ EL Hf) as (r & R1 & R2).
  { rewrite firstn_app, encode_length by exact EL. rewrite Nat.sub_diag. cbn [firstn]. rewrite app_nil_r. apply firstn_all2. rewrite encode_length by exact EL. lia. }
  destruct (K2 Hv1 r R2) as (ls & K3).
  assert (HO : reopened EO A en b c v (map (leaf_of A) xs) t f1 ls f2).
  { split; [exact B3|]. split; [lia|]. split; [exists sizes, t'; exact K1|]. right. split; [exact Hv1|]. exists r. auto. }
  destruct (reopened_at _ _ _ _ _ _ _ _ _ _ _ HO) as (d' & els & lt & _ & _ & _ & _ & HF & HR' & Hv & Q1 & HLT).
  assert (d' = d) by (pose proof (ft_rows _ _ _ _ _ _ _ _ HF); lia). subst d'. rewrite B4 in Q1.
  exists r, ls, lt. split; [exact R1|]. split; [exact K3|]. split; [exact Q1|].
  split. { pose proof (ft_root _ _ _ _ _ _ _ _ HF). pose proof (lt_root _ _ _ _ _ _ _ _ _ _ HLT). congruence. }
  intros i x Hx. assert (Hi : i < b ^ d) by (rewrite <- Hl; apply nth_error_Some; congruence).
  pose proof (ft_proof _ _ _ _ _ _ _ _ HF i Hi) as HP.
  eexists. split.
  { unfold gen_cached_proof. cbn [gen_cached_proof_n]. rewrite (lt_data _ _ _ _ _ _ _ _ _ _ HLT).
    apply (lc_cached_ok EO EL A en' b Hb Hch' lt ls f2 d (sc_rows_to_discard c) (map (leaf_of A) xs) els i); auto; unfold capped; lia. }
  apply (built_speaks EO A (disk_store EO) true en b (map (leaf_of A) xs) f t f1 i x); auto.
  - split; [exact EL|split; [exact AL|split; [apply bs_disk|split; assumption]]].
  - rewrite nth_error_map, Hx. reflexivity.
Qed.

(* build directly over a level-cache store and attach a replica file that starts with the leaves *)
Theorem C92_direct : forall E (EO : ElementOps E) A en b d c xs f,
  ElementLaws EO -> AlgLaws A -> arity b -> chunk_ok en b -> b = 2 \/ height_agnostic A ->
  List.length xs = b ^ d -> sc_rows_to_discard c < d -> sc_rows_to_discard c <= default_rows_to_discard (b ^ d) b ->
  fs_dir f (cfg_path c) = None ->
  exists t f1 root,
    from_data_with_config EO (lc_store EO) A en b xs c f = (Ok t, f1) /\
    MRoot (h_node A) b d (map (leaf_of A) xs) root /\ mt_root t = root /\
    forall path rest, fs_file f1 path = Some (encode EO (map (leaf_of A) xs) ++ rest) ->
      exists lt, set_external_reader_path path (t, f1) = (Ok tt, (lt, f1)) /\
        forall i x, nth_error xs i = Some x ->
          exists p, gen_cached_proof EO (lc_store EO) A en b 0 0 lt f1 i None = Ok p /\ speaks_for EO A b root i x p.
Proof.
  intros E EO A en b d c xs f EL AL Hb Hch HA Hl HR Hdef Hp.
  assert (Hll : List.length (map (leaf_of A) xs) = b ^ d) by (rewrite map_length; exact Hl).
  assert (HC : lc_call EO A en b c (map (leaf_of A) xs) (from_data_with_config EO (lc_store EO) A en b xs c f)).
  { split; [exact EL|]. split; [exact AL|]. split; [exact Hb|]. split; [exact Hch|]. exists f. split; [exact Hp|]. apply CB_data. }
  pose proof (C27_build E EO A en b c _ _ HC) as H27.
  destruct (from_data_with_config EO (lc_store EO) A en b xs c f) as [[t|e|e|] f1]; try contradiction.
  2:{ exfalso. exact (H27 d HR Hll). }
  destruct H27 as (d' & top & D1 & D2 & D3 & _).
  assert (d' = d). { rewrite Hll in D1. apply Nat.pow_inj_r in D1; [congruence|]. pose proof (arity_ge b Hb). lia. } subst d'.
  exists t, f1, (mt_root t). split; [reflexivity|]. split; [exact D3|]. split; [reflexivity|].
  intros path rest Hf.
  destruct (data_built EO A en b d cfg0 xs fs_empty EL AL Hb Hch ltac:(lia) Hl eq_refl) as (t0 & f0 & B1 & B2 & B3 & B4 & B5 & B6).
  assert (HS : setting EO A (disk_store EO) true en b) by (split; [exact EL|split; [exact AL|split; [apply bs_disk|split; assumption]]]).
  destruct (C27_proofs E EO A en b c (map (leaf_of A) xs) t f1 path _ (disk_store EO) true en fs_empty t0 f0 HC Hf) as (lt & L1 & L2); auto.
  { rewrite firstn_app, encode_length by exact EL. rewrite Nat.sub_diag. cbn [firstn]. rewrite app_nil_r. apply firstn_all2. rewrite encode_length by exact EL. lia. }
  { rewrite Hll. exact Hdef. }
  exists lt. split; [exact L1|]. intros i x Hx. assert (Hi : i < b ^ d) by (rewrite <- Hl; apply nth_error_Some; congruence).
  destruct (L2 i ltac:(lia)) as (p & P1 & _ & P2). exists p. split; [exact P2|].
  replace (mt_root t) with (mt_root t0) by (eapply MRoot_fun; eauto).
  apply (built_speaks EO A (disk_store EO) true en b (map (leaf_of A) xs) fs_empty t0 f0 i x); auto.
  rewrite nth_error_map, Hx. reflexivity.
Qed.

(* eight data, one row dropped: built, compacted, opened; the proof of datum 5 accepts datum 5
   and none of the others *)
Example C92_case :
  let xs := map (HInt 2) [300; 7; 9; 1000; 11; 12; 13; 514]%N in
  match from_data_with_config BO (disk_store BO) sum_alg env1 2 xs (cfg_r 1) fs_empty with
  | (Ok t, f1) =>
      match mt_compact (disk_store BO) 2 (fun k => k mod 3) (cfg_r 1) 1 (t, f1) with
      | (Ok true, (_, f2)) =>
          match lc_new_from_disk BO (mt_len (disk_store BO) t) 2 (cfg_r 1) f2 with
          | (Ok ls, f3) =>
              match from_data_store (lc_store BO) 2 0 0 ls 8 f3 with
              | (Ok lt, f4) =>
                  match gen_cached_proof BO (lc_store BO) sum_alg env1 2 0 0 lt f4 5 None with
                  | Ok p => map (validate_with_data BO sum_alg 2 p) xs = [Ok false; Ok false; Ok false; Ok false; Ok false; Ok true; Ok false; Ok false]
                            /\ sc_rows_to_discard (cfg_r 1) <= default_rows_to_discard 8 2
                  | _ => False end
              | _ => False end
          | _ => False end
      | _ => False end
  | _ => False end.
Proof. vm_compute. split; [reflexivity|lia]. Qed.

Print Assumptions C92_compacted.
Print Assumptions C92_replica.
Print Assumptions C92_direct.
