(* C96: a complete tree on disk and its level-cache twin in one directory, the way the
   library's own tests use them (test_legacy.rs 230-300): the twin's configuration is derived
   by from_config and the file of the complete tree serves as its external leaf file. *)
From Coq Require Import String List Arith NArith Bool Lia Init.Byte ZifyBool ZifyNat.
From Verif Require Import Base Element Hash Sizing FS Sched Store VecStore DiskStore MmapStore LevelCache ProofModel Tree ListFacts Spec SpecFacts SizingFacts SchedFacts StoreLaws RowFacts ChunkFacts BuildFacts BuildLoop StoreSpec FileFacts VecFacts MapLayer DiskFacts MmapFacts PopFacts TreeFacts ProofSpec ProofFacts TreeProofs TreeObs Builders BuiltFacts CompoundFacts CompoundTrees CompoundGroups CompoundBuilt CachedFacts CachedTrees LcReads LcTrees CachedBuilt FrameFacts CompactFacts CompactTrees ReopenFacts FileSpec LcBuild LcCreate Cases Props_Build Props_Proof Props_Compound Props_Compact Props_Cached Props_LC Props_OwnFile Props_Life.
Import ListNotations.

Lemma Layout_prefix {E} (h : nat -> list E -> E) b d leaves els : 2 <= b -> Layout h b d leaves els -> firstn (List.length leaves) els = leaves.
Proof.
  intros Hb HL. pose proof HL as (L1 & L2 & _). pose proof (geom_gt b d). apply nth_error_ext. intros i.
  destruct (Nat.lt_ge_cases i (b ^ d)) as [Hi|Hi].
  - rewrite nth_error_firstn. replace (i <? List.length leaves) with true by lia. apply (Layout_leaf b ltac:(lia) h d leaves els i HL Hi).
  - rewrite (proj2 (nth_error_None _ _)) by (rewrite firstn_length; lia). symmetry. apply nth_error_None. lia.
Qed.

Lemma file_at_data f f' q : file_at f' q = file_at f q -> fs_file f' q = fs_file f q.
Proof. unfold file_at, fs_file, fs_data. destruct (fs_dir f' q), (fs_dir f q); congruence. Qed.
Lemma file_at_none f f' q : file_at f' q = file_at f q -> fs_dir f q = None -> fs_dir f' q = None.
Proof. unfold file_at. intros H Q. rewrite Q in H. destruct (fs_dir f' q); congruence. Qed.

Lemma cfg_is_builder {E} (EO : ElementOps E) SO A en b c leaves f r : fs_dir f (cfg_path c) = None ->
  cfg_builder EO SO A en b c leaves f r -> builder EO SO A en b leaves f r.
Proof. intros Hp HB. destruct HB; [apply B_new_config|apply B_par_config|apply B_data_config|apply B_bytes_config]; assumption. Qed.
Lemma cfg_is_call {E} (EO : ElementOps E) SO A en b c leaves f r : cfg_builder EO SO A en b c leaves f r -> tree_call EO SO A en b f [c] r.
Proof. intros HB. destruct HB; constructor. Qed.

(* any two constructors with configurations, the second at a derived configuration of another name *)
Theorem C96_twin : forall E (EO : ElementOps E) A en en' b d c id size leaves f r1 f1 r2 f2,
  ElementLaws EO -> AlgLaws A -> arity b -> chunk_ok en b -> chunk_ok en' b ->
  List.length leaves = b ^ d -> sc_rows_to_discard c < d -> sc_rows_to_discard c <= default_rows_to_discard (b ^ d) b ->
  fs_ok f -> id <> sc_id c -> fs_dir f (cfg_path c) = None -> fs_dir f (cfg_path (from_config c id size)) = None ->
  cfg_builder EO (disk_store EO) A en b c leaves f (r1, f1) ->
  cfg_builder EO (lc_store EO) A en' b (from_config c id size) leaves f1 (r2, f2) ->
  exists t lt lt', r1 = Ok t /\ r2 = Ok lt /\ set_external_reader_path (cfg_path c) (lt, f2) = (Ok tt, (lt', f2)) /\
    MRoot (h_node A) b d leaves (mt_root t) /\ mt_root lt = mt_root t /\ mt_leafs lt = mt_leafs t /\
    mt_len (lc_store EO) lt = mt_len (disk_store EO) t /\ mt_row_count lt = mt_row_count t /\
    (* the twin has left the complete tree alone and both files hold what they should *)
    (exists els top, Layout (h_node A) b d leaves els /\ fs_file f1 (cfg_path c) = Some (encode EO els) /\ fs_file f2 (cfg_path c) = Some (encode EO els) /\
       top_rows (h_node A) b d (S (sc_rows_to_discard c)) leaves top /\ fs_file f2 (cfg_path (from_config c id size)) = Some (encode EO top)) /\
    (* the cached proofs of the twin are the proofs of the complete tree *)
    forall i, i < b ^ d ->
      exists p, gen_proof (disk_store EO) b 0 0 t f1 i = Ok p /\
        gen_cached_proof EO (lc_store EO) A en' b 0 0 lt' f2 i (Some (sc_rows_to_discard c)) = Ok p /\
        gen_cached_proof EO (lc_store EO) A en' b 0 0 lt' f2 i None = Ok p /\
        (b = 2 \/ height_agnostic A -> validate EO A b p = Ok true).
Proof.
  intros E EO A en en' b d c id size leaves f r1 f1 r2 f2 EL AL Hb Hch Hch' Hl HR Hdef Hok Hid Hp Hp' HB1 HB2. pose proof (arity_ge b Hb) as H2.
  set (c' := from_config c id size) in *.
  assert (Hc' : sc_rows_to_discard c' = sc_rows_to_discard c) by apply C67_derived.
  assert (Hne : cfg_path c' <> cfg_path c) by (intros Q; apply Hid; exact (proj1 (C67_from_config c id size) Q)).
  assert (HS : setting EO A (disk_store EO) true en b) by (split; [exact EL|split; [exact AL|split; [apply bs_disk|split; assumption]]]).
  pose proof (cfg_is_builder EO _ A en b c leaves f _ Hp HB1) as B2.
  pose proof (C03_vec_disk E EO A (disk_store EO) en b _ f _ HS B2) as H3. cbn [fst] in H3.
  destruct r1 as [t|e|e|]; try contradiction. 2:{ exfalso. exact (H3 d ltac:(lia) Hl). } clear H3.
  destruct (built_file EO EL A AL en b Hb Hch _ _ _ c _ f t f1 (fst_disk EO) Hp HB1) as (d0 & els & _ & Hl0 & HL & HT & HF & _).
  assert (d0 = d) by (apply (same_leaves_pow b); [auto|rewrite <- Hl0; exact Hl]). subst d0.
  destruct (C67_disk E EO A en b f [c] _ f1 (cfg_is_call EO _ A en b c leaves f _ HB1) Hok) as [Hok1 K1].
  assert (Hp1 : fs_dir f1 (cfg_path c') = None).
  { apply (file_at_none f); [|exact Hp']. apply K1. intros [Q|[]]. congruence. }
  assert (HC : lc_call EO A en' b c' leaves (r2, f2)).
  { split; [exact EL|]. split; [exact AL|]. split; [exact Hb|]. split; [exact Hch'|]. exists f1. split; [exact Hp1|]. exact HB2. }
  pose proof (C27_build E EO A en' b c' _ _ HC) as H27.
  destruct r2 as [lt|e|e|]; try contradiction.
  2:{ exfalso. apply (H27 d); [rewrite Hc'; exact HR|exact Hl]. }
  destruct H27 as (d' & top & D1 & D2 & D3 & D4 & D5 & D6 & D7 & D8 & _).
  assert (d' = d) by (apply (same_leaves_pow b); [auto|congruence]). subst d'. rewrite Hc' in D7.
  destruct (C67_level_cache E EO A en' b f1 [c'] _ f2 (cfg_is_call EO _ A en' b c' leaves f1 _ HB2) Hok1) as [_ K2].
  assert (HF2 : fs_file f2 (cfg_path c) = Some (encode EO els)).
  { rewrite <- HF. apply file_at_data. apply K2. intros [Q|[]]. congruence. }
  pose proof (Layout_prefix (h_node A) b d leaves els H2 HL) as HPre.
  destruct (C27_proofs E EO A en' b c' leaves lt f2 (cfg_path c) _ (disk_store EO) true en f t f1 HC HF2) as (lt' & L1 & L2); auto.
  { rewrite <- (firstn_skipn (List.length leaves) els), HPre, encode_app, firstn_app, (encode_length EO EL), Nat.sub_diag. cbn [firstn].
    rewrite app_nil_r. apply firstn_all2. rewrite (encode_length EO EL). lia. }
  { rewrite Hl, Hc'. exact Hdef. }
  assert (HM : MRoot (h_node A) b d leaves (mt_root t)) by exact (FullTree_root _ _ _ _ _ _ _ _ Hb HT).
  exists t, lt, lt'. split; [reflexivity|]. split; [reflexivity|]. split; [exact L1|]. split; [exact HM|].
  split; [eapply MRoot_fun; eauto|]. split; [rewrite D4, (ft_leafs _ _ _ _ _ _ _ _ HT); reflexivity|].
  split; [rewrite D5, (ft_len _ _ _ _ _ _ _ _ HT); reflexivity|]. split; [rewrite D6, (ft_rows _ _ _ _ _ _ _ _ HT); reflexivity|].
  split; [exists els, top; auto|].
  intros i Hi. destruct (L2 i ltac:(lia)) as (p & P1 & P2 & P3). rewrite Hc' in P2. exists p. split; [exact P1|]. split; [exact P2|]. split; [exact P3|].
  intros HA. assert (Hi' : i < mt_leafs t) by (rewrite (ft_leafs _ _ _ _ _ _ _ _ HT); exact Hi).
  destruct (C11_proofs_validate E EO A (disk_store EO) true en b leaves f t f1 i HS B2 HA Hi') as (p' & Q1 & Q2). congruence.
Qed.

(* eight data, one row dropped *)
Definition twin_cfg := from_config (cfg_r 1) "twin" (Some 15).
Definition twin_case : option (list (list bool) * list (option nat)) :=
  let xs := map (HInt 2) [300; 7; 9; 1000; 11; 12; 13; 514]%N in
  match from_data_with_config BO (disk_store BO) sum_alg env1 2 xs (cfg_r 1) fs_empty with
  | (Ok t, f1) =>
      match from_data_with_config BO (lc_store BO) sum_alg env1 2 xs twin_cfg f1 with
      | (Ok lt, f2) =>
          match set_external_reader_path (cfg_path (cfg_r 1)) (lt, f2) with
          | (Ok tt, (lt', f3)) =>
              Some (map (fun i => match gen_proof (disk_store BO) 2 0 0 t f1 i, gen_cached_proof BO (lc_store BO) sum_alg env1 2 0 0 lt' f3 i None with
                                  | Ok p, Ok q => [forallb (fun z => e_eqb BO (fst z) (snd z)) (combine (pf_lemma p) (pf_lemma q));
                                                   match validate_with_data BO sum_alg 2 q (HInt 2 1000) with Ok v => v | _ => false end]
                                  | _, _ => [] end) [0; 3; 7],
                    map (fun c => match fs_file f3 (cfg_path c) with Some l => Some (List.length l) | None => None end) [cfg_r 1; twin_cfg])
          | _ => None end
      | _ => None end
  | _ => None end.
Example C96_case : twin_case = Some ([[true; false]; [true; true]; [true; false]], [Some 15; Some 3]).
Proof. vm_compute. reflexivity. Qed.
Print Assumptions C96_twin.
