(* C63: deleting and building again. *)
From Coq Require Import String List Arith NArith Bool Lia Init.Byte ZifyBool ZifyNat.
From Verif Require Import Base Element Hash Sizing FS Sched Store VecStore DiskStore MmapStore LevelCache ProofModel Tree ListFacts Spec SpecFacts SizingFacts SchedFacts StoreLaws RowFacts ChunkFacts BuildFacts BuildLoop StoreSpec FileFacts VecFacts MapLayer DiskFacts MmapFacts PopFacts TreeFacts ProofSpec ProofFacts TreeProofs TreeObs Builders BuiltFacts CompoundFacts CompoundTrees CompoundGroups CompoundBuilt CachedFacts CachedTrees LcReads LcTrees CachedBuilt FrameFacts CompactFacts CompactTrees LcBuild LcCreate ReopenFacts Cases Props_Build Props_Proof Props_Compound Props_Compact Props_Cached Props_LC Props_Reopen Props_Files.
Import ListNotations.

(* MerkleTree::delete removes the file of a configuration. *)
Definition removes {E} (SO : StoreOps E) : Prop := forall c f,
  match fs_file f (cfg_path c) with
  | Some _ => exists f', mt_delete SO c f = (Ok tt, f') /\ fs_file f' (cfg_path c) = None /\
                (forall q, q <> cfg_path c -> fs_file f' q = fs_file f q) /\
                exists e, mt_delete SO c f' = (Err e, f')
  | None => exists e, mt_delete SO c f = (Err e, f)
  end.

Lemma file_None f p : fs_file f p = None <-> fs_dir f p = None.
Proof. unfold fs_file. destruct (fs_dir f p); split; congruence. Qed.

Lemma fs_remove_removes c f :
  match fs_file f (cfg_path c) with
  | Some _ => exists f', fs_remove (cfg_path c) f = (Ok tt, f') /\ fs_file f' (cfg_path c) = None /\
                (forall q, q <> cfg_path c -> fs_file f' q = fs_file f q) /\
                exists e, fs_remove (cfg_path c) f' = (Err e, f')
  | None => exists e, fs_remove (cfg_path c) f = (Err e, f)
  end.
Proof.
  unfold fs_remove, fs_exists, fs_file. destruct (fs_dir f (cfg_path c)); [|eexists; reflexivity].
  eexists. split; [reflexivity|]. cbn [fs_dir]. rewrite String.eqb_refl. split; [reflexivity|]. split; [|eexists; reflexivity].
  intros q Hq. apply String.eqb_neq in Hq. rewrite Hq. reflexivity.
Qed.

Theorem C63_disk_removes : forall E (EO : ElementOps E), removes (disk_store EO).
Proof. intros E EO c f. exact (fs_remove_removes c f). Qed.
Theorem C63_level_cache_removes : forall E (EO : ElementOps E), removes (lc_store EO).
Proof. intros E EO c f. exact (fs_remove_removes c f). Qed.

(* the deleted tree cannot be opened any more *)
Theorem C63_gone : forall E (EO : ElementOps E) c f f' size b r,
  mt_delete (disk_store EO) c f = (Ok tt, f') ->
  (exists e, disk_new_from_disk EO size b c f' = (Err e, f')) /\
  (exists e, lc_new_from_disk EO size b c f' = (Err e, f')) /\
  (exists e, lc_new_from_disk_with_reader EO size b c r f' = (Err e, f')) /\
  (exists e, disk_is_consistent EO size b c f' = Err e) /\
  (exists e, lc_is_consistent EO size b c f' = Err e).
Proof.
  intros E EO c f f' size b r H. pose proof (C63_disk_removes E EO c f) as HR.
  destruct (fs_file f (cfg_path c)); [|destruct HR as [e He]; congruence].
  destruct HR as (f2 & H2 & Hn & _). rewrite H in H2. inversion H2. subst f2. apply file_None in Hn.
  unfold disk_new_from_disk, disk_new_from_disk_with_path, lc_new_from_disk, lc_new_from_disk_with_reader, disk_is_consistent, lc_is_consistent, fs_exists, fs_open_ro.
  rewrite Hn. cbn. repeat split; eexists; reflexivity.
Qed.

(* building again at that configuration gives the tree of the new data *)
Theorem C63_rebuild : forall E (EO : ElementOps E) A en b c f f' leaves r,
  setting EO A (disk_store EO) true en b ->
  mt_delete (disk_store EO) c f = (Ok tt, f') ->
  cfg_builder EO (disk_store EO) A en b c leaves f' r ->
  match r with
  | (Ok t, f2) => MRoot (h_node A) b (mt_row_count t - 1) leaves (mt_root t) /\ disk_tree EO A en b (cfg_path c) leaves t f2
  | _ => forall d, 1 <= d -> List.length leaves <> b ^ d
  end.
Proof.
  intros E EO A en b c f f' leaves r (EL & AL & HS & Hb & Hch) H HB. pose proof (C63_disk_removes E EO c f) as HR.
  destruct (fs_file f (cfg_path c)); [|destruct HR as [e He]; congruence].
  destruct HR as (f2 & H2 & Hn & _). rewrite H in H2. inversion H2. subst f2. apply file_None in Hn.
  assert (HBu : builder EO (disk_store EO) A en b leaves f' r) by (destruct HB; constructor; auto).
  pose proof (builder_outcome EO EL A AL en b _ _ HS leaves f' r Hb Hch HBu) as HO.
  destruct r as [[t|e|e|] f2]; cbn in HO.
  - destruct HO as (d & els & Hl & HF). pose proof (arity_ge b Hb).
    split.
    + rewrite (ft_rows _ _ _ _ _ _ _ _ HF). replace (d + 1 - 1) with d by lia.
      exact (Layout_root b ltac:(lia) (h_node A) d leaves _ (mt_root t) (ft_layout _ _ _ _ _ _ _ _ HF) (ft_root _ _ _ _ _ _ _ _ HF)).
    + split; [exact EL|]. split; [exact AL|]. split; [exact Hb|]. split; [exact Hch|]. exists c, f'. auto.
  - exact HO.
  - exact (proj2 HO).
  - contradiction.
Qed.

(* same over a LevelCacheStore *)
Theorem C63_rebuild_level_cache : forall E (EO : ElementOps E) A en b c f f' leaves r,
  ElementLaws EO -> AlgLaws A -> arity b -> chunk_ok en b ->
  mt_delete (lc_store EO) c f = (Ok tt, f') ->
  cfg_builder EO (lc_store EO) A en b c leaves f' r ->
  lc_call EO A en b c leaves r.
Proof.
  intros E EO A en b c f f' leaves r EL AL Hb Hch H HB. pose proof (C63_level_cache_removes E EO c f) as HR.
  destruct (fs_file f (cfg_path c)); [|destruct HR as [e He]; congruence].
  destruct HR as (f2 & H2 & Hn & _). rewrite H in H2. inversion H2. subst f2. apply file_None in Hn.
  split; [exact EL|]. split; [exact AL|]. split; [exact Hb|]. split; [exact Hch|]. exists f'. auto.
Qed.

(* Objects of deleted trees, and of all other trees, keep working: any sequence of
   constructor calls (at fresh paths or without configuration) and deletions, each
   construction with its own schedule. *)
Inductive history {E} (EO : ElementOps E) (SO : StoreOps E) (A : AlgOps E) (b : nat) (f : fs)
  : list (mtree (st_t SO) E * list E) -> fs -> Prop :=
| H_start : history EO SO A b f [] f
| H_build en leaves t ts f1 f2 : history EO SO A b f ts f1 -> chunk_ok en b ->
    builder EO SO A en b leaves f1 (Ok t, f2) -> history EO SO A b f ((t, leaves) :: ts) f2
| H_delete c r ts f1 f2 : history EO SO A b f ts f1 -> mt_delete SO c f1 = (r, f2) -> history EO SO A b f ts f2.

Lemma delete_ext {E} (EO : ElementOps E) SO np c f r f' : basic_store EO SO np -> mt_delete SO c f = (r, f') -> fs_ext f f'.
Proof.
  intros HS. destruct HS; unfold mt_delete; cbn [st_delete vec_store disk_store mmap_store_ops].
  - intros H. inversion H. apply fs_ext_refl.
  - unfold fs_remove. destruct (fs_exists f (cfg_path c)); intros H; inversion H; [split; auto|apply fs_ext_refl].
  - intros H. inversion H. apply fs_ext_refl.
Qed.

Theorem C63_alive : forall E (EO : ElementOps E) A SO np b f ts f',
  ElementLaws EO -> AlgLaws A -> basic_store EO SO np -> arity b ->
  history EO SO A b f ts f' ->
  forall t leaves, In (t, leaves) ts ->
    exists d, List.length leaves = b ^ d /\ MRoot (h_node A) b d leaves (mt_root t) /\
      (forall k x, nth_error leaves k = Some x -> mt_read_at SO 0 0 t f' k = Ok x) /\
      (forall k x, nth_error leaves k = Some x -> exists p, gen_proof SO b 0 0 t f' k = Ok p /\
         pf_item p = Ok x /\ pf_root p = Ok (mt_root t) /\ (b = 2 \/ height_agnostic A -> validate EO A b p = Ok true)).
Proof.
  intros E EO A SO np b f ts f' EL AL HS Hb HH.
  assert (HX : Forall (fun q => exists d els, List.length (snd q) = b ^ d /\ Stable SO A b (fst q) f' d (snd q) els) ts).
  { induction HH as [|en leaves t ts f1 f2 HH IH Hch HB|c r ts f1 f2 HH IH HD]; [constructor| |].
    - destruct (builder_stable EO EL A AL en b SO np HS leaves f1 t f2 Hb Hch HB) as (d & els & Hl & HSt & Hx).
      constructor; [cbn; eauto|]. eapply Forall_impl; [|exact IH]. intros q (d' & els' & Q1 & Q2). exists d', els'. split; [exact Q1|].
      intros f3 H3. apply Q2. eapply fs_ext_trans; eauto.
    - pose proof (delete_ext EO SO np c f1 r f2 HS HD) as Hx.
      eapply Forall_impl; [|exact IH]. intros q (d' & els' & Q1 & Q2). exists d', els'. split; [exact Q1|].
      intros f3 H3. apply Q2. eapply fs_ext_trans; eauto. }
  intros t leaves Hin. rewrite Forall_forall in HX. destruct (HX _ Hin) as (d & els & Hl & HSt). cbn [fst snd] in *.
  pose proof (HSt f' (fs_ext_refl f')) as HF. pose proof (arity_ge b Hb). exists d. split; [exact Hl|].
  pose proof (ft_layout _ _ _ _ _ _ _ _ HF) as HL.
  split; [exact (Layout_root b ltac:(lia) (h_node A) d leaves _ (mt_root t) HL (ft_root _ _ _ _ _ _ _ _ HF))|].
  split.
  - intros k x Hk. pose proof (nth_error_lt _ _ _ Hk) as Lk. rewrite Hl in Lk. pose proof (geom_gt b d).
    rewrite (ft_read_at _ _ _ _ _ _ _ _ HF k ltac:(lia)). unfold rnth.
    rewrite (Layout_leaf b ltac:(lia) (h_node A) d leaves els k HL Lk), Hk. reflexivity.
  - intros k x Hk. pose proof (nth_error_lt _ _ _ Hk) as Lk. rewrite Hl in Lk. eexists. split; [exact (ft_proof _ _ _ _ _ _ _ _ HF k Lk)|].
    rewrite <- (Layout_leaf b ltac:(lia) (h_node A) d leaves els k HL Lk) in Hk.
    pose proof (lemma_of_eq b d els k x (mt_root t) Lk Hk (ft_root _ _ _ _ _ _ _ _ HF)) as HE.
    unfold pf_item, pf_root. cbn [pf_lemma]. rewrite HE. split; [reflexivity|]. split; [cbn [rev]; rewrite rev_app_distr; reflexivity|].
    intros HA. rewrite <- HE. exact (canon_valid EO EL A AL b Hb d leaves els k HA HL Lk).
Qed.

(* The full claim also covers MmapStore: false, its delete removes nothing, so the
   configuration stays occupied for ever. *)
Theorem C63_mmap_refuted : forall E (EO : ElementOps E) A en b c leaves f t f1,
  setting EO A (mmap_store_ops EO) false en b -> fs_dir f (cfg_path c) = None ->
  cfg_builder EO (mmap_store_ops EO) A en b c leaves f (Ok t, f1) ->
  mt_delete (mmap_store_ops EO) c f1 = (Ok tt, f1) /\ fs_file f1 (cfg_path c) <> None /\ ~ removes (mmap_store_ops EO) /\
  forall xs t2 f2, mt_new_with_config EO (mmap_store_ops EO) A en b xs c f1 <> (Ok t2, f2) /\
    from_par_iter_with_config EO (mmap_store_ops EO) A en b xs c f1 <> (Ok t2, f2).
Proof.
  intros E EO A en b c leaves f t f1 (EL & AL & HS & Hb & Hch) Hp HB.
  destruct (built_file EO EL A AL en b Hb Hch _ _ _ c leaves f t f1 (fst_mmap EO) Hp HB) as (d & els & _ & _ & _ & _ & Hfile & _).
  assert (Hn : fs_file f1 (cfg_path c) <> None) by congruence.
  split; [reflexivity|]. split; [exact Hn|]. split.
  - intros HR. specialize (HR c f1). destruct (fs_file f1 (cfg_path c)); [|congruence]. destruct HR as (f' & _ & H1 & _ & e & He). discriminate.
  - apply file_inv in Hfile. destruct Hfile as (i & Hi & _). intros xs t2 f2. split.
    + unfold mt_new_with_config. exact (mmap_iter_existing EO EL A en b Hb _ _ c f1 i Hi t2 f2).
    + exact (mmap_par_existing EO EL A en b Hb xs c f1 i Hi t2 f2).
Qed.

(* Eight leaves built at a configuration, deleted, the reversed sequence built there: the roots of
   both objects and a leaf proof of each, read in the final state; and without deleting. *)
Definition both (del : bool) : option (list (nat * bool) * bool) :=
  match mt_new_with_config BO (disk_store BO) sum_alg env1 2 leaves8 (cfg_r 1) fs_empty with
  | (Ok t, f) =>
      let f1 := if del then snd (mt_delete (disk_store BO) (cfg_r 1) f) else f in
      match mt_new_with_config BO (disk_store BO) sum_alg env1 2 (rev leaves8) (cfg_r 1) f1 with
      | (Ok t2, f2) =>
          Some (map (fun x => (val (mt_root x), match gen_proof (disk_store BO) 2 0 0 x f2 3 with Ok p => match validate BO sum_alg 2 p with Ok v => v | _ => false end | _ => false end)) [t; t2],
                is_ok (fst (mt_delete (disk_store BO) (cfg_r 1) (snd (mt_delete (disk_store BO) (cfg_r 1) f2)))))
      | _ => None
      end
  | _ => None
  end.
Definition root8 (xs : list B1) : nat :=
  match mt_new BO (vec_store BO) sum_alg env1 2 xs fs_empty with (Ok t, _) => val (mt_root t) | _ => 0 end.
Example C63_case :
  root8 leaves8 <> root8 (rev leaves8) /\
  both true = Some ([(root8 leaves8, true); (root8 (rev leaves8), true)], false) /\
  both false = Some ([(root8 leaves8, true); (root8 leaves8, true)], false).
Proof. vm_compute. split; [discriminate|]. split; reflexivity. Qed.

Print Assumptions C63_disk_removes.
Print Assumptions C63_level_cache_removes.
Print Assumptions C63_gone.
Print Assumptions C63_rebuild.
Print Assumptions C63_rebuild_level_cache.
Print Assumptions C63_alive.
Print Assumptions C63_mmap_refuted.
