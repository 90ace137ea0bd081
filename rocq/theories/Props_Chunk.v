(* C69: construction with every chunk size; the crate's own constants and element type.
   Proofs in ChunkAny.v. *)
From Coq Require Import String List Arith NArith Bool Lia Init.Byte ZifyBool ZifyNat.
From Verif Require Import Base Element Hash Sizing FS Sched Store VecStore DiskStore MmapStore LevelCache ProofModel Tree ListFacts Spec SpecFacts SizingFacts StoreLaws ChunkFacts BuildLoop StoreSpec PopFacts TreeFacts ProofSpec TreeObs Builders BuiltFacts Cases ChunkAny Props_Build.
Import ListNotations.

(* whatever the chunk size: the outcome is that of a construction whose chunk size fits the
   arity, or an error; so every theorem with the hypothesis chunk_ok about trees that were
   built applies to all trees *)
Theorem C69_any_chunk : forall E (EO : ElementOps E) A SO np en b leaves f r,
  basic_store EO SO np -> arity b -> 0 < p_chunk (env_params en) -> builder EO SO A en b leaves f r ->
  exists en' r', chunk_ok en' b /\ builder EO SO A en' b leaves f r' /\ (r = r' \/ exists e, fst r = Err e).
Proof.
  intros E EO A SO np en b leaves f r HS Hb Hc HB. pose proof (arity_ge b Hb) as H2.
  destruct (Nat.eq_dec (p_chunk (env_params en) mod b) 0) as [H|H].
  - exists en, r. split; [split; assumption|]. split; [exact HB|left; reflexivity].
  - destruct (builder_chunk EO SO A en b (fun leafs rc c => basic_build_err EO A en b H SO np leafs rc c HS) leaves f r HB) as (r' & H3 & H4).
    exists (with_chunk en b), r'. split; [|split; assumption]. split; [cbn; lia|]. cbn. apply Nat.mod_same. lia.
Qed.

(* C01 and the first half of C03 for every chunk size *)
Theorem C69_root : forall E (EO : ElementOps E) A SO np en b leaves f t f',
  ElementLaws EO -> AlgLaws A -> basic_store EO SO np -> arity b -> 0 < p_chunk (env_params en) ->
  builder EO SO A en b leaves f (Ok t, f') ->
  exists d, 1 <= d /\ List.length leaves = b ^ d /\ MRoot (h_node A) b d leaves (mt_root t).
Proof.
  intros E EO A SO np en b leaves f t f' EL AL HS Hb Hc HB.
  destruct (C69_any_chunk E EO A SO np en b leaves f _ HS Hb Hc HB) as (en' & r' & H1 & H2 & [H3|[e H3]]); [|discriminate].
  subst r'. eapply C01_root; [|exact H2]. exact (conj EL (conj AL (conj HS (conj Hb H1)))).
Qed.

(* an arity that does not divide the chunk size: no tree above the small-tree threshold *)
Theorem C69_refused : forall E (EO : ElementOps E) A SO np en b leaves f r,
  ElementLaws EO -> AlgLaws A -> basic_store EO SO np -> arity b ->
  p_chunk (env_params en) mod b <> 0 -> p_small (env_params en) < b ->
  builder EO SO A en b leaves f r ->
  (forall t, fst r <> Ok t) /\ forall d, 1 <= d -> List.length leaves = b ^ d -> exists e, fst r = Err e.
Proof.
  intros E EO A SO np en b leaves f r EL AL HS Hb Hc Hs HB. pose proof (arity_ge b Hb) as H2.
  assert (HN : forall t, fst r <> Ok t).
  { intros t Ht. destruct r as [x f']. cbn [fst] in Ht. subst x. revert HB. apply builder_never; [exact Hb| |].
    - intros leafs rc c Hl. apply (basic_build_never EO A en b Hc SO np); [exact HS|lia|lia].
    - intros size c f0 s f1. apply (basic_fresh EO EL SO np HS). }
  split; [exact HN|]. intros d Hd Hl.
  destruct (builder_chunk EO SO A en b (fun leafs rc c => basic_build_err EO A en b Hc SO np leafs rc c HS) leaves f r HB) as (r' & H3 & [H4|H4]); [|exact H4].
  exfalso. subst r'. assert (Hch : chunk_ok (with_chunk en b) b) by (split; [cbn; lia|cbn; apply Nat.mod_same; lia]).
  destruct (builder_full EO EL A AL (with_chunk en b) b SO np HS leaves f d r Hb Hch H3 Hd Hl) as (t & f' & els & -> & _). exact (HN t eq_refl).
Qed.
(* DiskStore and LevelCacheStore have no small-tree case *)
Theorem C69_refused_disk : forall E (EO : ElementOps E) A en b leaves f r,
  ElementLaws EO -> AlgLaws A -> arity b -> p_chunk (env_params en) mod b <> 0 ->
  builder EO (disk_store EO) A en b leaves f r -> exists e, fst r = Err e.
Proof.
  intros E EO A en b leaves f r EL AL Hb Hc HB. pose proof (arity_ge b Hb) as H2.
  assert (HN : forall t, fst r <> Ok t).
  { intros t Ht. destruct r as [x f']. cbn [fst] in Ht. subst x. revert HB. apply builder_never; [exact Hb| |].
    - intros leafs rc c Hl. apply disk_build_never; [exact Hc|lia].
    - intros size c f0 s f1. apply (basic_fresh EO EL _ true (bs_disk EO)). }
  destruct (builder_chunk EO (disk_store EO) A en b (fun leafs rc c => basic_build_err EO A en b Hc _ true leafs rc c (bs_disk EO)) leaves f r HB) as (r' & H3 & [H4|H4]); [|exact H4].
  subst r'. assert (Hch : chunk_ok (with_chunk en b) b) by (split; [cbn; lia|cbn; apply Nat.mod_same; lia]).
  assert (HS : setting EO A (disk_store EO) true (with_chunk en b) b) by exact (conj EL (conj AL (conj (bs_disk EO) (conj Hb Hch)))).
  pose proof (C03_vec_disk E EO A _ _ b leaves f r HS H3) as HO.
  destruct (fst r) as [t|e|e|] eqn:G; [exfalso; exact (HN t eq_refl)|eauto|contradiction|contradiction].
Qed.
Theorem C69_refused_level_cache : forall E (EO : ElementOps E) A en b c leaves f t f',
  arity b -> p_chunk (env_params en) mod b <> 0 -> fs_dir f (cfg_path c) = None ->
  ~ cfg_builder EO (lc_store EO) A en b c leaves f (Ok t, f').
Proof.
  intros E EO A en b c leaves f t f' Hb Hc Hp. pose proof (arity_ge b Hb) as H2. apply cfg_builder_never; [exact Hb| | |exact Hp].
  - intros leafs rc c' Hl. apply lc_build_never; [exact Hc|lia].
  - intros size c' f0 s f1. apply (lc_fresh EO).
Qed.

(* ------------------------------------------------------------------ *)
(* the crate's constants (SMALL_TREE_BUILD = 1024, BUILD_CHUNK_NODES = 4096) *)
Lemma real_small : p_small real_params = N.to_nat 1024. Proof. reflexivity. Qed.
Lemma real_chunk : p_chunk real_params = N.to_nat 4096. Proof. reflexivity. Qed.

Lemma crate_chunk b : arity b -> p_chunk real_params mod b = 0 <-> b <= p_chunk real_params.
Proof.
  intros Hb. pose proof (arity_ge b Hb) as H2. rewrite real_chunk. assert (Hn : N.to_nat 4096 = 2 ^ 12).
  { change 4096%N with (2 ^ 12)%N. rewrite Nnat.N2Nat.inj_pow. reflexivity. }
  rewrite Hn. split.
  - intros H. apply Nat.mod_divides in H; [|lia]. destruct H as [k Hk]. destruct k; [exfalso; rewrite Nat.mul_0_r in Hk; apply (Nat.pow_nonzero 2 12); [lia|exact Hk]|].
    rewrite Hk. nia.
  - destruct Hb as (k & Hk & ->). intros H. apply Nat.pow_le_mono_r_iff in H; [|lia]. apply Nat.mod_divides; [apply Nat.pow_nonzero; lia|].
    exists (2 ^ (12 - k)). rewrite <- Nat.pow_add_r. f_equal. lia.
Qed.
Lemma crate_small b : p_chunk real_params < b -> p_small real_params < b.
Proof. rewrite real_small, real_chunk. lia. Qed.

(* With these constants, exactly: a tree comes out iff the leaf count is a positive power of
   the arity and the arity is at most 4096; otherwise an error (for MmapStore possibly a
   panic, C03). *)
Theorem C69_crate : forall E (EO : ElementOps E) A SO np en b leaves f r,
  ElementLaws EO -> AlgLaws A -> basic_store EO SO np -> arity b -> env_params en = real_params ->
  builder EO SO A en b leaves f r ->
  ((exists t, fst r = Ok t) <-> b <= N.to_nat 4096 /\ exists d, 1 <= d /\ List.length leaves = b ^ d) /\
  (forall t, fst r = Ok t -> exists d, List.length leaves = b ^ d /\ MRoot (h_node A) b d leaves (mt_root t)) /\
  (np = true -> (exists t, fst r = Ok t) \/ exists e, fst r = Err e).
Proof.
  intros E EO A SO np en b leaves f r EL AL HS Hb He HB. rewrite <- real_chunk.
  assert (Hp : 0 < p_chunk (env_params en)) by (rewrite He, real_chunk; lia).
  split; [|split].
  - destruct (le_lt_dec b (p_chunk real_params)) as [Hl|Hl].
    + assert (Hch : chunk_ok en b) by (split; [exact Hp|rewrite He; apply crate_chunk; assumption]).
      assert (HX : setting EO A SO np en b) by exact (conj EL (conj AL (conj HS (conj Hb Hch)))).
      pose proof (C03_exact_partial E EO A SO np en b leaves f r HX HB) as HO.
      destruct (fst r) as [t|e|e|] eqn:G.
      * split; [intros _; split; [exact Hl|exact HO]|intros _; eauto].
      * split; [intros [t Ht]; discriminate|intros [_ (d & Hd & Hn)]; exfalso; exact (HO d Hd Hn)].
      * split; [intros [t Ht]; discriminate|intros [_ (d & Hd & Hn)]; exfalso; exact (proj2 HO d Hd Hn)].
      * contradiction.
    + destruct (C69_refused E EO A SO np en b leaves f r EL AL HS Hb) as [H1 _].
      * rewrite He. intros H. apply (crate_chunk b Hb) in H. lia.
      * rewrite He. apply crate_small. exact Hl.
      * exact HB.
      * split; [intros [t Ht]; exfalso; exact (H1 t Ht)|intros [H _]; lia].
  - intros t Ht. destruct r as [x f']. cbn [fst] in Ht. subst x.
    destruct (C69_root E EO A SO np en b leaves f t f' EL AL HS Hb Hp HB) as (d & _ & H1 & H2). exists d. auto.
  - intros ->. destruct (C69_any_chunk E EO A SO true en b leaves f r HS Hb Hp HB) as (en' & r' & H1 & H2 & [<-|H3]); [|right; exact H3].
    assert (HX : setting EO A SO true en' b) by exact (conj EL (conj AL (conj HS (conj Hb H1)))).
    pose proof (C03_vec_disk E EO A SO en' b leaves f r HX H2) as HO. destruct (fst r); [left; eauto|right; eauto|contradiction|contradiction].
Qed.

(* the crate's element type, [u8; 32] (merkle.rs 1820-1835), is lawful, and rejects every
   other length *)
Theorem C69_element : ElementLaws u8_32_ops /\ ElementBytesLaw u8_32_ops /\ e_byte_len u8_32_ops = 32 /\
  forall bs, List.length bs <> 32 -> exists e, e_from_slice u8_32_ops bs = Panic e.
Proof.
  split; [apply ba_laws; lia|]. split; [|split; [reflexivity|]].
  - exact (ba_bytes_law 32).
  - intros bs H. cbn [u8_32_ops ba_ops e_from_slice]. unfold ba_from_slice. generalize (eq_refl (List.length bs =? 32)).
    generalize (List.length bs =? 32) at 2 3. intros x Hx. destruct x; [exfalso; apply H; apply Nat.eqb_eq; exact Hx|eexists; reflexivity].
Qed.

(* ------------------------------------------------------------------ *)
(* chunk size 4: arity 8 is refused by DiskStore, and by VecStore above the threshold only *)
Definition eight8 : list B1 := map el (seq 1 8).
Example C69_case :
  chunk_ok (env_of 4 4 3 []) 8 -> False.
Proof. intros [_ H]. discriminate. Qed.
Example C69_case_vec :
  is_ok (fst (mt_new BO (vec_store BO) sum_alg (env_of 8 4 3 []) 8 eight8 fs_empty)) = true /\
  is_ok (fst (mt_new BO (vec_store BO) sum_alg (env_of 4 4 3 []) 8 eight8 fs_empty)) = false /\
  is_ok (fst (mt_new BO (disk_store BO) sum_alg (env_of 8 4 3 []) 8 eight8 fs_empty)) = false /\
  is_ok (fst (mt_new BO (disk_store BO) sum_alg (env_of 8 8 3 []) 8 eight8 fs_empty)) = true.
Proof. vm_compute. auto. Qed.
(* the constants of the crate on a tree of 16 leaves *)
Definition env_real : env := {| env_params := real_params; env_sched := fun _ => [0]; env_bytes := fun _ => []; env_pop := []; env_copy := fun _ k => k |}.
Example C69_case_real : is_ok (fst (mt_new BO (disk_store BO) sum_alg env_real 4 (eight8 ++ eight8) fs_empty)) = true.
Proof. vm_compute. reflexivity. Qed.

Print Assumptions C69_any_chunk.
Print Assumptions C69_root.
Print Assumptions C69_refused.
Print Assumptions C69_refused_disk.
Print Assumptions C69_refused_level_cache.
Print Assumptions C69_crate.
Print Assumptions C69_element.
