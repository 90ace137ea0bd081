(* C01 - C10, C55: building base trees over the Vec, Disk and Mmap stores.
   Statements; proofs in TreeFacts.v, TreeObs.v, Builders.v, PopFacts.v. *)
From Coq Require Import String List Arith Bool Lia Init.Byte ZifyBool ZifyNat.
From Verif Require Import Base Element Hash Sizing FS Sched Store VecStore DiskStore MmapStore ProofModel Tree ListFacts Spec SpecFacts SizingFacts SchedFacts StoreLaws RowFacts ChunkFacts BuildFacts BuildLoop StoreSpec FileFacts VecFacts DiskFacts MmapFacts PopFacts TreeFacts ProofSpec ProofFacts TreeProofs TreeObs Builders Cases.
Import ListNotations.

(* the hypotheses shared by the theorems: lawful element type and algorithm, one
   of the three general-purpose stores, arity 2, 4, 8, ..., and a chunk size that
   is a positive multiple of the arity (BUILD_CHUNK_NODES is) *)
Definition setting {E} (EO : ElementOps E) (A : AlgOps E) (SO : StoreOps E) (np : bool) (en : env) (b : nat) : Prop :=
  ElementLaws EO /\ AlgLaws A /\ basic_store EO SO np /\ arity b /\ chunk_ok en b.

Lemma setting_intro SO np en b : basic_store BO SO np -> arity b -> chunk_ok en b -> setting BO sum_alg SO np en b.
Proof. intros H1 H2 H3. exact (conj BL (conj sum_laws (conj H1 (conj H2 H3)))). Qed.
Lemma arity_2 : arity 2.
Proof. exists 1. split; [lia|reflexivity]. Qed.
Lemma arity_4 : arity 4.
Proof. exists 2. split; [lia|reflexivity]. Qed.
Lemma setting_disk2 : setting BO sum_alg (disk_store BO) true env1 2.
Proof. apply setting_intro; [constructor|apply arity_2|split; [cbn; lia|reflexivity]]. Qed.

(* ---------------- C01 ---------------- *)
Theorem C01_root : forall E (EO : ElementOps E) A SO np en b leaves f t f',
  setting EO A SO np en b ->
  builder EO SO A en b leaves f (Ok t, f') ->
  exists d, 1 <= d /\ List.length leaves = b ^ d /\ MRoot (h_node A) b d leaves (mt_root t).
Proof.
  intros E EO A SO np en b leaves f t f' (EL & AL & HS & Hb & Hch) HB.
  destruct (builder_tree EO EL A AL en b SO np HS leaves f t f' Hb Hch HB) as (d & els & Hn & HF).
  exists d. split; [apply (ft_d _ _ _ _ _ _ _ _ HF)|]. split; [exact Hn|]. eapply FullTree_root; eauto.
Qed.

(* instance for new: the leaves are the leaf hashes of the items, in input order *)
Theorem C01_new : forall E (EO : ElementOps E) A SO np en b xs f t f',
  setting EO A SO np en b ->
  mt_new EO SO A en b xs f = (Ok t, f') ->
  exists d, 1 <= d /\ List.length xs = b ^ d /\ MRoot (h_node A) b d (map (h_leaf A) xs) (mt_root t).
Proof.
  intros E EO A SO np en b xs f t f' HS H.
  destruct (C01_root E EO A SO np en b (map (h_leaf A) xs) f t f' HS) as (d & H1 & H2 & H3).
  { rewrite <- H. constructor. }
  rewrite map_length in H2. eauto.
Qed.

Definition leaves8 : list B1 := map el [3; 1; 4; 1; 5; 9; 2; 6].
Definition root_of {S} (r : res (mtree S B1) * fs) : res nat :=
  match fst r with Ok t => Ok (val (mt_root t)) | Err e => Err e | Panic e => Panic e | Diverge => Diverge end.

Example C01_case : root_of (mt_new BO (disk_store BO) sum_alg env1 2 leaves8 fs_empty)
  = Ok (val (h_node sum_alg 2 [h_node sum_alg 1 [h_node sum_alg 0 (map (h_leaf sum_alg) (map el [3; 1]));
                                               h_node sum_alg 0 (map (h_leaf sum_alg) (map el [4; 1]))];
                               h_node sum_alg 1 [h_node sum_alg 0 (map (h_leaf sum_alg) (map el [5; 9]));
                                               h_node sum_alg 0 (map (h_leaf sum_alg) (map el [2; 6]))]])).
Proof. vm_compute. reflexivity. Qed.

(* ---------------- C02 ---------------- *)
Theorem C02_layout : forall E (EO : ElementOps E) A SO np en b leaves f t f',
  setting EO A SO np en b ->
  builder EO SO A en b leaves f (Ok t, f') ->
  exists d els,
    1 <= d /\ Layout (h_node A) b d leaves els /\
    mt_leafs t = b ^ d /\ mt_len SO t = geom b d /\ mt_row_count t = d + 1 /\
    nth_error els (geom b d - 1) = Some (mt_root t) /\
    (forall i x, nth_error els i = Some x -> mt_read_at SO 0 0 t f' i = Ok x) /\
    (forall i x, nth_error leaves i = Some x -> mt_read_at SO 0 0 t f' i = Ok x) /\
    (forall s e, s < e -> e <= mt_len SO t -> mt_read_range SO t f' s e = Ok (firstn (e - s) (skipn s els))).
Proof.
  intros E EO A SO np en b leaves f t f' (EL & AL & HS & Hb & Hch) HB.
  destruct (builder_tree EO EL A AL en b SO np HS leaves f t f' Hb Hch HB) as (d & els & Hn & HF).
  destruct HF as [H1 H2 H3 H4 H5 H6 H7 H8 H9]. exists d, els.
  assert (G : forall i x, nth_error els i = Some x -> mt_read_at SO 0 0 t f' i = Ok x).
  { intros i x Hx. pose proof (nth_error_lt _ _ _ Hx) as Hlt. destruct H2 as (_ & L & _). rewrite H7 by lia.
    unfold rnth. rewrite Hx. reflexivity. }
  repeat (split; [assumption|]). split.
  - intros i x Hx. apply G. pose proof (nth_error_lt _ _ _ Hx) as Hlt.
    rewrite (Layout_leaf b ltac:(pose proof (arity_ge b Hb); lia) (h_node A) d leaves els i H2 ltac:(lia)). exact Hx.
  - intros s e Hs He. rewrite H4 in He. exact (H8 s e Hs He).
Qed.

Definition elems {S} (SO : StoreOps B1) (r : res (mtree (st_t SO) B1) * fs) (mk : S) : list (res nat) :=
  match r with
  | (Ok t, f') => map (fun i => rbind (mt_read_at SO 0 0 t f' i) (fun x => Ok (val x))) (seq 0 (mt_len SO t))
  | _ => []
  end.

Example C02_case :
  let leafh := map (h_leaf sum_alg) leaves8 in
  let row1 := map (fun k => h_node sum_alg 0 (firstn 2 (skipn (2 * k) leafh))) [0; 1; 2; 3] in
  let row2 := map (fun k => h_node sum_alg 1 (firstn 2 (skipn (2 * k) row1))) [0; 1] in
  elems (mmap_store_ops BO) (mt_new BO (mmap_store_ops BO) sum_alg env1 2 leaves8 fs_empty) tt
  = map (fun x => Ok (val x)) (leafh ++ row1 ++ row2 ++ [h_node sum_alg 2 row2]).
Proof. vm_compute. reflexivity. Qed.

(* ---------------- C03 ---------------- *)
Definition C03_full : Prop := forall E (EO : ElementOps E) A SO np en b leaves f r,
  setting EO A SO np en b -> builder EO SO A en b leaves f r ->
  match fst r with
  | Ok _ => exists d, 1 <= d /\ List.length leaves = b ^ d
  | Err _ => forall d, 1 <= d -> List.length leaves <> b ^ d
  | Panic _ => False
  | Diverge => False
  end.

(* for every store: Ok exactly on positive powers of the arity; never an endless loop *)
Theorem C03_exact_partial : forall E (EO : ElementOps E) A SO np en b leaves f r,
  setting EO A SO np en b -> builder EO SO A en b leaves f r ->
  match fst r with
  | Ok _ => exists d, 1 <= d /\ List.length leaves = b ^ d
  | Err _ => forall d, 1 <= d -> List.length leaves <> b ^ d
  | Panic _ => np = false /\ forall d, 1 <= d -> List.length leaves <> b ^ d   (* mmap only *)
  | Diverge => False
  end.
Proof.
  intros E EO A SO np en b leaves f [r f'] (EL & AL & HS & Hb & Hch) HB.
  pose proof (builder_outcome EO EL A AL en b SO np HS leaves f _ Hb Hch HB) as H.
  destruct r; cbn in *; auto. destruct H as (d & els & Hn & HF). exists d. split; [apply (ft_d _ _ _ _ _ _ _ _ HF)|exact Hn].
Qed.

(* the claim as stated, for the Vec and Disk stores *)
Theorem C03_vec_disk : forall E (EO : ElementOps E) A SO en b leaves f r,
  setting EO A SO true en b -> builder EO SO A en b leaves f r ->
  match fst r with
  | Ok _ => exists d, 1 <= d /\ List.length leaves = b ^ d
  | Err _ => forall d, 1 <= d -> List.length leaves <> b ^ d
  | _ => False
  end.
Proof.
  intros E EO A SO en b leaves f r HS HB. pose proof (C03_exact_partial E EO A SO true en b leaves f r HS HB) as H.
  destruct (fst r); auto. destruct H as [H _]. discriminate.
Qed.

(* an arity that is not a power of two is an error, and nothing is created *)
Theorem C03_bad_arity : forall E (EO : ElementOps E) A SO np en b leaves f r,
  ElementLaws EO -> AlgLaws A -> basic_store EO SO np -> ~ pow2 b ->
  builder EO SO A en b leaves f r -> exists e, r = (Err e, f).
Proof. intros E EO A SO np en b leaves f r EL AL HS Hb. apply builder_badarity; auto. Qed.

(* MmapStore: 8 leaves in arity 4 (below the small-tree threshold) pass the size
   checks, and the build then writes past the end of the map *)
Theorem C03_full_refuted : ~ C03_full.
Proof.
  intros H. specialize (H B1 BO sum_alg (mmap_store_ops BO) false (env_of 8 4 3 []) 4 (map (h_leaf sum_alg) leaves8) fs_empty
    (mt_new BO (mmap_store_ops BO) sum_alg (env_of 8 4 3 []) 4 leaves8 fs_empty)).
  assert (G : exists e f', mt_new BO (mmap_store_ops BO) sum_alg (env_of 8 4 3 []) 4 leaves8 fs_empty = (Panic e, f')).
  { destruct (mt_new BO (mmap_store_ops BO) sum_alg (env_of 8 4 3 []) 4 leaves8 fs_empty) as [r f'] eqn:G.
    assert (G1 : fst (mt_new BO (mmap_store_ops BO) sum_alg (env_of 8 4 3 []) 4 leaves8 fs_empty) = r) by (rewrite G; reflexivity).
    vm_compute in G1. subst r. eauto. }
  destruct G as (e & f' & G). rewrite G in H. apply H.
  - apply setting_intro; [constructor|apply arity_4|split; [cbn; lia|reflexivity]].
  - rewrite <- G. constructor.
Qed.

Example C03_case :
  is_ok (fst (mt_new BO (disk_store BO) sum_alg env1 4 (leaves8 ++ leaves8) fs_empty)) = true /\
  is_ok (fst (mt_new BO (disk_store BO) sum_alg env1 4 leaves8 fs_empty)) = false /\
  is_ok (fst (mt_new BO (vec_store BO) sum_alg env1 2 (el 0 :: leaves8) fs_empty)) = false.
Proof. vm_compute. auto. Qed.

(* ---------------- C04 ---------------- *)
(* [same_tree SO t f SO' t' f']: the two trees cannot be told apart *)
Definition same_tree {E} (SO SO' : StoreOps E) (b : nat) (t : mtree (st_t SO) E) (f : fs) (t' : mtree (st_t SO') E) (f' : fs) : Prop :=
  mt_root t = mt_root t' /\ mt_leafs t = mt_leafs t' /\ mt_len SO t = mt_len SO' t' /\ mt_row_count t = mt_row_count t' /\
  (forall i, i < mt_len SO t -> exists x, mt_read_at SO 0 0 t f i = Ok x /\ mt_read_at SO' 0 0 t' f' i = Ok x) /\
  (forall s e, s < e -> e <= mt_len SO t -> exists l, mt_read_range SO t f s e = Ok l /\ mt_read_range SO' t' f' s e = Ok l) /\
  (forall i, i < mt_leafs t -> exists p, gen_proof SO b 0 0 t f i = Ok p /\ gen_proof SO' b 0 0 t' f' i = Ok p).

Lemma FullTree_same_tree {E} (SO SO' : StoreOps E) A b t f t' f' d leaves els d' els' : arity b ->
  FullTree SO A b t f d leaves els -> FullTree SO' A b t' f' d' leaves els' -> same_tree SO SO' b t f t' f'.
Proof.
  intros Hb H H'. destruct (FullTree_same SO SO' A b t f t' f' d leaves els d' els' Hb H H') as (G1 & G2 & G3 & G4 & G5 & G6 & G7).
  destruct H as [D1 D2 D3 D4 D5 D6 D7 D8 D9].
  repeat (split; [assumption|]). split; [|split].
  - intros i Hi. rewrite <- (G5 i Hi). rewrite D4 in Hi. rewrite D7 by auto. destruct D2 as (_ & L & _).
    destruct (nth_error_ex els i ltac:(lia)) as [x Hx]. exists x. unfold rnth. rewrite Hx. auto.
  - intros s e Hs He. rewrite <- (G6 s e Hs He). rewrite D4 in He. rewrite D8 by auto. eauto.
  - intros i Hi. rewrite <- (G7 i Hi). rewrite D3 in Hi. rewrite D9 by auto. eauto.
Qed.

(* any two constructors, stores, schedules and size constants *)
Lemma builder_same {E} (EO : ElementOps E) A SO np SO' np' en en' b leaves f r f0 r0 :
  setting EO A SO np en b -> setting EO A SO' np' en' b ->
  builder EO SO A en b leaves f r -> builder EO SO' A en' b leaves f0 r0 ->
  match fst r, fst r0 with
  | Ok t, Ok t0 => same_tree SO SO' b t (snd r) t0 (snd r0)
  | Ok _, _ => False
  | _, Ok _ => False
  | _, _ => True
  end.
Proof.
  intros (EL & AL & HS & Hb & Hch) (_ & _ & HS' & _ & Hch') HB HB0.
  pose proof (builder_outcome EO EL A AL en b SO np HS leaves f _ Hb Hch HB) as H.
  pose proof (builder_outcome EO EL A AL en' b SO' np' HS' leaves f0 _ Hb Hch' HB0) as H0.
  destruct r as [[t|e|e|] f'], r0 as [[t0|e0|e0|] f0']; cbn in *; auto.
  - destruct H as (d & els & Hn & HF), H0 as (d0 & els0 & Hn0 & HF0). eapply FullTree_same_tree; eauto.
  - destruct H as (d & els & Hn & HF). exact (H0 d (ft_d _ _ _ _ _ _ _ _ HF) Hn).
  - destruct H as (d & els & Hn & HF). exact ((proj2 H0) d (ft_d _ _ _ _ _ _ _ _ HF) Hn).
  - destruct H0 as (d & els & Hn & HF). exact (H d (ft_d _ _ _ _ _ _ _ _ HF) Hn).
  - destruct H0 as (d & els & Hn & HF). exact ((proj2 H) d (ft_d _ _ _ _ _ _ _ _ HF) Hn).
Qed.

Theorem C04_stores_agree : forall E (EO : ElementOps E) A SO np SO' np' en b leaves f r f0 r0,
  setting EO A SO np en b -> setting EO A SO' np' en b ->
  builder EO SO A en b leaves f r -> builder EO SO' A en b leaves f0 r0 ->
  match fst r, fst r0 with
  | Ok t, Ok t0 => same_tree SO SO' b t (snd r) t0 (snd r0)
  | Ok _, _ => False
  | _, Ok _ => False
  | _, _ => True
  end.
Proof. intros. eapply builder_same; eauto. Qed.

Example C04_case :
  elems (vec_store BO) (mt_new BO (vec_store BO) sum_alg env1 2 leaves8 fs_empty) tt
  = elems (disk_store BO) (mt_new BO (disk_store BO) sum_alg env1 2 leaves8 fs_empty) tt
  /\ List.length (elems (vec_store BO) (mt_new BO (vec_store BO) sum_alg env1 2 leaves8 fs_empty) tt) = 15.
Proof. vm_compute. auto. Qed.

(* ---------------- C05 ---------------- *)
(* [sched] gives, per row, an arbitrary interleaving of the reads and writes of
   the chunk tasks of that row (each a critical section); [bytes], for the stores
   that hash through a memory map, one of their single bytes; [pop] one of the
   population tasks *)
Definition with_sched (en : env) (sched : nat -> list nat) (bytes : nat -> list (nat * nat)) (pop : list nat) : env :=
  {| env_params := env_params en; env_sched := sched; env_bytes := bytes; env_pop := pop; env_copy := env_copy en |}.

Theorem C05_schedule_independent : forall E (EO : ElementOps E) A SO np en b leaves f r sched bytes pop f0 r0,
  setting EO A SO np en b ->
  builder EO SO A en b leaves f r -> builder EO SO A (with_sched en sched bytes pop) b leaves f0 r0 ->
  match fst r, fst r0 with
  | Ok t, Ok t0 => same_tree SO SO b t (snd r) t0 (snd r0)
  | Ok _, _ => False
  | _, Ok _ => False
  | _, _ => True
  end.
Proof.
  intros E EO A SO np en b leaves f r sched bytes pop f0 r0 HS HB HB0.
  exact (builder_same EO A SO np SO np en (with_sched en sched bytes pop) b leaves f r f0 r0 HS HS HB HB0).
Qed.

Example C05_case :
  map (fun sc => elems (disk_store BO) (mt_new BO (disk_store BO) sum_alg (with_sched env2 (fun _ => []) (fun _ => sc) []) 2 (leaves8 ++ leaves8) fs_empty) tt)
    [[]; [(1, 0); (0, 0); (1, 0); (1, 3); (1, 2); (1, 1); (0, 7); (1, 4); (1, 5)]; [(0, 0); (0, 0); (1, 0); (0, 1); (1, 1); (0, 2)]; [(1, 0); (1, 7)]]
  = repeat (elems (vec_store BO) (mt_new BO (vec_store BO) sum_alg env2 2 (leaves8 ++ leaves8) fs_empty) tt) 4.
Proof. vm_compute. reflexivity. Qed.

(* ---------------- C06 ---------------- *)
Theorem C06_par_equals_seq : forall E (EO : ElementOps E) A SO np en b xs f f0,
  setting EO A SO np en b -> 0 < p_block (env_params en) ->
  match mt_new EO SO A en b xs f, from_par_iter EO SO A en b xs f0 with
  | (Ok t, f'), (Ok t0, f0') => same_tree SO SO b t f' t0 f0'
  | (Ok _, _), _ => False
  | _, (Ok _, _) => False
  | _, _ => True
  end.
Proof.
  intros E EO A SO np en b xs f f0 HS Hbl.
  pose proof (builder_same EO A SO np SO np en en b (map (h_leaf A) xs) f _ f0 _ HS HS (B_new EO SO A en b xs f) (B_par EO SO A en b xs f0 Hbl)) as H.
  destruct (mt_new EO SO A en b xs f) as [[]], (from_par_iter EO SO A en b xs f0) as [[]]; auto.
Qed.

Theorem C06_par_equals_seq_config : forall E (EO : ElementOps E) A SO np en b xs c f c0 f0,
  setting EO A SO np en b -> 0 < p_block (env_params en) ->
  fs_dir f (cfg_path c) = None -> fs_dir f0 (cfg_path c0) = None ->
  match mt_new_with_config EO SO A en b xs c f, from_par_iter_with_config EO SO A en b xs c0 f0 with
  | (Ok t, f'), (Ok t0, f0') => same_tree SO SO b t f' t0 f0'
  | (Ok _, _), _ => False
  | _, (Ok _, _) => False
  | _, _ => True
  end.
Proof.
  intros E EO A SO np en b xs c f c0 f0 HS Hbl Hp Hp0.
  pose proof (builder_same EO A SO np SO np en en b (map (h_leaf A) xs) f _ f0 _ HS HS
    (B_new_config EO SO A en b xs c f Hp) (B_par_config EO SO A en b xs c0 f0 Hbl Hp0)) as H.
  destruct (mt_new_with_config EO SO A en b xs c f) as [[]], (from_par_iter_with_config EO SO A en b xs c0 f0) as [[]]; auto.
Qed.

Example C06_case :
  elems (mmap_store_ops BO) (from_par_iter BO (mmap_store_ops BO) sum_alg env1 2 leaves8 fs_empty) tt
  = elems (mmap_store_ops BO) (mt_new BO (mmap_store_ops BO) sum_alg env1 2 leaves8 fs_empty) tt
  /\ is_ok (fst (from_par_iter BO (mmap_store_ops BO) sum_alg env1 2 leaves8 fs_empty)) = true.
Proof. vm_compute. auto. Qed.

(* ---------------- C07 ---------------- *)
(* two runs that differ in threshold, chunk size, block size and schedule *)
Theorem C07_algorithms_agree : forall E (EO : ElementOps E) A SO np en en' b leaves f r f0 r0,
  setting EO A SO np en b -> setting EO A SO np en' b ->
  builder EO SO A en b leaves f r -> builder EO SO A en' b leaves f0 r0 ->
  match fst r, fst r0 with
  | Ok t, Ok t0 => same_tree SO SO b t (snd r) t0 (snd r0)
  | Ok _, _ => False
  | _, Ok _ => False
  | _, _ => True
  end.
Proof.
  intros E EO A SO np en en' b leaves f r f0 r0 HS HS' HB HB0.
  exact (builder_same EO A SO np SO np en en' b leaves f r f0 r0 HS HS' HB HB0).
Qed.

Example C07_case :
  elems (disk_store BO) (mt_new BO (disk_store BO) sum_alg (env_of 16 4 3 []) 2 (leaves8 ++ leaves8) fs_empty) tt
  = elems (disk_store BO) (mt_new BO (disk_store BO) sum_alg (env_of 0 6 1 [1; 0]) 2 (leaves8 ++ leaves8) fs_empty) tt.
Proof. vm_compute. reflexivity. Qed.

(* ---------------- C08 ---------------- *)
Theorem C08_populate : forall E (EO : ElementOps E) A SO np en xs size f,
  ElementLaws EO -> AlgLaws A -> basic_store EO SO np -> List.length xs <= size ->
  exists s s' f1 f2,
    st_new SO size f = (Ok s, f1) /\
    populate_data EO SO A en (map Ok xs) (s, f1) = (Ok tt, (s', f2)) /\
    st_len SO s' = List.length xs /\
    (forall i x, nth_error xs i = Some x -> st_read_at SO (s', f2) i = Ok (h_leaf A x)).
Proof.
  intros E EO A SO np en xs size f EL AL HS Hc.
  destruct (basic_laws EO EL SO np HS) as (ow & W & Rep & SL).
  destruct (sl_new _ _ _ _ _ _ SL size f) as (s & f1 & H1 & H2 & H3 & _).
  destruct (populate_ok EO SO ow W Rep np (sl_pop _ _ _ _ _ _ SL) A AL en size xs _ (s, f1) H3 H2 Hc) as (v & [s' f2] & H4 & H5 & H6 & H7 & _).
  exists s, s', f1, f2. split; [exact H1|]. split; [exact H4|].
  pose proof (sl_core _ _ _ _ _ _ SL) as CL.
  split; [exact (cl_len _ _ _ _ _ _ _ _ _ _ CL _ _ _ _ H6)|].
  intros i x Hx. pose proof (nth_error_lt _ _ _ Hx) as Hi.
  eapply (cl_read_at _ _ _ _ _ _ _ _ _ _ CL); eauto.
  change i with (0 + i). rewrite (H7 i) by (rewrite map_length; auto). rewrite nth_error_map, Hx. reflexivity.
Qed.

Example C08_case :
  map (fun block =>
    match st_new (vec_store BO) 8 fs_empty with
    | (Ok s, f) => match populate_data BO (vec_store BO) sum_alg (env_of 0 4 block []) (map Ok leaves8) (s, f) with
                   | (Ok _, (s', _)) => map val s' | _ => [] end
    | _ => [] end) [0; 1; 3; 8; 9]
  = repeat (map (fun x => val (h_leaf sum_alg x)) leaves8) 5.
Proof. vm_compute. reflexivity. Qed.

(* ---------------- C09 ---------------- *)
Definition C09_full : Prop := forall E (EO : ElementOps E) A SO np en b n d xs e more c f,
  setting EO A SO np en b -> 1 <= d -> n = b ^ d -> List.length xs <= n -> fs_dir f (cfg_path c) = None ->
  (exists f', try_from_iter EO SO A en b (Some n) (map Ok xs ++ Err e :: more) f = (Err e, f')) /\
  (exists f', try_from_iter_with_config EO SO A en b (Some n) (map Ok xs ++ Err e :: more) c f = (Err e, f')).

(* try_from_iter returns the first error (the items before it fitting the store) *)
Theorem C09_first_error_partial : forall E (EO : ElementOps E) A SO np en b n d xs e more f,
  setting EO A SO np en b -> 1 <= d -> n = b ^ d -> List.length xs <= geom b d ->
  exists f', try_from_iter EO SO A en b (Some n) (map Ok xs ++ Err e :: more) f = (Err e, f').
Proof.
  intros E EO A SO np en b n d xs e more f (EL & AL & HS & Hb & Hch) Hd Hn Hl.
  destruct (basic_laws EO EL SO np HS) as (ow & W & Rep & SL).
  eapply try_from_iter_err; eauto.
Qed.

(* whatever the hint, an erring iterator never produces a tree *)
Theorem C09_no_tree : forall E (EO : ElementOps E) A SO np en b hint xs e more c f,
  setting EO A SO np en b -> Forall item_ok more -> fs_dir f (cfg_path c) = None ->
  is_ok (fst (try_from_iter EO SO A en b hint (map Ok xs ++ Err e :: more) f)) = false /\
  is_ok (fst (try_from_iter_with_config EO SO A en b hint (map Ok xs ++ Err e :: more) c f)) = false.
Proof.
  intros E EO A SO np en b hint xs e more c f (EL & AL & HS & Hb & Hch) Hm Hp.
  destruct (basic_laws EO EL SO np HS) as (ow & W & Rep & SL).
  assert (Hi : Forall item_ok (map Ok xs ++ Err e :: more)).
  { apply Forall_app. split; [|constructor; [exact I|exact Hm]]. apply Forall_forall. intros x Hx.
    apply in_map_iff in Hx. destruct Hx as (y & <- & _). exact I. }
  assert (Hno : forall ys : list E, map Ok xs ++ Err e :: more = map Ok ys -> False).
  { intros ys Hy. assert (Hin : In (@Err E e) (map Ok ys)) by (rewrite <- Hy; apply in_or_app; right; left; reflexivity).
    apply in_map_iff in Hin. destruct Hin as (y & Hy' & _). discriminate. }
  pose proof (try_from_iter_inv EO SO ow W Rep np SL A AL b Hb en Hch hint _ f Hi) as H1.
  pose proof (try_from_iter_wc_inv EO SO ow W Rep np SL A AL b Hb en Hch hint _ c f Hi Hp) as H2.
  split.
  - destruct (try_from_iter EO SO A en b hint (map Ok xs ++ Err e :: more) f) as [[] f'] eqn:G1; try reflexivity.
    destruct H1 as (ys & Hy & _). destruct (Hno ys Hy).
  - destruct (try_from_iter_with_config EO SO A en b hint (map Ok xs ++ Err e :: more) c f) as [[] f'] eqn:G2; try reflexivity.
    destruct H2 as (ys & Hy & _). destruct (Hno ys Hy).
Qed.

(* try_from_iter_with_config turns the error into a panic (populate_data(..).expect(..)) *)
Theorem C09_config_panics : forall E (EO : ElementOps E) A SO np en b n d xs e more c f,
  setting EO A SO np en b -> 1 <= d -> n = b ^ d -> List.length xs <= geom b d -> fs_dir f (cfg_path c) = None ->
  exists f', try_from_iter_with_config EO SO A en b (Some n) (map Ok xs ++ Err e :: more) c f
             = (Panic "failed to populate data", f').
Proof.
  intros E EO A SO np en b n d xs e more c f (EL & AL & HS & Hb & Hch) Hd Hn Hl Hp.
  destruct (basic_laws EO EL SO np HS) as (ow & W & Rep & SL).
  eapply try_from_iter_wc_err; eauto.
Qed.

Theorem C09_full_refuted : ~ C09_full.
Proof.
  intros H. specialize (H B1 BO sum_alg (disk_store BO) true env1 2 4 2 [el 1] "io"%string [] cfg0 fs_empty).
  pose proof setting_disk2 as S.
  destruct (H S ltac:(lia) eq_refl ltac:(cbn; lia) eq_refl) as [_ [f' Hf]].
  destruct (C09_config_panics B1 BO sum_alg (disk_store BO) true env1 2 4 2 [el 1] "io"%string [] cfg0 fs_empty S ltac:(lia) eq_refl ltac:(cbn; lia) eq_refl) as [f2 Hf2].
  rewrite Hf2 in Hf. discriminate.
Qed.

Example C09_case :
  fst (try_from_iter BO (disk_store BO) sum_alg env1 2 (Some 8) (map Ok (firstn 5 leaves8) ++ [Err "first"%string; Ok (el 2); Err "second"%string]) fs_empty)
  = Err "first"%string.
Proof. vm_compute. reflexivity. Qed.

(* ---------------- C10 ---------------- *)
Definition C10_full : Prop := forall E (EO : ElementOps E) A SO np en b n xs c f,
  setting EO A SO np en b -> List.length xs <> n -> fs_dir f (cfg_path c) = None ->
  (exists e f', try_from_iter EO SO A en b (Some n) (map Ok xs) f = (Err e, f')) /\
  (exists e f', try_from_iter_with_config EO SO A en b (Some n) (map Ok xs) c f = (Err e, f')).

(* never a tree; for Vec and Disk, try_from_iter gives an error value *)
Theorem C10_lying_hint_partial : forall E (EO : ElementOps E) A SO np en b n xs c f,
  setting EO A SO np en b -> List.length xs <> n -> fs_dir f (cfg_path c) = None ->
  match fst (try_from_iter EO SO A en b (Some n) (map Ok xs) f) with
  | Ok _ => False | Err _ => True | Panic _ => np = false | Diverge => False
  end /\
  match fst (try_from_iter_with_config EO SO A en b (Some n) (map Ok xs) c f) with
  | Ok _ => False | Err _ => True | Panic _ => True | Diverge => False
  end.
Proof.
  intros E EO A SO np en b n xs c f (EL & AL & HS & Hb & Hch) Hn Hp.
  destruct (basic_laws EO EL SO np HS) as (ow & W & Rep & SL).
  assert (Hi : Forall item_ok (map (@Ok E) xs)).
  { apply Forall_forall. intros x Hx. apply in_map_iff in Hx. destruct Hx as (y & <- & _). exact I. }
  assert (Hno : forall ys : list E, map (@Ok E) xs = map Ok ys -> Some n = Some (List.length ys) -> False).
  { intros ys Hy Hl. apply (f_equal (@List.length _)) in Hy. rewrite !map_length in Hy. congruence. }
  pose proof (try_from_iter_inv EO SO ow W Rep np SL A AL b Hb en Hch (Some n) _ f Hi) as H1.
  pose proof (try_from_iter_wc_inv EO SO ow W Rep np SL A AL b Hb en Hch (Some n) _ c f Hi Hp) as H2.
  split.
  - destruct (try_from_iter EO SO A en b (Some n) (map Ok xs) f) as [[] f'] eqn:G1; cbn; auto.
    destruct H1 as (ys & Hy & Hl). exact (Hno ys Hy Hl).
  - destruct (try_from_iter_with_config EO SO A en b (Some n) (map Ok xs) c f) as [[] f'] eqn:G2; cbn; auto.
    destruct H2 as (ys & Hy & Hl). exact (Hno ys Hy Hl).
Qed.

(* no upper bound at all is an error *)
Theorem C10_no_hint : forall E (EO : ElementOps E) A SO en b items c f,
  (exists e, try_from_iter EO SO A en b None items f = (Err e, f)) /\
  (exists e, try_from_iter_with_config EO SO A en b None items c f = (Err e, f)).
Proof. intros. split; eexists; reflexivity. Qed.

(* 16 items announced as 4, with a config: the disk store refuses the write and the
   constructor's expect panics *)
Theorem C10_full_refuted : ~ C10_full.
Proof.
  intros H. specialize (H B1 BO sum_alg (disk_store BO) true env1 2 4 (leaves8 ++ leaves8) cfg0 fs_empty).
  pose proof setting_disk2 as S.
  destruct (H S ltac:(cbn; lia) eq_refl) as [_ (e & f' & Hf)].
  assert (G : fst (try_from_iter_with_config BO (disk_store BO) sum_alg env1 2 (Some 4) (map Ok (leaves8 ++ leaves8)) cfg0 fs_empty) = Err e)
    by (rewrite Hf; reflexivity).
  vm_compute in G. discriminate.
Qed.

Example C10_case :
  is_ok (fst (try_from_iter BO (disk_store BO) sum_alg env1 2 (Some 8) (map Ok (firstn 7 leaves8)) fs_empty)) = false /\
  is_ok (fst (try_from_iter BO (vec_store BO) sum_alg env1 2 (Some 4) (map Ok leaves8) fs_empty)) = false /\
  is_ok (fst (try_from_iter BO (vec_store BO) sum_alg env1 2 (Some 8) (map Ok leaves8) fs_empty)) = true.
Proof. vm_compute. auto. Qed.

(* ---------------- C55 ---------------- *)
(* any bytes: their elements are the leaves, no leaf hash; wrong byte counts are errors *)
Theorem C55_byte_slice : forall E (EO : ElementOps E) A SO np en b bytes c f t f',
  setting EO A SO np en b -> ElementBytesLaw EO -> fs_dir f (cfg_path c) = None ->
  from_byte_slice EO SO A en b bytes f = (Ok t, f') \/ from_byte_slice_with_config EO SO A en b bytes c f = (Ok t, f') ->
  exists d leaves els, decode EO bytes = Ok leaves /\ encode EO leaves = bytes /\
    List.length leaves = b ^ d /\ FullTree SO A b t f' d leaves els.
Proof.
  intros E EO A SO np en b bytes c f t f' (EL & AL & HS & Hb & Hch) HBL Hp H.
  assert (Hm : List.length bytes mod e_byte_len EO = 0).
  { destruct (Nat.eq_dec (List.length bytes mod e_byte_len EO) 0) as [G|G]; [exact G|exfalso].
    destruct (from_byte_slice_bad_len EO SO A b en bytes c f G) as (e & H1 & H2). destruct H; congruence. }
  pose proof (el_pos EO EL) as Hbl.
  assert (Hl : List.length bytes = List.length bytes / e_byte_len EO * e_byte_len EO).
  { pose proof (Nat.div_mod (List.length bytes) (e_byte_len EO) ltac:(lia)). lia. }
  destruct (decode_total EO EL bytes _ Hl) as (leaves & HD & Hn).
  assert (HE : encode EO leaves = bytes) by (eapply encode_decode; eauto).
  assert (HB : builder EO SO A en b leaves f (Ok t, f')).
  { rewrite <- HE in H. destruct H as [<-|<-]; constructor; auto. }
  destruct (builder_tree EO EL A AL en b SO np HS leaves f t f' Hb Hch HB) as (d & els & Hd & HF).
  exists d, leaves, els. auto.
Qed.

(* the same tree as new over items whose leaf hashes are those elements *)
Theorem C55_same_as_new : forall E (EO : ElementOps E) A SO np SO' np' en en' b xs f f0,
  setting EO A SO np en b -> setting EO A SO' np' en' b ->
  match from_byte_slice EO SO A en b (encode EO (map (h_leaf A) xs)) f, mt_new EO SO' A en' b xs f0 with
  | (Ok t, f'), (Ok t0, f0') => same_tree SO SO' b t f' t0 f0'
  | (Ok _, _), _ => False
  | _, (Ok _, _) => False
  | _, _ => True
  end.
Proof.
  intros E EO A SO np SO' np' en en' b xs f f0 HS HS'.
  pose proof (builder_same EO A SO np SO' np' en en' b (map (h_leaf A) xs) f _ f0 _ HS HS'
    (B_bytes EO SO A en b (map (h_leaf A) xs) f) (B_new EO SO' A en' b xs f0)) as H.
  destruct (from_byte_slice EO SO A en b (encode EO (map (h_leaf A) xs)) f) as [[]], (mt_new EO SO' A en' b xs f0) as [[]]; auto.
Qed.

Theorem C55_bad_length : forall E (EO : ElementOps E) A SO en b bytes c f,
  List.length bytes mod e_byte_len EO <> 0 ->
  exists e, from_byte_slice EO SO A en b bytes f = (Err e, f) /\ from_byte_slice_with_config EO SO A en b bytes c f = (Err e, f).
Proof. intros. apply from_byte_slice_bad_len. auto. Qed.

Example C55_case :
  elems (disk_store BO) (from_byte_slice BO (disk_store BO) sum_alg env1 2 [x03; x01; x04; x01] fs_empty) tt
  = let l := map el [3; 1; 4; 1] in
    let r := map (h_node sum_alg 0) [map el [3; 1]; map el [4; 1]] in
    map (fun x => Ok (val x)) (l ++ r ++ [h_node sum_alg 1 r]).
Proof. vm_compute. reflexivity. Qed.

Print Assumptions C01_root.
Print Assumptions C01_new.
Print Assumptions C02_layout.
Print Assumptions C03_exact_partial.
Print Assumptions C03_vec_disk.
Print Assumptions C03_bad_arity.
Print Assumptions C03_full_refuted.
Print Assumptions C04_stores_agree.
Print Assumptions C05_schedule_independent.
Print Assumptions C06_par_equals_seq.
Print Assumptions C06_par_equals_seq_config.
Print Assumptions C07_algorithms_agree.
Print Assumptions C08_populate.
Print Assumptions C09_first_error_partial.
Print Assumptions C09_no_tree.
Print Assumptions C09_config_panics.
Print Assumptions C09_full_refuted.
Print Assumptions C10_lying_hint_partial.
Print Assumptions C10_no_hint.
Print Assumptions C10_full_refuted.
Print Assumptions C55_byte_slice.
Print Assumptions C55_same_as_new.
Print Assumptions C55_bad_length.
