(* C58, C59: byte access to whole trees, is_empty, and unmapping / mapping again of trees. *)
From Coq Require Import String List Arith NArith Bool Lia Init.Byte ZifyBool ZifyNat.
From Verif Require Import Base Element Hash Sizing FS Sched Store VecStore DiskStore MmapStore LevelCache ProofModel Tree ListFacts Spec SpecFacts SizingFacts SchedFacts StoreLaws RowFacts ChunkFacts BuildFacts BuildLoop StoreSpec FileFacts VecFacts MapLayer DiskFacts MmapFacts PopFacts TreeFacts ProofSpec ProofFacts TreeProofs TreeObs Builders BuiltFacts CompoundFacts CompoundTrees CompoundGroups CompoundBuilt Cases Props_Build Props_Compound Props_Store.
Import ListNotations.

(* a built tree together with its store and the representation of the store *)
Lemma disk_into {E} (EO : ElementOps E) (EL : ElementLaws EO) cap n els st s e buf : disk_rep EO cap n (nth_error els) st -> List.length els = n ->
  s < e -> e <= n -> List.length buf = (e - s) * e_byte_len EO ->
  disk_store_read_into st (s * e_byte_len EO) (e * e_byte_len EO) buf = Ok (encode EO (sub els s (e - s))) /\
  disk_read_range_into EO st s e buf = Ok (encode EO (sub els s (e - s))).
Proof.
  intros (H1 & H2 & H3 & HD) Hl Hs He Hbuf. pose proof (bl_pos EO EL) as Hbl.
  assert (G : disk_store_read_into st (s * e_byte_len EO) (e * e_byte_len EO) buf = Ok (encode EO (sub els s (e - s)))).
  { unfold disk_store_read_into, fs_read_exact_at. rewrite Hbuf.
    assert (0 < (e - s) * e_byte_len EO) by (apply Nat.mul_pos_pos; lia).
    replace ((e - s) * e_byte_len EO =? 0) with false by lia.
    assert (Hk : knows (nth_error els) s (sub els s (e - s))).
    { intros k Hk. rewrite sub_length in Hk. rewrite nth_error_sub. replace (k <? e - s) with true by lia. reflexivity. }
    assert (Hsl : List.length (sub els s (e - s)) = e - s) by (apply sub_length_le; lia).
    pose proof (DRep_range EO _ _ _ _ _ HD Hk ltac:(rewrite Hsl; lia)) as R. rewrite Hsl in R.
    unfold fs_size. destruct HD as [HD1 _]. rewrite HD1.
    assert (s * e_byte_len EO + (e - s) * e_byte_len EO <= cap * e_byte_len EO) by (rewrite <- Nat.mul_add_distr_r; apply Nat.mul_le_mono_r; lia).
    replace (s * e_byte_len EO + (e - s) * e_byte_len EO <=? cap * e_byte_len EO) with true by lia. rewrite R. reflexivity. }
  split; [exact G|]. unfold disk_read_range_into. rewrite (disk_check_ok EO EL st s e n) by auto. cbn [rbind]. exact G.
Qed.

Lemma sub_one {X} (l : list X) i x : nth_error l i = Some x -> sub l i (i + 1 - i) = [x].
Proof.
  intros H. replace (i + 1 - i) with 1 by lia. apply nth_error_ext. intros k. rewrite nth_error_sub.
  destruct k as [|k]; cbn; [rewrite Nat.add_0_r; exact H|destruct k; reflexivity].
Qed.

Lemma basic_into {E} (EO : ElementOps E) (EL : ElementLaws EO) A (AL : AlgLaws A) SO np en b leaves f t f' : basic_store EO SO np -> arity b -> chunk_ok en b ->
  builder EO SO A en b leaves f (Ok t, f') ->
  exists d els s, FullTree SO A b t f' d leaves els /\ mt_data t = BaseTree s /\
    (forall i x buf, nth_error els i = Some x -> List.length buf = e_byte_len EO -> st_read_into SO (s, f') i buf = Ok (e_as_ref EO x)) /\
    st_is_empty SO s = false /\ reads_bounded SO.
Proof.
  intros HS Hb Hch HB. pose proof (bl_pos EO EL) as Hbl. destruct HS.
  - destruct (builder_built EO EL (vec_store EO) _ _ _ _ (vec_laws EO EL) A AL en b Hb Hch leaves f t f' HB) as (d & p & Hd & Hl & HBt).
    destruct (built_at _ _ _ _ _ _ _ _ _ _ _ _ HBt) as (s & els & HT & HW & HR & HC).
    pose proof (ta_layout _ _ _ _ _ _ _ _ _ _ HT) as (L1 & L2 & L3).
    exists d, els, s. split; [exact (TreeAt_Full EO (vec_store EO) _ _ _ _ (vec_laws EO EL) A b Hb t s f' d leaves els HT)|].
    split; [exact (ta_data _ _ _ _ _ _ _ _ _ _ HT)|]. destruct HR as (R1 & R2). cbn [fst] in *.
    split.
    { intros i x buf Hx Hbuf. cbn [st_read_into vec_store]. unfold vec_read_into, rnth. cbn [fst]. rewrite (R2 i x Hx). cbn [rbind].
      unfold e_copy_to_slice. rewrite Hbuf, Nat.eqb_refl. reflexivity. }
    split; [|exact (C37_vec_read E EO)]. cbn [st_is_empty vec_store]. destruct s; [pose proof (geom_pos b d); cbn in R1; lia|reflexivity].
  - destruct (builder_built EO EL (disk_store EO) _ _ _ _ (disk_laws EO EL) A AL en b Hb Hch leaves f t f' HB) as (d & p & Hd & Hl & HBt).
    destruct (built_at _ _ _ _ _ _ _ _ _ _ _ _ HBt) as (s & els & HT & HW & HR & HC).
    pose proof (ta_layout _ _ _ _ _ _ _ _ _ _ HT) as (L1 & L2 & L3).
    exists d, els, s. split; [exact (TreeAt_Full EO (disk_store EO) _ _ _ _ (disk_laws EO EL) A b Hb t s f' d leaves els HT)|].
    split; [exact (ta_data _ _ _ _ _ _ _ _ _ _ HT)|].
    split.
    { intros i x buf Hx Hbuf. cbn [st_read_into disk_store]. unfold disk_read_into.
      pose proof (nth_error_lt _ _ _ Hx) as Hi.
      replace (i * e_byte_len EO + e_byte_len EO) with ((i + 1) * e_byte_len EO) by lia.
      rewrite (disk_check_ok EO EL (s, f') i (i + 1) (geom b d)) by (try lia; exact (proj1 HR)). cbn [rbind].
      destruct (disk_into EO EL _ _ els (s, f') i (i + 1) buf HR L2 ltac:(lia) ltac:(lia) ltac:(lia)) as (G & _). rewrite G, (sub_one els i x Hx).
      unfold encode. cbn [map concat]. rewrite app_nil_r. reflexivity. }
    split; [|exact (C37_disk_read E EO EL)]. destruct HR as (R1 & _). cbn [st_is_empty disk_store fst] in *. pose proof (geom_pos b d). lia.
  - destruct (builder_built EO EL (mmap_store_ops EO) _ _ _ _ (mmap_laws EO EL) A AL en b Hb Hch leaves f t f' HB) as (d & p & Hd & Hl & HBt).
    destruct (built_at _ _ _ _ _ _ _ _ _ _ _ _ HBt) as (s & els & HT & HW & HR & HC).
    pose proof (ta_layout _ _ _ _ _ _ _ _ _ _ HT) as (L1 & L2 & L3).
    exists d, els, s. split; [exact (TreeAt_Full EO (mmap_store_ops EO) _ _ _ _ (mmap_laws EO EL) A b Hb t s f' d leaves els HT)|].
    split; [exact (ta_data _ _ _ _ _ _ _ _ _ _ HT)|].
    split.
    { intros i x buf Hx Hbuf. cbn [st_read_into mmap_store_ops]. unfold mmap_read_into.
      pose proof (nth_error_lt _ _ _ Hx) as Hi.
      replace (i * e_byte_len EO + e_byte_len EO) with ((i + 1) * e_byte_len EO) by lia.
      rewrite (mmap_check_ok EO EL (s, f') i (i + 1) (geom b d)) by (try lia; exact (proj1 HR)). cbn [rbind].
      assert (Hk : knows (nth_error els) i [x]).
      { intros k Hk. cbn in Hk. replace k with 0 by lia. rewrite Nat.add_0_r. exact Hx. }
      pose proof (mmap_range_bytes EO EL (s, f') _ _ _ i [x] HR Hk ltac:(cbn; lia)) as G. cbn [List.length] in G. rewrite G. cbn [rbind].
      unfold encode. cbn [map concat]. rewrite app_nil_r, (el_len EO EL), Hbuf, Nat.eqb_refl. reflexivity. }
    split; [|exact (C37_mmap_read E EO EL)]. destruct HR as (R1 & _). cbn [st_is_empty mmap_store_ops fst] in *. pose proof (geom_pos b d). lia.
Qed.

(* ---------------- C58 ---------------- *)
(* read_into gives the bytes of the element read_at gives, and nothing at or behind len;
   is_empty is false; data() is the store *)
Theorem C58_read_into : forall E (EO : ElementOps E) A SO np en b leaves f t f',
  setting EO A SO np en b -> builder EO SO A en b leaves f (Ok t, f') ->
  (forall i buf, i < mt_len SO t -> List.length buf = e_byte_len EO ->
     exists x, mt_read_at SO 0 0 t f' i = Ok x /\ mt_read_into SO t f' i buf = Ok (e_as_ref EO x)) /\
  (forall i buf, mt_len SO t <= i -> is_ok (mt_read_into SO t f' i buf) = false) /\
  0 < mt_len SO t /\ mt_is_empty SO t = false.
Proof.
  intros E EO A SO np en b leaves f t f' (EL & AL & HS & Hb & Hch) HB.
  destruct (basic_into EO EL A AL SO np en b leaves f t f' HS Hb Hch HB) as (d & els & s & HF & Hs & HI & HE & HR).
  pose proof (ft_layout _ _ _ _ _ _ _ _ HF) as (L1 & L2 & L3). pose proof (geom_pos b d) as Hg.
  rewrite (ft_len _ _ _ _ _ _ _ _ HF).
  split; [|split; [|split]].
  - intros i buf Hi Hbuf. destruct (nth_error_ex els i ltac:(lia)) as [x Hx]. exists x. split.
    + rewrite (ft_read_at _ _ _ _ _ _ _ _ HF) by exact Hi. unfold rnth. rewrite Hx. reflexivity.
    + unfold mt_read_into, mt_store. rewrite Hs. auto.
  - intros i buf Hi. unfold mt_read_into, mt_store. rewrite Hs. destruct (HR (s, f')) as (_ & HR2 & _). apply HR2. cbn [fst].
    pose proof (ft_len _ _ _ _ _ _ _ _ HF) as Hlen. unfold mt_len in Hlen. rewrite Hs in Hlen. lia.
  - exact Hg.
  - unfold mt_is_empty. rewrite Hs. exact HE.
Qed.

(* read_range_into: over DiskStore, for exactly fitting buffers, the bytes of read_range *)
Theorem C58_read_range_into_partial : forall E (EO : ElementOps E) A en b leaves f t f',
  setting EO A (disk_store EO) true en b -> builder EO (disk_store EO) A en b leaves f (Ok t, f') ->
  (forall s e buf, s < e -> e <= mt_len (disk_store EO) t -> List.length buf = (e - s) * e_byte_len EO ->
     exists xs, mt_read_range (disk_store EO) t f' s e = Ok xs /\ mt_read_range_into (disk_store EO) t f' s e buf = Ok (encode EO xs)) /\
  (forall s e buf, mt_len (disk_store EO) t < e \/ e <= s -> exists m, mt_read_range_into (disk_store EO) t f' s e buf = Err m).
Proof.
  intros E EO A en b leaves f t f' (EL & AL & HS & Hb & Hch) HB.
  destruct (builder_built EO EL (disk_store EO) _ _ _ _ (disk_laws EO EL) A AL en b Hb Hch leaves f t f' HB) as (d & p & Hd & Hl & HBt).
  destruct (built_at _ _ _ _ _ _ _ _ _ _ _ _ HBt) as (s & els & HT & HW & HR & HC).
  pose proof (TreeAt_Full EO (disk_store EO) _ _ _ _ (disk_laws EO EL) A b Hb t s f' d leaves els HT) as HF.
  pose proof (ta_layout _ _ _ _ _ _ _ _ _ _ HT) as (L1 & L2 & L3). pose proof (ta_data _ _ _ _ _ _ _ _ _ _ HT) as Hs.
  rewrite (ft_len _ _ _ _ _ _ _ _ HF). split.
  - intros s0 e buf Hse He Hbuf. eexists. split; [apply (ft_read_range _ _ _ _ _ _ _ _ HF); auto|].
    unfold mt_read_range_into, mt_store. rewrite Hs. replace (s0 <? e) with true by lia. cbn [ensure rbind st_read_range_into disk_store].
    apply (disk_into EO EL _ _ els (s, f') s0 e buf HR L2 Hse He Hbuf).
  - intros s0 e buf Hse. unfold mt_read_range_into, mt_store. rewrite Hs. destruct (s0 <? e) eqn:Hq; cbn [ensure rbind]; [|eauto].
    destruct Hse as [Hse|Hse]; [|lia]. cbn [st_read_range_into disk_store]. unfold disk_read_range_into.
    destruct (disk_check_out EO (s, f') s0 e (bl_pos EO EL)) as [m Hm]; [right; destruct HR as (R1 & _); cbn [fst] in *; lia|].
    rewrite Hm. eexists; reflexivity.
Qed.

(* compound trees have no store of their own: the store accesses are refused and change nothing *)
Definition compound {T E} (t : mtree T E) : Prop := match mt_data t with BaseTree _ => False | _ => True end.
Theorem C58_compound : forall E (SO : StoreOps E) b (t : mtree (st_t SO) E) f sizes c v, compound t ->
  (forall i buf, exists m, mt_read_into SO t f i buf = Err m) /\
  (forall s e, exists m, mt_read_range SO t f s e = Err m) /\
  (forall s e buf, exists m, mt_read_range_into SO t f s e buf = Err m) /\
  (exists m, mt_compact SO b sizes c v (t, f) = (Err m, (t, f))) /\
  (exists m, mt_reinit SO (t, f) = (Err m, (t, f))).
Proof.
  intros E SO b t f sizes c v H. unfold compound in H.
  unfold mt_read_into, mt_read_range, mt_read_range_into, mt_compact, mt_reinit, mt_on_store, mt_store.
  destruct (mt_data t); try contradiction; repeat split; intros; try (destruct (_ <? _); cbn [ensure rbind]); eauto.
Qed.

(* What does not hold: the full statement asks read_range_into of every store, and is_empty to
   tell whether len is 0 *)
Definition C58_full : Prop := forall E (EO : ElementOps E) A SO np en b leaves f t f' s e buf,
  setting EO A SO np en b -> builder EO SO A en b leaves f (Ok t, f') ->
  s < e -> e <= mt_len SO t -> List.length buf = (e - s) * e_byte_len EO ->
  exists bs, mt_read_range_into SO t f' s e buf = Ok bs.
Theorem C58_refuted : ~ C58_full.
Proof.
  intros H. pose proof (B_new BO (vec_store BO) sum_alg env1 2 leaves8 fs_empty) as HB0.
  destruct (mt_new BO (vec_store BO) sum_alg env1 2 leaves8 fs_empty) as [[t| | |] f] eqn:HT.
  2-4: exfalso; revert HT; vm_compute; discriminate.
  pose proof (setting_intro (vec_store BO) true env1 2 (bs_vec BO) arity_2 ltac:(split; [vm_compute; lia|reflexivity])) as HS.
  pose proof HS as (EL & AL & HSt & Hb & Hch).
  destruct (builder_tree BO EL sum_alg AL env1 2 (vec_store BO) true HSt _ _ t f Hb Hch HB0) as (d & els & Hl & HF).
  destruct (ft_base _ _ _ _ _ _ _ _ HF) as [s Hs].
  destruct (H B1 BO sum_alg (vec_store BO) true env1 2 _ fs_empty t f 0 1 [x00] HS HB0 ltac:(lia)) as [bs Hbs].
  - rewrite (ft_len _ _ _ _ _ _ _ _ HF). pose proof (geom_pos 2 d). lia.
  - reflexivity.
  - unfold mt_read_range_into, mt_store in Hbs. rewrite Hs in Hbs. discriminate Hbs.
Qed.
(* VecStore and MmapStore never implement it *)
Theorem C58_unimplemented : forall E (EO : ElementOps E) st st' s e buf,
  (exists m, st_read_range_into (vec_store EO) st s e buf = Panic m) /\
  (exists m, st_read_range_into (mmap_store_ops EO) st' s e buf = Panic m).
Proof. intros. split; eexists; reflexivity. Qed.
(* compound trees call themselves empty whatever they hold *)
Theorem C58_is_empty_refuted : forall E (EO : ElementOps E) A SO np en b lss f ts f1 sub_ t,
  setting EO A SO np en b -> built_all EO SO A en b lss f ts f1 -> from_trees SO A sub_ ts = Ok t ->
  mt_is_empty SO t = true /\ 0 < mt_len SO t /\ 0 < mt_leafs t.
Proof.
  intros E EO A SO np en b lss f ts f1 sub_ t (EL & AL & HS & Hb & Hch) HB HT.
  destruct (built_sub EO EL A AL en b Hb Hch SO np HS lss f ts f1 sub_ t HB HT) as (d & ess & HL & HSA).
  unfold mt_is_empty. rewrite (sa_data _ _ _ _ _ _ _ _ _ HSA), (sa_len _ _ _ _ _ _ _ _ _ HSA), (sa_leafs _ _ _ _ _ _ _ _ _ HSA).
  pose proof (sa_pos _ _ _ _ _ _ _ _ _ HSA). pose proof (arity_ge b Hb).
  split; [reflexivity|]. split; [lia|]. apply Nat.mul_pos_pos; [lia|]. apply Nat.neq_0_lt_0, Nat.pow_nonzero. lia.
Qed.

Definition access_case (SO : StoreOps B1) : list (option (list byte)) * bool * nat :=
  match mt_new BO SO sum_alg env1 2 leaves8 fs_empty with
  | (Ok t, f) => (map (fun i => match mt_read_into SO t f i [x00] with Ok l => Some l | _ => None end) [0; 3; 8; 14; 15],
                  mt_is_empty SO t, mt_len SO t)
  | _ => ([], true, 0)
  end.
Example C58_case : let '(l, em, n) := access_case (disk_store BO) in
  em = false /\ n = 15 /\ (forall k, k < 4 -> nth k l None <> None) /\ nth 4 l None = None /\
  access_case (vec_store BO) = (l, em, n) /\ access_case (mmap_store_ops BO) = (l, em, n) /\
  match case_sub (disk_store BO) sum_alg 2 3 [xs4 1; xs4 9; xs4 5] with
  | Some (t, f) => (mt_is_empty (disk_store BO) t, mt_len (disk_store BO) t, mt_leafs t) = (true, 22, 12)
  | None => False
  end.
Proof.
  destruct (access_case (disk_store BO)) as [[l em] n] eqn:H. revert H. vm_compute. intros H. inversion H; subst. clear H.
  repeat split. intros k Hk. do 4 (destruct k as [|k]; [discriminate|]). lia.
Qed.
(* a buffer of the wrong length: DiskStore fills whatever it is given, reading across elements;
   the other two refuse it *)
Example C58_wrong_buffer :
  match mt_new BO (disk_store BO) sum_alg env1 2 leaves8 fs_empty with
  | (Ok t, f) => match mt_read_into (disk_store BO) t f 0 [x00; x00; x00] with Ok l => List.length l = 3 | _ => False end
  | _ => False
  end /\
  match mt_new BO (vec_store BO) sum_alg env1 2 leaves8 fs_empty with
  | (Ok t, f) => is_ok (mt_read_into (vec_store BO) t f 0 [x00; x00; x00]) = false
  | _ => False
  end /\
  match mt_new BO (mmap_store_ops BO) sum_alg env1 2 leaves8 fs_empty with
  | (Ok t, f) => is_ok (mt_read_into (mmap_store_ops BO) t f 0 [x00; x00; x00]) = false
  | _ => False
  end.
Proof. vm_compute. repeat split. Qed.

(* ---------------- C59 ---------------- *)
(* compact on a tree over an MmapStore only drops the map: the root, sizes and file system stay,
   every node read fails; reinit brings back the very same tree *)
Theorem C59_mmap : forall E (EO : ElementOps E) A en b leaves f t f' sizes c v,
  setting EO A (mmap_store_ops EO) false en b -> builder EO (mmap_store_ops EO) A en b leaves f (Ok t, f') ->
  exists t1, mt_compact (mmap_store_ops EO) b sizes c v (t, f') = (Ok true, (t1, f')) /\
    mt_root t1 = mt_root t /\ mt_leafs t1 = mt_leafs t /\ mt_len (mmap_store_ops EO) t1 = mt_len (mmap_store_ops EO) t /\
    mt_row_count t1 = mt_row_count t /\
    (forall i, is_ok (mt_read_at (mmap_store_ops EO) 0 0 t1 f' i) = false) /\
    (forall s e, is_ok (mt_read_range (mmap_store_ops EO) t1 f' s e) = false) /\
    (exists t2, mt_compact (mmap_store_ops EO) b sizes c v (t1, f') = (Ok false, (t2, f')) /\ t2 = t1) /\
    mt_reinit (mmap_store_ops EO) (t1, f') = (Ok tt, (t, f')) /\
    mt_reinit (mmap_store_ops EO) (t, f') = (Ok tt, (t, f')).
Proof.
  intros E EO A en b leaves f t f' sizes c v (EL & AL & HS & Hb & Hch) HB. pose proof (bl_pos EO EL) as Hbl.
  destruct (builder_built EO EL (mmap_store_ops EO) _ _ _ _ (mmap_laws EO EL) A AL en b Hb Hch leaves f t f' HB) as (d & p & Hd & Hl & HBt).
  destruct (built_at _ _ _ _ _ _ _ _ _ _ _ _ HBt) as (s & els & HT & HW & HR & HC).
  pose proof (ta_data _ _ _ _ _ _ _ _ _ _ HT) as Hs. destruct HR as (R1 & R2 & R3 & R4 & _). cbn [fst snd] in *.
  destruct t as [dt lf ln rc rt]. cbn [mt_data mt_root mt_leafs mt_row_count mt_len_field] in *. subst dt.
  destruct s as [m h n]. cbn [mm_map mm_file mm_len] in *. unfold mmap_W in HW. cbn [mm_file] in HW. subst m.
  unfold mt_compact, mt_reinit, mt_on_store. cbn [mt_data st_compact st_reinit mmap_store_ops mt_leafs mt_len_field mt_row_count mt_root].
  unfold mmap_compact. cbn [fst snd mm_map mm_set_map].
  eexists. split; [reflexivity|]. split; [reflexivity|]. split; [reflexivity|]. split; [reflexivity|]. split; [reflexivity|].
  split.
  { intros i. unfold mt_read_at, mt_read_at_n. cbn [mt_data st_read_at mmap_store_ops]. unfold mmap_read_at.
    destruct (mmap_check _ _ _ _); reflexivity. }
  split.
  { intros s e. unfold mt_read_range, mt_store. cbn [mt_data]. destruct (s <? e); cbn [ensure rbind]; [|reflexivity].
    cbn [st_read_range mmap_store_ops]. unfold mmap_read_range. destruct (mmap_check _ _ _ _); reflexivity. }
  split; [eexists; split; reflexivity|].
  unfold mmap_reinit, mm_map_mut, fs_map_mut, fs_size.
  cbn [mt_data mt_leafs mt_len_field mt_row_count mt_root fst snd mm_file mm_set_map]. rewrite HW, R4. split; reflexivity.
Qed.

(* the other stores have nothing to do *)
Theorem C59_others : forall E (EO : ElementOps E) (t : mtree (list E) E) (t' : mtree disk_t E) (t'' : mtree lc_t E) f,
  ~ compound t -> ~ compound t' -> ~ compound t'' ->
  mt_reinit (vec_store EO) (t, f) = (Ok tt, (t, f)) /\ mt_reinit (disk_store EO) (t', f) = (Ok tt, (t', f)) /\
  mt_reinit (lc_store EO) (t'', f) = (Ok tt, (t'', f)).
Proof.
  intros E EO t t' t'' f H1 H2 H3. unfold compound in *. unfold mt_reinit, mt_on_store.
  destruct t as [[| |s] ? ? ? ?], t' as [[| |s'] ? ? ? ?], t'' as [[| |s''] ? ? ? ?]; cbn [mt_data] in *; try tauto.
  all: repeat split; reflexivity.
Qed.

Example C59_case :
  match mt_new BO (mmap_store_ops BO) sum_alg env1 2 leaves8 fs_empty with
  | (Ok t, f) =>
      match mt_compact (mmap_store_ops BO) 2 (fun _ => 0) cfg0 1 (t, f) with
      | (Ok true, (t1, f1)) =>
          is_ok (mt_read_at (mmap_store_ops BO) 0 0 t1 f1 3) = false /\ is_ok (gen_proof (mmap_store_ops BO) 2 0 0 t1 f1 3) = false /\
          match mt_reinit (mmap_store_ops BO) (t1, f1) with
          | (Ok _, (t2, f2)) => match rbind (gen_proof (mmap_store_ops BO) 2 0 0 t2 f2 3) (validate BO sum_alg 2) with Ok true => True | _ => False end
          | _ => False
          end
      | _ => False
      end
  | _ => False
  end.
Proof. vm_compute. auto. Qed.

Print Assumptions C58_read_into.
Print Assumptions C58_read_range_into_partial.
Print Assumptions C58_compound.
Print Assumptions C58_refuted.
Print Assumptions C58_unimplemented.
Print Assumptions C58_is_empty_refuted.
Print Assumptions C59_mmap.
Print Assumptions C59_others.
