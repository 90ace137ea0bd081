(* Compound trees over level-cache stores that share one replica file. *)
From Coq Require Import String List Arith Bool Lia Init.Byte ZifyBool ZifyNat.
From Verif Require Import Base Element Hash Sizing FS Sched Store VecStore DiskStore MmapStore LevelCache ProofModel Tree ListFacts Spec SpecFacts SizingFacts SchedFacts StoreLaws RowFacts ChunkFacts BuildFacts BuildLoop StoreSpec FileFacts VecFacts MapLayer DiskFacts TreeFacts ProofSpec ProofFacts TreeProofs TreeObs CompoundFacts CompoundTrees CachedFacts CachedTrees LcReads LcTrees.
Import ListNotations.

Lemma smap_ok {St X Y} (g : X -> SM St Y) (P : nat -> Y -> Prop) st : forall l k0,
  (forall j x, nth_error l j = Some x -> exists y, g x st = (Ok y, st) /\ P (k0 + j) y) ->
  exists ys, smap g l st = (Ok ys, st) /\ List.length ys = List.length l /\ forall j y, nth_error ys j = Some y -> P (k0 + j) y.
Proof.
  induction l as [|x l IH]; intros k0 H.
  - exists []. repeat split. intros [|j] y Hy; discriminate.
  - destruct (H 0 x eq_refl) as (y & Hy & HP). destruct (IH (S k0)) as (ys & H1 & H2 & H3).
    { intros j z Hz. destruct (H (S j) z Hz) as (w & W1 & W2). exists w. split; [exact W1|]. replace (S k0 + j) with (k0 + S j) by lia. exact W2. }
    exists (y :: ys). split; [|split].
    + cbn [smap]. rewrite (sbind_ok _ _ _ _ _ Hy). rewrite (sbind_ok _ _ _ _ _ H1). reflexivity.
    + cbn [List.length]. lia.
    + intros [|j] z Hz; [injection Hz as <-; exact HP|]. replace (k0 + S j) with (S k0 + j) by lia. apply H3. exact Hz.
Qed.

Section ReplicaFacts.
  Context {E : Type} (EO : ElementOps E) (EL : ElementLaws EO).
  Local Notation bl := (e_byte_len EO).
  Local Notation LO := (lc_store EO).
  Variable A : AlgOps E.
  Variables (en : env) (b : nat).
  Hypothesis Hb : arity b.
  Hypothesis Hch : chunk_ok en b.

  (* what is on disk for one base tree: its upper rows, and its leaves in the replica *)
  Definition on_disk (f : fs) (path : string) (d : nat) (c : StoreConfig) (off : nat) (lv : list E) : Prop :=
    exists es, sc_rows_to_discard c < d /\ Layout (h_node A) b d lv es /\
    (exists i, fs_dir f (cfg_path c) = Some i /\ fs_data f i = encode EO (skipn (row_off b d (S (sc_rows_to_discard c))) es)) /\
    exists h, fs_open_ro f path = Ok h /\ reads_leaves EO {| er_offset := off; er_read_fn := file_read_fn h |} f lv.

  (* the base trees, over level-cache stores *)
  Definition LcBases (f : fs) (d : nat) (lts : list (mtree (st_t LO) E)) (cfgs : list StoreConfig) (lss : list (list E)) : Prop :=
    List.length lts = List.length cfgs /\
    forall k tk, nth_error lts k = Some tk -> exists c lv es s,
      nth_error cfgs k = Some c /\ nth_error lss k = Some lv /\ LcTree EO A b tk s f d (sc_rows_to_discard c) lv es /\ lc_reader s <> None.

  Lemma LcTree_len tk s f d R lv es : LcTree EO A b tk s f d R lv es -> mt_len LO tk = geom b d.
  Proof. intros HT. unfold mt_len. rewrite (lt_data _ _ _ _ _ _ _ _ _ _ HT). exact (la_len _ _ _ _ _ _ _ _ (lt_at _ _ _ _ _ _ _ _ _ _ HT)). Qed.

  Lemma LcBases_const f d lts cfgs lss : LcBases f d lts cfgs lss ->
    Forall (fun t => mt_row_count t = d + 1) lts /\ Forall (fun t => mt_len LO t = geom b d) lts /\ Forall (fun t => mt_leafs t = b ^ d) lts.
  Proof.
    intros (_ & H). repeat split; apply Forall_forall; intros t Ht; apply In_nth_error in Ht; destruct Ht as [k Hk];
      destruct (H k t Hk) as (c & lv & es & s & _ & _ & HT & _).
    - rewrite (lt_rows _ _ _ _ _ _ _ _ _ _ HT). lia.
    - eapply LcTree_len; eauto.
    - apply (lt_leafs _ _ _ _ _ _ _ _ _ _ HT).
  Qed.

  Lemma nth_error_combine_seq {X} (l : list X) j x : nth_error (combine (seq 0 (List.length l)) l) j = Some x -> exists c, nth_error l j = Some c /\ x = (j, c).
  Proof.
    assert (G : forall (l : list X) k j x, nth_error (combine (seq k (List.length l)) l) j = Some x -> exists c, nth_error l j = Some c /\ x = (k + j, c)).
    { clear. induction l as [|y l IH]; intros k j x H; [destruct j; discriminate|]. cbn [List.length seq combine] in H.
      destruct j as [|j]; [injection H as <-; exists y; rewrite Nat.add_0_r; auto|]. cbn [nth_error] in H.
      destruct (IH (S k) j x H) as (c & C1 & C2). exists c. split; [exact C1|]. rewrite C2. f_equal. lia. }
    intros H. exact (G l 0 j x H).
  Qed.

  Lemma replica_bases f d cfgs rc lss : List.length cfgs = List.length (rc_offsets rc) ->
    (forall k c, nth_error cfgs k = Some c -> exists off lv, nth_error (rc_offsets rc) k = Some off /\ nth_error lss k = Some lv /\
       on_disk f (rc_path rc) d c off lv) ->
    exists lts, LcBases f d lts cfgs lss /\
      forall sub_, from_store_configs_and_replica EO A b sub_ (b ^ d) cfgs rc f = (from_trees LO A sub_ lts, f).
  Proof.
    intros HL H.
    pose (g := fun ic : nat * StoreConfig => let '(i, c) := ic in
                     let! size := slift (get_merkle_tree_len (b ^ d) b) in
                     let! f := sget in
                     let! r := slift (er_new_from_config f rc i) in
                     let! data := lc_new_from_disk_with_reader EO size b c r in
                     from_data_store LO b 0 0 data (b ^ d)).
    destruct (smap_ok g (fun k tk => exists c lv es s, nth_error cfgs k = Some c /\ nth_error lss k = Some lv /\
                LcTree EO A b tk s f d (sc_rows_to_discard c) lv es /\ lc_reader s <> None) f (combine (seq 0 (List.length cfgs)) cfgs) 0) as (lts & M1 & M2 & M3).
    { intros j x Hx. destruct (nth_error_combine_seq cfgs j x Hx) as (c & Hc & ->).
      destruct (H j c Hc) as (off & lv & H1 & H2 & (es & HR & HLy & (i & Hp & Hd) & (h & Ho & Hrd))).
      destruct (lc_open_v2 EO EL A b Hb c f i d lv es _ Hp HR HLy Hrd Hd) as (s & S1 & S2 & S3 & S4).
      destruct (lc_from_data_store EO EL A b Hb s f d (sc_rows_to_discard c) lv es HLy S4) as (tk & T1 & T2).
      exists tk. split; [|exists c, lv, es, s; split; [exact Hc|]; split; [exact H2|]; split; [exact T2|rewrite S2; discriminate]].
      unfold g. rewrite get_merkle_tree_len_full by (auto; lia). rewrite (sbind_ok _ _ f (geom b d) f) by reflexivity.
      rewrite (sbind_ok _ _ f f f) by reflexivity. unfold er_new_from_config. rewrite Ho. cbn [rbind]. unfold rnth. rewrite H1. cbn [rbind].
      rewrite (sbind_ok _ _ f _ f) by reflexivity. rewrite (sbind_ok _ _ _ _ _ S1). exact T1. }
    exists lts. split.
    - split; [rewrite M2, combine_length, seq_length; lia|]. exact M3.
    - intros sub_. unfold from_store_configs_and_replica. rewrite HL, Nat.eqb_refl. rewrite (sbind_ok _ _ f tt f) by reflexivity.
      rewrite <- HL. change (smap _ (combine (seq 0 (List.length cfgs)) cfgs)) with (smap g (combine (seq 0 (List.length cfgs)) cfgs)).
      rewrite (sbind_ok _ _ _ _ _ M1). reflexivity.
  Qed.

  (* a two-layer tree over level-cache stores *)
  Record LcSub (t : mtree (st_t LO) E) (f : fs) (d : nat) (ts : list (mtree (st_t LO) E)) (cfgs : list StoreConfig) (lss : list (list E)) : Prop := {
    ls_data : mt_data t = SubTree ts;
    ls_bases : LcBases f d ts cfgs lss;
    ls_over : Over LO t ts (b ^ d);
    ls_len : mt_len LO t = geom b d * List.length ts + 1;
    ls_rows : mt_row_count t = d + 2;
    ls_root : mt_root t = h_node A 1 (map mt_root ts)
  }.

  Lemma LcSub_make f d lts cfgs lss : 0 < List.length lts -> LcBases f d lts cfgs lss ->
    exists t, from_trees LO A (List.length lts) lts = Ok t /\ LcSub t f d lts cfgs lss.
  Proof.
    intros H0 HB. destruct (LcBases_const _ _ _ _ _ HB) as (C1 & C2 & C3).
    eexists. split; [apply (from_trees_ok LO A _ lts (d + 1) (geom b d) (b ^ d)); auto|].
    constructor; cbn [mt_data mt_leafs mt_row_count mt_root mt_len mt_len_field]; auto; [|lia].
    repeat split; cbn [mt_leafs]; auto. pose proof (arity_ge b Hb). pose proof (Nat.pow_nonzero b d ltac:(lia)). lia.
  Qed.

  Lemma LcSub_child t f d ts cfgs lss i : LcSub t f d ts cfgs lss -> i < mt_leafs t ->
    exists tk c lv es s, nth_error ts (i / b ^ d) = Some tk /\ nth_error cfgs (i / b ^ d) = Some c /\ nth_error lss (i / b ^ d) = Some lv /\
      LcTree EO A b tk s f d (sc_rows_to_discard c) lv es /\ lc_reader s <> None.
  Proof.
    intros HS Hi. pose proof (ls_over _ _ _ _ _ _ HS) as HO. destruct (over_div LO t ts (b ^ d) i HO Hi) as [_ Hk].
    destruct (nth_error_ex ts _ Hk) as [tk Htk]. pose proof (ls_bases _ _ _ _ _ _ HS) as (_ & HB).
    destruct (HB _ _ Htk) as (c & lv & es & s & G). exists tk, c, lv, es, s. tauto.
  Qed.

  Lemma LcTree_read n sub_ top tk s f d R lv es i : LcTree EO A b tk s f d R lv es -> i < b ^ d ->
    mt_read_at_n LO (S n) sub_ top tk f i = rnth lv i.
  Proof.
    intros HT Hi. cbn [mt_read_at_n]. rewrite (lt_data _ _ _ _ _ _ _ _ _ _ HT). pose proof (lt_at _ _ _ _ _ _ _ _ _ _ HT) as HA.
    destruct (nth_error_ex lv i) as [x Hx]; [rewrite (la_leaves _ _ _ _ _ _ _ _ HA); exact Hi|].
    unfold rnth. rewrite Hx. cbn [st_read_at lc_store]. apply (lc_read_at_kept EO EL b s f d R lv es HA); [auto|].
    rewrite (la_first _ _ _ _ _ _ _ _ HA i Hi). exact Hx.
  Qed.

  Lemma LcTree_cached rows tk s f d R lv es : LcTree EO A b tk s f d R lv es -> R <= capped b d rows ->
    CachedBase EO LO A en b rows tk f d es.
  Proof.
    intros HT HR. split; [exists s; apply (lt_data _ _ _ _ _ _ _ _ _ _ HT)|]. split; [apply (lt_leafs _ _ _ _ _ _ _ _ _ _ HT)|].
    intros i Hi. unfold gen_cached_proof. cbn [gen_cached_proof_n]. rewrite (lt_data _ _ _ _ _ _ _ _ _ _ HT).
    apply (lc_cached_ok EO EL A en b Hb Hch tk s f d R lv es i rows HT Hi HR).
  Qed.

  Lemma LcSub_read n t f d ts cfgs lss i lv : LcSub t f d ts cfgs lss -> i < mt_leafs t -> nth_error lss (i / b ^ d) = Some lv ->
    mt_read_at_n LO (S (S n)) (List.length ts) 0 t f i = rnth lv (i mod b ^ d).
  Proof.
    intros HS Hi Hlv. pose proof (ls_over _ _ _ _ _ _ HS) as HO. pose proof HO as (_ & O2 & _).
    destruct (LcSub_child _ _ _ _ _ _ _ HS Hi) as (tk & c & lv' & es & s & C1 & C2 & C3 & HT & _). rewrite Hlv in C3. injection C3 as <-.
    rewrite (read_at_over LO (S n) (List.length ts) 0 (List.length ts) 0 t ts f i (b ^ d) tk); auto.
    2:{ left. split; [apply (ls_data _ _ _ _ _ _ HS)|auto]. }
    apply (LcTree_read n 0 0 tk s f d (sc_rows_to_discard c) lv es _ HT). apply Nat.mod_upper_bound. lia.
  Qed.

  (* ---- against the full trees ---- *)
  Context (SO : StoreOps E).

  Lemma same_base lk s f d R lv es tk f' es' : LcTree EO A b lk s f d R lv es -> FullTree SO A b tk f' d lv es' -> es' = es /\ mt_root lk = mt_root tk.
  Proof.
    intros HT HF. pose proof (arity_ge b Hb) as H2.
    assert (es' = es) as -> by (eapply (Layout_fun b); [apply (ft_layout _ _ _ _ _ _ _ _ HF)|apply (lt_layout _ _ _ _ _ _ _ _ _ _ HT)]).
    split; [reflexivity|]. pose proof (lt_root _ _ _ _ _ _ _ _ _ _ HT) as R1. pose proof (ft_root _ _ _ _ _ _ _ _ HF) as R2. congruence.
  Qed.

  Lemma map_root_ext {X Y} (lts : list (mtree X E)) (ts : list (mtree Y E)) : List.length lts = List.length ts ->
    (forall k lk tk, nth_error lts k = Some lk -> nth_error ts k = Some tk -> mt_root lk = mt_root tk) -> map mt_root lts = map mt_root ts.
  Proof.
    intros Hn H. apply nth_error_ext. intros k. rewrite !nth_error_map.
    destruct (nth_error ts k) as [tk|] eqn:Hk; destruct (nth_error lts k) as [lk|] eqn:Hl; cbn [option_map]; auto.
    - f_equal. eapply H; eauto.
    - apply nth_error_None in Hl. apply nth_error_lt in Hk. lia.
    - apply nth_error_None in Hk. apply nth_error_lt in Hl. lia.
  Qed.

  Lemma same_roots lt lts cfgs lss ess f t ts f' d : LcSub lt f d lts cfgs lss -> SubAt SO A b t f' d ts lss ess -> List.length lts = List.length ts ->
    map mt_root lts = map mt_root ts.
  Proof.
    intros HL HS Hn. apply map_root_ext; auto. intros k lk tk Hl Hk.
    pose proof (ls_bases _ _ _ _ _ _ HL) as (_ & HB). destruct (HB k lk Hl) as (c & lv & es & s & _ & C3 & HT & _).
    pose proof (sa_bases _ _ _ _ _ _ _ _ _ HS) as (_ & _ & HB'). destruct (HB' k tk Hk) as (lv' & es' & D1 & D2 & HF).
    rewrite C3 in D1. injection D1 as <-. eapply same_base; eauto.
  Qed.

  Lemma sub_same_shape lt lts cfgs lss ess f t ts f' d : LcSub lt f d lts cfgs lss -> SubAt SO A b t f' d ts lss ess -> List.length lts = List.length ts ->
    mt_root lt = mt_root t /\ mt_leafs lt = mt_leafs t /\ mt_len LO lt = mt_len SO t /\ mt_row_count lt = mt_row_count t.
  Proof.
    intros HL HS Hn. rewrite (ls_root _ _ _ _ _ _ HL), (same_roots _ _ _ _ _ _ _ _ _ _ HL HS Hn), (sa_root _ _ _ _ _ _ _ _ _ HS).
    pose proof (ls_over _ _ _ _ _ _ HL) as (_ & _ & _ & ->). rewrite (sa_leafs _ _ _ _ _ _ _ _ _ HS), Hn.
    rewrite (ls_len _ _ _ _ _ _ HL), (sa_len _ _ _ _ _ _ _ _ _ HS), Hn, (ls_rows _ _ _ _ _ _ HL), (sa_rows _ _ _ _ _ _ _ _ _ HS). auto.
  Qed.

  Lemma sub_same_reads n lt lts cfgs lss ess f t ts f' d i : LcSub lt f d lts cfgs lss -> SubAt SO A b t f' d ts lss ess -> List.length lts = List.length ts ->
    i < mt_leafs t -> mt_read_at_n LO (S (S n)) (List.length lts) 0 lt f i = rnth (concat lss) i.
  Proof.
    intros HL HS Hn Hi. destruct (sub_same_shape _ _ _ _ _ _ _ _ _ _ HL HS Hn) as (_ & Hle & _).
    destruct (SubAt_child SO A b Hb t f' d ts lss ess i HS Hi) as (tk & lv & es & C1 & C2 & C3 & HF & C4).
    rewrite (LcSub_read n lt f d lts cfgs lss i lv HL ltac:(lia) C2). unfold rnth. rewrite C4. reflexivity.
  Qed.

  Lemma sub_same_proofs lt lts cfgs lss ess f t ts f' d i c rows : LcSub lt f d lts cfgs lss -> SubAt SO A b t f' d ts lss ess -> List.length lts = List.length ts ->
    i < mt_leafs t -> nth_error cfgs (i / b ^ d) = Some c -> sc_rows_to_discard c <= capped b d rows ->
    gen_cached_proof EO LO A en b (List.length lts) 0 lt f i rows = gen_proof SO b (List.length ts) 0 t f' i /\
    is_ok (gen_proof SO b (List.length ts) 0 t f' i) = true.
  Proof.
    intros HL HS Hn Hi Hc HR. destruct (sub_same_shape _ _ _ _ _ _ _ _ _ _ HL HS Hn) as (Hr & Hle & _).
    destruct (LcSub_child _ _ _ _ _ _ i HL ltac:(lia)) as (tk & c' & lv & es & s & C1 & C2 & C3 & HT & _). rewrite Hc in C2. injection C2 as <-.
    destruct (SubAt_child SO A b Hb t f' d ts lss ess i HS Hi) as (tk' & lv' & es' & D1 & D2 & D3 & HF & D4).
    rewrite C3 in D2. injection D2 as <-. destruct (same_base _ _ _ _ _ _ _ _ _ _ HT HF) as [-> _].
    unfold gen_proof, gen_cached_proof. rewrite (SubAt_gen SO A b Hb 1 t f' d ts lss ess i es HS Hi D3). split; [|reflexivity].
    rewrite (sub_cached EO LO A en b rows 1 lt f d lts i tk es); auto; try lia.
    - unfold sub_proof. rewrite (same_roots _ _ _ _ _ _ _ _ _ _ HL HS Hn), Hr, Hn. reflexivity.
    - apply (ls_data _ _ _ _ _ _ HL).
    - apply (ls_over _ _ _ _ _ _ HL).
    - eapply LcTree_cached; eauto.
  Qed.

  (* too few rows: an error *)
  Lemma compound_err rec sub_ top (children : res (list (mtree (st_t LO) E))) (t : mtree (st_t LO) E) ts n i tk :
    Over LO t ts n -> i < mt_leafs t -> children = Ok ts -> nth_error ts (i / n) = Some tk -> (exists e, rec tk (i mod n) = Err e) ->
    exists e, gen_cached_compound_proof LO b rec sub_ top (List.length ts) children t i = Err e.
  Proof.
    intros HO Hi Hts Hk [e He]. destruct (over_div LO t ts n i HO Hi) as [D1 D2]. pose proof HO as (O1 & O2 & O3 & O4). exists e.
    unfold gen_cached_compound_proof. replace (List.length ts =? 0) with false by lia. cbn [negb ensure rbind].
    replace (i <? mt_leafs t) with true by lia. cbn [ensure rbind]. rewrite Hts. cbn [rbind]. rewrite D1. replace (n =? 0) with false by lia.
    unfold rnth. rewrite Hk. cbn [rbind]. rewrite Forall_forall in O3. rewrite (O3 tk) by (eapply nth_error_In; eauto).
    replace (n =? 0) with false by lia. rewrite He. reflexivity.
  Qed.
  Lemma sub_few_rows n lt lts cfgs lss f d i c rows : LcSub lt f d lts cfgs lss -> i < mt_leafs lt ->
    nth_error cfgs (i / b ^ d) = Some c -> capped b d rows < sc_rows_to_discard c ->
    exists e, gen_cached_proof_n EO LO A en b (S (S n)) (List.length lts) 0 lt f i rows = Err e.
  Proof.
    intros HL Hi Hc HR. pose proof (ls_over _ _ _ _ _ _ HL) as HO. pose proof HO as (_ & O2 & _).
    destruct (LcSub_child _ _ _ _ _ _ i HL Hi) as (tk & c' & lv & es & s & C1 & C2 & C3 & HT & HN). rewrite Hc in C2. injection C2 as <-.
    cbn [gen_cached_proof_n]. rewrite (ls_data _ _ _ _ _ _ HL). apply (compound_err _ _ _ _ lt lts (b ^ d) i tk); auto.
    - unfold mt_base_trees. rewrite (ls_data _ _ _ _ _ _ HL). reflexivity.
    - cbn beta. rewrite (lt_data _ _ _ _ _ _ _ _ _ _ HT). apply (lc_cached_err EO EL A en b Hb Hch tk s f d (sc_rows_to_discard c) lv es _ rows HT); auto.
      + apply Nat.mod_upper_bound. lia.
      + intros (Q & _). auto.
  Qed.

  (* a three-layer tree over level-cache stores; [gs] are the groups of configurations *)
  Record LcTop (t : mtree (st_t LO) E) (f : fs) (d Sa : nat) (ts : list (mtree (st_t LO) E)) (gs : list (list StoreConfig))
      (ls : list (list (list E))) : Prop := {
    lp_data : mt_data t = TopTree ts;
    lp_subs : forall k tk, nth_error ts k = Some tk -> exists bs g lss,
       nth_error gs k = Some g /\ nth_error ls k = Some lss /\ List.length bs = Sa /\ LcSub tk f d bs g lss;
    lp_over : Over LO t ts (Sa * b ^ d);
    lp_len : mt_len LO t = (geom b d * Sa + 1) * List.length ts + 1;
    lp_rows : mt_row_count t = d + 3;
    lp_root : mt_root t = h_node A 1 (map mt_root ts)
  }.

  Lemma LcTop_make f d Sa lts gs ls : 0 < List.length lts -> 0 < Sa ->
    (forall k tk, nth_error lts k = Some tk -> exists bs g lss,
       nth_error gs k = Some g /\ nth_error ls k = Some lss /\ List.length bs = Sa /\ LcSub tk f d bs g lss) ->
    exists t, from_sub_trees LO A (List.length lts) lts = Ok t /\ LcTop t f d Sa lts gs ls.
  Proof.
    intros H0 HSa H.
    assert (HC : Forall (fun t => mt_row_count t = d + 2) lts /\ Forall (fun t => mt_len LO t = geom b d * Sa + 1) lts /\ Forall (fun t => mt_leafs t = Sa * b ^ d) lts).
    { repeat split; apply Forall_forall; intros t Ht; apply In_nth_error in Ht; destruct Ht as [k Hk];
        destruct (H k t Hk) as (bs & g & lss & _ & _ & <- & [Q1 Q2 Q3 Q4 Q5 Q6]); auto. apply Q3. }
    destruct HC as (C1 & C2 & C3).
    eexists. split; [apply (from_sub_trees_ok LO A _ lts (d + 2) (geom b d * Sa + 1) (Sa * b ^ d)); auto|].
    constructor; cbn [mt_data mt_leafs mt_row_count mt_root mt_len mt_len_field]; auto; [|lia].
    pose proof (arity_ge b Hb). pose proof (Nat.pow_nonzero b d ltac:(lia)).
    repeat split; cbn [mt_leafs]; auto. apply Nat.mul_pos_pos; lia.
  Qed.

  Section TopSame.
    Variables (lt : mtree (st_t LO) E) (f : fs) (d Sa : nat) (lts : list (mtree (st_t LO) E)) (gs : list (list StoreConfig)) (ls : list (list (list E))).
    Variables (t : mtree (st_t SO) E) (f' : fs) (ts : list (mtree (st_t SO) E)).
    Hypothesis HL : LcTop lt f d Sa lts gs ls.
    Hypothesis HT : TopAt SO A b t f' d Sa ts ls.
    Hypothesis Hn : List.length lts = List.length ts.

    Lemma top_child_same k lk tk : nth_error lts k = Some lk -> nth_error ts k = Some tk ->
      exists bs g lss bs' ess, nth_error gs k = Some g /\ nth_error ls k = Some lss /\ List.length bs = Sa /\ List.length bs' = Sa /\
        LcSub lk f d bs g lss /\ SubAt SO A b tk f' d bs' lss ess.
    Proof.
      intros Hl Hk. destruct (lp_subs _ _ _ _ _ _ _ HL k lk Hl) as (bs & g & lss & C1 & C2 & C4 & HLS).
      pose proof (pa_subs _ _ _ _ _ _ _ _ _ HT) as (_ & HB'). destruct (HB' k tk Hk) as (bs' & lss' & ess' & D1 & D2 & HF).
      rewrite C2 in D1. injection D1 as <-. exists bs, g, lss, bs', ess'. auto 10.
    Qed.
    Lemma top_same_roots : map mt_root lts = map mt_root ts.
    Proof.
      apply map_root_ext; auto. intros k lk tk Hl Hk. destruct (top_child_same k lk tk Hl Hk) as (bs & g & lss & bs' & ess & C1 & C2 & C3 & C4 & H1 & H2).
      eapply sub_same_shape; eauto. lia.
    Qed.
    Lemma top_same_shape : mt_root lt = mt_root t /\ mt_leafs lt = mt_leafs t /\ mt_len LO lt = mt_len SO t /\ mt_row_count lt = mt_row_count t.
    Proof.
      rewrite (lp_root _ _ _ _ _ _ _ HL), top_same_roots, (pa_root _ _ _ _ _ _ _ _ _ HT).
      pose proof (lp_over _ _ _ _ _ _ _ HL) as (_ & _ & _ & ->). rewrite (pa_leafs _ _ _ _ _ _ _ _ _ HT), Hn.
      rewrite (lp_len _ _ _ _ _ _ _ HL), (pa_len _ _ _ _ _ _ _ _ _ HT), Hn, (lp_rows _ _ _ _ _ _ _ HL), (pa_rows _ _ _ _ _ _ _ _ _ HT). auto.
    Qed.
    Lemma top_at i : i < mt_leafs t -> exists lk tk bs g lss bs' ess, let k := i / (Sa * b ^ d) in let j := i mod (Sa * b ^ d) in
      nth_error lts k = Some lk /\ nth_error ts k = Some tk /\ nth_error gs k = Some g /\ List.length bs = Sa /\ List.length bs' = Sa /\
      LcSub lk f d bs g lss /\ SubAt SO A b tk f' d bs' lss ess /\ j < mt_leafs tk /\ nth_error (concat (map (@concat E) ls)) i = nth_error (concat lss) j.
    Proof.
      intros Hi. destruct (TopAt_child SO A b Hb t f' d Sa ts ls i HT Hi) as (tk & bs' & lss & ess & C1 & C2 & C3 & HS & C4 & C5).
      destruct (nth_error_ex lts (i / (Sa * b ^ d))) as [lk Hlk]; [apply nth_error_lt in C1; lia|].
      destruct (lp_subs _ _ _ _ _ _ _ HL _ _ Hlk) as (bs & g & lss' & D1 & D2 & D3 & HLS). rewrite C2 in D2. injection D2 as <-.
      exists lk, tk, bs, g, lss, bs', ess. cbv zeta. auto 12.
    Qed.
    Lemma top_same_reads i : i < mt_leafs t -> mt_read_at LO Sa (List.length lts) lt f i = rnth (concat (map (@concat E) ls)) i.
    Proof.
      intros Hi. destruct top_same_shape as (_ & Hle & _).
      destruct (top_at i Hi) as (lk & tk & bs & g & lss & bs' & ess & C1 & C2 & C3 & C4 & C5 & H1 & H2 & C6 & C7).
      unfold mt_read_at. rewrite (read_at_over LO 2 (List.length lts) Sa Sa (List.length lts) lt lts f i (Sa * b ^ d) lk); auto; try lia;
        [|right; split; [apply (lp_data _ _ _ _ _ _ _ HL)|auto]|apply (lp_over _ _ _ _ _ _ _ HL)].
      rewrite <- C4 at 1. rewrite (sub_same_reads 0 lk bs g lss ess f tk bs' f' d _ H1 H2 ltac:(lia) C6). unfold rnth. rewrite C7. reflexivity.
    Qed.
    Lemma top_same_proofs i c rows g : i < mt_leafs t -> nth_error gs (i / (Sa * b ^ d)) = Some g -> nth_error g (i mod (Sa * b ^ d) / b ^ d) = Some c ->
      sc_rows_to_discard c <= capped b d rows ->
      gen_cached_proof EO LO A en b Sa (List.length lts) lt f i rows = gen_proof SO b Sa (List.length ts) t f' i /\
      is_ok (gen_proof SO b Sa (List.length ts) t f' i) = true.
    Proof.
      intros Hi Hg Hc HR. destruct top_same_shape as (Hr & Hle & _).
      destruct (top_at i Hi) as (lk & tk & bs & g' & lss & bs' & ess & C1 & C2 & C3 & C4 & C5 & H1 & H2 & C6 & C7).
      rewrite Hg in C3. injection C3 as <-. destruct (sub_same_shape lk bs g lss ess f tk bs' f' d H1 H2 ltac:(lia)) as (Hr' & Hle' & _).
      destruct (LcSub_child _ _ _ _ _ _ _ H1 (eq_ind_r (fun n => _ < n) C6 Hle')) as (bk & c' & lv & es & s & D1 & D2 & D3 & HB & _). rewrite Hc in D2. injection D2 as <-.
      destruct (SubAt_child SO A b Hb tk f' d bs' lss ess _ H2 C6) as (bk' & lv' & es' & E1 & E2 & E3 & HF & E4).
      rewrite D3 in E2. injection E2 as <-. destruct (same_base _ _ _ _ _ _ _ _ _ _ HB HF) as [-> _].
      unfold gen_proof, gen_cached_proof. rewrite (TopAt_gen SO A b Hb 0 t f' d Sa ts ls i tk bs' lss ess es HT Hi C2 C5 H2 E3). split; [|reflexivity].
      rewrite (top_cached EO LO A en b rows 0 lt f d Sa lts i lk bs bk es); auto; try lia.
      - unfold sub_proof. rewrite top_same_roots, Hr, Hn, (same_roots lk bs g lss ess f tk bs' f' d H1 H2 ltac:(lia)), Hr', C4, C5. reflexivity.
      - apply (lp_data _ _ _ _ _ _ _ HL).
      - apply (lp_over _ _ _ _ _ _ _ HL).
      - apply (ls_data _ _ _ _ _ _ H1).
      - apply (ls_over _ _ _ _ _ _ H1).
      - eapply LcTree_cached; eauto.
    Qed.
    Lemma top_few_rows i c rows g : i < mt_leafs t -> nth_error gs (i / (Sa * b ^ d)) = Some g -> nth_error g (i mod (Sa * b ^ d) / b ^ d) = Some c ->
      capped b d rows < sc_rows_to_discard c ->
      exists e, gen_cached_proof EO LO A en b Sa (List.length lts) lt f i rows = Err e.
    Proof.
      intros Hi Hg Hc HR. destruct top_same_shape as (Hr & Hle & _).
      destruct (top_at i Hi) as (lk & tk & bs & g' & lss & bs' & ess & C1 & C2 & C3 & C4 & C5 & H1 & H2 & C6 & C7).
      rewrite Hg in C3. injection C3 as <-. destruct (sub_same_shape lk bs g lss ess f tk bs' f' d H1 H2 ltac:(lia)) as (Hr' & Hle' & _).
      unfold gen_cached_proof. change (gen_cached_proof_n EO LO A en b 3 Sa (List.length lts) lt f i rows) with
      (match mt_data lt with
        | TopTree _ => gen_cached_compound_proof LO b (fun t' i' => gen_cached_proof_n EO LO A en b 2 Sa 0 t' f i' rows)
              Sa (List.length lts) (List.length lts) (mt_sub_trees LO lt) lt i
        | SubTree _ => gen_cached_compound_proof LO b (fun t' i' => gen_cached_proof_n EO LO A en b 2 0 0 t' f i' rows)
              Sa (List.length lts) Sa (mt_base_trees LO lt) lt i
        | BaseTree s => gen_cached_proof_base EO LO A en b Sa (List.length lts) lt s f i rows
        end).
      rewrite (lp_data _ _ _ _ _ _ _ HL). apply (compound_err _ _ _ _ lt lts (Sa * b ^ d) i lk); auto; try lia.
      - apply (lp_over _ _ _ _ _ _ _ HL).
      - unfold mt_sub_trees. rewrite (lp_data _ _ _ _ _ _ _ HL). reflexivity.
      - cbn beta. destruct (sub_few_rows 0 lk bs g lss f d (i mod (Sa * b ^ d)) c rows H1 (eq_ind_r (fun n => _ < n) C6 Hle') Hc HR) as [e He].
        rewrite C4 in He. exists e. exact He.
    Qed.
  End TopSame.
End ReplicaFacts.
