(* C53: several trees over one replica file. *)
From Coq Require Import String List Arith NArith Bool Lia Init.Byte ZifyBool ZifyNat.
From Verif Require Import Base Element Hash Sizing FS Sched Store VecStore DiskStore MmapStore LevelCache ProofModel Tree ListFacts Spec SpecFacts SizingFacts SchedFacts StoreLaws RowFacts ChunkFacts BuildFacts BuildLoop StoreSpec FileFacts VecFacts MapLayer DiskFacts MmapFacts PopFacts TreeFacts ProofSpec ProofFacts TreeProofs TreeObs Builders BuiltFacts CompoundFacts CompoundTrees CompoundGroups CompoundBuilt CachedFacts CachedTrees LcReads LcTrees CachedBuilt FrameFacts CompactFacts CompactTrees ReplicaFacts Cases Props_Build Props_Proof Props_Compound Props_Compact Props_Cached.
Import ListNotations.

(* the base tree over [leaves]: its cache file (configuration c) holds the rows above the discarded
   ones, the replica's bytes hold the leaves at byte offset off *)
Definition cached_part {E} (EO : ElementOps E) (A : AlgOps E) (b d : nat) (f : fs) (bytes : list byte)
    (c : StoreConfig) (off : nat) (leaves : list E) : Prop :=
  sc_rows_to_discard c < d /\
  (exists top, top_rows (h_node A) b d (S (sc_rows_to_discard c)) leaves top /\ fs_file f (cfg_path c) = Some (encode EO top)) /\
  sub bytes off (List.length leaves * e_byte_len EO) = encode EO leaves.

Definition replica_ok {E} (EO : ElementOps E) (A : AlgOps E) (b d : nat) (f : fs) (rc : ReplicaConfig)
    (configs : list StoreConfig) (lss : list (list E)) : Prop :=
  List.length configs = List.length lss /\ List.length (rc_offsets rc) = List.length lss /\
  exists bytes, fs_file f (rc_path rc) = Some bytes /\
    forall k c off leaves, nth_error configs k = Some c -> nth_error (rc_offsets rc) k = Some off -> nth_error lss k = Some leaves ->
      cached_part EO A b d f bytes c off leaves.

Lemma top_rows_fun {E} (h : nat -> list E -> E) b d r0 leaves els l : Layout h b d leaves els -> r0 <= d ->
  top_rows h b d r0 leaves l -> l = skipn (row_off b d r0) els.
Proof.
  intros HL Hr (T1 & T2). pose proof (geom_row_off b d r0 Hr) as G. destruct HL as (L1 & L2 & L3). apply list_ext; [rewrite skipn_length; lia|].
  intros k Hk. rewrite nth_error_skipn. destruct (row_find b d (row_off b d r0 + k) ltac:(lia)) as (r & j & Hrd & Hj & Heq).
  assert (Hr0 : r0 <= r).
  { destruct (Nat.le_gt_cases r0 r) as [H|H]; [exact H|]. exfalso. pose proof (row_off_step b d r). pose proof (row_off_mono b d (S r) r0 H). lia. }
  destruct (T2 r j Hr0 Hrd Hj) as (x & X1 & X2). destruct (L3 r j Hrd Hj) as (y & Y1 & Y2).
  pose proof (row_off_mono b d r0 r Hr0). replace (row_off b d r - row_off b d r0 + j) with k in X1 by lia.
  rewrite Heq, X1, Y1. f_equal. eapply MRoot_fun; eauto.
Qed.

Lemma cached_part_on_disk {E} (EO : ElementOps E) (EL : ElementLaws EO) A b d f path bytes c off leaves els :
  fs_file f path = Some bytes -> Layout (h_node A) b d leaves els ->
  cached_part EO A b d f bytes c off leaves -> 0 < List.length leaves -> on_disk EO A b f path d c off leaves.
Proof.
  intros HF HL (HR & (top & HT & HC) & HS) H0. exists els. split; [exact HR|]. split; [exact HL|]. split.
  - unfold fs_file in HC. destruct (fs_dir f (cfg_path c)) as [i|]; [|discriminate]. injection HC as HC. exists i. split; [reflexivity|].
    rewrite HC. f_equal. apply (top_rows_fun (h_node A) b d _ leaves); auto.
  - unfold fs_file in HF. destruct (fs_dir f path) as [i|] eqn:Hi; [|discriminate]. injection HF as HF. unfold fs_open_ro. rewrite Hi.
    eexists. split; [reflexivity|]. apply file_reads_leaves; auto; cbn [h_ino]; unfold fs_size; cbn [h_ino]; rewrite HF; auto.
    pose proof (f_equal (@List.length _) HS) as HX. rewrite sub_length, encode_length in HX by auto.
    assert (0 < List.length leaves * e_byte_len EO) by (pose proof (bl_pos EO EL); apply Nat.mul_pos_pos; lia). lia.
Qed.

(* which rows-to-discard arguments of gen_cached_proof are enough for a cache that dropped R rows *)
Definition enough_rows (b leafs R : nat) (rows : option nat) : Prop :=
  R <= default_rows_to_discard leafs b /\ match rows with Some r => R <= r | None => True end.
Lemma enough_capped b d R rows : enough_rows b (b ^ d) R rows -> R <= capped b d rows.
Proof. unfold enough_rows, capped. destruct rows; lia. Qed.
Lemma not_enough_capped b d R rows : ~ enough_rows b (b ^ d) R rows -> capped b d rows < R.
Proof. unfold enough_rows, capped. destruct rows; lia. Qed.

Section C53.
  Context {E : Type} (EO : ElementOps E) (A : AlgOps E) (SO : StoreOps E) (np : bool) (en : env) (b : nat).
  Hypothesis HS : setting EO A SO np en b.
  Let EL : ElementLaws EO := proj1 HS.
  Let Hb : arity b := proj1 (proj2 (proj2 (proj2 HS))).
  Let Hch : chunk_ok en b := proj2 (proj2 (proj2 (proj2 HS))).

  Lemma replica_lc f rc configs lss ess t f' d ts : replica_ok EO A b d f rc configs lss -> SubAt SO A b t f' d ts lss ess ->
    exists lt lts, from_store_configs_and_replica EO A b (List.length ts) (b ^ d) configs rc f = (Ok lt, f) /\
      List.length lts = List.length ts /\ LcSub EO A b lt f d lts configs lss.
  Proof.
    intros (R1 & R2 & bytes & R3 & R4) HSA. pose proof (sa_bases _ _ _ _ _ _ _ _ _ HSA) as (B1 & B2 & B3).
    destruct (replica_bases EO EL A b Hb f d configs rc lss) as (lts & G1 & G2); [congruence| |].
    { intros k c Hc. assert (k < List.length configs) by (eapply nth_error_lt; eauto).
      destruct (nth_error_ex (rc_offsets rc) k ltac:(lia)) as [off Ho]. destruct (nth_error_ex ts k ltac:(lia)) as [tk Htk].
      destruct (B3 k tk Htk) as (lv & es & D1 & D2 & HF). exists off, lv. split; [exact Ho|]. split; [exact D1|].
      pose proof (ft_layout _ _ _ _ _ _ _ _ HF) as HL. eapply cached_part_on_disk; eauto.
      destruct HL as (L1 & _). rewrite L1. pose proof (arity_ge b Hb). pose proof (Nat.pow_nonzero b d ltac:(lia)). lia. }
    pose proof G1 as (G3 & _). pose proof (sa_pos _ _ _ _ _ _ _ _ _ HSA).
    destruct (LcSub_make EO A b Hb f d lts configs lss) as (lt & M1 & M2); [lia|exact G1|].
    exists lt, lts. split; [|split; [lia|exact M2]]. replace (List.length ts) with (List.length lts) by lia. rewrite G2, M1. reflexivity.
  Qed.
End C53.

(* two layers *)
Theorem C53_sub_partial : forall E (EO : ElementOps E) A SO np en b lss f0 ts f1 sub_ t f rc configs,
  setting EO A SO np en b ->
  built_all EO SO A en b lss f0 ts f1 ->
  from_trees SO A sub_ ts = Ok t ->
  replica_ok EO A b (mt_row_count t - 2) f rc configs lss ->
  let leafs := b ^ (mt_row_count t - 2) in
  exists lt, from_store_configs_and_replica EO A b sub_ leafs configs rc f = (Ok lt, f) /\
    mt_root lt = mt_root t /\ mt_leafs lt = mt_leafs t /\ mt_len (lc_store EO) lt = mt_len SO t /\ mt_row_count lt = mt_row_count t /\
    forall i, i < mt_leafs t ->
      mt_read_at (lc_store EO) sub_ 0 lt f i = mt_read_at SO sub_ 0 t f1 i /\
      (exists x, mt_read_at SO sub_ 0 t f1 i = Ok x /\ nth_error (concat lss) i = Some x) /\
      forall c rows, nth_error configs (i / leafs) = Some c ->
        (enough_rows b leafs (sc_rows_to_discard c) rows ->
          exists p, gen_cached_proof EO (lc_store EO) A en b sub_ 0 lt f i rows = Ok p /\ gen_proof SO b sub_ 0 t f1 i = Ok p) /\
        (~ enough_rows b leafs (sc_rows_to_discard c) rows ->
          exists e, gen_cached_proof EO (lc_store EO) A en b sub_ 0 lt f i rows = Err e).
Proof.
  intros E EO A SO np en b lss f0 ts f1 sub_ t f rc configs HS HB HT HR. pose proof HS as (EL & AL & HSt & Hb & Hch).
  destruct (built_sub EO EL A AL en b Hb Hch SO np HSt lss f0 ts f1 sub_ t HB HT) as (d & ess & HL & HSA).
  rewrite (sa_rows _ _ _ _ _ _ _ _ _ HSA) in *. replace (d + 2 - 2) with d in * by lia. cbv zeta.
  destruct (replica_lc EO A SO np en b HS f rc configs lss ess t f1 d ts HR HSA) as (lt & lts & G1 & G2 & G3).
  exists lt. rewrite <- HL at 1. split; [exact G1|].
  destruct (sub_same_shape EO A b Hb SO lt lts configs lss ess f t ts f1 d G3 HSA G2) as (S1 & S2 & S3 & S4).
  split; [exact S1|]. split; [exact S2|]. split; [exact S3|]. split; [exact (eq_trans S4 (sa_rows _ _ _ _ _ _ _ _ _ HSA))|]. intros i Hi.
  pose proof (sub_same_reads EO EL A b Hb SO 1 lt lts configs lss ess f t ts f1 d i G3 HSA G2 Hi) as R1.
  pose proof (SubAt_read SO A b Hb 1 t f1 d ts lss ess i HSA Hi) as R2. rewrite G2, HL in R1. rewrite HL in R2. fold (mt_read_at (lc_store EO) sub_ 0 lt f i) in R1. fold (mt_read_at SO sub_ 0 t f1 i) in R2.
  split; [congruence|]. split.
  - destruct (nth_error_ex (concat lss) i) as [x Hx]; [rewrite (SubAt_leaves SO A b t f1 d ts lss ess HSA); exact Hi|].
    exists x. split; [|exact Hx]. rewrite R2. unfold rnth. rewrite Hx. reflexivity.
  - intros c rows Hc. split; intros Hr; [apply enough_capped in Hr|apply not_enough_capped in Hr].
    2:{ unfold gen_cached_proof. rewrite <- HL, <- G2. apply (sub_few_rows EO EL A en b Hb Hch 1 lt lts configs lss f d i c rows G3); auto. rewrite S2. exact Hi. }
    destruct (sub_same_proofs EO EL A en b Hb Hch SO lt lts configs lss ess f t ts f1 d i c rows G3 HSA G2 Hi Hc Hr) as [P1 P2].
    rewrite G2, HL in P1. rewrite HL in P2. destruct (gen_proof SO b sub_ 0 t f1 i) as [p| | |]; try discriminate. exists p. auto.
Qed.

(* three layers *)
Theorem C53_top_partial : forall E (EO : ElementOps E) A SO np en b lss f0 gs f1 sub_ top subs t f rc configs,
  setting EO A SO np en b ->
  built_all EO SO A en b lss f0 (concat gs) f1 ->
  rmap (from_trees SO A sub_) gs = Ok subs ->
  from_sub_trees SO A top subs = Ok t ->
  replica_ok EO A b (mt_row_count t - 3) f rc configs lss ->
  let leafs := b ^ (mt_row_count t - 3) in
  exists lt, from_sub_tree_store_configs_and_replica EO A b sub_ top leafs configs rc f = (Ok lt, f) /\
    mt_root lt = mt_root t /\ mt_leafs lt = mt_leafs t /\ mt_len (lc_store EO) lt = mt_len SO t /\ mt_row_count lt = mt_row_count t /\
    forall i, i < mt_leafs t ->
      mt_read_at (lc_store EO) sub_ top lt f i = mt_read_at SO sub_ top t f1 i /\
      (exists x, mt_read_at SO sub_ top t f1 i = Ok x /\ nth_error (concat lss) i = Some x) /\
      forall c rows, nth_error configs (i / leafs) = Some c ->
        (enough_rows b leafs (sc_rows_to_discard c) rows ->
          exists p, gen_cached_proof EO (lc_store EO) A en b sub_ top lt f i rows = Ok p /\ gen_proof SO b sub_ top t f1 i = Ok p) /\
        (~ enough_rows b leafs (sc_rows_to_discard c) rows ->
          exists e, gen_cached_proof EO (lc_store EO) A en b sub_ top lt f i rows = Err e).
Proof.
  intros E EO A SO np en b lss f0 gs f1 sub_ top subs t f rc configs HS HB HM HT HR. pose proof HS as (EL & AL & HSt & Hb & Hch).
  destruct (built_top EO EL A AL en b Hb Hch SO np HSt lss f0 gs f1 sub_ top subs t HB HM HT) as (d & ls & HL & Hls & HTA).
  rewrite (pa_rows _ _ _ _ _ _ _ _ _ HTA) in *. replace (d + 3 - 3) with d in * by lia. cbv zeta.
  pose proof HR as (R1 & R2 & bytes & R3 & R4). pose proof (pa_pos _ _ _ _ _ _ _ _ _ HTA) as Hpos.
  pose proof (pa_subs _ _ _ _ _ _ _ _ _ HTA) as (P1 & P2).
  assert (HG : Forall (fun l => List.length l = sub_) ls).
  { apply Forall_forall. intros l Hl. apply In_nth_error in Hl. destruct Hl as [k Hk].
    destruct (nth_error_ex subs k) as [tk Htk]; [apply nth_error_lt in Hk; lia|].
    destruct (P2 k tk Htk) as (bs & l' & ess & Q1 & Q2 & Q3). rewrite Hk in Q1. injection Q1 as <-.
    pose proof (sa_bases _ _ _ _ _ _ _ _ _ Q3) as (B1 & _). lia. }
  assert (Hlen : List.length lss = List.length subs * sub_) by (rewrite <- Hls, (concat_length_const ls sub_ HG); lia).
  assert (Hsub : 0 < sub_).
  { destruct (nth_error_ex subs 0 Hpos) as [tk Htk]. destruct (P2 0 tk Htk) as (bs & l' & ess & Q1 & Q2 & Q3).
    pose proof (sa_pos _ _ _ _ _ _ _ _ _ Q3). lia. }
  assert (Hn : List.length configs / top = sub_) by (rewrite R1, Hlen, HL, Nat.mul_comm; apply Nat.div_mul; lia).
  pose (grp := fun k => sub configs (k * sub_) sub_).
  destruct (smap_ok (fun k => from_store_configs_and_replica EO A b sub_ (b ^ d) (grp k) {| rc_path := rc_path rc; rc_offsets := sub (rc_offsets rc) (k * sub_) sub_ |})
     (fun k lk => exists bs lss', nth_error ls k = Some lss' /\ List.length bs = sub_ /\ LcSub EO A b lk f d bs (grp k) lss') f (seq 0 top) 0) as (lts & M1 & M2 & M3).
  { intros j x Hx. assert (Hj : j < top) by (apply nth_error_lt in Hx; rewrite seq_length in Hx; exact Hx).
    assert (x = j) as ->.
    { rewrite (nth_error_nth' (seq 0 top) 0) in Hx by (rewrite seq_length; exact Hj). rewrite seq_nth in Hx by exact Hj. injection Hx as <-. reflexivity. }
    cbn [Nat.add]. destruct (nth_error_ex subs j ltac:(lia)) as [tk Htk]. destruct (P2 j tk Htk) as (bs & lj & ess & Q1 & Q2 & Q3).
    assert (Hin : j * sub_ + sub_ <= List.length lss).
    { rewrite Hlen, HL. assert (S j * sub_ <= top * sub_) by (apply Nat.mul_le_mono_r; lia). lia. }
    destruct (replica_lc EO A SO np en b HS f {| rc_path := rc_path rc; rc_offsets := sub (rc_offsets rc) (j * sub_) sub_ |} (grp j) lj ess tk f1 d bs) as (lt & lts & G1 & G2 & G3); [|exact Q3|].
    - assert (Hlj : List.length lj = sub_) by (rewrite Forall_forall in HG; apply HG; eapply nth_error_In; eauto).
      split; [unfold grp; rewrite sub_length_le by lia; lia|]. cbn [rc_offsets rc_path]. split; [rewrite sub_length_le by lia; lia|].
      exists bytes. split; [exact R3|]. intros k c off lv K1 K2 K3. unfold grp in K1. rewrite nth_error_sub in K1. rewrite nth_error_sub in K2.
      destruct (k <? sub_) eqn:Hk; [|discriminate]. apply (R4 (j * sub_ + k) c off lv K1 K2). rewrite <- Hls.
      rewrite (nth_error_concat ls sub_ j k lj HG Q1 ltac:(lia)). exact K3.
    - exists lt. split; [rewrite <- Q2 at 1; exact G1|]. exists lts, lj. split; [exact Q1|]. split; [lia|exact G3]. }
  rewrite seq_length in M2. cbn [Nat.add] in M3. change (@List.length (mtree (st_t (lc_store EO)) E) lts = top) in M2.
  pose (ggs := map grp (seq 0 top)).
  assert (Hggs : forall k, k < top -> nth_error ggs k = Some (grp k)).
  { intros k Hk. unfold ggs. rewrite nth_error_map, (nth_error_nth' (seq 0 top) 0) by (rewrite seq_length; exact Hk). rewrite seq_nth by exact Hk. reflexivity. }
  destruct (LcTop_make EO A b Hb f d sub_ lts ggs ls) as (lt & T1 & T2); [rewrite M2; lia|exact Hsub| |].
  { intros k lk Hk. destruct (M3 k lk Hk) as (bs & lss' & K1 & K2 & K3). exists bs, (grp k), lss'. rewrite Hggs; [auto|]. apply nth_error_lt in Hk. rewrite <- M2. exact Hk. }
  exists lt. split.
  { unfold from_sub_tree_store_configs_and_replica. rewrite R1, R2, Nat.eqb_refl. rewrite (sbind_ok _ _ f tt f) by reflexivity.
    replace (top =? 0) with false by lia. rewrite <- R1, Hn. rewrite (sbind_ok _ _ _ _ _ M1). rewrite M2 in T1. rewrite T1. reflexivity. }
  assert (G2 : @List.length (mtree (st_t (lc_store EO)) E) lts = List.length subs) by (rewrite M2; lia).
  destruct (top_same_shape EO A b Hb SO lt f d sub_ lts ggs ls t f1 subs T2 HTA G2) as (S1 & S2 & S3 & S4).
  split; [exact S1|]. split; [exact S2|]. split; [exact S3|]. split; [exact (eq_trans S4 (pa_rows _ _ _ _ _ _ _ _ _ HTA))|]. intros i Hi.
  pose proof (top_same_reads EO EL A b Hb SO lt f d sub_ lts ggs ls t f1 subs T2 HTA G2 i Hi) as X1.
  pose proof (TopAt_read SO A b Hb 0 t f1 d sub_ subs ls i HTA Hi) as X2. rewrite G2, HL in X1. rewrite HL in X2. fold (mt_read_at SO sub_ top t f1 i) in X2.
  split; [congruence|]. split.
  - rewrite <- concat_concat, Hls in X2. destruct (nth_error_ex (concat lss) i) as [x Hx].
    { rewrite <- Hls, concat_concat, (TopAt_leaves SO A b t f1 d sub_ subs ls HTA). exact Hi. }
    exists x. split; [|exact Hx]. rewrite X2. unfold rnth. rewrite Hx. reflexivity.
  - intros c rows Hc.
    pose proof (TopAt_over SO A b Hb t f1 d sub_ subs ls HTA) as HO. destruct (over_div SO t subs _ i HO Hi) as [_ Hk].
    assert (Hpow : 0 < b ^ d) by (pose proof (arity_ge b Hb); pose proof (Nat.pow_nonzero b d ltac:(lia)); lia).
    assert (Hg : nth_error (grp (i / (sub_ * b ^ d))) (i mod (sub_ * b ^ d) / b ^ d) = Some c).
    { unfold grp. rewrite nth_error_sub. rewrite (Nat.mul_comm sub_ (b ^ d)), Nat.mod_mul_r by lia.
      rewrite (Nat.mul_comm (b ^ d) ((i / b ^ d) mod sub_)), Nat.div_add, (Nat.div_small (i mod b ^ d)), Nat.add_0_l by (try lia; apply Nat.mod_upper_bound; lia).
      pose proof (Nat.mod_upper_bound (i / b ^ d) sub_ ltac:(lia)). replace ((i / b ^ d) mod sub_ <? sub_) with true by lia.
      rewrite <- Nat.div_div by lia. pose proof (Nat.div_mod (i / b ^ d) sub_ ltac:(lia)) as HD. rewrite (Nat.mul_comm (i / b ^ d / sub_) sub_), <- HD. exact Hc. }
    split; intros Hr; [apply enough_capped in Hr|apply not_enough_capped in Hr].
    2:{ rewrite <- HL, <- G2. apply (top_few_rows EO EL A en b Hb Hch SO lt f d sub_ lts ggs ls t f1 subs T2 HTA G2 i c rows (grp (i / (sub_ * b ^ d))) Hi); auto. apply Hggs. lia. }
    destruct (top_same_proofs EO EL A en b Hb Hch SO lt f d sub_ lts ggs ls t f1 subs T2 HTA G2 i c rows (grp (i / (sub_ * b ^ d))) Hi) as [Z1 Z2]; auto.
    { apply Hggs. lia. }
    rewrite G2, HL in Z1. rewrite HL in Z2. destruct (gen_proof SO b sub_ top t f1 i) as [p| | |]; try discriminate. exists p. auto.
Qed.

(* A cache that dropped more rows than default_rows_to_discard gives no cached proof at all, whatever
   the argument (the cap of C23): this is the part of C53 that fails. *)
Theorem C53_refuted : forall E (EO : ElementOps E) A SO np en b lss f0 ts f1 sub_ t f rc configs,
  setting EO A SO np en b ->
  built_all EO SO A en b lss f0 ts f1 ->
  from_trees SO A sub_ ts = Ok t ->
  replica_ok EO A b (mt_row_count t - 2) f rc configs lss ->
  let leafs := b ^ (mt_row_count t - 2) in
  exists lt, from_store_configs_and_replica EO A b sub_ leafs configs rc f = (Ok lt, f) /\
    forall i c rows, i < mt_leafs t -> nth_error configs (i / leafs) = Some c -> default_rows_to_discard leafs b < sc_rows_to_discard c ->
      exists e, gen_cached_proof EO (lc_store EO) A en b sub_ 0 lt f i rows = Err e.
Proof.
  intros E EO A SO np en b lss f0 ts f1 sub_ t f rc configs HS HB HT HR.
  destruct (C53_sub_partial E EO A SO np en b lss f0 ts f1 sub_ t f rc configs HS HB HT HR) as (lt & G1 & _ & _ & _ & _ & G2).
  exists lt. split; [exact G1|]. intros i c rows Hi Hc HD. destruct (G2 i Hi) as (_ & _ & G3). destruct (G3 c rows Hc) as (_ & G4).
  apply G4. unfold enough_rows. lia.
Qed.

(* lists of different lengths are refused *)
Theorem C53_mismatch : forall E (EO : ElementOps E) A b sub_ top leafs configs rc f,
  List.length configs <> List.length (rc_offsets rc) ->
  (exists e, from_store_configs_and_replica EO A b sub_ leafs configs rc f = (Err e, f)) /\
  (exists e, from_sub_tree_store_configs_and_replica EO A b sub_ top leafs configs rc f = (Err e, f)).
Proof.
  intros E EO A b sub_ top leafs configs rc f H. unfold from_store_configs_and_replica, from_sub_tree_store_configs_and_replica.
  replace (List.length configs =? List.length (rc_offsets rc)) with false by (symmetry; apply Nat.eqb_neq; exact H).
  split; eexists; reflexivity.
Qed.

(* ---- a concrete case: four 8-leaf trees, dropping 1, 0, 2 and 1 rows, one replica with gaps ---- *)
Definition rep_cfg (k r : nat) : StoreConfig := {| sc_path := "/d"; sc_id := String (Ascii.ascii_of_nat (97 + k)) EmptyString; sc_size := None; sc_rows_to_discard := r |}.
Definition rep_cfgs : list StoreConfig := [rep_cfg 0 1; rep_cfg 1 0; rep_cfg 2 2; rep_cfg 3 1].
Definition xs8 (k : nat) : list B1 := xs4 k ++ xs4 (k + 13).
Definition rep_xss : list (list B1) := [xs8 1; xs8 9; xs8 5; xs8 20].
Definition rep_lss : list (list B1) := map (map (h_leaf sum_alg)) rep_xss.
Definition rep_rc : ReplicaConfig := {| rc_path := "/replica"; rc_offsets := [3; 11; 21; 29] |}.
Definition rep_bytes : list byte :=
  [x01; x02; x03] ++ encode BO (nth 0 rep_lss []) ++ encode BO (nth 1 rep_lss []) ++ [x04; x05] ++ encode BO (nth 2 rep_lss []) ++ encode BO (nth 3 rep_lss []).
Fixpoint rep_build (cs : list (StoreConfig * list B1)) (f : fs) : option fs :=
  match cs with
  | [] => Some f
  | (c, xs) :: r =>
      match mt_new_with_config BO (disk_store BO) sum_alg env1 2 xs c f with
      | (Ok t, f1) => match mt_compact (disk_store BO) 2 (fun k => k mod 3) c 2 (t, f1) with (Ok true, (_, f2)) => rep_build r f2 | _ => None end
      | _ => None
      end
  end.
Definition rep_fs : option fs :=
  match rep_build (combine rep_cfgs rep_xss) fs_empty with
  | Some f => match fs_create_new "/replica" f with
              | (Ok h, f1) => match fs_write_all_at h 0 rep_bytes f1 with (Ok tt, f2) => Some f2 | _ => None end
              | _ => None
              end
  | None => None
  end.
Definition same_proof (r1 r2 : res (proof B1)) : bool :=
  match r1, r2 with
  | Ok p, Ok q => list_beq (map val (pf_lemma p)) (map val (pf_lemma q)) && list_beq (pf_path p) (pf_path q) &&
      match pf_sub p, pf_sub q with
      | Some p', Some q' => list_beq (map val (pf_lemma p')) (map val (pf_lemma q')) && list_beq (pf_path p') (pf_path q')
      | None, None => true
      | _, _ => false
      end
  | _, _ => false
  end.
Example C53_case :
  match rep_fs, case_sub (disk_store BO) sum_alg 2 4 rep_xss, case_top (disk_store BO) sum_alg 2 2 2 rep_xss with
  | Some f, Some (t, f1), Some (t', f1') =>
      match from_store_configs_and_replica BO sum_alg 2 4 8 rep_cfgs rep_rc f, from_sub_tree_store_configs_and_replica BO sum_alg 2 2 2 8 rep_cfgs rep_rc f with
      | (Ok lt, _), (Ok lt', _) =>
          (val (mt_root lt) =? val (mt_root t)) && (val (mt_root lt') =? val (mt_root t')) &&
          forallb (fun i =>
             same_proof (gen_cached_proof BO (lc_store BO) sum_alg env1 2 4 0 lt f i (Some 2)) (gen_proof (disk_store BO) 2 4 0 t f1 i) &&
             same_proof (gen_cached_proof BO (lc_store BO) sum_alg env1 2 2 2 lt' f i (Some 2)) (gen_proof (disk_store BO) 2 2 2 t' f1' i) &&
             match mt_read_at (lc_store BO) 4 0 lt f i, nth_error (concat rep_lss) i with Ok x, Some y => val x =? val y | _, _ => false end)
            (seq 0 32)
      | _, _ => false
      end
  | _, _, _ => false
  end = true.
Proof. vm_compute. reflexivity. Qed.
(* the refuted part: one 512-leaf tree with 8 rows dropped (the default is 7) *)
Definition rep_deep (r : nat) : option (bool * bool) :=
  match rep_build [(rep_cfg 0 r, leaves512)] fs_empty with
  | Some f => match fs_create_new "/replica" f with
              | (Ok h, f1) => match fs_write_all_at h 0 (encode BO (map (h_leaf sum_alg) leaves512)) f1 with
                  | (Ok tt, f2) => match from_store_configs_and_replica BO sum_alg 2 1 512 [rep_cfg 0 r] {| rc_path := "/replica"; rc_offsets := [0] |} f2 with
                      | (Ok lt, _) => Some (is_ok (mt_read_at (lc_store BO) 1 0 lt f2 5), is_ok (gen_cached_proof BO (lc_store BO) sum_alg env1 2 1 0 lt f2 5 (Some r)))
                      | _ => None
                      end
                  | _ => None end
              | _ => None end
  | None => None end.
Example C53_refuted_case : rep_deep 7 = Some (true, true) /\ rep_deep 8 = Some (true, false).
Proof. vm_compute. split; reflexivity. Qed.

(* and the hypothesis of the theorems holds there *)
Definition rep_top (c : StoreConfig) (leaves : list B1) : list B1 := skipn (row_off 2 3 (S (sc_rows_to_discard c))) (all_rows sum_alg 2 leaves 3).
Definition rep_get : fs := match rep_fs with Some f => f | None => fs_empty end.
Lemma rep_files : map (fun c => fs_file rep_get (cfg_path c)) rep_cfgs = map (fun '(c, l) => Some (encode BO (rep_top c l))) (combine rep_cfgs rep_lss) /\
  fs_file rep_get (rc_path rep_rc) = Some rep_bytes /\
  map (fun '(off, l) => sub rep_bytes off (List.length l * e_byte_len BO)) (combine (rc_offsets rep_rc) rep_lss) = map (encode BO) rep_lss.
Proof. vm_compute. repeat split; reflexivity. Qed.
Lemma some_inj {X} (x y : X) : Some x = Some y -> x = y.
Proof. intros H. injection H as H. exact H. Qed.
Lemma nth_error_combine {X Y} : forall (l : list X) (l' : list Y) k x y, nth_error l k = Some x -> nth_error l' k = Some y -> nth_error (combine l l') k = Some (x, y).
Proof.
  induction l as [|a l IH]; intros [|a' l'] [|k] x y H1 H2; cbn in *; try discriminate; [congruence|]. apply IH; auto.
Qed.
Example C53_case_hyp : replica_ok BO sum_alg 2 3 rep_get rep_rc rep_cfgs rep_lss.
Proof.
  destruct rep_files as (F1 & F2 & F3). split; [reflexivity|]. split; [reflexivity|]. exists rep_bytes. split; [exact F2|].
  intros k c off l Hc Ho Hl. split; [|split].
  - destruct k as [|[|[|[|k]]]]; cbn in Hc; try (injection Hc as <-; cbn; lia). destruct k; discriminate.
  - exists (rep_top c l). split.
    + apply Layout_top_rows.
      * apply (all_rows_Layout sum_alg 2); [lia|]. destruct k as [|[|[|[|k]]]]; cbn [nth_error rep_lss rep_xss map] in Hl; try (injection Hl as <-; reflexivity). destruct k; discriminate.
      * destruct k as [|[|[|[|k]]]]; cbn in Hc; try (injection Hc as <-; cbn; lia). destruct k; discriminate.
    + pose proof (f_equal (fun z => nth_error z k) F1) as Q. cbn beta in Q. rewrite !nth_error_map, Hc, (nth_error_combine _ _ _ _ _ Hc Hl) in Q.
      exact (some_inj _ _ Q).
  - pose proof (f_equal (fun z => nth_error z k) F3) as Q. cbn beta in Q. rewrite !nth_error_map, Hl, (nth_error_combine _ _ _ _ _ Ho Hl) in Q.
    exact (some_inj _ _ Q).
Qed.

Print Assumptions C53_sub_partial.
Print Assumptions C53_top_partial.
Print Assumptions C53_refuted.
Print Assumptions C53_mismatch.
