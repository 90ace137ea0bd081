(* C27, and C04 for LevelCacheStore: trees built directly over a LevelCacheStore.
   Statements; proofs in LcBuild.v, LcCreate.v. *)
From Coq Require Import String List Arith NArith Bool Lia Init.Byte ZifyBool ZifyNat.
From Verif Require Import Base Element Hash Sizing FS Sched Store VecStore DiskStore MmapStore LevelCache ProofModel Tree ListFacts Spec SpecFacts SizingFacts SchedFacts StoreLaws RowFacts ChunkFacts BuildFacts BuildLoop StoreSpec FileFacts VecFacts MapLayer DiskFacts MmapFacts PopFacts TreeFacts ProofSpec ProofFacts TreeProofs TreeObs Builders BuiltFacts CompoundFacts CompoundTrees CompoundGroups CompoundBuilt CachedFacts CachedTrees LcReads LcTrees CachedBuilt FrameFacts CompactFacts CompactTrees LcBuild LcCreate Cases Props_Build Props_Proof Props_Compound Props_Compact Props_Cached.
Import ListNotations.

(* a call of a constructor with a config over a LevelCacheStore, at a path where no file is *)
Definition lc_call {E} (EO : ElementOps E) (A : AlgOps E) (en : env) (b : nat) (c : StoreConfig) (leaves : list E)
    (r : res (mtree (st_t (lc_store EO)) E) * fs) : Prop :=
  ElementLaws EO /\ AlgLaws A /\ arity b /\ chunk_ok en b /\
  exists f, fs_dir f (cfg_path c) = None /\ cfg_builder EO (lc_store EO) A en b c leaves f r.

Lemma lc_call_ok {E} (EO : ElementOps E) A en b c leaves r d : lc_call EO A en b c leaves r ->
  List.length leaves = b ^ d -> sc_rows_to_discard c < d ->
  exists f t f', r = (Ok t, f') /\ LcBuilt EO A b d c f leaves t f'.
Proof.
  intros (EL & AL & Hb & Hch & f & Hp & HB) Hl HR. exists f.
  exact (lc_cfg_built EO EL A AL en b Hb Hch d c ltac:(lia) leaves f r Hp Hl HR HB).
Qed.

(* ---------------- C27 ---------------- *)
Theorem C27_build : forall E (EO : ElementOps E) A en b c leaves r,
  lc_call EO A en b c leaves r ->
  match r with
  | (Ok t, f') =>
      exists d top, List.length leaves = b ^ d /\ sc_rows_to_discard c < d /\
        MRoot (h_node A) b d leaves (mt_root t) /\
        mt_leafs t = b ^ d /\ mt_len (lc_store EO) t = geom b d /\ mt_row_count t = d + 1 /\
        top_rows (h_node A) b d (S (sc_rows_to_discard c)) leaves top /\
        fs_file f' (cfg_path c) = Some (encode EO top) /\
        lc_is_consistent EO (mt_len (lc_store EO) t) b c f' = Ok true
  | (Err _, _) => forall d, sc_rows_to_discard c < d -> List.length leaves <> b ^ d
  | _ => False
  end.
Proof.
  intros E EO A en b c leaves r HC. pose proof HC as (EL & AL & Hb & Hch & f0 & Hp & HB). pose proof (arity_ge b Hb) as H2.
  destruct (full_dec b Hb (List.length leaves)) as [(d & Hd & Hn)|Hno].
  - destruct (Nat.lt_ge_cases (sc_rows_to_discard c) d) as [HR|HR].
    + destruct (lc_call_ok EO A en b c leaves r d HC Hn HR) as (f & t & f' & -> & [B1 B2 (s & S1 & S2 & S3 & S4 & S5 & S6 & S7 & S8) B4 B5 B6 B7]).
      assert (HLt : Layout (h_node A) b d leaves (all_rows A b leaves d)) by (apply all_rows_Layout; [lia|exact Hn]).
      assert (Hlen : mt_len (lc_store EO) t = geom b d) by (unfold mt_len; rewrite S1; exact S2).
      pose proof (Layout_top_rows (h_node A) b d (S (sc_rows_to_discard c)) leaves _ HLt HR) as HT.
      exists d, (skipn (row_off b d (S (sc_rows_to_discard c))) (all_rows A b leaves d)).
      split; [exact Hn|]. split; [exact HR|].
      split. { exact (Layout_root b ltac:(lia) (h_node A) d leaves _ (mt_root t) HLt B7). }
      split; [exact B4|]. split; [exact Hlen|]. split; [lia|]. split; [exact HT|].
      split; [unfold fs_file; rewrite S7, S6; reflexivity|].
      unfold lc_is_consistent, fs_open_ro. rewrite S7. cbn [rbind]. rewrite Hlen, get_merkle_tree_leafs_full by auto. cbn [rbind].
      replace (b ^ d =? next_pow2 (b ^ d)) with true by (symmetry; apply next_pow2_eqb', pow2_pow, arity_pow2; auto). cbn [ensure rbind].
      rewrite cache_size_full by auto. cbn [rbind]. unfold fs_size. cbn [h_ino]. rewrite S6, encode_length by auto.
      rewrite (proj1 HT). replace (d - 1 - sc_rows_to_discard c) with (d - S (sc_rows_to_discard c)) by lia. rewrite Nat.eqb_refl. reflexivity.
    + assert (HX : forall d', sc_rows_to_discard c < d' -> List.length leaves <> b ^ d').
      { intros d' Hd' Hx. rewrite Hn in Hx. apply Nat.pow_inj_r in Hx; lia. }
      destruct (lc_cfg_refused EO EL A AL en b Hb c leaves f0 r HB HX) as (e & f' & ->). exact HX.
  - assert (HX : forall d', sc_rows_to_discard c < d' -> List.length leaves <> b ^ d') by (intros d' Hd'; apply Hno; lia).
    destruct (lc_cfg_refused EO EL A AL en b Hb c leaves f0 r HB HX) as (e & f' & ->). exact HX.
Qed.

(* the rows above r0 are determined by the leaves *)
Lemma top_rows_unique {E} (h : nat -> list E -> E) b d r0 leaves l l' : r0 <= d ->
  top_rows h b d r0 leaves l -> top_rows h b d r0 leaves l' -> l = l'.
Proof.
  intros Hr [H1 H2] [H1' H2']. apply nth_error_ext. intros k. destruct (Nat.lt_ge_cases k (geom b (d - r0))) as [Hk|Hk].
  - pose proof (geom_row_off b d r0 Hr) as HG.
    destruct (row_find b d (row_off b d r0 + k) ltac:(lia)) as (r & j & Q1 & Q2 & Q3).
    assert (r0 <= r).
    { destruct (Nat.le_gt_cases r0 r); [auto|]. pose proof (row_off_mono b d (S r) r0 ltac:(lia)) as M. rewrite row_off_step in M. lia. }
    destruct (H2 r j ltac:(lia) Q1 Q2) as (x & X1 & X2). destruct (H2' r j ltac:(lia) Q1 Q2) as (y & Y1 & Y2).
    pose proof (row_off_mono b d r0 r ltac:(lia)). replace k with (row_off b d r - row_off b d r0 + j) by lia.
    rewrite X1, Y1. f_equal. eapply MRoot_fun; eauto.
  - transitivity (@None E); [|symmetry]; apply nth_error_None; lia.
Qed.

(* the file is the one that building over a DiskStore and compacting to version 2 leaves *)
Theorem C27_as_compacted : forall E (EO : ElementOps E) A en en0 b c c0 leaves t f' t0 f1 sizes v t1 f2,
  lc_call EO A en b c leaves (Ok t, f') ->
  disk_tree EO A en0 b (cfg_path c0) leaves t0 f1 ->
  sc_rows_to_discard c0 = sc_rows_to_discard c -> v <> 1 ->
  mt_compact (disk_store EO) b sizes c0 v (t0, f1) = (Ok true, (t1, f2)) ->
  fs_file f' (cfg_path c) = fs_file f2 (cfg_path c0) /\ fs_file f' (cfg_path c) <> None /\ mt_root t = mt_root t0.
Proof.
  intros E EO A en en0 b c c0 leaves t f' t0 f1 sizes v t1 f2 HC HT HR Hv HM.
  destruct (C27_build E EO A en b c leaves _ HC) as (d & top & H1 & H2 & H3 & H4 & H5 & H6 & H7 & H8 & H9).
  pose proof HT as (EL & AL & Hb & Hch & _).
  destruct (disk_tree_at _ _ _ _ _ _ _ _ HT) as (d0 & s & i & els & Hd & Hl & HD).
  pose proof (dt_full EO EL A b Hb t0 s f1 c0 i d0 leaves els HD) as HF.
  assert (d0 = d). { rewrite H1 in Hl. apply Nat.pow_inj_r in Hl; [congruence|]. pose proof (arity_ge b Hb). lia. } subst d0.
  pose proof (C25_compact E EO A en0 b leaves t0 f1 sizes c0 v HT) as HCC. cbv zeta in HCC. rewrite (ft_rows _ _ _ _ _ _ _ _ HF) in HCC.
  destruct HCC as (t' & f2' & top' & K1 & K2 & K3); [lia|]. rewrite HM in K1. inversion K1; subst t' f2'.
  replace (d + 1 - 1) with d in K2 by lia. rewrite HR in K2. replace (v =? 1) with false in K3 by lia.
  rewrite K3, H8. split; [f_equal; f_equal; apply (top_rows_unique (h_node A) b d (S (sc_rows_to_discard c)) leaves); auto; lia|]. split; [discriminate|].
  eapply MRoot_fun; [exact H3|].
  exact (Layout_root b ltac:(pose proof (arity_ge b Hb); lia) (h_node A) d leaves els (mt_root t0) (ft_layout _ _ _ _ _ _ _ _ HF) (ft_root _ _ _ _ _ _ _ _ HF)).
Qed.

Lemma set_reader_ok {E} (t : mtree lc_t E) f s path r : mt_data t = BaseTree s -> er_new_from_path f path = Ok r ->
  set_external_reader_path path (t, f) =
  (Ok tt, (mk_tree (BaseTree (lc_set_external_reader s r)) (mt_leafs t) (mt_len_field t) (mt_row_count t) (mt_root t), f)).
Proof. intros H1 H2. unfold set_external_reader_path. rewrite H1, H2. reflexivity. Qed.

(* with a reader over a file that starts with the leaves it yields the proofs of the full tree *)
Theorem C27_proofs : forall E (EO : ElementOps E) A en b c leaves t f' path bytes SO np en0 f0 t0 f0',
  lc_call EO A en b c leaves (Ok t, f') ->
  fs_file f' path = Some bytes -> firstn (List.length leaves * e_byte_len EO) bytes = encode EO leaves ->
  setting EO A SO np en0 b -> builder EO SO A en0 b leaves f0 (Ok t0, f0') ->
  sc_rows_to_discard c <= default_rows_to_discard (List.length leaves) b ->
  exists t1, set_external_reader_path path (t, f') = (Ok tt, (t1, f')) /\
    forall i, i < List.length leaves ->
      exists p, gen_proof SO b 0 0 t0 f0' i = Ok p /\
        gen_cached_proof EO (lc_store EO) A en b 0 0 t1 f' i (Some (sc_rows_to_discard c)) = Ok p /\
        gen_cached_proof EO (lc_store EO) A en b 0 0 t1 f' i None = Ok p.
Proof.
  intros E EO A en b c leaves t f' path bytes SO np en0 f0 t0 f0' HC HF HP HS HB0 Hdef.
  pose proof HC as (EL & AL & Hb & Hch & _). pose proof (arity_ge b Hb) as H2.
  destruct (C27_build E EO A en b c leaves _ HC) as (d & top & H1 & HR & _).
  destruct (lc_call_ok EO A en b c leaves _ d HC H1 HR) as (f & t' & f'' & Q & [B1 B2 (s & S1 & S2 & S3 & S4 & S5 & S6 & S7 & S8) B4 B5 B6 B7]).
  inversion Q; subst t' f''.
  destruct (C23_reader E EO leaves f' path bytes EL HF HP) as (r & R1 & R2).
  eexists. split; [exact (set_reader_ok t f' s path r S1 R1)|].
  destruct HS as (_ & _ & HSO & _ & Hch0).
  destruct (builder_tree EO EL A AL en0 b SO np HSO leaves f0 t0 f0' Hb Hch0 HB0) as (d0 & els & Hn & HFT).
  assert (d0 = d). { rewrite H1 in Hn. apply Nat.pow_inj_r in Hn; [congruence|]. lia. } subst d0.
  assert (HLt : Layout (h_node A) b d leaves (all_rows A b leaves d)) by (apply all_rows_Layout; [lia|exact H1]).
  assert (els = all_rows A b leaves d) by (eapply Layout_fun; [exact (ft_layout _ _ _ _ _ _ _ _ HFT)|exact HLt]). subst els.
  intros i Hi. rewrite H1 in Hi, Hdef.
  eexists. split; [apply (ft_proof _ _ _ _ _ _ _ _ HFT); exact Hi|].
  set (s1 := lc_set_external_reader s r).
  assert (HT : LcTree EO A b (mk_tree (BaseTree (s1 : st_t (lc_store EO))) (mt_leafs t) (mt_len_field t) (mt_row_count t) (mt_root t)) s1 f' d
                 (sc_rows_to_discard c) leaves (all_rows A b leaves d)).
  { constructor; cbn [mt_data mt_leafs mt_len_field mt_row_count mt_root]; auto.
    constructor; auto; [apply HLt|intros k Hk; apply (Layout_leaf b ltac:(lia) _ d leaves _ k HLt Hk)|].
    cbn [s1 lc_set_external_reader lc_reader lc_file]. split; [exact S6|exact R2]. }
  unfold gen_cached_proof. cbn [gen_cached_proof_n mt_data].
  split; apply (lc_cached_ok EO EL A en b Hb Hch _ s1 f' d (sc_rows_to_discard c) leaves _ i _ HT Hi); unfold capped; lia.
Qed.

(* ---------------- C04, LevelCacheStore ---------------- *)
Theorem C04_level_cache : forall E (EO : ElementOps E) A SO np en en0 b c leaves r f0 r0,
  lc_call EO A en b c leaves r -> setting EO A SO np en0 b -> builder EO SO A en0 b leaves f0 r0 ->
  match fst r, fst r0 with
  | Ok t, Ok t0 => mt_root t = mt_root t0 /\ mt_leafs t = mt_leafs t0 /\ mt_len (lc_store EO) t = mt_len SO t0 /\ mt_row_count t = mt_row_count t0
  | Ok _, _ => False
  | _, Ok t0 => mt_row_count t0 <= sc_rows_to_discard c + 1     (* no row left to cache *)
  | _, _ => True
  end.
Proof.
  intros E EO A SO np en en0 b c leaves r f0 r0 HC (EL & AL & HSO & Hb & Hch0) HB0. pose proof (arity_ge b Hb) as H2.
  pose proof (C27_build E EO A en b c leaves r HC) as HK. destruct r as [r f'], r0 as [r0 f0']. cbn [fst].
  destruct r as [t|e|e|]; try contradiction.
  - destruct HK as (d & top & H1 & HR & H3 & H4 & H5 & H6 & _).
    destruct (builder_full EO EL A AL en0 b SO np HSO leaves f0 d (r0, f0') Hb Hch0 HB0 ltac:(lia) H1) as (t0 & f1 & els & Q & HF).
    inversion Q; subst r0 f1. rewrite (ft_leafs _ _ _ _ _ _ _ _ HF), (ft_len _ _ _ _ _ _ _ _ HF), (ft_rows _ _ _ _ _ _ _ _ HF).
    split; [|auto]. eapply MRoot_fun; [exact H3|].
    exact (Layout_root b ltac:(lia) (h_node A) d leaves els (mt_root t0) (ft_layout _ _ _ _ _ _ _ _ HF) (ft_root _ _ _ _ _ _ _ _ HF)).
  - destruct r0 as [t0|?|?|]; try exact I.
    destruct (builder_tree EO EL A AL en0 b SO np HSO leaves f0 t0 f0' Hb Hch0 HB0) as (d0 & els & Hn & HFT).
    rewrite (ft_rows _ _ _ _ _ _ _ _ HFT). destruct (Nat.le_gt_cases (d0 + 1) (sc_rows_to_discard c + 1)); [auto|].
    exfalso. apply (HK d0); [lia|exact Hn].
Qed.

Definition lc_case (b R : nat) (xs : list B1) := mt_new_with_config BO (lc_store BO) sum_alg env1 b xs (cfg_r R) fs_empty.
Definition lc_case_show (b R : nat) (xs : list B1) : option (nat * nat * nat * nat) * list nat :=
  match lc_case b R xs with
  | (Ok t, f) => (Some (val (mt_root t), mt_leafs t, mt_len (lc_store BO) t, mt_row_count t), case_file f)
  | (_, f) => (None, [])
  end.
Example C27_case :
  let full := case_file (snd (case_built 2 leaves8)) in
  let root := match case_built 2 leaves8 with (Ok t, _) => val (mt_root t) | _ => 0 end in
  List.length full = 15 /\
  lc_case_show 2 0 leaves8 = (Some (root, 8, 15, 4), skipn 8 full) /\
  lc_case_show 2 1 leaves8 = (Some (root, 8, 15, 4), skipn 12 full) /\
  lc_case_show 2 2 leaves8 = (Some (root, 8, 15, 4), skipn 14 full) /\
  lc_case_show 2 3 leaves8 = (None, []).
Proof. vm_compute. repeat split; reflexivity. Qed.

Lemma lc_case_call b R xs : arity b -> chunk_ok env1 b ->
  lc_call BO sum_alg env1 b (cfg_r R) (map (h_leaf sum_alg) xs) (lc_case b R xs).
Proof.
  intros Hb Hch. split; [exact BL|]. split; [exact sum_laws|]. split; [exact Hb|]. split; [exact Hch|].
  exists fs_empty. split; [reflexivity|]. constructor.
Qed.

(* cached proofs of the directly built tree, read through the leaf file; the root read back *)
Definition lc_case_proofs (b R : nat) (xs : list B1) : list bool :=
  let f0 := snd (fs_create_new "/leaves"%string fs_empty) in
  let f1 := snd (fs_write_all_at {| h_ino := 0; h_write := true |} 0 (encode BO (map (h_leaf sum_alg) xs)) f0) in
  match mt_new_with_config BO (lc_store BO) sum_alg env1 b xs (cfg_r R) f1 with
  | (Ok t, f2) =>
      match set_external_reader_path "/leaves"%string (t, f2) with
      | (Ok _, (t1, f3)) =>
          map (fun i => match gen_cached_proof BO (lc_store BO) sum_alg env1 b 0 0 t1 f3 i None,
                              proof_at (vec_store BO) b (mt_new BO (vec_store BO) sum_alg env1 b xs fs_empty) i with
                        | Ok p, Ok q => list_beq (map val (pf_lemma p)) (map val (pf_lemma q)) && list_beq (pf_path p) (pf_path q)
                        | _, _ => false
                        end) (seq 0 (List.length xs))
      | _ => []
      end
  | _ => []
  end.
Example C27_proofs_case : lc_case_proofs 2 1 leaves8 = repeat true 8 /\ lc_case_proofs 4 0 (leaves8 ++ leaves8) = repeat true 16.
Proof. vm_compute. auto. Qed.

Example C04_level_cache_case :
  match mt_new BO (vec_store BO) sum_alg env1 2 leaves8 fs_empty, mt_new BO (vec_store BO) sum_alg env1 4 (leaves8 ++ leaves8) fs_empty with
  | (Ok t, _), (Ok t4, _) =>
      map (fun R => fst (lc_case_show 2 R leaves8)) [0; 1; 2] = repeat (Some (val (mt_root t), mt_leafs t, mt_len (vec_store BO) t, mt_row_count t)) 3 /\
      fst (lc_case_show 4 1 (leaves8 ++ leaves8)) = Some (val (mt_root t4), mt_leafs t4, mt_len (vec_store BO) t4, mt_row_count t4) /\
      (* no row left to cache *)
      mt_row_count t <= 3 + 1 /\ fst (lc_case_show 2 3 leaves8) = None
  | _, _ => False end.
Proof. vm_compute. repeat split; repeat constructor. Qed.

Print Assumptions C27_build.
Print Assumptions C27_as_compacted.
Print Assumptions C27_proofs.
Print Assumptions C04_level_cache.
