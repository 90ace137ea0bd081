(* C97: a compound tree from level-cache trees built one after another over one replica file,
   the way the library's own tests do it (test_legacy.rs 402-500): C27 and C67 establish what
   C53 asks for. *)
From Coq Require Import String List Arith NArith Bool Lia Init.Byte ZifyBool ZifyNat.
From Verif Require Import Base Element Hash Sizing FS Sched Store VecStore DiskStore MmapStore LevelCache ProofModel Tree ListFacts Spec SpecFacts SizingFacts SchedFacts StoreLaws RowFacts ChunkFacts BuildFacts BuildLoop StoreSpec FileFacts VecFacts MapLayer DiskFacts MmapFacts PopFacts TreeFacts ProofSpec ProofFacts TreeProofs TreeObs Builders BuiltFacts CompoundFacts CompoundTrees CompoundGroups CompoundBuilt CachedFacts CachedTrees LcReads LcTrees CachedBuilt FrameFacts CompactFacts CompactTrees ReplicaFacts FileSpec LcBuild LcCreate Cases Props_Build Props_Proof Props_Compound Props_Compact Props_Cached Props_LC Props_OwnFile Props_Replica Props_Twin.
Import ListNotations.

(* level-cache trees built one after another, each at a path that is free then *)
Inductive lc_all {E} (EO : ElementOps E) (A : AlgOps E) (b : nat) : list StoreConfig -> list (list E) -> fs -> fs -> Prop :=
| LA_nil f : lc_all EO A b [] [] f f
| LA_cons c cs leaves lss en f t f1 f2 : chunk_ok en b -> fs_dir f (cfg_path c) = None ->
    cfg_builder EO (lc_store EO) A en b c leaves f (Ok t, f1) -> lc_all EO A b cs lss f1 f2 ->
    lc_all EO A b (c :: cs) (leaves :: lss) f f2.

(* the replica holds the leaves of every tree at its offset *)
Definition holds_leaves {E} (EO : ElementOps E) (bytes : list byte) (offs : list nat) (lss : list (list E)) : Prop :=
  List.length offs = List.length lss /\
  forall k off leaves, nth_error offs k = Some off -> nth_error lss k = Some leaves -> sub bytes off (List.length leaves * e_byte_len EO) = encode EO leaves.

Section Farm.
  Context {E : Type} (EO : ElementOps E) (EL : ElementLaws EO) (A : AlgOps E) (AL : AlgLaws A) (b : nat).
  Hypothesis Hb : arity b.

  Lemma lc_all_kept cs lss f f2 : lc_all EO A b cs lss f f2 -> fs_ok f ->
    fs_ok f2 /\ List.length cs = List.length lss /\ forall q, fs_dir f q <> None -> file_at f2 q = file_at f q.
  Proof.
    induction 1 as [f|c cs leaves lss en f t f1 f2 Hch Hp HB HA IH]; intros Hok; [auto|].
    destruct (C67_level_cache E EO A en b f [c] _ f1 (cfg_is_call EO _ A en b c leaves f _ HB) Hok) as [Hok1 K].
    destruct (IH Hok1) as (Hok2 & Hl & K2). split; [exact Hok2|]. split; [cbn [List.length]; lia|]. intros q Hq.
    assert (G : file_at f1 q = file_at f q) by (apply K; intros [Q|[]]; congruence).
    rewrite <- G. apply K2. intros Q. apply Hq. apply (file_at_none f1); [symmetry; exact G|exact Q].
  Qed.

  Lemma lc_all_files cs lss f f2 : lc_all EO A b cs lss f f2 -> fs_ok f ->
    forall k c leaves d, nth_error cs k = Some c -> nth_error lss k = Some leaves -> List.length leaves = b ^ d ->
      sc_rows_to_discard c < d /\ exists top, top_rows (h_node A) b d (S (sc_rows_to_discard c)) leaves top /\ fs_file f2 (cfg_path c) = Some (encode EO top).
  Proof.
    induction 1 as [f|c cs leaves lss en f t f1 f2 Hch Hp HB HA IH]; intros Hok k c' leaves' d Hc Hl Hd; [destruct k; discriminate Hc|].
    destruct (C67_level_cache E EO A en b f [c] _ f1 (cfg_is_call EO _ A en b c leaves f _ HB) Hok) as [Hok1 _].
    destruct k as [|k]; [|exact (IH Hok1 k c' leaves' d Hc Hl Hd)].
    cbn [nth_error] in Hc, Hl. injection Hc as <-. injection Hl as <-.
    assert (HC : lc_call EO A en b c leaves (Ok t, f1)).
    { split; [exact EL|]. split; [exact AL|]. split; [exact Hb|]. split; [exact Hch|]. exists f. auto. }
    destruct (C27_build E EO A en b c leaves _ HC) as (d' & top & D1 & D2 & _ & _ & _ & _ & D7 & D8 & _).
    assert (d' = d) by (apply (same_leaves_pow b); [auto|congruence]). subst d'. split; [exact D2|]. exists top. split; [exact D7|].
    rewrite <- D8. apply file_at_data. apply (proj2 (proj2 (lc_all_kept cs lss f1 f2 HA Hok1))).
    unfold fs_file in D8. destruct (fs_dir f1 (cfg_path c)); [discriminate|discriminate D8].
  Qed.

  Lemma farm_replica cs lss f f2 rc bytes d : lc_all EO A b cs lss f f2 -> fs_ok f ->
    fs_file f (rc_path rc) = Some bytes -> holds_leaves EO bytes (rc_offsets rc) lss -> Forall (fun l => List.length l = b ^ d) lss ->
    replica_ok EO A b d f2 rc cs lss.
  Proof.
    intros HA Hok Hf (H1 & H2) Hd. destruct (lc_all_kept cs lss f f2 HA Hok) as (_ & Hl & K). split; [exact Hl|]. split; [exact H1|].
    exists bytes. split.
    - rewrite <- Hf. apply file_at_data, K. unfold fs_file in Hf. destruct (fs_dir f (rc_path rc)); [discriminate|discriminate Hf].
    - intros k c off leaves Hc Ho Hk. rewrite Forall_forall in Hd.
      destruct (lc_all_files cs lss f f2 HA Hok k c leaves d Hc Hk (Hd _ (nth_error_In _ _ Hk))) as (R & top & T1 & T2).
      split; [exact R|]. split; [exists top; auto|]. exact (H2 k off leaves Ho Hk).
  Qed.
End Farm.

(* the builds succeed at different free paths, one row of each tree being left to cache,
   whatever the constructors *)
Inductive lc_try {E} (EO : ElementOps E) (A : AlgOps E) (b : nat) : list StoreConfig -> list (list E) -> fs -> fs -> Prop :=
| LT_nil f : lc_try EO A b [] [] f f
| LT_cons c cs leaves lss en f r f1 f2 : chunk_ok en b ->
    cfg_builder EO (lc_store EO) A en b c leaves f (r, f1) -> lc_try EO A b cs lss f1 f2 ->
    lc_try EO A b (c :: cs) (leaves :: lss) f f2.
Theorem C97_succeed : forall E (EO : ElementOps E) A b d cs lss f f2,
  ElementLaws EO -> AlgLaws A -> arity b -> fs_ok f ->
  Forall (fun l => List.length l = b ^ d) lss -> Forall (fun c => sc_rows_to_discard c < d) cs ->
  NoDup (map cfg_path cs) -> Forall (fun c => fs_dir f (cfg_path c) = None) cs ->
  lc_try EO A b cs lss f f2 -> lc_all EO A b cs lss f f2.
Proof.
  intros E EO A b d cs lss f f2 EL AL Hb Hok HL HR HN HP HT. revert Hok HL HR HN HP.
  induction HT as [f|c cs leaves lss en f r f1 f2 Hch HB HT IH]; intros Hok HL HR HN HP; [constructor|].
  apply Forall_cons_iff in HL. destruct HL as [L1 L2]. apply Forall_cons_iff in HR. destruct HR as [R1 R2]. apply Forall_cons_iff in HP. destruct HP as [P1 P2].
  cbn [map] in HN. apply NoDup_cons_iff in HN. destruct HN as [N1 N2].
  assert (HC : lc_call EO A en b c leaves (r, f1)).
  { split; [exact EL|]. split; [exact AL|]. split; [exact Hb|]. split; [exact Hch|]. exists f. auto. }
  pose proof (C27_build E EO A en b c leaves _ HC) as H27.
  destruct r as [t|e|e|]; try contradiction. 2:{ exfalso. exact (H27 d R1 L1). }
  destruct (C67_level_cache E EO A en b f [c] _ f1 (cfg_is_call EO _ A en b c leaves f _ HB) Hok) as [Hok1 K].
  apply (LA_cons EO A b c cs leaves lss en f t f1 f2); auto. apply IH; auto.
  rewrite Forall_forall in *. intros c' Hc'. apply (file_at_none f); [|auto]. apply K. intros [Q|[]]. apply N1. rewrite Q. apply in_map. exact Hc'.
Qed.
Theorem C97_built : forall E (EO : ElementOps E) A en b d cs lss f,
  ElementLaws EO -> AlgLaws A -> arity b -> chunk_ok en b -> fs_ok f ->
  List.length cs = List.length lss -> Forall (fun l => List.length l = b ^ d) lss -> Forall (fun c => sc_rows_to_discard c < d) cs ->
  NoDup (map cfg_path cs) -> Forall (fun c => fs_dir f (cfg_path c) = None) cs ->
  exists f2, lc_all EO A b cs lss f f2.
Proof.
  intros E EO A en b d cs lss f EL AL Hb Hch. revert lss f. induction cs as [|c cs IH]; intros [|leaves lss] f Hok Hl HL HR HN HP; try discriminate Hl.
  { exists f. constructor. }
  apply Forall_cons_iff in HL. destruct HL as [L1 L2]. apply Forall_cons_iff in HR. destruct HR as [R1 R2]. apply Forall_cons_iff in HP. destruct HP as [P1 P2].
  cbn [map] in HN. apply NoDup_cons_iff in HN. destruct HN as [N1 N2].
  pose proof (CB_bytes EO (lc_store EO) A en b c leaves f) as HB.
  assert (HC : lc_call EO A en b c leaves (from_byte_slice_with_config EO (lc_store EO) A en b (encode EO leaves) c f)).
  { split; [exact EL|]. split; [exact AL|]. split; [exact Hb|]. split; [exact Hch|]. exists f. auto. }
  pose proof (C27_build E EO A en b c leaves _ HC) as H27.
  destruct (from_byte_slice_with_config EO (lc_store EO) A en b (encode EO leaves) c f) as [[t|e|e|] f1]; try contradiction.
  2:{ exfalso. exact (H27 d R1 L1). }
  destruct (C67_level_cache E EO A en b f [c] _ f1 (cfg_is_call EO _ A en b c leaves f _ HB) Hok) as [Hok1 K].
  destruct (IH lss f1) as (f2 & G); auto.
  { rewrite Forall_forall in *. intros c' Hc'. apply (file_at_none f); [|auto]. apply K. intros [Q|[]]. apply N1. rewrite Q. apply in_map. exact Hc'. }
  exists f2. econstructor; eauto.
Qed.

(* two layers: compared with the compound tree over any other store *)
Theorem C97_sub : forall E (EO : ElementOps E) A SO np en b lss g ts g1 sub_ t f f2 rc bytes configs,
  setting EO A SO np en b -> built_all EO SO A en b lss g ts g1 -> from_trees SO A sub_ ts = Ok t ->
  fs_ok f -> fs_file f (rc_path rc) = Some bytes -> holds_leaves EO bytes (rc_offsets rc) lss ->
  lc_all EO A b configs lss f f2 ->
  let leafs := b ^ (mt_row_count t - 2) in
  exists lt, from_store_configs_and_replica EO A b sub_ leafs configs rc f2 = (Ok lt, f2) /\
    mt_root lt = mt_root t /\ mt_leafs lt = mt_leafs t /\ mt_len (lc_store EO) lt = mt_len SO t /\ mt_row_count lt = mt_row_count t /\
    forall i, i < mt_leafs t ->
      (exists x, mt_read_at (lc_store EO) sub_ 0 lt f2 i = Ok x /\ nth_error (concat lss) i = Some x) /\
      forall c, nth_error configs (i / leafs) = Some c -> sc_rows_to_discard c <= default_rows_to_discard leafs b ->
        exists p, gen_cached_proof EO (lc_store EO) A en b sub_ 0 lt f2 i None = Ok p /\ gen_proof SO b sub_ 0 t g1 i = Ok p /\
          (height_agnostic A -> validate EO A b p = Ok true).
Proof.
  intros E EO A SO np en b lss g ts g1 sub_ t f f2 rc bytes configs HS HB HT Hok Hf Hh HA leafs. pose proof HS as (EL & AL & HSt & Hb & Hch).
  destruct (built_sub EO EL A AL en b Hb Hch SO np HSt lss g ts g1 sub_ t HB HT) as (d & ess & HL & HSA).
  assert (Hd : mt_row_count t - 2 = d) by (rewrite (sa_rows _ _ _ _ _ _ _ _ _ HSA); lia).
  assert (HFl : Forall (fun l => List.length l = b ^ d) lss).
  { apply Forall_forall. intros l Hl. apply In_nth_error in Hl. destruct Hl as [k Hk]. pose proof (sa_bases _ _ _ _ _ _ _ _ _ HSA) as (B1 & _ & B3).
    destruct (nth_error_ex ts k) as [tk Htk]; [apply nth_error_lt in Hk; lia|]. destruct (B3 k tk Htk) as (lv & es & D1 & _ & HF).
    assert (l = lv) by congruence. subst lv. exact (proj1 (ft_layout _ _ _ _ _ _ _ _ HF)). }
  pose proof (farm_replica EO EL A AL b Hb configs lss f f2 rc bytes d HA Hok Hf Hh HFl) as HR. rewrite <- Hd in HR.
  destruct (C53_sub_partial E EO A SO np en b lss g ts g1 sub_ t f2 rc configs HS HB HT HR) as (lt & L1 & L2 & L3 & L4 & L5 & L6).
  exists lt. split; [exact L1|]. split; [exact L2|]. split; [exact L3|]. split; [exact L4|]. split; [exact L5|].
  intros i Hi. destruct (L6 i Hi) as (R1 & (x & R2 & R3) & R4). split; [exists x; split; [congruence|exact R3]|].
  intros c Hc Hdef. destruct (R4 c None Hc) as [R5 _]. destruct R5 as (p & P1 & P2); [split; [exact Hdef|exact I]|].
  exists p. split; [exact P1|]. split; [exact P2|]. intros HG.
  destruct (C12_complete E EO A SO np en b lss g ts g1 sub_ t i HS HG HB HT Hi) as (p' & Q1 & Q2). congruence.
Qed.

(* three layers *)
Theorem C97_top : forall E (EO : ElementOps E) A SO np en b lss g gs g1 sub_ top subs t f f2 rc bytes configs,
  setting EO A SO np en b -> built_all EO SO A en b lss g (concat gs) g1 ->
  rmap (from_trees SO A sub_) gs = Ok subs -> from_sub_trees SO A top subs = Ok t ->
  fs_ok f -> fs_file f (rc_path rc) = Some bytes -> holds_leaves EO bytes (rc_offsets rc) lss ->
  lc_all EO A b configs lss f f2 ->
  let leafs := b ^ (mt_row_count t - 3) in
  exists lt, from_sub_tree_store_configs_and_replica EO A b sub_ top leafs configs rc f2 = (Ok lt, f2) /\
    mt_root lt = mt_root t /\ mt_leafs lt = mt_leafs t /\ mt_len (lc_store EO) lt = mt_len SO t /\ mt_row_count lt = mt_row_count t /\
    forall i, i < mt_leafs t ->
      (exists x, mt_read_at (lc_store EO) sub_ top lt f2 i = Ok x /\ nth_error (concat lss) i = Some x) /\
      forall c, nth_error configs (i / leafs) = Some c -> sc_rows_to_discard c <= default_rows_to_discard leafs b ->
        exists p, gen_cached_proof EO (lc_store EO) A en b sub_ top lt f2 i None = Ok p /\ gen_proof SO b sub_ top t g1 i = Ok p /\
          (height_agnostic A -> validate EO A b p = Ok true).
Proof.
  intros E EO A SO np en b lss g gs g1 sub_ top subs t f f2 rc bytes configs HS HB HM HT Hok Hf Hh HA leafs. pose proof HS as (EL & AL & HSt & Hb & Hch).
  destruct (built_top EO EL A AL en b Hb Hch SO np HSt lss g gs g1 sub_ top subs t HB HM HT) as (d & ls & HL & Hls & HTA).
  assert (Hd : mt_row_count t - 3 = d) by (rewrite (pa_rows _ _ _ _ _ _ _ _ _ HTA); lia).
  assert (HFl : Forall (fun l => List.length l = b ^ d) lss).
  { rewrite <- Hls. apply Forall_concat. apply Forall_forall. intros l Hl. apply In_nth_error in Hl. destruct Hl as [k Hk].
    pose proof (pa_subs _ _ _ _ _ _ _ _ _ HTA) as (P1 & P2). destruct (nth_error_ex subs k) as [tk Htk]; [apply nth_error_lt in Hk; lia|].
    destruct (P2 k tk Htk) as (bs & l' & ess & Q1 & Q2 & Q3). assert (l = l') by congruence. subst l'.
    apply Forall_forall. intros m Hm. apply In_nth_error in Hm. destruct Hm as [j Hj]. pose proof (sa_bases _ _ _ _ _ _ _ _ _ Q3) as (B1 & _ & B3).
    destruct (nth_error_ex bs j) as [bj Hbj]; [apply nth_error_lt in Hj; lia|]. destruct (B3 j bj Hbj) as (lv & es & D1 & _ & HF).
    assert (m = lv) by congruence. subst lv. exact (proj1 (ft_layout _ _ _ _ _ _ _ _ HF)). }
  pose proof (farm_replica EO EL A AL b Hb configs lss f f2 rc bytes d HA Hok Hf Hh HFl) as HR. rewrite <- Hd in HR.
  destruct (C53_top_partial E EO A SO np en b lss g gs g1 sub_ top subs t f2 rc configs HS HB HM HT HR) as (lt & L1 & L2 & L3 & L4 & L5 & L6).
  exists lt. split; [exact L1|]. split; [exact L2|]. split; [exact L3|]. split; [exact L4|]. split; [exact L5|].
  intros i Hi. destruct (L6 i Hi) as (R1 & (x & R2 & R3) & R4). split; [exists x; split; [congruence|exact R3]|].
  intros c Hc Hdef. destruct (R4 c None Hc) as [R5 _]. destruct R5 as (p & P1 & P2); [split; [exact Hdef|exact I]|].
  exists p. split; [exact P1|]. split; [exact P2|]. intros HG.
  destruct (C13_complete_nested E EO A SO np en b lss g gs g1 sub_ top subs t i HS HG HB HM HT Hi) as (p' & Q1 & Q2). congruence.
Qed.
(* four trees of eight leaves that drop different numbers of rows, built directly over a
   replica file written before *)
Definition farm_replica0 : option fs :=
  match fs_create_new "/replica" fs_empty with
  | (Ok h, f1) => match fs_write_all_at h 0 rep_bytes f1 with (Ok tt, f2) => Some f2 | _ => None end
  | _ => None
  end.
Fixpoint farm_build (l : list (StoreConfig * list B1)) (f : fs) : option fs :=
  match l with
  | [] => Some f
  | (c, xs) :: r => match mt_new_with_config BO (lc_store BO) sum_alg env1 2 xs c f with (Ok _, f1) => farm_build r f1 | _ => None end
  end.
Lemma farm_build_all : forall l f f2, Forall (fun z => fs_dir f (cfg_path (fst z)) = None) l ->
  NoDup (map (fun z => cfg_path (fst z)) l) -> fs_ok f -> farm_build l f = Some f2 ->
  lc_all BO sum_alg 2 (map fst l) (map (fun z => map (h_leaf sum_alg) (snd z)) l) f f2.
Proof.
  induction l as [|[c xs] l IH]; intros f f2 HP HN Hok H; cbn [farm_build] in H; [injection H as <-; constructor|].
  pose proof (CB_new BO (lc_store BO) sum_alg env1 2 c xs f) as HB.
  destruct (mt_new_with_config BO (lc_store BO) sum_alg env1 2 xs c f) as [[t|e|e|] f1]; try discriminate H.
  apply Forall_cons_iff in HP. destruct HP as [P1 P2]. cbn [map fst] in HN. apply NoDup_cons_iff in HN. destruct HN as [N1 N2]. cbn [fst] in P1.
  destruct (C67_level_cache B1 BO sum_alg env1 2 f [c] _ f1 (cfg_is_call BO _ sum_alg env1 2 c _ f _ HB) Hok) as [Hok1 K].
  cbn [map fst snd]. apply (LA_cons BO sum_alg 2 c _ _ _ env1 f t f1 f2); [split; [vm_compute; lia|reflexivity]|exact P1|exact HB|].
  apply IH; auto. rewrite Forall_forall in *. intros z Hz. apply (file_at_none f); [|auto]. apply K. intros [Q|[]]. apply N1. rewrite Q. apply (in_map (fun z => cfg_path (fst z))). exact Hz.
Qed.
Example C97_case :
  match farm_replica0, case_sub (vec_store BO) sum_alg 2 4 rep_xss, case_top (vec_store BO) sum_alg 2 2 2 rep_xss with
  | Some f0, Some (t, f1), Some (t', f1') =>
      match farm_build (combine rep_cfgs rep_xss) f0 with
      | Some f =>
          match from_store_configs_and_replica BO sum_alg 2 4 8 rep_cfgs rep_rc f, from_sub_tree_store_configs_and_replica BO sum_alg 2 2 2 8 rep_cfgs rep_rc f with
          | (Ok lt, _), (Ok lt', _) =>
              (val (mt_root lt) =? val (mt_root t)) && (val (mt_root lt') =? val (mt_root t')) &&
              forallb (fun i =>
                 same_proof (gen_cached_proof BO (lc_store BO) sum_alg env1 2 4 0 lt f i (Some 2)) (gen_proof (vec_store BO) 2 4 0 t f1 i) &&
                 same_proof (gen_cached_proof BO (lc_store BO) sum_alg env1 2 2 2 lt' f i (Some 2)) (gen_proof (vec_store BO) 2 2 2 t' f1' i))
                (seq 0 32)
          | _, _ => false
          end
      | None => false
      end
  | _, _, _ => false
  end = true.
Proof. vm_compute. reflexivity. Qed.
Print Assumptions C97_succeed.
Print Assumptions C97_built.
Print Assumptions C97_sub.
Print Assumptions C97_top.
