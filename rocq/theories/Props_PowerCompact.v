(* C78: a power loss during a compaction. *)
From Coq Require Import String List Arith NArith Bool Lia Init.Byte ZifyBool ZifyNat.
From Verif Require Import Base Element Hash Sizing FS Sched Store VecStore DiskStore MmapStore LevelCache ProofModel Tree ListFacts Spec SpecFacts SizingFacts SchedFacts StoreLaws RowFacts ChunkFacts BuildFacts BuildLoop StoreSpec FileFacts VecFacts MapLayer DiskFacts MmapFacts PopFacts TreeFacts ProofSpec ProofFacts TreeProofs TreeObs Builders BuiltFacts CompoundFacts CompoundTrees CompoundGroups CompoundBuilt CachedFacts CachedTrees LcReads LcTrees CachedBuilt FrameFacts CompactFacts CompactTrees LcBuild LcCreate ReopenFacts Recompact Cases Props_Build Props_Proof Props_Compact Props_Recompact Props_Power Props_Replica.
Import ListNotations.

(* compact writes nothing out before its sync (disk.rs 280), which follows the copy and the
   truncation.  Until then the file goes through the contents it has after k pieces of
   the copy; a large k includes the truncation. *)
Definition compacting {E} (EO : ElementOps E) b sizes c v (t : mtree (st_t (disk_store EO)) E) f1 (D : list byte) : Prop :=
  exists k, fs_file (stopped EO b k sizes c v t f1) (cfg_path c) = Some D.
(* the file system after the power has come back *)
Definition reboot (f : fs) (path : string) (data : list byte) : fs :=
  match fs_dir f path with Some i => fs_set_data f i data | None => f end.

(* what the uninterrupted compaction leaves *)
Definition compacted {E} (EO : ElementOps E) (A : AlgOps E) b c v rows leaves (good : list byte) : Prop :=
  exists top, top_rows (h_node A) b (rows - 1) (S (sc_rows_to_discard c)) leaves top /\
              good = encode EO (if v =? 1 then leaves ++ top else top).

(* the wish: the compaction was finished, or it can be repeated *)
Definition C78_full : Prop := forall E (EO : ElementOps E) A en b leaves t f1 c v sizes sizes' data,
  disk_tree EO A en b (cfg_path c) leaves t f1 -> sc_rows_to_discard c < mt_row_count t - 1 ->
  power_loss (compacting EO b sizes c v t f1) data ->
  exists good, compacted EO A b c v (mt_row_count t) leaves good /\
    fs_file (snd (finish EO (mt_len (disk_store EO) t) b c v sizes' (reboot f1 (cfg_path c) data))) (cfg_path c) = Some good.

(* what is common to the theorems: the old bytes, the new bytes, the kill points *)
Lemma power_setup {E} (EO : ElementOps E) A en b leaves t f1 c v sizes :
  disk_tree EO A en b (cfg_path c) leaves t f1 -> sc_rows_to_discard c < mt_row_count t - 1 ->
  exists d i P, mt_row_count t = d + 1 /\ 1 <= d /\ sc_rows_to_discard c < d /\ arity b /\ ElementLaws EO /\ mt_len (disk_store EO) t = geom b d /\
    fs_dir f1 (cfg_path c) = Some i /\ i_ro (fs_ino f1 i) = false /\ List.length (fs_data f1 i) = geom b d * e_byte_len EO /\
    packed EO b c d v (fs_data f1 i) = P /\ compacted EO A b c v (mt_row_count t) leaves P /\
    (forall D, compacting EO b sizes c v t f1 D -> D = P \/
       exists m, m <= geom b (d - 1 - sc_rows_to_discard c) * e_byte_len EO /\
         D = moved (fs_data f1 i) (CompactFacts.start b d v * e_byte_len EO) (row_off b d (S (sc_rows_to_discard c)) * e_byte_len EO) m).
Proof.
  intros HT HR. pose proof HT as (EL & AL & Hb & Hch & _).
  destruct (disk_tree_at _ _ _ _ _ _ _ _ HT) as (d & s & i & els & Hd & Hl & HD).
  pose proof (dt_full EO EL A b Hb t s f1 c i d leaves els HD) as HF. rewrite (ft_rows _ _ _ _ _ _ _ _ HF) in *.
  replace (d + 1 - 1) with d in * by lia.
  pose proof (dt_layout EO A b t s f1 c i d leaves els HD) as HL. pose proof HL as (L1 & L2 & _).
  pose proof (dt_rep _ _ _ _ _ _ _ _ _ _ _ HD) as HRep. pose proof (dt_path _ _ _ _ _ _ _ _ _ _ _ HD) as Hp.
  pose proof (dt_ro _ _ _ _ _ _ _ _ _ _ _ HD) as Hro. pose proof (dt_file _ _ _ _ _ _ _ _ _ _ _ HD) as Hf.
  pose proof (arity_ge b Hb) as H2.
  assert (HE : fs_data f1 i = encode EO els).
  { destruct HRep as (_ & _ & _ & HRep). cbn [snd fst] in HRep. rewrite Hf, <- L2 in HRep. apply DRep_full; auto. }
  set (top := skipn (row_off b d (S (sc_rows_to_discard c))) els).
  set (P := encode EO (if v =? 1 then leaves ++ top else top)).
  assert (HLn : List.length (fs_data f1 i) = geom b d * e_byte_len EO) by (rewrite HE, encode_length, L2 by auto; reflexivity).
  assert (HP : packed EO b c d v (fs_data f1 i) = P).
  { unfold packed, P, CompactFacts.start, top. rewrite HE.
    assert (HK : skipn (row_off b d (S (sc_rows_to_discard c)) * e_byte_len EO) (encode EO els) =
                 encode EO (skipn (row_off b d (S (sc_rows_to_discard c))) els)).
    { rewrite <- (firstn_skipn (row_off b d (S (sc_rows_to_discard c))) els) at 1. rewrite encode_app, skipn_app.
      pose proof (geom_row_off b d (S (sc_rows_to_discard c)) ltac:(lia)) as G.
      rewrite encode_length, firstn_length by auto. replace (Nat.min _ _) with (row_off b d (S (sc_rows_to_discard c))) by lia.
      rewrite Nat.sub_diag. cbn [skipn]. rewrite skipn_all2; [reflexivity|].
      rewrite encode_length, firstn_length by auto. apply Nat.mul_le_mono_r. lia. }
    rewrite HK.
    destruct (v =? 1); [|reflexivity]. rewrite encode_app. f_equal.
    rewrite (Layout_prefix (h_node A) b d leaves els) by (auto; lia).
    rewrite <- !sub_0. change 0 with (0 * e_byte_len EO) at 1. apply encode_sub. auto. }
  exists d, i, P. split; [reflexivity|]. split; [exact Hd|]. split; [exact HR|]. split; [exact Hb|]. split; [exact EL|].
  split; [apply (ft_len _ _ _ _ _ _ _ _ HF)|]. split; [exact Hp|]. split; [exact Hro|]. split; [exact HLn|]. split; [exact HP|]. split.
  { exists top. split; [|reflexivity]. replace (d + 1 - 1) with d by lia. apply Layout_top_rows; [exact HL|lia]. }
  intros D (k & HK).
  assert (Hs : stopped EO b k sizes c v t f1 = snd (snd (disk_compact_stopped EO k sizes b c v (s, f1)))).
  { unfold stopped. destruct (disk_compact_stopped EO k sizes b c v (s, f1)) as [x [s' f']] eqn:Q.
    rewrite (mt_on_store_base (disk_store EO) _ t s f1 x s' f' (ta_data _ _ _ _ _ _ _ _ _ _ (dt_at _ _ _ _ _ _ _ _ _ _ _ HD)) Q). reflexivity. }
  pose proof HRep as (R1 & _ & R3 & _). cbn [fst snd] in R1, R3.
  pose proof (any_stopped EO EL b Hb c d v Hd HR s f1 i R1 R3 Hp Hro HLn k sizes) as HS. cbv zeta in HS. rewrite <- Hs in HS.
  destruct HS as [(F1 & _) HS]. unfold fs_file in HK. rewrite F1, Hp in HK. injection HK as HK.
  rewrite <- HK. rewrite HP in HS. exact HS.
Qed.

Section After.
  Context {E : Type} (EO : ElementOps E) (EL : ElementLaws EO) (b : nat) (Hb : arity b) (c : StoreConfig) (d v : nat).
  Hypothesis Hd : 1 <= d.
  Hypothesis HR : sc_rows_to_discard c < d.
  Local Notation bl := (e_byte_len EO).
  Local Notation src := (row_off b d (S (sc_rows_to_discard c)) * bl).
  Local Notation dst := (CompactFacts.start b d v * bl).
  Local Notation cnt := (geom b (d - 1 - sc_rows_to_discard c) * bl).
  Variable old : list byte.
  Hypothesis Hold : List.length old = geom b d * bl.
  Definition point (D : list byte) : Prop := D = packed EO b c d v old \/ exists m, m <= cnt /\ D = moved old dst src m.

  Lemma packed_len : List.length (packed EO b c d v old) = dst + cnt.
  Proof.
    pose proof (dst_le EO b c d v Hd HR) as L. pose proof (total EO b c d Hd HR) as T.
    unfold packed. rewrite app_length, firstn_length, skipn_length. lia.
  Qed.
  Lemma packed_nth p : p < dst -> nth_error (packed EO b c d v old) p = nth_error old p.
  Proof.
    intros Hp. pose proof (dst_le EO b c d v Hd HR) as L. pose proof (total EO b c d Hd HR) as T.
    unfold packed. rewrite nth_error_app, firstn_length. replace (p <? Nat.min dst (List.length old)) with true by lia.
    rewrite nth_error_firstn. replace (p <? dst) with true by lia. reflexivity.
  Qed.
  Lemma packed_nth' p : nth_error (packed EO b c d v old) (dst + p) = nth_error old (src + p).
  Proof.
    pose proof (dst_le EO b c d v Hd HR) as L. pose proof (total EO b c d Hd HR) as T.
    unfold packed. rewrite nth_error_app, firstn_length. replace (dst + p <? Nat.min dst (List.length old)) with false by lia.
    rewrite nth_error_skipn. f_equal. lia.
  Qed.

  Lemma loss_length data : power_loss point data -> List.length data = geom b d * bl \/ List.length data = dst + cnt.
  Proof.
    intros ((D & HD & ->) & _). pose proof (dst_le EO b c d v Hd HR) as L. pose proof (total EO b c d Hd HR) as T.
    destruct HD as [->|(m & Hm & ->)]; [right; apply packed_len|left]. rewrite moved_length; lia.
  Qed.
  Lemma loss_bytes data p x : power_loss point data -> nth_error data p = Some x ->
    nth_error (packed EO b c d v old) p = Some x \/ nth_error old p = Some x.
  Proof.
    intros (_ & HB) Hx. pose proof (dst_le EO b c d v Hd HR) as L. pose proof (total EO b c d Hd HR) as T.
    destruct (HB p x Hx) as (D & [->|(m & Hm & ->)] & HD); [left; exact HD|].
    rewrite moved_nth in HD by lia. destruct ((dst <=? p) && (p <? dst + m)) eqn:Q; [|right; exact HD].
    left. replace p with (dst + (p - dst)) by lia. rewrite packed_nth'. rewrite <- HD. f_equal; lia.
  Qed.
  (* of full length: what a later compaction needs is still there *)
  Lemma loss_packed data : power_loss point data -> List.length data = geom b d * bl -> packed EO b c d v data = packed EO b c d v old.
  Proof.
    intros HX Hlen. pose proof HX as (_ & HB). pose proof (dst_le EO b c d v Hd HR) as L. pose proof (total EO b c d Hd HR) as T.
    pose proof (apart EO b Hb c d v Hd HR) as AP. unfold packed at 1 2. f_equal; apply nth_error_ext; intros p.
    - rewrite !nth_error_firstn. destruct (p <? dst) eqn:Q; [|reflexivity].
      destruct (nth_error_ex data p ltac:(lia)) as [x Hx]. rewrite Hx.
      destruct (loss_bytes data p x HX Hx) as [H|H]; [rewrite packed_nth in H by lia|]; congruence.
    - rewrite !nth_error_skipn. destruct (nth_error data (src + p)) as [x|] eqn:Hx.
      + destruct (loss_bytes data (src + p) x HX Hx) as [H|H]; [|congruence].
        destruct AP as [AP|AP]; [rewrite <- AP, packed_nth' in H; congruence|].
        pose proof packed_len as PL. apply nth_error_lt in H. lia.
      + symmetry. apply nth_error_None. apply nth_error_None in Hx. lia.
  Qed.
End After.

(* The file has its old or its new length; every byte is the one before or the one after. *)
Theorem C78_left : forall E (EO : ElementOps E) A en b leaves t f1 c v sizes data,
  disk_tree EO A en b (cfg_path c) leaves t f1 -> sc_rows_to_discard c < mt_row_count t - 1 ->
  power_loss (compacting EO b sizes c v t f1) data ->
  exists old good, fs_file f1 (cfg_path c) = Some old /\ compacted EO A b c v (mt_row_count t) leaves good /\
    (List.length data = List.length old \/ List.length data = List.length good) /\
    (forall p x, nth_error data p = Some x -> nth_error good p = Some x \/ nth_error old p = Some x).
Proof.
  intros E EO A en b leaves t f1 c v sizes data HT HR HX.
  destruct (power_setup EO A en b leaves t f1 c v sizes HT HR) as (d & i & P & Q1 & Hd & HR' & Hb & EL & Hn & Hp & Hro & HLn & HP & HC & HD).
  assert (HY : power_loss (point EO b c d v (fs_data f1 i)) data).
  { destruct HX as ((D & X1 & X2) & X3). rewrite <- HP in HD. split.
    - exists D. split; [exact (HD D X1)|exact X2].
    - intros p x Hx. destruct (X3 p x Hx) as (D' & Y1 & Y2). exists D'. split; [exact (HD D' Y1)|exact Y2]. }
  exists (fs_data f1 i), P. split; [unfold fs_file; rewrite Hp; reflexivity|]. split; [exact HC|]. rewrite <- HP. split.
  - rewrite HLn, (packed_len EO b c d v Hd HR' _ HLn). exact (loss_length EO b c d v Hd HR' _ HLn data HY).
  - intros p x Hx. exact (loss_bytes EO b c d v Hd HR' _ HLn data p x HY Hx).
Qed.

(* If it has its old length, the compaction can be repeated, whatever bytes were lost, and
   killed any number of times. *)
Theorem C78_repeat_partial : forall E (EO : ElementOps E) A en b leaves t f1 c v sizes data tries sizes',
  disk_tree EO A en b (cfg_path c) leaves t f1 -> sc_rows_to_discard c < mt_row_count t - 1 ->
  power_loss (compacting EO b sizes c v t f1) data ->
  let n := mt_len (disk_store EO) t in
  List.length data = n * e_byte_len EO ->
  let f2 := killed_tries EO n b c v tries (reboot f1 (cfg_path c) data) in
  let last := finish EO n b c v sizes' f2 in
  exists good, compacted EO A b c v (mt_row_count t) leaves good /\
    fs_file (snd last) (cfg_path c) = Some good /\
    (fst last = Ok true \/ (exists e, fst last = Err e) /\ fs_file f2 (cfg_path c) = Some good) /\
    (forall q, fs_dir f1 q <> fs_dir f1 (cfg_path c) -> fs_file (snd last) q = fs_file f1 q).
Proof.
  intros E EO A en b leaves t f1 c v sizes data tries sizes' HT HR HX n Hlen f2 last.
  destruct (power_setup EO A en b leaves t f1 c v sizes HT HR) as (d & i & P & Q1 & Hd & HR' & Hb & EL & Hn & Hp & Hro & HLn & HP & HC & HD).
  fold n in Hn. rewrite Hn in Hlen.
  assert (HY : power_loss (point EO b c d v (fs_data f1 i)) data).
  { destruct HX as ((D & X1 & X2) & X3). rewrite <- HP in HD. split.
    - exists D. split; [exact (HD D X1)|exact X2].
    - intros p x Hx. destruct (X3 p x Hx) as (D' & Y1 & Y2). exists D'. split; [exact (HD D' Y1)|exact Y2]. }
  assert (G1 : good EO b c d v i P f1 (reboot f1 (cfg_path c) data)).
  { unfold reboot. rewrite Hp. pose proof (fs_set_data_frame f1 i data) as FR. pose proof FR as (F1 & _ & _ & F4).
    apply good_intro; [exact FR|rewrite F1; exact Hp|rewrite F4; exact Hro|].
    right. rewrite fs_set_data_get. split; [exact Hlen|]. rewrite <- HP. exact (loss_packed EO b Hb c d v Hd HR' _ HLn data HY Hlen). }
  assert (G3 : good EO b c d v i P f1 f2).
  { unfold f2, killed_tries. rewrite Hn. clear - EL Hb Hd HR' G1. revert G1. generalize (reboot f1 (cfg_path c) data) as f.
    induction tries as [|[k' sz'] tl IH]; intros f G; [exact G|]. cbn [fold_left fst snd]. apply IH. apply good_attempt; auto. }
  exists P. split; [exact HC|].
  pose proof G3 as (FR & _). unfold last, finish. rewrite Hn.
  assert (HO : forall f, fs_frame (Some i) f1 f -> forall q, fs_dir f1 q <> fs_dir f1 (cfg_path c) -> fs_file f q = fs_file f1 q).
  { intros f (F1 & _ & F3 & _) q Hq. unfold fs_file. rewrite F1. rewrite Hp in Hq. destruct (fs_dir f1 q) as [j|]; [|reflexivity].
    unfold fs_data. rewrite F3 by congruence. reflexivity. }
  destruct (good_finish EO EL b Hb c d v i Hd HR' P f1 sizes' f2 G3) as [(s1 & s' & f' & O1 & O2 & O3 & O4)|(e & O1 & O2)].
  - rewrite O1. cbv zeta. rewrite O2. cbn [fst snd]. split; [exact O3|]. split; [left; reflexivity|].
    apply HO. eapply fs_frame_trans; eauto.
  - rewrite O1. cbn [fst snd]. split; [exact O2|]. split; [right; split; [eexists; reflexivity|exact O2]|]. apply HO. exact FR.
Qed.

(* Once compact has returned, its sync has written everything out. *)
Theorem C78_returned_partial : forall E (EO : ElementOps E) A en b leaves t f1 c v sizes t' f2 data,
  disk_tree EO A en b (cfg_path c) leaves t f1 -> sc_rows_to_discard c < mt_row_count t - 1 ->
  mt_compact (disk_store EO) b sizes c v (t, f1) = (Ok true, (t', f2)) ->
  power_loss (fun D => fs_file f2 (cfg_path c) = Some D) data ->
  compacted EO A b c v (mt_row_count t) leaves data.
Proof.
  intros E EO A en b leaves t f1 c v sizes t' f2 data HT HR HC ((D & HD & Hl) & HB).
  destruct (C25_compact E EO A en b leaves t f1 sizes c v HT HR) as (t2 & f3 & top & C1 & C2 & C3).
  rewrite HC in C1. injection C1 as <- <-. exists top. split; [exact C2|]. rewrite C3 in HD. injection HD as HD. rewrite HD.
  apply nth_error_ext. intros p. destruct (nth_error data p) as [x|] eqn:Hx.
  - destruct (HB p x Hx) as (D' & HD' & Hp). rewrite C3, HD in HD'. injection HD' as <-. symmetry. exact Hp.
  - symmetry. apply nth_error_None. apply nth_error_None in Hx. lia.
Qed.

(* Otherwise the truncation may have been written out and the copy not.  The file then has
   the length of a compacted one and its old bytes; the rows it should hold are gone,
   and a LevelCacheStore opens it.  8 leaves, one row dropped, version 1. *)
Definition loss_of (f : fs) : list byte := match fs_file f (cfg_path (cfg_r 1)) with Some D => firstn 11 D | None => [] end.
Definition loss_fs : fs := let f := snd (case_built 2 leaves8) in reboot f (cfg_path (cfg_r 1)) (loss_of f).
Definition want : list byte := encode BO (map (h_leaf sum_alg) leaves8 ++ skipn (row_off 2 3 2) (all_rows sum_alg 2 (map (h_leaf sum_alg) leaves8) 3)).
Lemma loss_case :
  match case_built 2 leaves8 with
  | (Ok t, f) => mt_row_count t = 4 /\ mt_len (disk_store BO) t = 15 /\
      (exists old new, fs_file (stopped BO 2 0 (fun _ => 0) (cfg_r 1) 1 t f) (cfg_path (cfg_r 1)) = Some old /\
         fs_file (stopped BO 2 99 (fun _ => 0) (cfg_r 1) 1 t f) (cfg_path (cfg_r 1)) = Some new /\
         List.length new = 11 /\ List.length (firstn 11 old) = 11 /\ firstn 11 old <> want /\
         fs_file (snd (finish BO 15 2 (cfg_r 1) 1 (fun _ => 0) (reboot f (cfg_path (cfg_r 1)) (firstn 11 old)))) (cfg_path (cfg_r 1)) = Some (firstn 11 old))
  | _ => False end.
Proof. vm_compute. split; [reflexivity|]. split; [reflexivity|]. do 2 eexists. repeat split; try reflexivity. discriminate. Qed.
(* the root seen there and the root of the tree *)
Lemma C78_wrong_cache :
  (match lc_new_from_disk BO 15 2 (cfg_r 1) loss_fs with
   | (Ok s, f) => do x <- lc_read_at BO (s, f) 14; Ok (val x) | _ => Err ""%string end,
   lc_is_consistent_v1 BO 15 2 (cfg_r 1) loss_fs, root_of (case_built 2 leaves8))
  = (Ok 10, Ok true, Ok 190).
Proof. vm_compute. reflexivity. Qed.

Theorem C78_refuted : ~ C78_full.
Proof.
  intros H. pose proof loss_case as K.
  assert (Hch : chunk_ok env1 2) by (split; [vm_compute; lia|reflexivity]).
  destruct (case_built 2 leaves8) as [[t|e|e|] f1] eqn:HB; try contradiction K.
  destruct K as (K1 & K2 & old & new & K3 & K4 & K5 & K6 & K7 & K8).
  pose proof (case_disk_tree 2 leaves8 t f1 arity_2 Hch HB) as HD. clear HB.
  assert (HL : Layout (h_node sum_alg) 2 3 (map (h_leaf sum_alg) leaves8) (all_rows sum_alg 2 (map (h_leaf sum_alg) leaves8) 3)).
  { apply all_rows_Layout; [lia|reflexivity]. }
  unfold want in K7. revert HD HL K7. generalize (all_rows sum_alg 2 (map (h_leaf sum_alg) leaves8) 3) as els. generalize (map (h_leaf sum_alg) leaves8) as leaves.
  intros leaves els HD HL K7. assert (HR : sc_rows_to_discard (cfg_r 1) < mt_row_count t - 1) by (rewrite K1; cbn; lia).
  destruct (H B1 BO sum_alg env1 2 leaves t f1 (cfg_r 1) 1 (fun _ => 0) (fun _ => 0) (firstn 11 old) HD HR) as (good & G1 & G2).
  - split.
    + exists new. split; [exists 99; exact K4|]. rewrite K5. exact K6.
    + intros p x Hx. exists old. split; [exists 0; exact K3|]. rewrite nth_error_firstn in Hx. destruct (p <? 11); [exact Hx|discriminate Hx].
  - rewrite K2, K8 in G2. destruct G1 as (top & G1 & G3). rewrite K1 in G1.
    rewrite (top_rows_fun (h_node sum_alg) 2 3 2 leaves els top HL ltac:(lia) G1) in G3. change (1 =? 1) with true in G3. cbv iota in G3. apply K7. transitivity good; [|exact G3].
    assert (forall X (x y : X), Some x = Some y -> x = y) as inj by (intros X x y [= ->]; reflexivity). exact (inj _ _ _ G2).
Qed.

(* the second of three copied bytes was not written out, nor was the truncation *)
Example C78_case :
  let f := snd (case_built 2 leaves8) in
  let full := case_file f in
  let half := match fs_file f (cfg_path (cfg_r 1)) with Some D => sub D 12 1 ++ sub D 1 1 ++ sub D 14 1 ++ skipn 3 D | None => [] end in
  let last := finish BO 15 2 (cfg_r 1) 2 (fun _ => 0) (reboot f (cfg_path (cfg_r 1)) half) in
  map Byte.to_nat half <> full /\ fst last = Ok true /\ case_file (snd last) = skipn 12 full.
Proof. vm_compute. repeat split; try reflexivity. discriminate. Qed.

Print Assumptions C78_left.
Print Assumptions C78_repeat_partial.
Print Assumptions C78_returned_partial.
Print Assumptions C78_wrong_cache.
Print Assumptions C78_refuted.
