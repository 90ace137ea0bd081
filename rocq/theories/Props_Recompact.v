(* A compaction that is killed can be carried out again. *)
From Coq Require Import String List Arith NArith Bool Lia Init.Byte ZifyBool ZifyNat.
From Verif Require Import Base Element Hash Sizing FS Sched Store VecStore DiskStore MmapStore LevelCache ProofModel Tree ListFacts Spec SpecFacts SizingFacts SchedFacts StoreLaws RowFacts ChunkFacts BuildFacts BuildLoop StoreSpec FileFacts VecFacts MapLayer DiskFacts MmapFacts PopFacts TreeFacts ProofSpec ProofFacts TreeProofs TreeObs Builders BuiltFacts CompoundFacts CompoundTrees CompoundGroups CompoundBuilt CachedFacts CachedTrees LcReads LcTrees CachedBuilt FrameFacts CompactFacts CompactTrees LcBuild LcCreate ReopenFacts Recompact Cases Props_Build Props_Proof Props_Compact.
Import ListNotations.

(* ---------------- C72 ---------------- *)
(* reopen the file and compact it, to the end *)
Definition finish {E} (EO : ElementOps E) (size b : nat) (c : StoreConfig) (v : nat) (sizes : nat -> nat) (f : fs) : res bool * fs :=
  match disk_new_from_disk EO size b c f with
  | (Ok s, f1) => let r := disk_compact EO sizes b c v (s, f1) in (fst r, snd (snd r))
  | (Err e, f1) => (Err e, f1)
  | (Panic e, f1) => (Panic e, f1)
  | (Diverge, f1) => (Diverge, f1)
  end.

(* any number of further attempts, each killed somewhere *)
Definition killed_tries {E} (EO : ElementOps E) (size b : nat) (c : StoreConfig) (v : nat)
    (tries : list (nat * (nat -> nat))) (f : fs) : fs :=
  fold_left (fun f x => attempt EO size b c v (fst x) (snd x) f) tries f.

(* The compaction of a built tree is killed, so are any number of attempts to repeat
   it.  A last attempt that is left alone brings the file to exactly the bytes of an
   uninterrupted compaction; it is refused only if the file already holds them. *)
Theorem C72_repeat : forall E (EO : ElementOps E) A en b leaves t f1 c v k sizes tries sizes',
  disk_tree EO A en b (cfg_path c) leaves t f1 ->
  sc_rows_to_discard c < mt_row_count t - 1 ->
  let n := mt_len (disk_store EO) t in
  let f2 := killed_tries EO n b c v tries (stopped EO b k sizes c v t f1) in
  let last := finish EO n b c v sizes' f2 in
  exists top, top_rows (h_node A) b (mt_row_count t - 1) (S (sc_rows_to_discard c)) leaves top /\
    let good := Some (encode EO (if v =? 1 then leaves ++ top else top)) in
    fs_file (snd last) (cfg_path c) = good /\
    (fst last = Ok true \/ (exists e, fst last = Err e) /\ fs_file f2 (cfg_path c) = good) /\
    (forall q, fs_dir f1 q <> fs_dir f1 (cfg_path c) -> fs_file (snd last) q = fs_file f1 q).
Proof.
  intros E EO A en b leaves t f1 c v k sizes tries sizes' HT HR n f2 last.
  pose proof HT as (EL & AL & Hb & Hch & _).
  destruct (disk_tree_at _ _ _ _ _ _ _ _ HT) as (d & s & i & els & Hd & Hl & HD).
  pose proof (dt_full EO EL A b Hb t s f1 c i d leaves els HD) as HF. rewrite (ft_rows _ _ _ _ _ _ _ _ HF) in HR |- *.
  replace (d + 1 - 1) with d in * by lia.
  assert (Hn : n = geom b d) by apply (ft_len _ _ _ _ _ _ _ _ HF).
  pose proof (dt_layout EO A b t s f1 c i d leaves els HD) as HL. pose proof HL as (L1 & L2 & _).
  pose proof (dt_rep _ _ _ _ _ _ _ _ _ _ _ HD) as HRep. pose proof (dt_path _ _ _ _ _ _ _ _ _ _ _ HD) as Hp.
  pose proof (dt_ro _ _ _ _ _ _ _ _ _ _ _ HD) as Hro. pose proof (dt_file _ _ _ _ _ _ _ _ _ _ _ HD) as Hf.
  pose proof (arity_ge b Hb) as H2.
  assert (HE : fs_data f1 i = encode EO els).
  { destruct HRep as (_ & _ & _ & HRep). cbn [snd fst] in HRep. rewrite Hf, <- L2 in HRep. apply DRep_full; auto. }
  assert (Hs : stopped EO b k sizes c v t f1 = snd (snd (disk_compact_stopped EO k sizes b c v (s, f1)))).
  { unfold stopped. destruct (disk_compact_stopped EO k sizes b c v (s, f1)) as [x [s' f']] eqn:Q.
    rewrite (mt_on_store_base (disk_store EO) _ t s f1 x s' f' (ta_data _ _ _ _ _ _ _ _ _ _ (dt_at _ _ _ _ _ _ _ _ _ _ _ HD)) Q). reflexivity. }
  set (top := skipn (row_off b d (S (sc_rows_to_discard c))) els).
  set (P := encode EO (if v =? 1 then leaves ++ top else top)).
  assert (HLn : List.length (fs_data f1 i) = geom b d * e_byte_len EO) by (rewrite HE, encode_length, L2 by auto; reflexivity).
  assert (HP : packed EO b c d v (fs_data f1 i) = P).
  { unfold packed, P, CompactFacts.start, top. rewrite HE.
    assert (HK : skipn (row_off b d (S (sc_rows_to_discard c)) * e_byte_len EO) (encode EO els) =
                 encode EO (skipn (row_off b d (S (sc_rows_to_discard c))) els)).
    { rewrite <- (firstn_skipn (row_off b d (S (sc_rows_to_discard c))) els) at 1. rewrite encode_app, skipn_app.
      pose proof (geom_row_off b d (S (sc_rows_to_discard c)) ltac:(lia)) as G.
      rewrite encode_length, firstn_length by auto. replace (Nat.min _ _) with (row_off b d (S (sc_rows_to_discard c))) by lia.
      rewrite Nat.sub_diag. cbn [skipn]. rewrite skipn_all2; [reflexivity|].
      rewrite encode_length, firstn_length by auto. apply Nat.mul_le_mono_r. lia. }
    rewrite HK.
    destruct (v =? 1); [|reflexivity]. rewrite encode_app. f_equal.
    rewrite (Layout_prefix (h_node A) b d leaves els) by (auto; lia).
    rewrite <- !sub_0. change 0 with (0 * e_byte_len EO) at 1. apply encode_sub. auto. }
  assert (G1 : good EO b c d v i P f1 f1).
  { apply good_intro; auto. apply fs_frame_refl. }
  assert (G2 : good EO b c d v i P f1 (stopped EO b k sizes c v t f1)).
  { rewrite Hs. pose proof HRep as (R1 & _ & R3 & _). cbn [fst snd] in R1, R3.
    pose proof (any_stopped EO EL b Hb c d v Hd HR s f1 i R1 R3 Hp Hro HLn k sizes) as HS. cbv zeta in HS.
    destruct HS as [HFr HS]. pose proof HFr as (F1 & _ & _ & F4).
    apply good_intro; [exact HFr|rewrite F1; exact Hp|rewrite F4; exact Hro|].
    destruct HS as [HS|(m & Hm & HS)].
    - left. split; [rewrite HS; exact HP|]. intros HQ. rewrite <- HP.
      rewrite !(packed_full EO b c d v Hd HR (fs_data f1 i) HLn); auto; rewrite HP; exact HQ.
    - right. rewrite HS. split.
      + pose proof (dst_le EO b c d v Hd HR) as L. pose proof (total EO b c d Hd HR) as T. rewrite moved_length; lia.
      + rewrite (moved_packed EO b Hb c d v Hd HR _ m HLn Hm). exact HP. }
  assert (G3 : good EO b c d v i P f1 f2).
  { unfold f2, killed_tries. rewrite Hn. clear - EL Hb Hd HR G2. revert G2. generalize (stopped EO b k sizes c v t f1) as f.
    induction tries as [|[k' sz'] tl IH]; intros f G; [exact G|]. cbn [fold_left fst snd]. apply IH. apply good_attempt; auto. }
  exists top. split; [apply Layout_top_rows; [exact HL|lia]|]. cbv zeta. fold P.
  pose proof G3 as (FR & _). unfold last, finish. rewrite Hn.
  assert (HO : forall f, fs_frame (Some i) f1 f -> forall q, fs_dir f1 q <> fs_dir f1 (cfg_path c) -> fs_file f q = fs_file f1 q).
  { intros f (F1 & _ & F3 & _) q Hq. unfold fs_file. rewrite F1. rewrite Hp in Hq. destruct (fs_dir f1 q) as [j|]; [|reflexivity].
    unfold fs_data. rewrite F3 by congruence. reflexivity. }
  destruct (good_finish EO EL b Hb c d v i Hd HR P f1 sizes' f2 G3) as [(s1 & s' & f' & O1 & O2 & O3 & O4)|(e & O1 & O2)].
  - rewrite O1. cbv zeta. rewrite O2. cbn [fst snd]. split; [exact O3|]. split; [left; reflexivity|].
    apply HO. eapply fs_frame_trans; eauto.
  - rewrite O1. cbn [fst snd]. split; [exact O2|]. split; [right; split; [eexists; reflexivity|exact O2]|]. apply HO. exact FR.
Qed.

(* 8 leaves, one row dropped: killed after 2 bytes, then after 1, then let run.
   With a second kill point after the truncation the last attempt is refused. *)
Definition case_repeat (k v : nat) (tries : list nat) : list nat * (res bool * list nat) :=
  let f2 := killed_tries BO 15 2 (cfg_r 1) v (map (fun k => (k, fun _ => 0)) tries) (case_stopped k v) in
  let last := finish BO 15 2 (cfg_r 1) v (fun _ => 2) f2 in
  (case_file f2, (fst last, case_file (snd last))).
Example C72_case :
  let full := case_file (snd (case_built 2 leaves8)) in
  (* the file is a mixture before the last attempt *)
  fst (case_repeat 2 2 [1]) = sub full 12 2 ++ skipn 2 full /\
  snd (case_repeat 2 2 [1]) = (Ok true, skipn 12 full) /\
  fst (case_repeat 2 1 [1]) = firstn 8 full ++ sub full 12 2 ++ skipn 10 full /\
  snd (case_repeat 2 1 [1]) = (Ok true, firstn 8 full ++ skipn 12 full) /\
  (* finished before the last attempt *)
  fst (case_repeat 2 2 [99]) = skipn 12 full /\ snd (snd (case_repeat 2 2 [99])) = skipn 12 full /\
  fst (snd (case_repeat 2 2 [99])) <> Ok true.
Proof. vm_compute. repeat split; try reflexivity. discriminate. Qed.

(* Only the same version can be carried on with: after a killed version 2 the leaves
   that version 1 keeps are gone. *)
Lemma C72_other_version :
  let full := case_file (snd (case_built 2 leaves8)) in
  let last := finish BO 15 2 (cfg_r 1) 1 (fun _ => 0) (case_stopped 2 2) in
  fst last = Ok true /\ case_file (snd last) <> firstn 8 full ++ skipn 12 full.
Proof. vm_compute. split; [reflexivity|discriminate]. Qed.
Print Assumptions C72_repeat.
