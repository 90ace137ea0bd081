(* C62: the tree object that was compacted.  Facts in AgainFacts.v. *)
From Coq Require Import String List Arith NArith Bool Lia Init.Byte ZifyBool ZifyNat.
From Verif Require Import Base Element Hash Sizing FS Sched Store VecStore DiskStore MmapStore LevelCache ProofModel Tree ListFacts Spec SpecFacts SizingFacts SchedFacts StoreLaws RowFacts ChunkFacts BuildFacts BuildLoop StoreSpec FileFacts VecFacts MapLayer DiskFacts MmapFacts PopFacts TreeFacts ProofSpec ProofFacts TreeProofs TreeObs Builders BuiltFacts CachedFacts CachedTrees LcReads LcTrees FrameFacts CompactFacts CompactTrees AgainFacts Cases Props_Build Props_Compact.
Import ListNotations.

(* DiskStore::compact works on the store of a tree that stays in use: the object keeps
   root, leaf count and row count, while its store now is shorter.  What is still
   true of that object. *)
Section C62.
  Context {E : Type} (EO : ElementOps E) (A : AlgOps E) (en : env) (b : nat) (leaves : list E).
  Variables (t t' : mtree (st_t (disk_store EO)) E) (f1 f2 : fs) (sizes : nat -> nat) (c : StoreConfig) (v : nat).

  Definition compaction : Prop :=
    disk_tree EO A en b (cfg_path c) leaves t f1 /\ mt_compact (disk_store EO) b sizes c v (t, f1) = (Ok true, (t', f2)).

  Lemma compaction_at : compaction -> exists d s i els, ElementLaws EO /\ arity b /\
    sc_rows_to_discard c < d /\ mt_row_count t = S d /\ DiskTree EO A b t s f1 (cfg_path c) i d leaves els.
  Proof.
    intros [HT HC]. pose proof HT as (EL & AL & Hb & Hch & _).
    destruct (disk_tree_at _ _ _ _ _ _ _ _ HT) as (d & s & i & els & Hd & Hl & HD).
    pose proof (ft_rows _ _ _ _ _ _ _ _ (dt_full EO EL A b Hb t s f1 c i d leaves els HD)) as Hr.
    exists d, s, i, els. split; [exact EL|]. split; [exact Hb|]. split; [|split; [lia|exact HD]].
    destruct (le_lt_dec d (sc_rows_to_discard c)) as [L|L]; [|exact L]. exfalso.
    destruct (C25_refused E EO A en b leaves t f1 sizes c v HT) as [e He]; [lia|]. rewrite He in HC. inversion HC.
  Qed.
End C62.

Definition full_of {E} (leaves top : list E) (v : nat) : list E := if v =? 1 then leaves ++ top else top.

(* what the object keeps, its new length, and what every index reads as *)
Theorem C62_reads : forall E (EO : ElementOps E) A en b leaves t t' f1 f2 sizes c v,
  compaction EO A en b leaves t t' f1 f2 sizes c v ->
  mt_root t' = mt_root t /\ mt_leafs t' = mt_leafs t /\ mt_row_count t' = mt_row_count t /\
  exists top, top_rows (h_node A) b (mt_row_count t - 1) (S (sc_rows_to_discard c)) leaves top /\
    mt_len (disk_store EO) t' = List.length (full_of leaves top v) /\
    forall k, match nth_error (full_of leaves top v) k with
              | Some x => mt_read_at (disk_store EO) 0 0 t' f2 k = Ok x
              | None => exists e, mt_read_at (disk_store EO) 0 0 t' f2 k = Err e
              end.
Proof.
  intros E EO A en b leaves t t' f1 f2 sizes c v HC.
  destruct (compaction_at _ _ _ _ _ _ _ _ _ _ _ _ HC) as (d & s & i & els & EL & Hb & HR & Hr & HD). destruct HC as [_ HC].
  destruct (again_state EO EL A b Hb t s f1 c i d leaves els HD sizes v t' f2 HR HC) as (s' & T1 & T2 & T3 & T4 & T5 & S1 & _).
  rewrite T2, T3, T4, Hr. replace (S d - 1) with d by lia. split; [reflexivity|]. split; [reflexivity|]. split; [reflexivity|].
  exists (skipn (row_off b d (S (sc_rows_to_discard c))) els).
  split; [apply Layout_top_rows; [exact (dt_layout EO A b t s f1 c i d leaves els HD)|lia]|].
  split; [unfold mt_len; rewrite T1; exact S1|].
  intros k. exact (again_reads EO EL A b Hb t s f1 c i d leaves els HD sizes v t' f2 k HR HC).
Qed.

(* version 1: the leaves are still where they were *)
Theorem C62_leaves_partial : forall E (EO : ElementOps E) A en b leaves t t' f1 f2 sizes c k x,
  compaction EO A en b leaves t t' f1 f2 sizes c 1 ->
  nth_error leaves k = Some x -> mt_read_at (disk_store EO) 0 0 t' f2 k = Ok x.
Proof.
  intros E EO A en b leaves t t' f1 f2 sizes c k x HC Hx.
  destruct (C62_reads _ _ _ _ _ _ _ _ _ _ _ _ _ HC) as (_ & _ & _ & top & _ & _ & HK). specialize (HK k).
  unfold full_of in HK. cbn [Nat.eqb] in HK. rewrite nth_error_app1 in HK by (eapply nth_error_lt; eauto). rewrite Hx in HK. exact HK.
Qed.

(* if anything was dropped, no proof comes out of the object any more *)
Theorem C62_no_proofs : forall E (EO : ElementOps E) A en b leaves t t' f1 f2 sizes c v,
  compaction EO A en b leaves t t' f1 f2 sizes c v ->
  v <> 1 \/ 1 <= sc_rows_to_discard c ->
  forall k p en' rows, gen_proof (disk_store EO) b 0 0 t' f2 k <> Ok p /\ gen_cached_proof EO (disk_store EO) A en' b 0 0 t' f2 k rows <> Ok p.
Proof.
  intros E EO A en b leaves t t' f1 f2 sizes c v HC HV k p en' rows.
  destruct (compaction_at _ _ _ _ _ _ _ _ _ _ _ _ HC) as (d & s & i & els & EL & Hb & HR & Hr & HD). destruct HC as [_ HC].
  destruct (again_state EO EL A b Hb t s f1 c i d leaves els HD sizes v t' f2 HR HC) as (s' & T1 & T2 & T3 & T4 & T5 & S1 & _).
  pose proof (dt_full EO EL A b Hb t s f1 c i d leaves els HD) as HF. rewrite (ft_leafs _ _ _ _ _ _ _ _ HF) in T2. rewrite Hr in T3.
  pose proof (compacted_short EO A b Hb t s f1 c i d leaves els HD v HR HV) as HS. rewrite <- S1 in HS.
  split.
  - exact (no_proof (disk_store EO) b Hb t' s' f2 d T1 T2 T3 ltac:(lia) HS k p).
  - exact (no_cached_proof EO A (disk_store EO) en' b Hb t' s' f2 d T1 T2 T3 ltac:(lia) HS k rows p).
Qed.

(* nor can it be compacted again: refused, nothing changed, whatever is asked for *)
Theorem C62_again : forall E (EO : ElementOps E) A en b leaves t t' f1 f2 sizes c v,
  compaction EO A en b leaves t t' f1 f2 sizes c v ->
  v <> 1 \/ 1 <= sc_rows_to_discard c ->
  forall sizes' c' v', cfg_path c' = cfg_path c ->
    exists e, mt_compact (disk_store EO) b sizes' c' v' (t', f2) = (Err e, (t', f2)).
Proof.
  intros E EO A en b leaves t t' f1 f2 sizes c v HC HV sizes' c' v' HP.
  destruct (compaction_at _ _ _ _ _ _ _ _ _ _ _ _ HC) as (d & s & i & els & EL & Hb & HR & Hr & HD). destruct HC as [_ HC].
  exact (again_err EO EL A b Hb t s f1 c i d leaves els HD c' sizes v v' sizes' t' f2 HP HR HV HC).
Qed.

(* nothing dropped: file, reads and proofs are the same as before, and it can be compacted as before *)
Theorem C62_nothing_dropped : forall E (EO : ElementOps E) A en b leaves t t' f1 f2 sizes c,
  compaction EO A en b leaves t t' f1 f2 sizes c 1 ->
  sc_rows_to_discard c = 0 ->
  fs_file f2 (cfg_path c) = fs_file f1 (cfg_path c) /\
  (forall k, k < mt_len (disk_store EO) t -> mt_read_at (disk_store EO) 0 0 t' f2 k = mt_read_at (disk_store EO) 0 0 t f1 k) /\
  (forall k, k < mt_leafs t -> gen_proof (disk_store EO) b 0 0 t' f2 k = gen_proof (disk_store EO) b 0 0 t f1 k) /\
  (forall sizes' c' v', cfg_path c' = cfg_path c -> sc_rows_to_discard c' < mt_row_count t - 1 ->
    exists t2 f3 top, mt_compact (disk_store EO) b sizes' c' v' (t', f2) = (Ok true, (t2, f3)) /\
      top_rows (h_node A) b (mt_row_count t - 1) (S (sc_rows_to_discard c')) leaves top /\
      fs_file f3 (cfg_path c') = Some (encode EO (full_of leaves top v'))).
Proof.
  intros E EO A en b leaves t t' f1 f2 sizes c HC H0.
  destruct (compaction_at _ _ _ _ _ _ _ _ _ _ _ _ HC) as (d & s & i & els & EL & Hb & HR & Hr & HD). destruct HC as [_ HC].
  destruct (again_same EO EL A b Hb t s f1 c i d leaves els HD sizes t' f2 H0 ltac:(lia) HC) as [s' HD'].
  pose proof (dt_full EO EL A b Hb t s f1 c i d leaves els HD) as HF. pose proof (dt_full EO EL A b Hb t' s' f2 c i d leaves els HD') as HF'.
  rewrite Hr. replace (S d - 1) with d by lia. split; [|split; [|split]].
  - assert (HX : forall tt ss ff, DiskTree EO A b tt ss ff (cfg_path c) i d leaves els -> fs_file ff (cfg_path c) = Some (encode EO els)).
    { clear - EL. intros tt ss ff HD. unfold fs_file. rewrite (dt_path _ _ _ _ _ _ _ _ _ _ _ HD). f_equal.
      pose proof (dt_rep _ _ _ _ _ _ _ _ _ _ _ HD) as (_ & _ & _ & R). cbn [fst snd] in R. rewrite (dt_file _ _ _ _ _ _ _ _ _ _ _ HD) in R.
      pose proof (dt_layout EO A b tt ss ff c i d leaves els HD) as (_ & L2 & _). rewrite <- L2 in R. apply DRep_full in R; auto. }
    rewrite (HX _ _ _ HD), (HX _ _ _ HD'). reflexivity.
  - intros k Hk. rewrite (ft_len _ _ _ _ _ _ _ _ HF) in Hk. rewrite (ft_read_at _ _ _ _ _ _ _ _ HF k Hk). apply (ft_read_at _ _ _ _ _ _ _ _ HF' k Hk).
  - intros k Hk. rewrite (ft_leafs _ _ _ _ _ _ _ _ HF) in Hk. rewrite (ft_proof _ _ _ _ _ _ _ _ HF k Hk). apply (ft_proof _ _ _ _ _ _ _ _ HF' k Hk).
  - intros sizes' c' v' HP HR'. rewrite <- HP in HD'.
    destruct (tree_compact_ok EO EL A b Hb t' s' f2 c' i d leaves els HD' sizes' v' HR') as (t2 & f3 & H1 & H2 & H3 & _).
    exists t2, f3, (skipn (row_off b d (S (sc_rows_to_discard c'))) els). split; [exact H1|].
    split; [apply Layout_top_rows; [exact (dt_layout EO A b t s f1 c i d leaves els HD)|lia]|].
    unfold fs_file. rewrite H2, H3. reflexivity.
Qed.

(* The full claim: whatever node the object returns is the one at that index. *)
Definition C62_statement : Prop := forall E (EO : ElementOps E) A en b leaves t t' f1 f2 sizes c v,
  compaction EO A en b leaves t t' f1 f2 sizes c v ->
  forall k x, mt_read_at (disk_store EO) 0 0 t' f2 k = Ok x -> mt_read_at (disk_store EO) 0 0 t f1 k = Ok x.

Definition after (r v : nat) : option (mtree (st_t (disk_store BO)) B1 * fs) :=
  match case_built 2 leaves8 with
  | (Ok t, f) =>
      match mt_compact (disk_store BO) 2 (fun k => k mod 3) (cfg_r r) v (t, f) with
      | (Ok true, tf) => Some tf
      | _ => None
      end
  | _ => None
  end.
Definition nodes_of (tf : mtree (st_t (disk_store BO)) B1 * fs) : list (option nat) :=
  map (fun k => match mt_read_at (disk_store BO) 0 0 (fst tf) (snd tf) k with Ok x => Some (val x) | _ => None end) (seq 0 15).
Definition proofs_of (tf : mtree (st_t (disk_store BO)) B1 * fs) : list bool :=
  map (fun k => match gen_proof (disk_store BO) 2 0 0 (fst tf) (snd tf) k with Ok p => match validate BO sum_alg 2 p with Ok x => x | _ => false end | _ => false end) (seq 0 8).
Definition again (tf : mtree (st_t (disk_store BO)) B1 * fs) (r v : nat) : option (list nat) :=
  match mt_compact (disk_store BO) 2 (fun k => k mod 3) (cfg_r r) v tf with
  | (Ok true, (_, f)) => Some (case_file f)
  | _ => None
  end.
Definition seen (r v : nat) : option (list (option nat) * list bool * option (list nat)) :=
  option_map (fun tf => (nodes_of tf, proofs_of tf, again tf 1 2)) (after r v).

(* 8 leaves: what the indices 0..14 read as, whether leaf proofs validate, the file after a second compaction *)
Example C62_case :
  let full := case_file (snd (case_built 2 leaves8)) in
  let pad l := map Some l ++ repeat None (15 - List.length l) in
  seen 1 1 = Some (pad (firstn 8 full ++ skipn 12 full), repeat false 8, None) /\
  seen 1 2 = Some (pad (skipn 12 full), repeat false 8, None) /\
  seen 2 2 = Some (pad (skipn 14 full), repeat false 8, None) /\
  seen 0 1 = Some (pad full, repeat true 8, Some (skipn 12 full)).
Proof. vm_compute. repeat split; reflexivity. Qed.

Lemma compaction_case r v t f t' f' : case_built 2 leaves8 = (Ok t, f) ->
  mt_compact (disk_store BO) 2 (fun k => k mod 3) (cfg_r r) v (t, f) = (Ok true, (t', f')) ->
  compaction BO sum_alg env1 2 (map (h_leaf sum_alg) leaves8) t t' f f' (fun k => k mod 3) (cfg_r r) v.
Proof.
  intros H1 H2. split; [|exact H2]. apply case_disk_tree in H1; [exact H1|exact arity_2|]. vm_compute. auto.
Qed.

(* index k is read successfully before and after, with different results *)
Definition moved_in (built : res (mtree (st_t (disk_store BO)) B1) * fs) (r v k : nat) : bool :=
  match built with
  | (Ok t, f) =>
      match mt_compact (disk_store BO) 2 (fun k => k mod 3) (cfg_r r) v (t, f) with
      | (Ok true, (t', f')) =>
          match mt_read_at (disk_store BO) 0 0 t f k, mt_read_at (disk_store BO) 0 0 t' f' k with
          | Ok x, Ok y => negb (val x =? val y)
          | _, _ => false
          end
      | _ => false
      end
  | _ => false
  end.

Definition moved_node (r v k : nat) : bool := moved_in (case_built 2 leaves8) r v k.

Lemma moved_in_refutes built r v k : case_built 2 leaves8 = built -> moved_in built r v k = true -> ~ C62_statement.
Proof.
  intros H1 H HS. unfold moved_in in H.
  destruct built as [[t|?|?|] f]; try (exact (Bool.diff_false_true H)).
  destruct (mt_compact _ _ _ _ _ _) as [[[|]|?|?|] [t' f']] eqn:H2; try (exact (Bool.diff_false_true H)).
  pose proof (HS _ _ _ _ _ _ _ _ _ _ _ _ _ (compaction_case r v t f t' f' H1 H2) k) as HK. clear H1 H2 HS.
  destruct (mt_read_at (disk_store BO) 0 0 t' f' k) as [y|?|?|]; [|destruct (mt_read_at (disk_store BO) 0 0 t f k); exact (Bool.diff_false_true H)..].
  rewrite (HK y eq_refl), Nat.eqb_refl in H. exact (Bool.diff_false_true H).
Qed.
Lemma moved_refutes r v k : moved_node r v k = true -> ~ C62_statement.
Proof. exact (moved_in_refutes (case_built 2 leaves8) r v k eq_refl). Qed.

(* with version 2 the object returns nodes of upper rows for leaf indices; with version 1 for the indices of inner nodes *)
Theorem C62_refuted : ~ C62_statement /\ moved_node 1 2 0 = true /\ moved_node 1 1 8 = true.
Proof.
  assert (H : moved_node 1 2 0 = true) by (vm_compute; reflexivity).
  split; [exact (moved_refutes 1 2 0 H)|]. split; [exact H|]. vm_compute. reflexivity.
Qed.

Print Assumptions C62_reads.
Print Assumptions C62_leaves_partial.
Print Assumptions C62_no_proofs.
Print Assumptions C62_again.
Print Assumptions C62_nothing_dropped.
Print Assumptions C62_refuted.
