(* A compaction in which an input/output operation fails. *)
From Coq Require Import String List Arith NArith Bool Lia Init.Byte ZifyBool ZifyNat.
From Verif Require Import Base Element Hash Sizing FS Sched Store VecStore DiskStore MmapStore LevelCache ProofModel Tree ListFacts Spec SpecFacts SizingFacts SchedFacts StoreLaws RowFacts ChunkFacts BuildFacts BuildLoop StoreSpec FileFacts VecFacts MapLayer DiskFacts MmapFacts PopFacts TreeFacts ProofSpec ProofFacts TreeProofs TreeObs Builders BuiltFacts CompoundFacts CompoundTrees CompoundGroups CompoundBuilt CachedFacts CachedTrees LcReads LcTrees CachedBuilt FrameFacts CompactFacts CompactTrees LcBuild LcCreate ReopenFacts Recompact AgainFacts CompactIo CompactIoFacts Cases Props_Build Props_Proof Props_Compact Props_Recompact.
Import ListNotations.

(* ---------------- C81 ---------------- *)
(* the calls of compact on a tree, each with a failing operation: the tree and the
   file system they leave *)
Definition tree_tries {E} (EO : ElementOps E) (b : nat) (c : StoreConfig) (v : nat) (l : list (bool * io_point * (nat -> nat)))
    (t : mtree (st_t (disk_store EO)) E) (f : fs) : mtree (st_t (disk_store EO)) E * fs :=
  snd (mt_on_store (disk_store EO) (fun st => (Ok tt, io_tries EO (mt_len (disk_store EO) t) b c v l st)) (t, f)).
(* one more call, whose operation p fails *)
Definition tree_fail {E} (EO : ElementOps E) (b : nat) (c : StoreConfig) (v : nat) (p : io_point) (sizes : nat -> nat) :=
  mt_on_store (disk_store EO) (disk_compact_io EO (Some p) sizes b c v).

(* the facts behind every theorem: object and file fit together after the calls *)
Lemma tries_inv E (EO : ElementOps E) A en b leaves t f1 c v l t2 f2 :
  disk_tree EO A en b (cfg_path c) leaves t f1 -> sc_rows_to_discard c < mt_row_count t - 1 ->
  tree_tries EO b c v l t f1 = (t2, f2) ->
  ElementLaws EO /\ arity b /\
  exists d s2 i top,
  1 <= d /\ sc_rows_to_discard c < d /\ mt_row_count t = S d /\ List.length leaves = b ^ d /\ mt_len (disk_store EO) t = geom b d /\
  top_rows (h_node A) b d (S (sc_rows_to_discard c)) leaves top /\ mt_data t2 = BaseTree s2 /\ mt_root t2 = mt_root t /\
  io_inv EO b c d v (encode EO (if v =? 1 then leaves ++ top else top)) f1 i (s2, f2) /\ fs_dir f1 (cfg_path c) = Some i.
Proof.
  intros HT HR H2. pose proof HT as (EL & AL & Hb & Hch & _). split; [exact EL|]. split; [exact Hb|].
  destruct (disk_tree_at _ _ _ _ _ _ _ _ HT) as (d & s & i & els & Hd & Hl & HD).
  pose proof (dt_full EO EL A b Hb t s f1 c i d leaves els HD) as HF. rewrite (ft_rows _ _ _ _ _ _ _ _ HF) in HR |- *.
  replace (d + 1 - 1) with d in * by lia.
  assert (Hn : mt_len (disk_store EO) t = geom b d) by apply (ft_len _ _ _ _ _ _ _ _ HF).
  pose proof (dt_layout EO A b t s f1 c i d leaves els HD) as HL. pose proof HL as (L1 & L2 & _).
  pose proof (dt_rep _ _ _ _ _ _ _ _ _ _ _ HD) as HRep. pose proof (dt_path _ _ _ _ _ _ _ _ _ _ _ HD) as Hp.
  pose proof (dt_ro _ _ _ _ _ _ _ _ _ _ _ HD) as Hro. pose proof (dt_file _ _ _ _ _ _ _ _ _ _ _ HD) as Hf.
  pose proof (arity_ge b Hb) as Hb2.
  assert (HE : fs_data f1 i = encode EO els).
  { destruct HRep as (_ & _ & _ & HRep). cbn [snd fst] in HRep. rewrite Hf, <- L2 in HRep. apply DRep_full; auto. }
  set (top := skipn (row_off b d (S (sc_rows_to_discard c))) els).
  set (P := encode EO (if v =? 1 then leaves ++ top else top)).
  assert (HLn : List.length (fs_data f1 i) = geom b d * e_byte_len EO) by (rewrite HE, encode_length, L2 by auto; reflexivity).
  assert (HP : packed EO b c d v (fs_data f1 i) = P).
  { unfold packed, P, CompactFacts.start, top. rewrite HE.
    assert (HK : skipn (row_off b d (S (sc_rows_to_discard c)) * e_byte_len EO) (encode EO els) =
                 encode EO (skipn (row_off b d (S (sc_rows_to_discard c))) els)).
    { rewrite <- (firstn_skipn (row_off b d (S (sc_rows_to_discard c))) els) at 1. rewrite encode_app, skipn_app.
      pose proof (geom_row_off b d (S (sc_rows_to_discard c)) ltac:(lia)) as G.
      rewrite encode_length, firstn_length by auto. replace (Nat.min _ _) with (row_off b d (S (sc_rows_to_discard c))) by lia.
      rewrite Nat.sub_diag. cbn [skipn]. rewrite skipn_all2; [reflexivity|].
      rewrite encode_length, firstn_length by auto. apply Nat.mul_le_mono_r. lia. }
    rewrite HK.
    destruct (v =? 1); [|reflexivity]. rewrite encode_app. f_equal.
    rewrite (Layout_prefix (h_node A) b d leaves els) by (auto; lia).
    rewrite <- !sub_0. change 0 with (0 * e_byte_len EO) at 1. apply encode_sub. auto. }
  assert (I1 : io_inv EO b c d v P f1 i (s, f1)).
  { pose proof HRep as (R1 & _ & R3 & _). cbn [fst snd] in R1, R3. split; [apply fs_frame_refl|]. split; [exact Hp|]. split; [exact Hro|].
    split; [exact R3|]. split; [exact Hf|]. left. auto. }
  pose proof (io_tries_inv EO EL b Hb c d v Hd HR P f1 i l (s, f1) I1) as I2. rewrite <- Hn in I2.
  destruct (io_tries EO (mt_len (disk_store EO) t) b c v l (s, f1)) as [s2 f2'] eqn:Q.
  unfold tree_tries in H2.
  pose proof (mt_on_store_base (disk_store EO) (fun st => (Ok tt, io_tries EO (mt_len (disk_store EO) t) b c v l st)) t s f1 (Ok tt) s2 f2'
    (ta_data _ _ _ _ _ _ _ _ _ _ (dt_at _ _ _ _ _ _ _ _ _ _ _ HD)) (f_equal (pair (Ok tt)) Q)) as HM.
  rewrite HM in H2. cbn [snd] in H2.
  injection H2 as <- <-.
  exists d, s2, i, top. split; [exact Hd|]. split; [exact HR|]. split; [lia|]. split; [exact Hl|]. split; [exact Hn|].
  split; [apply Layout_top_rows; [exact HL|lia]|]. split; [reflexivity|]. split; [reflexivity|]. split; [exact I2|exact Hp].
Qed.

Lemma inv_file E (EO : ElementOps E) b c d v P f1 i s f : io_inv EO b c d v P f1 i (s, f) -> fs_data f i = P ->
  fs_file f (cfg_path c) = Some P.
Proof. intros (_ & H & _) HP. unfold fs_file. rewrite H, HP. reflexivity. Qed.
Lemma inv_frame E (EO : ElementOps E) b c d v P f1 i s f : io_inv EO b c d v P f1 i (s, f) -> fs_dir f1 (cfg_path c) = Some i ->
  forall q, fs_dir f1 q <> fs_dir f1 (cfg_path c) -> fs_file f q = fs_file f1 q.
Proof.
  intros ((F1 & _ & F3 & _) & _) Hp q Hq. unfold fs_file. rewrite F1. rewrite Hp in Hq. destruct (fs_dir f1 q) as [j|]; [|reflexivity].
  unfold fs_data. rewrite F3 by congruence. reflexivity.
Qed.

(* The call returns an error whenever an operation failed.  (A copy that needs fewer
   pieces does not come to the failure; then the finished file is there.)  Files of
   other paths are not touched. *)
Theorem C81_error_partial : forall E (EO : ElementOps E) A en b leaves t f1 c v l t2 f2 p sizes,
  disk_tree EO A en b (cfg_path c) leaves t f1 ->
  sc_rows_to_discard c < mt_row_count t - 1 ->
  tree_tries EO b c v l t f1 = (t2, f2) ->
  exists r t3 f3, tree_fail EO b c v p sizes (t2, f2) = (r, (t3, f3)) /\
    ((exists e, r = Err e) \/
     r = Ok true /\ (exists k, p = IO_copy k) /\
     exists top, top_rows (h_node A) b (mt_row_count t - 1) (S (sc_rows_to_discard c)) leaves top /\
       fs_file f3 (cfg_path c) = Some (encode EO (if v =? 1 then leaves ++ top else top))) /\
    (forall q, fs_dir f1 q <> fs_dir f1 (cfg_path c) -> fs_file f3 q = fs_file f1 q).
Proof.
  intros E EO A en b leaves t f1 c v l t2 f2 p sizes HT HR H2.
  destruct (tries_inv _ _ _ _ _ _ _ _ _ _ _ _ _ HT HR H2) as (EL & Hb & d & s2 & i & top & Hd & HRd & Hr & Hl & Hn & Htop & T1 & T2 & HI & Hp).
  rewrite Hr. replace (S d - 1) with d by lia.
  destruct (io_step EO EL b Hb c d v Hd HRd _ f1 i (Some p) sizes (s2, f2) HI) as (r & [s3 f3] & S1 & S2 & S3). cbn [snd] in S3.
  eexists r, _, f3. split; [exact (mt_on_store_base (disk_store EO) _ t2 s2 f2 r s3 f3 T1 S1)|].
  split; [|exact (inv_frame _ _ _ _ _ _ _ _ _ _ _ S2 Hp)].
  destruct S3 as [(-> & S3 & S4)|(S3 & _)]; [right|left; exact S3]. split; [reflexivity|]. split.
  - destruct S4 as [S4|(k & S4)]; [discriminate|]. exists k. congruence.
  - exists top. split; [exact Htop|]. exact (inv_file _ _ _ _ _ _ _ _ _ _ _ S2 S3).
Qed.

(* After any number of such calls, on the object or on reopened ones: compact called
   once more, now without a failure, brings the file to exactly the bytes of an
   undisturbed compaction; it is refused only if the file already holds them. *)
Theorem C81_retry_partial : forall E (EO : ElementOps E) A en b leaves t f1 c v l t2 f2 sizes,
  disk_tree EO A en b (cfg_path c) leaves t f1 ->
  sc_rows_to_discard c < mt_row_count t - 1 ->
  tree_tries EO b c v l t f1 = (t2, f2) ->
  exists top, top_rows (h_node A) b (mt_row_count t - 1) (S (sc_rows_to_discard c)) leaves top /\
    let good := Some (encode EO (if v =? 1 then leaves ++ top else top)) in
    (* on the same object *)
    (exists r t3 f3, mt_compact (disk_store EO) b sizes c v (t2, f2) = (r, (t3, f3)) /\
       fs_file f3 (cfg_path c) = good /\ (r = Ok true \/ (exists e, r = Err e) /\ fs_file f2 (cfg_path c) = good) /\
       (forall q, fs_dir f1 q <> fs_dir f1 (cfg_path c) -> fs_file f3 q = fs_file f1 q)) /\
    (* reopened *)
    (let last := finish EO (mt_len (disk_store EO) t) b c v sizes f2 in
     fs_file (snd last) (cfg_path c) = good /\ (fst last = Ok true \/ (exists e, fst last = Err e) /\ fs_file f2 (cfg_path c) = good)).
Proof.
  intros E EO A en b leaves t f1 c v l t2 f2 sizes HT HR H2.
  destruct (tries_inv _ _ _ _ _ _ _ _ _ _ _ _ _ HT HR H2) as (EL & Hb & d & s2 & i & top & Hd & HRd & Hr & Hl & Hn & Htop & T1 & T2 & HI & Hp).
  rewrite Hr, Hn. replace (S d - 1) with d by lia. exists top. split; [exact Htop|].
  set (P := encode EO (if v =? 1 then leaves ++ top else top)) in *. cbv zeta.
  assert (HS : forall s, io_inv EO b c d v P f1 i (s, f2) -> exists r s3 f3, disk_compact EO sizes b c v (s, f2) = (r, (s3, f3)) /\
    io_inv EO b c d v P f1 i (s3, f3) /\ fs_file f3 (cfg_path c) = Some P /\ (r = Ok true \/ (exists e, r = Err e) /\ fs_file f2 (cfg_path c) = Some P)).
  { intros s Hs. destruct (io_step EO EL b Hb c d v Hd HRd P f1 i None sizes (s, f2) Hs) as (r & [s3 f3] & S1 & S2 & S3). cbn [snd] in S3.
    exists r, s3, f3. split; [exact S1|]. split; [exact S2|].
    assert (SF : fs_data f3 i = P) by (destruct S3 as [(_ & S3 & _)|(_ & S3)]; auto).
    split; [exact (inv_file _ _ _ _ _ _ _ _ _ _ _ S2 SF)|].
    destruct S3 as [(-> & _)|(S3 & _)]; [left; reflexivity|]. right. split; [exact S3|].
    (* refused: the file had been finished *)
    destruct Hs as (I1 & I2 & I3 & I4 & I5 & [(I6 & I7 & I8)|(I6 & I7 & _)]).
    - exfalso. destruct (io_one EO EL b Hb c d v Hd HRd s f2 i I6 I4 I2 I3 I7 None sizes I5) as (r' & s' & f' & Q1 & _ & Q3).
      rewrite S1 in Q1. inversion Q1; subst r' s' f'. destruct Q3 as [(Q3 & _)|(_ & Q3 & _)]; [|apply Q3; reflexivity].
      destruct S3 as [e He]. congruence.
    - unfold fs_file. rewrite I2, I7. reflexivity. }
  split.
  - destruct (HS s2 HI) as (r & s3 & f3 & S1 & S2 & S3 & S4). eexists r, _, f3.
    split; [exact (mt_on_store_base (disk_store EO) _ t2 s2 f2 r s3 f3 T1 S1)|]. split; [exact S3|]. split; [exact S4|].
    exact (inv_frame _ _ _ _ _ _ _ _ _ _ _ S2 Hp).
  - unfold finish. destruct (io_open EO b c d v P f1 i f2 (ex_intro _ s2 HI)) as [(s & O1 & O2)|(e & O1 & O2)]; rewrite O1; cbv zeta.
    + destruct (HS s O2) as (r & s3 & f3 & S1 & S2 & S3 & S4). rewrite S1. cbn [fst snd]. split; [exact S3|exact S4].
    + cbn [fst snd]. pose proof (inv_file _ _ _ _ _ _ _ _ _ _ _ HI O2) as F. split; [exact F|]. right. split; [eexists; reflexivity|exact F].
Qed.

(* Version 1: the object keeps the root and serves every leaf, whatever failed before. *)
Theorem C81_leaves_partial : forall E (EO : ElementOps E) A en b leaves t f1 c l t2 f2,
  disk_tree EO A en b (cfg_path c) leaves t f1 ->
  sc_rows_to_discard c < mt_row_count t - 1 ->
  tree_tries EO b c 1 l t f1 = (t2, f2) ->
  mt_root t2 = mt_root t /\
  forall k x, nth_error leaves k = Some x -> mt_read_at (disk_store EO) 0 0 t2 f2 k = Ok x.
Proof.
  intros E EO A en b leaves t f1 c l t2 f2 HT HR H2.
  destruct (tries_inv _ _ _ _ _ _ _ _ _ _ _ _ _ HT HR H2) as (EL & Hb & d & s2 & i & top & Hd & HRd & Hr & Hl & Hn & Htop & T1 & T2 & HI & Hp).
  split; [exact T2|]. intros k x Hx. pose proof (nth_error_lt _ _ _ Hx) as Lk.
  destruct (io_front EO EL b c d 1 Hd HRd _ f1 i s2 f2 HI) as (F1 & F2 & F3). pose proof HI as (_ & _ & _ & _ & I5 & _).
  unfold CompactFacts.start in F1, F2. cbn [Nat.eqb] in F1, F2.
  assert (HX : mt_read_at (disk_store EO) 0 0 t2 f2 k = disk_read_at EO (s2, f2) k) by (unfold mt_read_at; cbn [mt_read_at_n]; rewrite T1; reflexivity).
  rewrite HX.
  change (disk_read_at EO (s2, f2) k) with (disk_read_at EO ({| ds_len := ds_len s2; ds_file := ds_file s2; ds_loaded := ds_loaded s2; ds_size := ds_len s2 * e_byte_len EO |}, f2) k).
  eapply (cl_read_at _ _ _ _ _ _ _ _ _ _ (disk_core EO EL) (ds_len s2) (ds_len s2) (nth_error leaves)); [|lia|exact Hx].
  split; [reflexivity|]. split; [apply le_n|]. split; [reflexivity|]. cbn [fst snd ds_file]. rewrite I5.
  split; [exact F3|]. intros j e Hj. pose proof (nth_error_lt _ _ _ Hj) as Lj. split; [lia|].
  assert (HW : j * e_byte_len EO + e_byte_len EO <= b ^ d * e_byte_len EO).
  { replace (j * e_byte_len EO + e_byte_len EO) with (S j * e_byte_len EO) by (cbn; lia). apply Nat.mul_le_mono_r. lia. }
  assert (HG : forall D : list byte, sub D (j * e_byte_len EO) (e_byte_len EO) = sub (firstn (b ^ d * e_byte_len EO) D) (j * e_byte_len EO) (e_byte_len EO)).
  { intros D. apply nth_error_ext. intros q. rewrite !nth_error_sub, nth_error_firstn. destruct (q <? e_byte_len EO) eqn:Q; [|reflexivity].
    replace (j * e_byte_len EO + q <? b ^ d * e_byte_len EO) with true by lia. reflexivity. }
  rewrite HG, F1, <- HG. apply encode_nth; [exact EL|]. rewrite nth_error_app1 by lia. exact Hj.
Qed.

(* 8 leaves, one row dropped, the copy moves one byte at a time *)
Definition case_fails {X} (v : nat) (l : list (bool * io_point)) (z : X)
    (k : mtree (st_t (disk_store BO)) B1 -> fs -> X) : X :=
  match case_built 2 leaves8 with
  | (Ok t, f) => let '(t2, f2) := tree_tries BO 2 (cfg_r 1) v (map (fun x => (x, fun _ : nat => 0)) l) t f in k t2 f2
  | _ => z
  end.
Definition case_again (v : nat) (l : list (bool * io_point)) : list nat * (bool * list nat) :=
  case_fails v l ([], (false, [])) (fun t2 f2 =>
    let '(r, (_, f3)) := mt_compact (disk_store BO) 2 (fun _ => 2) (cfg_r 1) v (t2, f2) in
    (case_file f2, (match r with Ok x => x | _ => false end, case_file f3))).
Definition case_read (v : nat) (l : list (bool * io_point)) (k : nat) : res nat :=
  case_fails v l Diverge (fun t2 f2 => do x <- mt_read_at (disk_store BO) 0 0 t2 f2 k; Ok (val x)).
Definition case_one (v : nat) (p : io_point) : option bool :=
  case_fails v [] None (fun t2 f2 => match fst (tree_fail BO 2 (cfg_r 1) v p (fun _ => 0) (t2, f2)) with Ok x => Some x | _ => None end).
Example C81_case :
  let full := case_file (snd (case_built 2 leaves8)) in
  (* errors; three bytes are moved, with more pieces allowed the copy does not fail *)
  map (case_one 2) [IO_open_reader; IO_seek_reader; IO_open_writer; IO_seek_writer; IO_copy 0; IO_copy 3; IO_copy 4; IO_set_len; IO_sync; IO_metadata] =
    [None; None; None; None; None; None; Some true; None; None; None] /\
  (* the copy fails after 2 bytes, on a reopened store after 1, then it is left alone *)
  case_again 2 [(false, IO_copy 2); (true, IO_copy 1)] = (sub full 12 2 ++ skipn 2 full, (true, skipn 12 full)) /\
  case_again 1 [(false, IO_copy 2); (true, IO_copy 1)] = (firstn 8 full ++ sub full 12 2 ++ skipn 10 full, (true, firstn 8 full ++ skipn 12 full)) /\
  (* everything but set_len has been done *)
  case_again 2 [(false, IO_set_len)] = (sub full 12 3 ++ skipn 3 full, (true, skipn 12 full)) /\
  (* the error comes when the file is finished: further calls are refused *)
  case_again 2 [(false, IO_sync); (false, IO_copy 1); (true, IO_copy 1)] = (skipn 12 full, (false, skipn 12 full)) /\
  case_again 1 [(false, IO_metadata); (false, IO_sync)] = (firstn 8 full ++ skipn 12 full, (false, firstn 8 full ++ skipn 12 full)) /\
  (* version 1: leaf 5 after a failed copy *)
  case_read 1 [(false, IO_copy 2)] 5 = case_read 1 [] 5.
Proof. vm_compute. repeat split; reflexivity. Qed.

(* The full statement says that the tree object is still the tree it was when compact
   has returned an error.  It is not: leaf 0 now reads as a node of a higher row
   (version 2), the first node above the leaves likewise (version 1), without an error. *)
Theorem C81_refuted :
  exists x y, case_read 2 [] 0 = Ok x /\ case_read 2 [(false, IO_copy 2)] 0 = Ok y /\ x <> y /\ case_one 2 (IO_copy 2) = None /\
  exists x1 y1, case_read 1 [] 8 = Ok x1 /\ case_read 1 [(false, IO_copy 2)] 8 = Ok y1 /\ x1 <> y1 /\ case_one 1 (IO_copy 2) = None.
Proof.
  eexists _, _. split; [vm_compute; reflexivity|]. split; [vm_compute; reflexivity|]. split; [discriminate|]. split; [vm_compute; reflexivity|].
  eexists _, _. split; [vm_compute; reflexivity|]. split; [vm_compute; reflexivity|]. split; [discriminate|]. vm_compute. reflexivity.
Qed.
Print Assumptions C81_error_partial.
Print Assumptions C81_retry_partial.
Print Assumptions C81_leaves_partial.
Print Assumptions C81_refuted.
