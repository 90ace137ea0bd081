(* C05, second half: no worker task observes a partially written row.  At every point of every
   interleaving of the tasks hashing a row, what a task reads, or has read, is its complete
   piece of the row below, whatever the other tasks have written by then. *)
From Coq Require Import String List Arith NArith Bool Lia Init.Byte ZifyBool ZifyNat.
From Verif Require Import Base Element Hash Sizing FS Sched Store VecStore DiskStore MmapStore LevelCache ProofModel Tree ListFacts Spec SpecFacts SizingFacts SchedFacts ByteFacts StoreLaws RowFacts ChunkFacts BuildFacts BuildLoop StoreSpec FileFacts MapLayer VecFacts DiskFacts MmapFacts TreeObs Cases Props_Build RowReads.
Import ListNotations.

(* Task k works on the elements k * chunk, k * chunk + 1, ... of the row, at most chunk of
   them: [chunk_of chunk row k]. *)

(* Vec and Mmap stores, whose tasks read and write under the store's lock (process_layer).
   The store holds [below ++ row]; the schedule is any list of task numbers, so any point of
   any run is the end of one. *)
Theorem C05_locked_rows : forall E (EO : ElementOps E) A SO np en b below row w level size f s f1 sched ts fl st,
  setting EO A SO np en b -> List.length row = w * b -> List.length (below ++ row) + w <= size ->
  st_new_from_slice SO size (encode EO (below ++ row)) f = (Ok s, f1) ->
  let chunk := p_chunk (env_params en) in
  let n := num_chunks chunk (w * b) in
  let rs := List.length below in
  let ws := rs + w * b in
  run_sched n (chunk_task EO A b chunk (st_read_range SO) (w * b) level rs)
    (fun k bytes => st_copy_from_slice SO bytes (ws + (rs + k * chunk - rs) / b)) sched (fun _ => TNew) None (s, f1) = (ts, fl, st) ->
  fl = None /\
  (forall k, k < n -> st_read_range SO st (rs + k * chunk) (rs + k * chunk + List.length (chunk_of chunk row k)) = Ok (chunk_of chunk row k)) /\
  (forall k d, k < n -> ts k = TRead d -> d = encode EO (hash_row A b level (chunk_of chunk row k))).
Proof.
  intros E EO A SO np en b below row w level size f s f1 sched ts fl st (EL & AL & HS & Hb & Hc1 & Hc2) Hlen Hsz Hnew chunk n rs ws Hrun.
  destruct (basic_laws EO EL SO np HS) as (ow & W & Rep & SL).
  destruct (sl_slice _ _ _ _ _ _ SL (below ++ row) size f ltac:(lia)) as (s' & f' & H1 & H2 & H3 & _).
  assert (s' = s /\ f' = f1) as [-> ->] by (split; congruence).
  rewrite app_length, Hlen in H2, Hsz. fold rs in H2, Hsz.
  refine (locked_reads EO EL _ _ _ _ _ ow W Rep np (sl_core _ _ _ _ _ _ SL) A b chunk Hb Hc1 Hc2 row w level rs size _ (s, f1) Hlen Hsz H3 H2 _ sched ts fl st Hrun).
  intros k Hk. rewrite nth_error_app2 by (unfold rs; lia). f_equal. unfold rs. lia.
Qed.

(* Disk and LevelCache stores, whose tasks read the file and write through a memory map byte by
   byte, without a lock (mmap_process_layer).  [file] is the store's handle, [chk] the range
   check of its reads.  The schedule names tasks and bytes.  The first part says that these
   tasks are those of mmap_process_layer. *)
Theorem C05_mapped_rows : forall E (EO : ElementOps E) T (file : T -> handle) chk A b chunk row w level rs ws s f cap sched,
  let bl := e_byte_len EO in
  let n := num_chunks chunk (w * b) in
  let data := fs_data f (h_ino (file s)) in
  let start := map_start EO chunk chk (w * b) rs in
  let rd := map_read EO chunk (file s) rs in
  let comp := map_task EO A b chunk (w * b) level rs (w * b * bl) (chunk / b * bl) in
  let wr := map_write EO (file s) ws (chunk / b * bl) in
  ElementLaws EO -> arity b -> 0 < chunk -> chunk mod b = 0 -> 1 <= w -> List.length row = w * b ->
  h_write (file s) = true ->
  List.length data = cap * bl -> sub data (rs * bl) (w * b * bl) = encode EO row ->
  rs + w * b <= ws -> ws + w <= cap ->
  (forall f k m, 0 < m -> k + m <= w * b -> chk (s, f) (rs + k) (rs + k + m) = Ok tt) ->
  mmap_process_layer EO A b chunk file chk sched (w * b) level rs ws (s, f) =
    run_bytes n start rd comp wr (Nat.min chunk (w * b) * bl) sched (s, f) /\
  forall ts fl st, run_byte_sched n start rd comp wr sched (fun _ => BNew) None (s, f) = (ts, fl, st) ->
  fl = None /\
  (forall k j, k < n -> j < List.length (encode EO (chunk_of chunk row k)) ->
     rd k j st = Ok (nth j (encode EO (chunk_of chunk row k)) x00)) /\
  (forall k, k < n -> match ts k with
     | BNew => True
     | BRead got => List.length got = List.length (encode EO (chunk_of chunk row k)) /\
         forall j x, nth_error got j = Some (Some x) -> nth_error (encode EO (chunk_of chunk row k)) j = Some x
     | BWrite out => map fst out = encode EO (hash_row A b level (chunk_of chunk row k))
     | BFailed => False
     end).
Proof.
  intros E EO T file chk A b chunk row w level rs ws s f cap sched bl n data start rd comp wr EL Hb Hc1 Hc2 Hw Hlen HW HL HD Hws Hcap Hchk.
  pose proof (bl_pos EO EL) as Hbl. fold bl in Hbl.
  set (v0 := fun i => if (rs <=? i) && (i <? rs + w * b) then nth_error row (i - rs) else None).
  assert (Hk0 : knows v0 rs row).
  { intros k Hk. unfold v0. replace ((rs <=? rs + k) && (rs + k <? rs + w * b)) with true by lia. f_equal. lia. }
  assert (HD0 : DRep EO cap v0 data).
  { split; [exact HL|]. intros i e Hi. unfold v0 in Hi. destruct ((rs <=? i) && (i <? rs + w * b)) eqn:Q; [|discriminate].
    assert (Hi1 : rs <= i < rs + w * b) by lia. split; [lia|].
    pose proof (encode_nth EO EL row (i - rs) e Hi) as G. fold bl in G |- *. rewrite <- HD in G. rewrite <- G.
    rewrite sub_sub by nia. f_equal. nia. }
  split.
  - unfold mmap_process_layer. exact (ml_unfold EO EL file chk A b chunk Hb Hc1 Hc2 s f cap row w level rs ws HW Hlen Hw Hws Hcap Hchk _).
  - intros ts fl st Hrun.
    exact (mapped_reads EO EL file chk A b chunk Hb Hc1 Hc2 s f cap v0 row w level rs ws HW HD0 Hlen Hw Hk0 Hws Hcap Hchk sched ts fl st Hrun).
Qed.

(* 8 leaves, arity 2, chunks of 4: task 1 has read and written its two nodes (elements 10 and
   11), task 0 has read and not yet written *)
Example C05_locked_case : exists ts st,
  run_sched 2 (chunk_task BO sum_alg 2 4 (st_read_range (vec_store BO)) 8 0 0)
    (fun k bytes => st_copy_from_slice (vec_store BO) bytes (8 + (0 + k * 4 - 0) / 2)) [1; 1; 0] (fun _ => TNew) None (leaves8, fs_empty)
    = (ts, None, st) /\
  List.length (fst st) = 12 /\ ts 1 = TDone /\
  ts 0 = TRead (encode BO (hash_row sum_alg 2 0 (firstn 4 leaves8))) /\
  chunk_of 4 leaves8 1 = skipn 4 leaves8.
Proof. eexists _, _. split; [vm_compute; reflexivity|]. repeat split; vm_compute; reflexivity. Qed.

(* the same over a disk store: task 1 has written one of its bytes when task 0 reads two of its own *)
Example C05_mapped_case :
  match st_new_from_slice (disk_store BO) 15 (encode BO leaves8) fs_empty with
  | (Ok s, f) =>
      h_write (ds_file s) = true /\ List.length (fs_data f (h_ino (ds_file s))) = 15 * 1 /\
      sub (fs_data f (h_ino (ds_file s))) 0 8 = encode BO leaves8 /\
      match run_byte_sched 2 (map_start BO 4 (fun st s e => disk_check BO st (s * 1) (e * 1)) 8 0) (map_read BO 4 (ds_file s) 0)
              (map_task BO sum_alg 2 4 8 0 0 8 2) (map_write BO (ds_file s) 8 2)
              [(1, 0); (1, 0); (1, 1); (1, 2); (1, 3); (1, 0); (1, 1); (0, 0); (0, 3); (0, 1)] (fun _ => BNew) None (s, f) with
      | (ts, None, _) => match ts 0, ts 1 with
          | BRead got, BWrite out => map (fun o => match o with Some _ => true | None => false end) got = [false; true; false; true] /\
              map snd out = [false; true]
          | _, _ => False
          end
      | _ => False
      end
  | _ => False
  end.
Proof. vm_compute. repeat split. Qed.

Print Assumptions C05_locked_rows.
Print Assumptions C05_mapped_rows.
