(* C70: the workers that hash a row through a memory map do not race.
   DiskStore (disk.rs 319-376) and LevelCacheStore (level_cache.rs 455-513) let
   the workers read the file and write the map of the same file without a lock. *)
From Coq Require Import String List Arith Bool Lia Init.Byte ZifyBool ZifyNat.
From Verif Require Import Base Element Hash Sizing FS Sched Store DiskStore LevelCache ListFacts Spec SpecFacts SizingFacts SchedFacts StoreLaws RowFacts ChunkFacts BuildFacts StoreSpec FileFacts ByteFacts MapLayer Cases.
Import ListNotations.

(* ---- footprints ---- *)
(* file offsets that task k of a layer reads and may write *)
Definition reads_of (bl chunk width rs k : nat) (off : nat) : Prop :=
  (rs + k * chunk) * bl <= off /\ off < (rs + k * chunk) * bl + Nat.min chunk (width - k * chunk) * bl.
Definition writes_of (bl b chunk width ws k : nat) (off : nat) : Prop :=
  ws * bl + k * (chunk / b * bl) <= off /\ off < ws * bl + k * (chunk / b * bl) + Nat.min chunk (width - k * chunk) / b * bl.

Section Footprint.
  Context {E : Type} (EO : ElementOps E) (T : Type) (A : AlgOps E).
  Let bl := e_byte_len EO.
  Let St := (T * fs)%type.

  (* the model's steps stay in these sets: a step of task k reads at most one
     byte, one of reads_of; a write step changes at most one byte, one of writes_of *)
  Lemma read_footprint chunk (h : handle) width rs k j (st st' : St) :
    j < Nat.min chunk (width - k * chunk) * bl ->
    (forall off, reads_of bl chunk width rs k off ->
       nth_error (fs_data (snd st) (h_ino h)) off = nth_error (fs_data (snd st') (h_ino h)) off) ->
    map_read EO chunk h rs k j st = map_read EO chunk h rs k j st'.
  Proof.
    intros Hj H. unfold map_read, fs_read_byte. fold bl. rewrite H; [reflexivity|].
    unfold reads_of. lia.
  Qed.
  Lemma read_length chunk chk width rs k (st : St) m :
    map_start EO chunk chk width rs k st = Ok m -> k * chunk < width -> m = Nat.min chunk (width - k * chunk) * bl.
  Proof.
    unfold map_start. destruct (chk _ _ _); cbn [rbind]; try discriminate. intros H Hk. injection H as <-. unfold bl.
    replace (rs + width - (rs + k * chunk)) with (width - k * chunk) by lia. reflexivity.
  Qed.
  Lemma write_length b chunk width level rs map_len piece k d out :
    map_task EO A b chunk width level rs map_len piece k d = Ok out -> k * chunk < width ->
    List.length out = Nat.min chunk (width - k * chunk) / b * bl.
  Proof.
    unfold map_task. destruct (decode EO d); cbn [rbind]; try discriminate.
    unfold ensure. destruct (_ =? _) eqn:Q; cbn [rbind]; try discriminate. destruct (_ <=? _); try discriminate.
    intros H Hk. injection H as <-. apply Nat.eqb_eq in Q. rewrite Q. unfold bl.
    replace (rs + width - (rs + k * chunk)) with (width - k * chunk) by lia. reflexivity.
  Qed.
  Lemma write_footprint b chunk (h : handle) width ws k j x (st : St) r st' off :
    j < Nat.min chunk (width - k * chunk) / b * bl ->
    map_write EO h ws (chunk / b * bl) k j x st = (r, st') -> ~ writes_of bl b chunk width ws k off ->
    nth_error (fs_data (snd st') (h_ino h)) off = nth_error (fs_data (snd st) (h_ino h)) off.
  Proof.
    intros Hj. unfold map_write, fs_map_write. fold bl. cbn [List.length orb Nat.eqb].
    destruct (ws * bl + k * (chunk / b * bl) + j + 1 <=? List.length (fs_data (snd st) (h_ino h))) eqn:Q; cbn [orb];
      intros H Hn; injection H as <- <-; [|reflexivity]. cbn [snd]. rewrite fs_set_data_data.
    unfold writes_of in Hn. apply Nat.leb_le in Q. rewrite nth_error_overwrite by lia. cbn [List.length].
    destruct (off <? ws * bl + k * (chunk / b * bl) + j) eqn:Q1; [reflexivity|].
    destruct (off <? ws * bl + k * (chunk / b * bl) + j + 1) eqn:Q2; [|reflexivity]. exfalso. apply Hn.
    clear - Hj Q1 Q2. generalize dependent (chunk / b * bl). intros p Q1 Q2. lia.
  Qed.
End Footprint.

(* ---- C70 ---- *)
(* No byte that a task may write is read or written by another task, and no
   task reads what it writes. *)
Theorem C70_race_free : forall bl b chunk width rs ws k k' off,
  arity b -> 0 < chunk -> chunk mod b = 0 -> rs + width <= ws -> k * chunk < width -> k' * chunk < width ->
  writes_of bl b chunk width ws k off ->
  ~ reads_of bl chunk width rs k' off /\ (k <> k' -> ~ writes_of bl b chunk width ws k' off).
Proof.
  intros bl b chunk width rs ws k k' off Hb Hc Hd Hws Hk Hk' [W1 W2]. pose proof (arity_ge b Hb) as H2.
  assert (Hp : forall i, Nat.min chunk (width - i * chunk) / b <= chunk / b) by (intros i; apply Nat.div_le_mono; lia).
  split.
  - intros [R1 R2]. assert ((rs + k' * chunk) * bl + Nat.min chunk (width - k' * chunk) * bl <= ws * bl).
    { rewrite <- Nat.mul_add_distr_r. apply Nat.mul_le_mono_r. lia. }
    clear - W1 R2 H. generalize dependent (chunk / b * bl). intros. lia.
  - intros Hne [V1 V2].
    assert (G : forall i, Nat.min chunk (width - i * chunk) / b * bl <= chunk / b * bl) by (intros i; apply Nat.mul_le_mono_r, Hp).
    pose proof (G k) as G1. pose proof (G k') as G2. clear G Hp.
    set (p := chunk / b * bl) in *. set (a := Nat.min chunk (width - k * chunk) / b * bl) in *. set (a' := Nat.min chunk (width - k' * chunk) / b * bl) in *.
    clearbody p a a'. assert (k < k' \/ k' < k) as [L|L] by lia.
    + pose proof (Nat.mul_le_mono_r (S k) k' p L) as M. cbn [Nat.mul] in M. lia.
    + pose proof (Nat.mul_le_mono_r (S k') k p L) as M. cbn [Nat.mul] in M. lia.
Qed.

(* Consequently, at every point of every schedule, what a task has read is what
   the file held when the row was started, what it is writing is the hash of
   that, and no task has failed. *)
Theorem C70_no_torn_reads :
  forall E (EO : ElementOps E) (A : AlgOps E) (b chunk : nat) (T : Type) (file : T -> handle) chk (s : T) f cap (rowr : list E) w level rs ws sched ts fl st',
  let bl := e_byte_len EO in
  let start := fs_data f (h_ino (file s)) in
  ElementLaws EO -> arity b -> 0 < chunk -> chunk mod b = 0 -> h_write (file s) = true ->
  1 <= w -> List.length rowr = w * b -> rs + w * b <= ws -> ws + w <= cap -> List.length start = cap * bl ->
  sub start (rs * bl) (w * b * bl) = encode EO rowr ->
  (forall f k n, 0 < n -> k + n <= w * b -> chk (s, f) (rs + k) (rs + k + n) = Ok tt) ->
  run_byte_sched (num_chunks chunk (w * b)) (map_start EO chunk chk (w * b) rs) (map_read EO chunk (file s) rs)
    (map_task EO A b chunk (w * b) level rs (w * b * bl) (chunk / b * bl)) (map_write EO (file s) ws (chunk / b * bl))
    sched (fun _ => BNew) None (s, f) = (ts, fl, st') ->
  fl = None /\
  forall k, k < num_chunks chunk (w * b) ->
    match ts k with
    | BNew => True
    | BRead got => forall j x, nth_error got j = Some (Some x) -> nth_error start ((rs + k * chunk) * bl + j) = Some x
    | BWrite out => map fst out = encode EO (sub (hash_row A b level rowr) (k * (chunk / b)) (piece b chunk w k))
    | BFailed => False
    end.
Proof.
  intros E EO A b chunk T file chk s f cap rowr w level rs ws sched ts fl st' bl start EL Hb Hc Hd HW Hw Hl Hws Hcap Hlen Hrow Hchk Hrun.
  pose proof (bl_pos EO EL) as Hbl. fold bl in Hbl.
  set (v0 := fun i => if rs <=? i then nth_error rowr (i - rs) else None).
  assert (HD : DRep EO cap v0 start).
  { split; [exact Hlen|]. intros i e He. unfold v0 in He. destruct (rs <=? i) eqn:Q; [|discriminate].
    apply Nat.leb_le in Q. assert (Hi : i - rs < w * b) by (rewrite <- Hl; apply nth_error_Some; rewrite He; discriminate).
    split; [lia|]. fold bl. pose proof (encode_nth EO EL rowr (i - rs) e He) as G. fold bl in G. rewrite <- G, <- Hrow.
    apply nth_error_ext. intros j. rewrite !nth_error_sub. destruct (j <? bl) eqn:Qj; [|reflexivity].
    apply Nat.ltb_lt in Qj.
    assert (Hlt : (i - rs) * bl + j < w * b * bl).
    { apply Nat.lt_le_trans with ((i - rs) * bl + bl); [lia|]. replace ((i - rs) * bl + bl) with (S (i - rs) * bl) by (cbn [Nat.mul]; lia).
      apply Nat.mul_le_mono_r. lia. }
    apply Nat.ltb_lt in Hlt. rewrite Hlt. f_equal. rewrite Nat.mul_sub_distr_r.
    pose proof (Nat.mul_le_mono_r rs i bl Q). lia. }
  assert (Hk0 : knows v0 rs rowr).
  { intros i Hi. unfold v0. replace (rs <=? rs + i) with true by (symmetry; apply Nat.leb_le; lia). f_equal. lia. }
  pose proof (byte_sched_ok (num_chunks chunk (w * b)) _ _ _ _
    (MapInv EO file A b chunk s f cap rowr w level ws)
    _ _
    (ml_start EO EL file chk A b chunk Hb Hc Hd s f cap rowr w level rs ws HW Hl Hw Hws Hcap Hchk)
    (ml_read EO EL file chk A b chunk Hb Hc Hd s f cap v0 rowr w level rs ws HW HD Hl Hw Hk0 Hws Hcap Hchk)
    (ml_comp EO EL file chk A b chunk Hb Hc Hd s f cap rowr w level rs ws HW Hl Hw Hws Hcap Hchk)
    (ml_write EO EL file chk A b chunk Hb Hc Hd s f cap rowr w level rs ws HW Hl Hw Hws Hcap Hchk)
    sched (fun _ _ => false) (fun _ => BNew) (s, f)
    (ml_init EO file A b chunk s f cap v0 rowr w level ws HD) (fun k Hk j => eq_refl)) as G.
  destruct G as (wd & ts1 & st1 & G1 & _ & G2 & _). fold bl in G1. rewrite Hrun in G1. injection G1 as -> -> _.
  split; [reflexivity|]. intros k Hk. specialize (G2 k Hk). destruct (ts1 k) as [|got|o|]; cbn in G2; auto.
  - destruct G2 as (_ & L & G2). intros j x Hx. rewrite (G2 j x Hx).
    assert (Hj : j < List.length got) by (apply nth_error_Some; rewrite Hx; discriminate). rewrite L in Hj.
    unfold start, bl. rewrite (ml_in_byte EO EL file chk A b chunk Hb Hc Hd s f cap v0 rowr w level rs ws HW HD Hl Hw Hk0 Hws Hcap Hchk k j Hk Hj).
    apply nth_error_nth'. exact Hj.
  - destruct G2 as (L & G2 & _). apply nth_error_ext. intros j. rewrite nth_error_map.
    destruct (nth_error o j) as [[x d]|] eqn:Q; cbn [option_map fst].
    + destruct (G2 j x d Q) as [-> _]. symmetry. apply nth_error_nth'. rewrite <- L. apply nth_error_Some. rewrite Q. discriminate.
    + symmetry. apply nth_error_None. apply nth_error_None in Q. rewrite <- L. exact Q.
Qed.

(* a row of 16 one-byte nodes at offset 0, its parents at offset 16, two tasks of
   eight nodes each: task 1 in the middle of writing, task 0 in the middle of reading *)
Definition race_bytes : list byte := encode BO (map el (seq 1 16)) ++ repeat x00 8.
Definition race_fs : fs := {| fs_dir := fun _ => None; fs_ino := fun _ => {| i_data := race_bytes; i_ro := false |}; fs_next := 1 |}.
Definition race_file (u : unit) : handle := {| h_ino := 0; h_write := true |}.
Definition race_run (sched : list (nat * nat)) :=
  run_byte_sched (num_chunks 8 16) (map_start BO 8 (fun _ _ _ => Ok tt) 16 0) (map_read BO 8 (race_file tt) 0)
    (map_task BO sum_alg 2 8 16 0 0 16 4) (map_write BO (race_file tt) 16 4) sched (fun _ => BNew) None (tt, race_fs).
Definition race_sched : list (nat * nat) :=
  [(1, 0); (0, 0); (0, 5)] ++ map (fun j => (1, j)) [7; 0; 3; 1; 2; 5; 6; 4; 0; 0; 2] ++ [(0, 1)].
Example C70_case :
  let '(ts, fl, (_, f')) := race_run race_sched in
  fl = None /\
  match ts 0 with BRead got => map (option_map Byte.to_nat) got = [None; Some 2; None; None; None; Some 6; None; None] | _ => False end /\
  match ts 1 with BWrite out => map snd out = [true; false; true; false] | _ => False end /\
  map Byte.to_nat (fs_data f' 0) = seq 1 16 ++ [0; 0; 0; 0; val (h_node sum_alg 0 [el 9; el 10]); 0; val (h_node sum_alg 0 [el 13; el 14]); 0].
Proof. vm_compute. repeat split. Qed.
Example C70_case_meets :
  ElementLaws BO /\ arity 2 /\ 8 mod 2 = 0 /\ h_write (race_file tt) = true /\ List.length (map el (seq 1 16)) = 8 * 2 /\
  List.length (fs_data race_fs 0) = 24 * 1 /\ sub (fs_data race_fs 0) (0 * 1) (8 * 2 * 1) = encode BO (map el (seq 1 16)) /\
  writes_of 1 2 8 16 16 1 20 /\ reads_of 1 8 16 0 1 8.
Proof.
  split; [exact BL|]. split; [exists 1; split; [lia|reflexivity]|]. repeat split; try reflexivity; cbn; lia.
Qed.

Print Assumptions C70_race_free.
Print Assumptions C70_no_torn_reads.
