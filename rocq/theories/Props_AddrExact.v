(* C60: what reads and writes do in release mode at any 64-bit index, for every file-backed
   store: the byte address is taken modulo 2^64, then checked, then used. *)
From Coq Require Import String List Arith NArith ZArith Bool Lia Init.Byte ZifyBool ZifyNat.
From Verif Require Import Base Element Hash Sizing FS Sched Store VecStore DiskStore MmapStore LevelCache ProofModel Tree ListFacts StoreSpec FileFacts DiskFacts MmapFacts Cases Machine Addr64 AddrFacts Props_Addr.
Import ListNotations.
Local Open Scope N_scope.

(* the byte address computed for an element index *)
Definition wrapped {E} (EO : ElementOps E) (i : N) : nat := N.to_nat ((i * N.of_nat (e_byte_len EO)) mod 2 ^ 64).
Lemma wrapped_lt E (EO : ElementOps E) i : N.of_nat (wrapped EO i) < 2 ^ 64.
Proof. unfold wrapped. rewrite N2Nat.id. apply N.mod_lt. discriminate. Qed.
Lemma wrapped_id E (EO : ElementOps E) i : N.of_nat (wrapped EO i) = (i * N.of_nat (e_byte_len EO)) mod w64.
Proof. unfold wrapped. rewrite N2Nat.id. reflexivity. Qed.

Theorem C60_wrapped_mmap : forall E (EO : ElementOps E) (st : mmap_t * fs) i,
  N.of_nat (mm_len (fst st)) * N.of_nat (e_byte_len EO) < 2 ^ 63 -> N.of_nat (e_byte_len EO) < 2 ^ 63 ->
  let s := wrapped EO i in
  mmap_read_at64 EO Wrap st i =
  (do _ <- ensure (s <? mm_len (fst st) * e_byte_len EO)%nat "start out of range";
   do _ <- ensure (s + e_byte_len EO <=? mm_len (fst st) * e_byte_len EO)%nat "end out of range";
   match mm_map (fst st) with
   | None => Err "Internal map needs to be initialized"
   | Some n => if (s + e_byte_len EO <=? n)%nat then do bs <- fs_map_read (snd st) (mm_file (fst st)) s (e_byte_len EO); e_from_slice EO bs
               else Panic "slice index out of range"
   end).
Proof.
  intros E EO st i HF Hb s. unfold mmap_read_at64. rewrite elem_range64_wrap. cbn [rbind]. rewrite <- (wrapped_id E EO i). fold s.
  pose proof (wrapped_lt E EO i) as HM. fold s in HM. clearbody s. rewrite check64_eq by exact HF.
  rewrite mmap_slice64_eq. rewrite Nat2N.id. pose proof w64_val as W.
  destruct (s <? mm_len (fst st) * e_byte_len EO)%nat eqn:C; cbn [ensure rbind]; [|reflexivity].
  rewrite N.mod_small by lia. replace (N.to_nat (N.of_nat s + N.of_nat (e_byte_len EO))) with (s + e_byte_len EO)%nat by lia.
  destruct (s + e_byte_len EO <=? mm_len (fst st) * e_byte_len EO)%nat; cbn [ensure rbind]; [|reflexivity].
  unfold mmap_slice. destruct (mm_map (fst st)) as [n|]; [|reflexivity].
  replace (s <=? s + e_byte_len EO)%nat with true by lia. cbn [andb].
  destruct (s + e_byte_len EO <=? n)%nat; [|reflexivity]. replace (s + e_byte_len EO - s)%nat with (e_byte_len EO) by lia. reflexivity.
Qed.

(* LevelCacheStore: the main model's read of the bytes [s, s + bl) *)
Theorem C60_wrapped_level_cache : forall E (EO : ElementOps E) (st : lc_t * fs) i,
  lc_fits EO (fst st) -> N.of_nat (e_byte_len EO) < 2 ^ 63 ->
  let s := wrapped EO i in
  lc_read_at64 EO Wrap st i =
  (do _ <- lc_check EO st s (s + e_byte_len EO);
   do bs <- lc_store_read_range EO st s (s + e_byte_len EO);
   e_from_slice EO bs).
Proof.
  intros E EO st i HF Hb s. unfold lc_read_at64. rewrite elem_range64_wrap. cbn [rbind]. rewrite <- (wrapped_id E EO i). fold s.
  pose proof (wrapped_lt E EO i) as HM. fold s in HM. clearbody s. pose proof w64_val as W.
  pose proof HF as (F1 & F2 & F3). unfold fits in F1.
  destruct (N.lt_ge_cases (N.of_nat s) (N.of_nat (lc_len (fst st)) * N.of_nat (e_byte_len EO))) as [C|C].
  - rewrite N.mod_small by lia. etransitivity; [apply (lc_check64_then EO Wrap st _ _ _ (do bs <- lc_store_read_range EO st s (s + e_byte_len EO); e_from_slice EO bs) HF)|].
    + intros H. rewrite lc_store_read_range64_eq by (auto; lia). rewrite Nat2N.id.
      replace (N.to_nat (N.of_nat s + N.of_nat (e_byte_len EO))) with (s + e_byte_len EO)%nat by lia. reflexivity.
    + rewrite Nat2N.id. replace (N.to_nat (N.of_nat s + N.of_nat (e_byte_len EO))) with (s + e_byte_len EO)%nat by lia. reflexivity.
  - unfold lc_check64, lc_check. rewrite check64_eq by exact F1. rewrite Nat2N.id.
    replace (s <? lc_len (fst st) * e_byte_len EO)%nat with false by lia. reflexivity.
Qed.

(* Ranges: both ends are taken modulo 2^64 separately; if they come out in the wrong order
   after passing the checks, the read panics. *)
Theorem C60_wrapped_range : forall E (EO : ElementOps E) (sd : disk_t * fs) (sm : mmap_t * fs) (sl : lc_t * fs) i j,
  N.of_nat (ds_len (fst sd)) * N.of_nat (e_byte_len EO) < 2 ^ 63 ->
  N.of_nat (mm_len (fst sm)) * N.of_nat (e_byte_len EO) < 2 ^ 63 ->
  lc_fits EO (fst sl) ->
  let s := wrapped EO i in let e := wrapped EO j in
  disk_read_range64 EO Wrap sd i j =
    (do _ <- disk_check EO sd s e;
     if (s <=? e)%nat then do bs <- fs_read_exact_at (snd sd) (ds_file (fst sd)) s (e - s); decode EO bs
     else Panic "capacity overflow") /\
  mmap_read_range64 EO Wrap sm i j =
    (do _ <- mmap_check EO sm s e;
     do bs <- mmap_slice sm s e;
     decode EO bs) /\
  lc_read_range64 EO Wrap sl i j =
    (do _ <- lc_check EO sl s e;
     if (s <=? e)%nat then do bs <- lc_store_read_range EO sl s e; decode EO bs
     else Panic "capacity overflow").
Proof.
  intros E EO sd sm sl i j HD HM HL s e.
  unfold disk_read_range64, mmap_read_range64, lc_read_range64, span64. rewrite !mul64_wrap. cbn [rbind].
  rewrite <- !(wrapped_id E EO). fold s e. pose proof (wrapped_lt E EO i) as Bs. pose proof (wrapped_lt E EO j) as Be. fold s in Bs. fold e in Be.
  clearbody s e. pose proof w64_val as W. split; [|split].
  - unfold disk_check. etransitivity; [apply (through_check EO Wrap _ _ _ _
      (if (s <=? e)%nat then do bs <- fs_read_exact_at (snd sd) (ds_file (fst sd)) s (e - s); decode EO bs else Panic "capacity overflow") HD)|
      rewrite !Nat2N.id; reflexivity].
    rewrite !Nat2N.id. intros H1 H2. unfold disk_store_read_range64, sub64, alloc64.
    destruct (s <=? e)%nat eqn:C.
    + replace (N.of_nat s <=? N.of_nat e) with true by lia. cbn [rbind].
      replace (N.of_nat e - N.of_nat s <? 2 ^ 63) with true by lia. cbn [rbind].
      replace (N.to_nat (N.of_nat e - N.of_nat s)) with (e - s)%nat by lia. rewrite Nat2N.id. reflexivity.
    + replace (N.of_nat s <=? N.of_nat e) with false by lia. cbn [rbind].
      replace (w64 + N.of_nat e - N.of_nat s <? 2 ^ 63) with false; [reflexivity|]. symmetry. apply N.ltb_ge. rewrite W. change (2 ^ 64) with (2 ^ 63 + 2 ^ 63). lia.
  - unfold mmap_check. etransitivity; [apply (through_check EO Wrap _ _ _ _ (do bs <- mmap_slice sm s e; decode EO bs) HM)|
      rewrite !Nat2N.id; reflexivity].
    intros _ _. rewrite mmap_slice64_eq, !Nat2N.id. reflexivity.
  - pose proof HL as (F1 & F2 & F3). unfold fits in F1.
    destruct (N.lt_ge_cases (N.of_nat s) (N.of_nat (lc_len (fst sl)) * N.of_nat (e_byte_len EO))) as [Hs|Hs].
    2:{ unfold lc_check64, lc_check. rewrite check64_eq by exact F1. rewrite Nat2N.id.
        replace (s <? lc_len (fst sl) * e_byte_len EO)%nat with false by lia. reflexivity. }
    etransitivity; [apply (lc_check64_then EO Wrap sl _ _ _
      (if (s <=? e)%nat then do bs <- lc_store_read_range EO sl s e; decode EO bs else Panic "capacity overflow") HL)|
      rewrite !Nat2N.id; reflexivity].
    intros H. destruct (s <=? e)%nat eqn:C.
    + rewrite lc_store_read_range64_eq by (auto; lia). rewrite !Nat2N.id. reflexivity.
    + unfold lc_store_read_range64, sub64, alloc64. replace (N.of_nat s <=? N.of_nat e) with false by lia. cbn [rbind].
      replace (w64 + N.of_nat e - N.of_nat s <? 2 ^ 63) with false; [reflexivity|]. symmetry. apply N.ltb_ge. rewrite W. change (2 ^ 64) with (2 ^ 63 + 2 ^ 63). lia.
Qed.

(* Writes: the end of the written bytes is taken modulo 2^64 before it is compared with the
   capacity, and so is the new length. *)
Theorem C60_wrapped_write : forall E (EO : ElementOps E) el (st : disk_t * fs) (sm : mmap_t * fs) i,
  ElementLaws EO -> N.of_nat (e_byte_len EO) < 2 ^ 63 ->
  let s := wrapped EO i in
  disk_write_at64 EO Wrap el i st =
    (if (N.of_nat s + N.of_nat (e_byte_len EO)) mod 2 ^ 64 <=? N.of_nat (ds_size (fst st)) then
       match fs_write_all_at (ds_file (fst st)) s (e_as_ref EO el) (snd st) with
       | (Ok _, f) => (Ok tt, (ds_set_len (fst st) (Nat.max (ds_len (fst st)) (N.to_nat ((i + 1) mod 2 ^ 64))), f))
       | (r, f) => (r, (fst st, f))
       end
     else (Err "Requested slice too large", st)) /\
  (forall n, mm_map (fst sm) = Some n ->
   mmap_write_at64 EO Wrap el i sm =
    (if N.of_nat s + N.of_nat (e_byte_len EO) <? 2 ^ 64 then
       if (s + e_byte_len EO <=? n)%nat then
         match fs_map_write (mm_file (fst sm)) s (e_as_ref EO el) (snd sm) with
         | (Ok _, f) => (Ok tt, (mm_set_len (fst sm) (Nat.max (mm_len (fst sm)) (N.to_nat ((i + 1) mod 2 ^ 64))), f))
         | (r, f) => (r, (fst sm, f))
         end
       else (Panic "range end index out of range for slice", sm)
     else (Panic "range end index out of range for slice", sm))).
Proof.
  intros E EO el st sm i EL Hb s. pose proof (wrapped_lt E EO i) as Bs. fold s in Bs. pose proof w64_val as W.
  pose proof (el_len EO EL el) as Hl. split.
  - unfold disk_write_at64, disk_store_copy_from_slice64, sbind, slift, sget. rewrite mul64_wrap. rewrite <- (wrapped_id E EO). fold s. clearbody s.
    rewrite !add64_wrap, Hl, Nat2N.id. change w64 with (2 ^ 64).
    destruct ((N.of_nat s + N.of_nat (e_byte_len EO)) mod 2 ^ 64 <=? N.of_nat (ds_size (fst st))); [|reflexivity].
    unfold on_fs. destruct (fs_write_all_at (ds_file (fst st)) s (e_as_ref EO el) (snd st)) as [[[]| | |] f]; reflexivity.
  - intros n Hn. unfold mmap_write_at64, sbind, slift, sget. rewrite elem_range64_wrap. rewrite <- (wrapped_id E EO). fold s. clearbody s.
    cbn [fst snd]. unfold mmap_ensure_map, mmap_store64. rewrite Hn. cbn beta iota. rewrite Hn. change w64 with (2 ^ 64) in *. rewrite Hl, Nat2N.id.
    destruct (N.of_nat s + N.of_nat (e_byte_len EO) <? 2 ^ 64) eqn:C.
    + rewrite N.mod_small by lia.
      replace (N.of_nat s <=? N.of_nat s + N.of_nat (e_byte_len EO)) with true by lia. cbn [andb].
      replace (N.of_nat s + N.of_nat (e_byte_len EO) <=? N.of_nat n) with (s + e_byte_len EO <=? n)%nat by lia.
      destruct (s + e_byte_len EO <=? n)%nat; [|reflexivity].
      replace (N.to_nat (N.of_nat s + N.of_nat (e_byte_len EO) - N.of_nat s) =? e_byte_len EO)%nat with true by lia.
      unfold on_fs. destruct (fs_map_write (mm_file (fst sm)) s (e_as_ref EO el) (snd sm)) as [[[]| | |] f]; try reflexivity.
      rewrite add64_wrap. reflexivity.
    + replace ((N.of_nat s <=? (N.of_nat s + N.of_nat (e_byte_len EO)) mod 2 ^ 64) && ((N.of_nat s + N.of_nat (e_byte_len EO)) mod 2 ^ 64 <=? N.of_nat n)) with false; [reflexivity|].
      symmetry. apply andb_false_iff. left. apply N.leb_gt.
      replace (N.of_nat s + N.of_nat (e_byte_len EO)) with ((N.of_nat s + N.of_nat (e_byte_len EO) - 2 ^ 64) + 1 * 2 ^ 64) by lia.
      rewrite N.mod_add by discriminate. rewrite N.mod_small by lia. lia.
Qed.

(* Hence the capacity check of DiskStore::write_at can be passed by an address outside any
   file: for element sizes dividing 2^64 the last index of the address space is handed to
   the operating system whatever the capacity is.  MmapStore panics there. *)
Theorem C60_write_check_refuted : forall E (EO : ElementOps E) el (st : disk_t * fs) (sm : mmap_t * fs) k n,
  ElementLaws EO -> N.of_nat (e_byte_len EO) < 2 ^ 63 -> k * N.of_nat (e_byte_len EO) = 2 ^ 64 ->
  disk_write_at64 EO Wrap el (k - 1) st =
    match fs_write_all_at (ds_file (fst st)) (N.to_nat (2 ^ 64 - N.of_nat (e_byte_len EO))) (e_as_ref EO el) (snd st) with
    | (Ok _, f) => (Ok tt, (ds_set_len (fst st) (Nat.max (ds_len (fst st)) (N.to_nat (k mod 2 ^ 64))), f))
    | (r, f) => (r, (fst st, f))
    end /\
  (mm_map (fst sm) = Some n -> exists m, mmap_write_at64 EO Wrap el (k - 1) sm = (Panic m, sm)).
Proof.
  intros E EO el st sm k n EL Hb Hk. pose proof (el_pos EO EL) as Hp.
  assert (Hk1 : 1 <= k) by (destruct k; [discriminate Hk|lia]).
  assert (Hw : wrapped EO (k - 1) = N.to_nat (2 ^ 64 - N.of_nat (e_byte_len EO))).
  { unfold wrapped. f_equal. rewrite N.mul_sub_distr_r, Hk, N.mul_1_l. apply N.mod_small. lia. }
  destruct (C60_wrapped_write E EO el st sm (k - 1) EL Hb) as [H1 H2].
  rewrite Hw in H1. rewrite Hw in H2. rewrite N2Nat.id in H1. rewrite N2Nat.id in H2.
  replace (2 ^ 64 - N.of_nat (e_byte_len EO) + N.of_nat (e_byte_len EO)) with (2 ^ 64) in H1 by lia.
  replace (2 ^ 64 - N.of_nat (e_byte_len EO) + N.of_nat (e_byte_len EO)) with (2 ^ 64) in H2 by lia.
  replace (k - 1 + 1) with k in H1 by lia. split.
  - rewrite N.mod_same in H1 by discriminate. replace (0 <=? N.of_nat (ds_size (fst st))) with true in H1 by lia. exact H1.
  - intros Hn. eexists. exact (H2 n Hn).
Qed.

(* non-vacuity: elements of 32 bytes, say, satisfy the hypotheses with k = 2^59; the
   one-byte elements of Cases.v: the store of three elements refuses everything beyond *)
Example C60_exact_case :
  2 ^ 59 * N.of_nat 32 = 2 ^ 64 /\
  map (wrapped BO) [0; 3; 2 ^ 64 + 1] = [0; 3; 1]%nat /\
  (let sd := {| ds_len := 3; ds_file := {| h_ino := 0; h_write := true |}; ds_loaded := false; ds_size := 3 |} in
   let f := fs_set_data fs_empty 0 [x01; x02; x03] in
   (do x <- disk_read_range64 BO Wrap (sd, f) 1 3; Ok (map val x)) = Ok [2; 3]%nat /\
   disk_read_range64 BO Wrap (sd, f) 2 1 = Panic "capacity overflow" /\
   (do x <- disk_read_range64 BO Wrap (sd, f) (2 ^ 64 + 1) 2; Ok (map val x)) = Ok [2]%nat /\
   fst (disk_write_at64 BO Wrap (el 7) 3 (sd, f)) = Err "Requested slice too large" /\
   (let sm := {| mm_map := Some 3%nat; mm_file := {| h_ino := 0; h_write := true |}; mm_len := 3 |} in
    fst (mmap_write_at64 BO Wrap (el 7) (2 ^ 64 - 1) (sm, f)) = Panic "range end index out of range for slice" /\
    fst (mmap_write_at64 BO Wrap (el 7) 2 (sm, f)) = Ok tt)).
Proof. vm_compute. repeat split. Qed.

Print Assumptions C60_wrapped_mmap.
Print Assumptions C60_wrapped_level_cache.
Print Assumptions C60_wrapped_range.
Print Assumptions C60_wrapped_write.
Print Assumptions C60_write_check_refuted.
