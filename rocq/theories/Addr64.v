(* The element and byte addressing of DiskStore, MmapStore and LevelCacheStore in 64-bit
   arithmetic, in the two modes of Machine.v.  An index argument is an N below 2^64; the
   fields of a store are the natural numbers of the main model.  Everything that is not
   address arithmetic is shared with the main model. *)
From Coq Require Import String List Arith NArith Bool Lia Init.Byte.
From Verif Require Import Base Element Hash Sizing FS Sched Store DiskStore MmapStore LevelCache ProofModel Tree Machine.
Import ListNotations.
Local Open Scope N_scope.

Section Addr.
  Context {E : Type} (EO : ElementOps E).
  Variable m : mode.
  Let bl : N := N.of_nat (e_byte_len EO).

  (* disk.rs 154-155, mmap.rs 202-203, level_cache.rs 348-349: let start = index * elem_len; let end = start + elem_len *)
  Definition elem_range64 (index : N) : res (N * N) :=
    do s <- mul64 m index bl;
    do e <- add64 m s bl;
    Ok (s, e).

  (* disk.rs 187-188, mmap.rs 238-239, level_cache.rs 393-394: let start = r.start * elem_len; let end = r.end * elem_len *)
  Definition span64 (start end_ : N) : res (N * N) :=
    do s <- mul64 m start bl;
    do e <- mul64 m end_ bl;
    Ok (s, e).

  (* disk.rs 157-159, mmap.rs 204-207, level_cache.rs 351-353: let len = self.len * elem_len; ensure!(start < len); ensure!(end <= len) *)
  Definition check64 (len : nat) (s e : N) : res unit :=
    do l <- mul64 m (N.of_nat len) bl;
    do _ <- ensure (s <? l) "start out of range";
    ensure (e <=? l) "end out of range".

  (* disk.rs 510, level_cache.rs 708: vec![0; n], more than isize::MAX bytes panic *)
  Definition alloc64 (n : N) : res unit :=
    if n <? 2 ^ 63 then Ok tt else Panic "capacity overflow".

  (* DiskStore *)

  (* disk.rs 508-524 *)
  Definition disk_store_read_range64 (st : disk_t * fs) (s e : N) : res (list byte) :=
    do n <- sub64 m e s;
    do _ <- alloc64 n;
    fs_read_exact_at (snd st) (ds_file (fst st)) (N.to_nat s) (N.to_nat n).

  (* disk.rs 153-162 *)
  Definition disk_read_at64 (st : disk_t * fs) (index : N) : res E :=
    do (s, e) <- elem_range64 index;
    do _ <- check64 (ds_len (fst st)) s e;
    do bs <- disk_store_read_range64 st s e;
    e_from_slice EO bs.

  (* disk.rs 164-173 *)
  Definition disk_read_into64 (st : disk_t * fs) (index : N) (buf : list byte) : res (list byte) :=
    do (s, e) <- elem_range64 index;
    do _ <- check64 (ds_len (fst st)) s e;
    fs_read_exact_at (snd st) (ds_file (fst st)) (N.to_nat s) (List.length buf).

  (* disk.rs 175-184 *)
  Definition disk_read_range_into64 (st : disk_t * fs) (start end_ : N) (buf : list byte) : res (list byte) :=
    do (s, e) <- span64 start end_;
    do _ <- check64 (ds_len (fst st)) s e;
    fs_read_exact_at (snd st) (ds_file (fst st)) (N.to_nat s) (List.length buf).

  (* disk.rs 186-199 *)
  Definition disk_read_range64 (st : disk_t * fs) (start end_ : N) : res (list E) :=
    do (s, e) <- span64 start end_;
    do _ <- check64 (ds_len (fst st)) s e;
    do bs <- disk_store_read_range64 st s e;
    decode EO bs.

  (* disk.rs 540-549 *)
  Definition disk_store_copy_from_slice64 (start : N) (d : list byte) : SM (disk_t * fs) unit :=
    let! e := slift (add64 m start (N.of_nat (List.length d))) in
    let! st := sget in
    if e <=? N.of_nat (ds_size (fst st)) then
      on_fs (fs_write_all_at (ds_file (fst st)) (N.to_nat start) d)
    else slift (Err "Requested slice too large").

  (* disk.rs 135-139 *)
  Definition disk_write_at64 (el : E) (index : N) : SM (disk_t * fs) unit :=
    let! s := slift (mul64 m index bl) in
    let! _ := disk_store_copy_from_slice64 s (e_as_ref EO el) in
    let! n := slift (add64 m index 1) in
    let! st := sget in
    disk_upd_len (Nat.max (ds_len (fst st)) (N.to_nat n)).

  (* disk.rs 141-151 *)
  Definition disk_copy_from_slice64 (buf : list byte) (start : N) : SM (disk_t * fs) unit :=
    let! _ := slift (ensure (List.length buf mod e_byte_len EO =? 0)%nat "buf size must be a multiple of byte_len") in
    let! s := slift (mul64 m start bl) in
    let! _ := disk_store_copy_from_slice64 s buf in
    let! n := slift (add64 m start (N.of_nat (List.length buf / e_byte_len EO))) in
    let! st := sget in
    disk_upd_len (Nat.max (ds_len (fst st)) (N.to_nat n)).

  (* MmapStore *)

  (* mmap.rs 213, 249: &data[start..end] *)
  Definition mmap_slice64 (st : mmap_t * fs) (s e : N) : res (list byte) :=
    match mm_map (fst st) with
    | None => Err "Internal map needs to be initialized"
    | Some n =>
        if (s <=? e) && (e <=? N.of_nat n)
        then fs_map_read (snd st) (mm_file (fst st)) (N.to_nat s) (N.to_nat (e - s))
        else Panic "slice index out of range"
    end.

  (* mmap.rs 201-214 *)
  Definition mmap_read_at64 (st : mmap_t * fs) (index : N) : res E :=
    do (s, e) <- elem_range64 index;
    do _ <- check64 (mm_len (fst st)) s e;
    do bs <- mmap_slice64 st s e;
    e_from_slice EO bs.

  (* mmap.rs 237-253 *)
  Definition mmap_read_range64 (st : mmap_t * fs) (start end_ : N) : res (list E) :=
    do (s, e) <- span64 start end_;
    do _ <- check64 (mm_len (fst st)) s e;
    do bs <- mmap_slice64 st s e;
    decode EO bs.

  (* mmap.rs 123, 144: the range is known; the map is indexed with start..end *)
  Definition mmap_store64 (s e : N) (d : list byte) : SM (mmap_t * fs) unit := fun st =>
    match mm_map (fst st) with
    | None => (Panic "called unwrap on a None value", st)
    | Some n =>
        if (s <=? e) && (e <=? N.of_nat n) then
          if (N.to_nat (e - s) =? List.length d)%nat then
            on_fs (fs_map_write (mm_file (fst st)) (N.to_nat s) d) st
          else (Panic "source slice length does not match destination slice length", st)
        else (Panic "range end index out of range for slice", st)
    end.

  (* mmap.rs 114-127 *)
  Definition mmap_write_at64 (el : E) (index : N) : SM (mmap_t * fs) unit :=
    let! se := slift (elem_range64 index) in
    let! _ := mmap_ensure_map in
    let! _ := mmap_store64 (fst se) (snd se) (e_as_ref EO el) in
    let! n := slift (add64 m index 1) in
    let! st := sget in
    mmap_upd_len (Nat.max (mm_len (fst st)) (N.to_nat n)).

  (* LevelCacheStore *)

  (* level_cache.rs 354-357: start <= self.data_width * self.elem_len || start >= self.cache_index_start *)
  Definition lc_in_bounds64 (s : lc_t) (start : N) : res bool :=
    do w <- mul64 m (N.of_nat (lc_data_width s)) bl;
    Ok ((start <=? w) || (N.of_nat (lc_cache_index_start s) <=? start)).

  (* level_cache.rs 351-357 *)
  Definition lc_check64 (st : lc_t * fs) (s e : N) : res unit :=
    do _ <- check64 (lc_len (fst st)) s e;
    do ok <- lc_in_bounds64 (fst st) s;
    ensure ok "out of bounds".

  (* store/mod.rs 49-51: read_fn(start + offset, end + offset, buf, source) *)
  Definition er_read64 (r : ExternalReader) (f : fs) (s e : N) (buf : list byte) : res (nat * list byte) :=
    do s' <- add64 m s (N.of_nat (er_offset r));
    do e' <- add64 m e (N.of_nat (er_offset r));
    er_read_fn r f (N.to_nat s') (N.to_nat e') buf.

  (* level_cache.rs 706-754; start >= cache_index_start in the subtraction *)
  Definition lc_store_read_range64 (st : lc_t * fs) (start end_ : N) : res (list byte) :=
    let s := fst st in
    do n <- sub64 m end_ start;
    do _ <- alloc64 n;
    do ok <- lc_in_bounds64 s start;
    do _ <- ensure ok "out of bounds";
    do w <- mul64 m (N.of_nat (lc_data_width s)) bl;
    match (if start <? w then lc_reader s else None) with
    | Some r => do nd <- er_read64 r (snd st) start end_ (repeat x00 (N.to_nat n)); Ok (snd nd)
    | None =>
        do a <- (if N.of_nat (lc_cache_index_start s) <=? start then
                   match lc_reader s with
                   | None => add64 m (start - N.of_nat (lc_cache_index_start s)) w
                   | Some _ => Ok (start - N.of_nat (lc_cache_index_start s))
                   end
                 else Ok start);
        fs_read_exact_at (snd st) (lc_file s) (N.to_nat a) (N.to_nat n)
    end.

  (* level_cache.rs 347-360 *)
  Definition lc_read_at64 (st : lc_t * fs) (index : N) : res E :=
    do (s, e) <- elem_range64 index;
    do _ <- lc_check64 st s e;
    do bs <- lc_store_read_range64 st s e;
    e_from_slice EO bs.

  (* level_cache.rs 392-409 *)
  Definition lc_read_range64 (st : lc_t * fs) (start end_ : N) : res (list E) :=
    do (s, e) <- span64 start end_;
    do _ <- lc_check64 st s e;
    do bs <- lc_store_read_range64 st s e;
    decode EO bs.

  (* merkle.rs 1432-1469 on a base tree over a DiskStore: the index goes to the store *)
  Definition mt_read_at64 (t : mtree disk_t E) (f : fs) (i : N) : res E :=
    match mt_data t with
    | BaseTree s => disk_read_at64 (s, f) i
    | _ => Err "not a base tree"
    end.
End Addr.
