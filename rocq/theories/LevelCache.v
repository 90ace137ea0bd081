(* src/store/level_cache.rs *)
From Coq Require Import String List Arith Bool Lia Init.Byte.
From Verif Require Import Base Element Hash Sizing FS Sched Store DiskStore.
Import ListNotations.

(* store/mod.rs 42-51: read_fn(start + offset, end + offset, buf, source).  The
   source is part of the closure; it may look at the file system.  The result is the
   byte count it reports and what it leaves in buf. *)
Record ExternalReader : Type := {
  er_offset : nat;
  er_read_fn : fs -> nat -> nat -> list byte -> res (nat * list byte)
}.
(* store/mod.rs 49-51 *)
Definition er_read (r : ExternalReader) (f : fs) (s e : nat) (buf : list byte) : res (nat * list byte) :=
  er_read_fn r f (s + er_offset r) (e + er_offset r) buf.
(* level_cache.rs 718-731, 820-830: read(..)?, the reported count is dropped *)
Definition er_data (r : ExternalReader) (f : fs) (s e : nat) (buf : list byte) : res (list byte) :=
  do nd <- er_read r f s e buf;
  Ok (snd nd).

(* store/mod.rs 97-118 *)
Record ReplicaConfig : Type := {
  rc_path : string;
  rc_offsets : list nat
}.

(* store/mod.rs 60-64: reader.read_exact_at(start, &mut buf[0..end - start]) *)
Definition file_read_fn (h : handle) : fs -> nat -> nat -> list byte -> res (nat * list byte) :=
  fun f s e buf =>
    do n <- checked_sub e s;
    if n <=? List.length buf then
      do d <- fs_read_exact_at f h s n;
      Ok (n, d ++ skipn n buf)
    else Panic "range end index out of range for slice".

(* store/mod.rs 54-67 *)
Definition er_new_from_config (f : fs) (rc : ReplicaConfig) (index : nat) : res ExternalReader :=
  do h <- fs_open_ro f (rc_path rc);
  do off <- rnth (rc_offsets rc) index;
  Ok {| er_offset := off; er_read_fn := file_read_fn h |}.
(* store/mod.rs 69-71, 111-118 *)
Definition er_new_from_path (f : fs) (path : string) : res ExternalReader :=
  er_new_from_config f {| rc_path := path; rc_offsets := [0] |} 0.

(* level_cache.rs 34-58; elem_len is always E::byte_len() *)
Record lc_t : Type := {
  lc_len : nat;
  lc_file : handle;
  lc_data_width : nat;
  lc_cache_index_start : nat;    (* bytes *)
  lc_loaded : bool;
  lc_size : nat;                 (* store_size, bytes *)
  lc_reader : option ExternalReader
}.

(* level_cache.rs 599-601 *)
Definition lc_set_len (s : lc_t) (n : nat) : lc_t :=
  {| lc_len := n; lc_file := lc_file s; lc_data_width := lc_data_width s;
     lc_cache_index_start := lc_cache_index_start s; lc_loaded := lc_loaded s;
     lc_size := lc_size s; lc_reader := lc_reader s |}.
(* level_cache.rs 618 *)
Definition lc_set_file (s : lc_t) (h : handle) : lc_t :=
  {| lc_len := lc_len s; lc_file := h; lc_data_width := lc_data_width s;
     lc_cache_index_start := lc_cache_index_start s; lc_loaded := lc_loaded s;
     lc_size := lc_size s; lc_reader := lc_reader s |}.
(* level_cache.rs 147-151 *)
Definition lc_set_external_reader (s : lc_t) (r : ExternalReader) : lc_t :=
  {| lc_len := lc_len s; lc_file := lc_file s; lc_data_width := lc_data_width s;
     lc_cache_index_start := lc_cache_index_start s; lc_loaded := lc_loaded s;
     lc_size := lc_size s; lc_reader := Some r |}.

Section LevelCache.
  Context {E : Type} (EO : ElementOps E).
  Let bl := e_byte_len EO.
  Let St := (lc_t * fs)%type.

  (* open for writing, falling back to read-only: level_cache.rs 87-98, 268-279 *)
  Definition lc_open (f : fs) (path : string) : res handle :=
    match fs_open_rw f path with
    | Ok h => Ok h
    | _ => fs_open_ro f path
    end.

  (* level_cache.rs 76-145 *)
  Definition lc_new_from_disk_with_reader (store_range branches : nat) (c : StoreConfig)
      (reader : ExternalReader) : SM fs lc_t := fun f =>
    (do _ <- ensure (fs_exists f (cfg_path c)) "[LevelCacheStore - new_from_disk_with_reader] only for already existing storages";
     do file <- lc_open f (cfg_path c);
     let store_size := fs_size f file in
     do size <- get_merkle_tree_leafs store_range branches;
     do _ <- ensure (size =? next_pow2 size) "Inconsistent merkle tree row_count detected";
     let range_bytes := store_range * bl in
     do cs <- get_merkle_tree_cache_size size branches (sc_rows_to_discard c);
     let cache_size := cs * bl in
     do cache_index_start <- checked_sub range_bytes cache_size;
     do _ <- ensure (store_size =? cache_size) "Inconsistent store size detected with external reader";
     Ok {| lc_len := range_bytes / bl; lc_file := file; lc_data_width := size;
           lc_cache_index_start := cache_index_start; lc_loaded := false;
           lc_size := store_size; lc_reader := Some reader |}, f).

  (* level_cache.rs 260-326; the file size is not checked (304-312 is commented out) *)
  Definition lc_new_from_disk (store_range branches : nat) (c : StoreConfig) : SM fs lc_t := fun f =>
    (do _ <- ensure (fs_exists f (cfg_path c)) "[LevelCacheStore] new_from_disk only for already existing storages";
     do file <- lc_open f (cfg_path c);
     let store_size := fs_size f file in
     do size <- get_merkle_tree_leafs store_range branches;
     do _ <- ensure (size =? next_pow2 size) "Inconsistent merkle tree row_count detected";
     let range_bytes := store_range * bl in
     do cs <- get_merkle_tree_cache_size size branches (sc_rows_to_discard c);
     let cache_size := cs * bl in
     do cache_index_start <- checked_sub range_bytes cache_size;
     Ok {| lc_len := range_bytes / bl; lc_file := file; lc_data_width := size;
           lc_cache_index_start := cache_index_start; lc_loaded := true;
           lc_size := store_size; lc_reader := None |}, f).

  (* level_cache.rs 155-199; the file is created before the checks *)
  Definition lc_new_with_config (size branches : nat) (c : StoreConfig) : SM fs lc_t :=
    let! f := sget in
    if fs_exists f (cfg_path c) then lc_new_from_disk size branches c
    else
      let! file := fs_create_new (cfg_path c) in
      let store_size := bl * size in
      let! leafs := slift (get_merkle_tree_leafs size branches) in
      let! _ := slift (ensure (leafs =? next_pow2 leafs) "Inconsistent merkle tree row_count detected") in
      let! cs := slift (get_merkle_tree_cache_size leafs branches (sc_rows_to_discard c)) in
      let! cache_index_start := slift (checked_sub store_size (cs * bl)) in
      let! _ := fs_set_len file store_size in
      sret {| lc_len := 0; lc_file := file; lc_data_width := leafs;
              lc_cache_index_start := cache_index_start; lc_loaded := false;
              lc_size := store_size; lc_reader := None |}.

  (* level_cache.rs 201-217 *)
  Definition lc_new (size : nat) : SM fs lc_t :=
    let store_size := bl * size in
    let! file := fs_tempfile in
    let! _ := fs_set_len file store_size in
    sret {| lc_len := 0; lc_file := file; lc_data_width := size;
            lc_cache_index_start := 0; lc_loaded := false;
            lc_size := store_size; lc_reader := None |}.

  (* level_cache.rs 859-868 *)
  Definition lc_store_copy_from_slice (start : nat) (d : list byte) : SM St unit := fun st =>
    if start + List.length d <=? lc_size (fst st) then
      on_fs (fs_write_all_at (lc_file (fst st)) start d) st
    else (Err "Requested slice too large", st).

  (* shared tail of level_cache.rs 238-239 and 253-254 *)
  Definition lc_fill (data : list byte) (s : lc_t) : SM fs lc_t := fun f =>
    match lc_store_copy_from_slice 0 data (s, f) with
    | (Ok _, (s', f')) => (Ok (lc_set_len s' (List.length data / bl)), f')
    | (Err m, (_, f')) => (Err m, f')
    | (Panic m, (_, f')) => (Panic m, f')
    | (Diverge, (_, f')) => (Diverge, f')
    end.

  (* level_cache.rs 219-243 *)
  Definition lc_new_from_slice_with_config (size branches : nat) (data : list byte)
      (c : StoreConfig) : SM fs lc_t :=
    let! _ := slift (ensure (List.length data mod bl =? 0) "data size must be a multiple of byte_len") in
    let! s := lc_new_with_config size branches c in
    if lc_loaded s then sret s else lc_fill data s.

  (* level_cache.rs 245-257 *)
  Definition lc_new_from_slice (size : nat) (data : list byte) : SM fs lc_t :=
    let! _ := slift (ensure (List.length data mod bl =? 0) "data size must be a multiple of byte_len") in
    let! s := lc_new size in
    lc_fill data s.

  (* level_cache.rs 599-601 *)
  Definition lc_upd_len (n : nat) : SM St unit := fun st =>
    (Ok tt, (lc_set_len (fst st) n, snd st)).

  (* level_cache.rs 328-333 *)
  Definition lc_write_at (el : E) (index : nat) : SM St unit :=
    let! _ := lc_store_copy_from_slice (index * bl) (e_as_ref EO el) in
    let! st := sget in
    lc_upd_len (Nat.max (lc_len (fst st)) (index + 1)).

  (* level_cache.rs 335-345 *)
  Definition lc_copy_from_slice (buf : list byte) (start : nat) : SM St unit :=
    let! _ := slift (ensure (List.length buf mod bl =? 0) "buf size must be a multiple of byte_len") in
    let! _ := lc_store_copy_from_slice (start * bl) buf in
    let! st := sget in
    lc_upd_len (Nat.max (lc_len (fst st)) (start + List.length buf / bl)).

  (* start <= self.data_width * self.elem_len || start >= self.cache_index_start *)
  (* level_cache.rs 351-357, 780-786 *)
  Definition lc_in_bounds (s : lc_t) (start : nat) : bool :=
    (start <=? lc_data_width s * bl) || (lc_cache_index_start s <=? start).

  (* the three checks of level_cache.rs 351-357, 366-372, 381-387, 396-402, 780-786, 799-805 *)
  Definition lc_check (st : St) (s e : nat) : res unit :=
    let len := lc_len (fst st) * bl in
    do _ <- ensure (s <? len) "start out of range";
    do _ <- ensure (e <=? len) "end out of range";
    ensure (lc_in_bounds (fst st) s) "out of bounds".

  (* level_cache.rs 729-738, 834-844: position of a cached byte in the file *)
  Definition lc_adjust (s : lc_t) (start : nat) : nat :=
    if lc_cache_index_start s <=? start then
      match lc_reader s with
      | None => start - lc_cache_index_start s + lc_data_width s * bl
      | Some _ => start - lc_cache_index_start s
      end
    else start.

  (* level_cache.rs 706-754 *)
  Definition lc_store_read_range (st : St) (start end_ : nat) : res (list byte) :=
    let s := fst st in
    do read_len <- checked_sub end_ start;
    do _ <- ensure (lc_in_bounds s start) "out of bounds";
    match (if start <? lc_data_width s * bl then lc_reader s else None) with
    | Some r => er_data r (snd st) start end_ (repeat x00 read_len)
    | None => fs_read_exact_at (snd st) (lc_file s) (lc_adjust s start) read_len
    end.

  (* level_cache.rs 757-776 *)
  Definition lc_store_read_range_internal (st : St) (start end_ : nat) : res (list byte) :=
    let s := fst st in
    do read_len <- checked_sub end_ start;
    do _ <- ensure (lc_in_bounds s start) "out of bounds";
    fs_read_exact_at (snd st) (lc_file s) start read_len.

  (* level_cache.rs 812-857 *)
  Definition lc_store_read_into (st : St) (start end_ : nat) (buf : list byte) : res (list byte) :=
    let s := fst st in
    do _ <- ensure (lc_in_bounds s start) "Invalid read start";
    match (if start <? lc_data_width s * bl then lc_reader s else None) with
    | Some r => er_data r (snd st) start end_ buf
    | None => fs_read_exact_at (snd st) (lc_file s) (lc_adjust s start) (List.length buf)
    end.

  (* level_cache.rs 347-360 *)
  Definition lc_read_at (st : St) (index : nat) : res E :=
    let s := index * bl in
    let e := s + bl in
    do _ <- lc_check st s e;
    do bs <- lc_store_read_range st s e;
    e_from_slice EO bs.

  (* level_cache.rs 362-375 *)
  Definition lc_read_into (st : St) (index : nat) (buf : list byte) : res (list byte) :=
    let s := index * bl in
    let e := s + bl in
    do _ <- lc_check st s e;
    lc_store_read_into st s e buf.

  (* level_cache.rs 377-390 *)
  Definition lc_read_range_into (st : St) (start end_ : nat) (buf : list byte) : res (list byte) :=
    let s := start * bl in
    let e := end_ * bl in
    do _ <- lc_check st s e;
    lc_store_read_into st s e buf.

  (* level_cache.rs 392-409 *)
  Definition lc_read_range (st : St) (start end_ : nat) : res (list E) :=
    let s := start * bl in
    let e := end_ * bl in
    do _ <- lc_check st s e;
    do bs <- lc_store_read_range st s e;
    decode EO bs.

  (* level_cache.rs 778-795 *)
  Definition lc_read_range_internal (st : St) (start end_ : nat) : res (list E) :=
    let s := start * bl in
    let e := end_ * bl in
    do _ <- lc_check st s e;
    do bs <- lc_store_read_range_internal st s e;
    decode EO bs.

  (* level_cache.rs 797-810 *)
  Definition lc_read_at_internal (st : St) (index : nat) : res E :=
    let s := index * bl in
    let e := s + bl in
    do _ <- lc_check st s e;
    do bs <- lc_store_read_range_internal st s e;
    e_from_slice EO bs.

  (* level_cache.rs 436-447 *)
  Definition lc_push (el : E) : SM St unit :=
    let! st := sget in
    let len := lc_len (fst st) in
    let! _ := slift (ensure ((len + 1) * bl <=? lc_size (fst st)) "not enough space") in
    lc_write_at el len.

  (* level_cache.rs 604-632: remove [len] elements from the front of the file *)
  Definition lc_front_truncate (sizes : nat -> nat) (c : StoreConfig) (len : nat) : SM St unit :=
    let! st := sget in
    let s := fst st in
    let store_size := fs_size (snd st) (lc_file s) in
    let len := len * bl in
    let! _ := slift (ensure (len <=? store_size) "Invalid truncation length") in
    let! reader := slift (fs_open_ro (snd st) (cfg_path c)) in
    let! file := slift (fs_open_rw (snd st) (cfg_path c)) in
    let! _ := sput (lc_set_file s file, snd st) in
    let! written := on_fs (fs_copy sizes reader file len 0) in
    let! _ := slift (ensure (written =? store_size - len) "Failed to copy all data") in
    on_fs (fs_set_len file written).

  Variable en : env.
  Variable A : AlgOps E.
  Variable branches : nat.

  (* level_cache.rs 455-513; the tasks read with read_range_internal, whose call of
     store_read_range_internal repeats the last check *)
  Definition lc_process_layer (sched : list (nat * nat))
      (width level read_start write_start : nat) : SM St unit :=
    mmap_process_layer EO A branches (p_chunk (env_params en)) lc_file
      (fun st s e => lc_check st (s * bl) (e * bl)) sched width level read_start write_start.

  (* level_cache.rs 547-577: the while loop; cis = cache_index_start in elements *)
  Fixpoint lc_build_loop (fuel shift cis : nat) (c : StoreConfig)
      (level width level_node_index : nat) : SM St nat :=
    match fuel with
    | 0 => slift Diverge
    | S f =>
        if 1 <? width then
          let! st := sget in
          let '(read_start, write_start) :=
            if level =? 0 then (0, lc_len (fst st))
            else if level_node_index <? cis then (0, width)
            else (level_node_index - cis, level_node_index + width - cis) in
          let! _ := lc_process_layer (env_bytes en level) width level read_start write_start in
          let! _ := (if level_node_index <? cis
                     then lc_front_truncate (env_copy en level) c width
                     else sret tt) in
          let! _ := lc_upd_len (level_node_index + width) in
          lc_build_loop f shift cis c (S level) (Nat.shiftr width shift)
            (level_node_index + width)
        else sret level
    end.

  (* level_cache.rs 516-595 *)
  Definition lc_build_fuel (fuel leafs row_count : nat) (c : option StoreConfig) : SM St E :=
    let! _ := slift (ensure (next_pow2 branches =? branches) "branches MUST be a power of 2") in
    let! st := sget in
    let! _ := slift (ensure (lc_len (fst st) =? leafs) "Inconsistent data") in
    let! _ := slift (ensure (leafs mod 2 =? 0) "Leafs must be a power of two") in
    let! cfg := slift (match c with
                       | Some x => Ok x
                       | None => Err "LevelCacheStore build requires a valid config"
                       end) in
    let! cache_size := slift (get_merkle_tree_cache_size leafs branches (sc_rows_to_discard cfg)) in
    let! total := slift (get_merkle_tree_len leafs branches) in
    let! cis := slift (checked_sub total cache_size) in
    let! level := lc_build_loop fuel (log2_pow2 branches) cis cfg 0 leafs 0 in
    let! st := sget in
    let! _ := lc_upd_len (lc_len (fst st) + 1) in
    let! st := sget in
    let! _ := slift (ensure (lc_len (fst st) =? total) "Invalid merkle tree length") in
    let! _ := slift (ensure (row_count =? level + 1) "Invalid tree row_count") in
    let! i := slift (do a <- checked_sub (lc_len (fst st)) cis; checked_sub a 1) in
    sreads (fun st => lc_read_at_internal st i).
End LevelCache.

Section LevelCacheOps.
  Context {E : Type} (EO : ElementOps E).

  (* level_cache.rs 639-669 *)
  Definition lc_is_consistent_v1 (store_range branches : nat) (c : StoreConfig) (f : fs) : res bool :=
    do file <- fs_open_ro f (cfg_path c);
    let store_size := fs_size f file in
    do size <- get_merkle_tree_leafs store_range branches;
    do _ <- ensure (size =? next_pow2 size) "Inconsistent merkle tree row_count detected";
    do cs <- get_merkle_tree_cache_size size branches (sc_rows_to_discard c);
    Ok (store_size =? size * e_byte_len EO + cs * e_byte_len EO).

  (* level_cache.rs 672-704 *)
  Definition lc_is_consistent (store_range branches : nat) (c : StoreConfig) (f : fs) : res bool :=
    do file <- fs_open_ro f (cfg_path c);
    let store_size := fs_size f file in
    do size <- get_merkle_tree_leafs store_range branches;
    do _ <- ensure (size =? next_pow2 size) "Inconsistent merkle tree row_count detected";
    do cs <- get_merkle_tree_cache_size size branches (sc_rows_to_discard c);
    Ok (store_size =? cs * e_byte_len EO).

  (* level_cache.rs 154-596 *)
  Definition lc_store : StoreOps E := {|
    st_t := lc_t;
    st_new_with_config := lc_new_with_config EO;
    st_new := lc_new EO;
    st_new_from_slice_with_config := lc_new_from_slice_with_config EO;
    st_new_from_slice := lc_new_from_slice EO;
    st_new_from_disk := lc_new_from_disk EO;
    st_write_at := lc_write_at EO;
    st_copy_from_slice := lc_copy_from_slice EO;
    st_compact := fun _ _ _ _ => slift (Err "Cannot compact this type of Store");  (* 419-426 *)
    st_reinit := sret tt;                              (* store/mod.rs 231-233 *)
    st_delete := fun c => fs_remove (cfg_path c);      (* 428-431 *)
    st_read_at := lc_read_at EO;
    st_read_range := lc_read_range EO;
    st_read_into := lc_read_into EO;
    st_read_range_into := lc_read_range_into EO;
    st_len := lc_len;                                  (* 411-413 *)
    st_loaded_from_disk := lc_loaded;                  (* 415-417 *)
    st_is_empty := fun s => lc_len s =? 0;             (* 433-435 *)
    st_push := lc_push EO;
    st_sync := sret tt;                                (* 449-451; sync_all is a no-op *)
    st_build := fun en A b leafs row_count c =>
                  lc_build_fuel EO en A b (S leafs) leafs row_count c
  |}.
End LevelCacheOps.
