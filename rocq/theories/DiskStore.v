(* src/store/disk.rs *)
From Coq Require Import String List Arith Bool Lia Init.Byte.
From Verif Require Import Base Element Hash Sizing FS Sched Store.
Import ListNotations.

(* disk.rs 28-44; elem_len is always E::byte_len() and is not stored *)
Record disk_t : Type := {
  ds_len : nat;
  ds_file : handle;
  ds_loaded : bool;
  ds_size : nat          (* store_size, in bytes *)
}.

Section Disk.
  Context {E : Type} (EO : ElementOps E).
  Let bl := e_byte_len EO.
  Let St := (disk_t * fs)%type.

  (* disk.rs 482-484 *)
  Definition ds_set_len (s : disk_t) (n : nat) : disk_t :=
    {| ds_len := n; ds_file := ds_file s; ds_loaded := ds_loaded s; ds_size := ds_size s |}.
  (* disk.rs 252 *)
  Definition ds_set_file (s : disk_t) (h : handle) : disk_t :=
    {| ds_len := ds_len s; ds_file := h; ds_loaded := ds_loaded s; ds_size := ds_size s |}.

  (* run a file-system action inside the store state *)
  (* a call on self.file, e.g. disk.rs 266, 546 *)
  Definition on_fs {T A} (m : SM fs A) : SM (T * fs) A := fun st =>
    let '(r, f') := m (snd st) in (r, (fst st, f')).

  (* disk.rs 443-480 *)
  Definition disk_new_from_disk_with_path (size : nat) (path : string) : SM fs disk_t := fun f =>
    (do _ <- ensure (fs_exists f path) "[DiskStore] new_from_disk constructor can be used only for instantiating already existing storages";
     do file <- (match fs_open_rw f path with
                 | Ok h => Ok h
                 | _ => fs_open_ro f path
                 end);
     let store_size := fs_size f file in
     do _ <- ensure (store_size =? size * bl) "Invalid formatted file provided";
     Ok {| ds_len := size; ds_file := file; ds_loaded := true; ds_size := store_size |}, f).

  (* disk.rs 130-133 *)
  Definition disk_new_from_disk (size branches : nat) (c : StoreConfig) : SM fs disk_t :=
    disk_new_from_disk_with_path size (cfg_path c).

  (* disk.rs 47-73 *)
  Definition disk_new_with_config (size branches : nat) (c : StoreConfig) : SM fs disk_t :=
    let! f := sget in
    if fs_exists f (cfg_path c) then disk_new_from_disk size branches c
    else
      let! file := fs_create_new (cfg_path c) in
      let store_size := bl * size in
      let! _ := fs_set_len file store_size in
      sret {| ds_len := 0; ds_file := file; ds_loaded := false; ds_size := store_size |}.

  (* disk.rs 75-88 *)
  Definition disk_new (size : nat) : SM fs disk_t :=
    let store_size := bl * size in
    let! file := fs_tempfile in
    let! _ := fs_set_len file store_size in
    sret {| ds_len := 0; ds_file := file; ds_loaded := false; ds_size := store_size |}.

  (* disk.rs 540-549 *)
  Definition disk_store_copy_from_slice (start : nat) (d : list byte) : SM St unit := fun st =>
    if start + List.length d <=? ds_size (fst st) then
      on_fs (fs_write_all_at (ds_file (fst st)) start d) st
    else (Err "Requested slice too large", st).

  (* shared tail of disk.rs 108-111 and 124-125 *)
  Definition disk_fill (data : list byte) (s : disk_t) : SM fs disk_t := fun f =>
    match disk_store_copy_from_slice 0 data (s, f) with
    | (Ok _, (s', f')) => (Ok (ds_set_len s' (List.length data / bl)), f')
    | (Err m, (_, f')) => (Err m, f')
    | (Panic m, (_, f')) => (Panic m, f')
    | (Diverge, (_, f')) => (Diverge, f')
    end.

  (* disk.rs 90-114 *)
  Definition disk_new_from_slice_with_config (size branches : nat) (data : list byte)
      (c : StoreConfig) : SM fs disk_t :=
    let! _ := slift (ensure (List.length data mod bl =? 0) "data size must be a multiple of byte_len") in
    let! s := disk_new_with_config size branches c in
    if ds_loaded s then sret s else disk_fill data s.

  (* disk.rs 116-128 *)
  Definition disk_new_from_slice (size : nat) (data : list byte) : SM fs disk_t :=
    let! _ := slift (ensure (List.length data mod bl =? 0) "data size must be a multiple of byte_len") in
    let! s := disk_new size in
    disk_fill data s.

  (* disk.rs 482-484 *)
  Definition disk_upd_len (n : nat) : SM St unit := fun st =>
    (Ok tt, (ds_set_len (fst st) n, snd st)).

  (* disk.rs 135-139 *)
  Definition disk_write_at (el : E) (index : nat) : SM St unit :=
    let! _ := disk_store_copy_from_slice (index * bl) (e_as_ref EO el) in
    let! st := sget in
    disk_upd_len (Nat.max (ds_len (fst st)) (index + 1)).

  (* disk.rs 141-151 *)
  Definition disk_copy_from_slice (buf : list byte) (start : nat) : SM St unit :=
    let! _ := slift (ensure (List.length buf mod bl =? 0) "buf size must be a multiple of byte_len") in
    let! _ := disk_store_copy_from_slice (start * bl) buf in
    let! st := sget in
    disk_upd_len (Nat.max (ds_len (fst st)) (start + List.length buf / bl)).

  (* disk.rs 508-524; end - start underflow panics *)
  Definition disk_store_read_range (st : St) (s e : nat) : res (list byte) :=
    do n <- checked_sub e s;
    fs_read_exact_at (snd st) (ds_file (fst st)) s n.

  (* disk.rs 526-538: reads buf.len() bytes whatever the range is *)
  Definition disk_store_read_into (st : St) (s e : nat) (buf : list byte) : res (list byte) :=
    fs_read_exact_at (snd st) (ds_file (fst st)) s (List.length buf).

  (* the two range checks of disk.rs 157-159, 168-170, 179-181, 190-192 *)
  Definition disk_check (st : St) (s e : nat) : res unit :=
    let len := ds_len (fst st) * bl in
    do _ <- ensure (s <? len) "start out of range";
    ensure (e <=? len) "end out of range".

  (* disk.rs 153-162 *)
  Definition disk_read_at (st : St) (index : nat) : res E :=
    let s := index * bl in
    let e := s + bl in
    do _ <- disk_check st s e;
    do bs <- disk_store_read_range st s e;
    e_from_slice EO bs.

  (* disk.rs 164-173 *)
  Definition disk_read_into (st : St) (index : nat) (buf : list byte) : res (list byte) :=
    let s := index * bl in
    let e := s + bl in
    do _ <- disk_check st s e;
    disk_store_read_into st s e buf.

  (* disk.rs 175-184 *)
  Definition disk_read_range_into (st : St) (start end_ : nat) (buf : list byte) : res (list byte) :=
    let s := start * bl in
    let e := end_ * bl in
    do _ <- disk_check st s e;
    disk_store_read_into st s e buf.

  (* disk.rs 186-199 *)
  Definition disk_read_range (st : St) (start end_ : nat) : res (list E) :=
    let s := start * bl in
    let e := end_ * bl in
    do _ <- disk_check st s e;
    do bs <- disk_store_read_range st s e;
    decode EO bs.

  (* disk.rs 212-289, over the copy used (disk.rs 261).  store_version 1 keeps the base layer. *)
  Definition disk_compact_with (copy : handle -> handle -> nat -> nat -> SM fs nat) (branches : nat)
      (c : StoreConfig) (store_version : nat) : SM St bool :=
    let! st := sget in
    let s := fst st in
    let! leafs := slift (get_merkle_tree_leafs (ds_len s) branches) in
    let data_width := leafs * bl in
    let! cs := slift (get_merkle_tree_cache_size leafs branches (sc_rows_to_discard c)) in
    let cache_size := cs * bl in
    let! _ := slift (ensure ((cache_size <? ds_len s * bl) && negb (cache_size =? 0))
                       "Cannot compact with this configuration") in
    let v1 := store_version =? 1 in
    let start := if v1 then data_width else 0 in
    let! cache_start := slift (checked_sub (ds_size s) cache_size) in
    let! reader := slift (fs_open_ro (snd st) (cfg_path c)) in
    let! file := slift (fs_open_rw (snd st) (cfg_path c)) in
    let! _ := sput (ds_set_file s file, snd st) in
    let! written := on_fs (copy reader file cache_start start) in
    let! _ := slift (ensure (written =? cache_size) "Failed to copy all data") in
    let new_bytes := if v1 then data_width + cache_size else cache_size in
    let! _ := on_fs (fs_set_len file new_bytes) in
    let! _ := disk_upd_len (new_bytes / bl) in
    let! st := sget in
    let! _ := slift (ensure (ds_len (fst st) * bl =? fs_size (snd st) (ds_file (fst st)))
                       "Inconsistent metadata detected") in
    sret true.

  (* io::copy run to its end; sizes: piece sizes *)
  (* disk.rs 212-288 *)
  Definition disk_compact (sizes : nat -> nat) : nat -> StoreConfig -> nat -> SM St bool :=
    disk_compact_with (fs_copy sizes).

  (* disk.rs 212-261: the process stops after k pieces were copied (not stopped if there are fewer):
     the state is the one left on disk *)
  Definition disk_compact_stopped (k : nat) (sizes : nat -> nat) : nat -> StoreConfig -> nat -> SM St bool :=
    disk_compact_with (fun r w rpos wpos => copy_loop k sizes 0 r w rpos wpos 0).

  (* disk.rs 300-311 *)
  Definition disk_push (el : E) : SM St unit :=
    let! st := sget in
    let len := ds_len (fst st) in
    let! _ := slift (ensure ((len + 1) * bl <=? ds_size (fst st)) "not enough space") in
    disk_write_at el len.

  Variable en : env.
  Variable A : AlgOps E.
  Variable branches : nat.

  (* disk.rs 318-376; the tasks read with read_range *)
  Definition disk_process_layer (sched : list (nat * nat))
      (width level read_start write_start : nat) : SM St unit :=
    mmap_process_layer EO A branches (p_chunk (env_params en)) ds_file
      (fun st s e => disk_check st (s * bl) (e * bl)) sched width level read_start write_start.

  (* disk.rs 402-426: the while loop; returns the final level *)
  Fixpoint disk_build_loop (fuel shift level width level_node_index : nat) : SM St nat :=
    match fuel with
    | 0 => slift Diverge
    | S f =>
        if 1 <? width then
          let! (read_start, write_start) := level_bounds ds_len level level_node_index width in
          let! _ := disk_process_layer (env_bytes en level) width level read_start write_start in
          let width' := Nat.shiftr width shift in
          let! st := sget in
          let! _ := disk_upd_len (ds_len (fst st) + width') in
          disk_build_loop f shift (S level) width' (level_node_index + width)
        else sret level
    end.

  (* disk.rs 379-439 *)
  Definition disk_build_fuel (fuel leafs row_count : nat) (c : option StoreConfig) : SM St E :=
    let! _ := slift (ensure (next_pow2 branches =? branches) "branches MUST be a power of 2") in
    let! st := sget in
    let! _ := slift (ensure (ds_len (fst st) =? leafs) "Inconsistent data") in
    let! _ := slift (ensure (leafs mod 2 =? 0) "Leafs must be a power of two") in
    let! level := disk_build_loop fuel (log2_pow2 branches) 0 leafs 0 in
    let! total := slift (get_merkle_tree_len leafs branches) in
    let! st := sget in
    let! _ := slift (ensure (ds_len (fst st) =? total) "Invalid merkle tree length") in
    let! _ := slift (ensure (row_count =? level + 1) "Invalid tree row_count") in
    default_last ds_len disk_read_at.
End Disk.

Section DiskOps.
  Context {E : Type} (EO : ElementOps E).

  (* disk.rs 490-502 *)
  Definition disk_is_consistent (store_range branches : nat) (c : StoreConfig) (f : fs) : res bool :=
    do file <- fs_open_ro f (cfg_path c);
    Ok (fs_size f file =? store_range * e_byte_len EO).

  (* disk.rs 46-440 *)
  Definition disk_store : StoreOps E := {|
    st_t := disk_t;
    st_new_with_config := disk_new_with_config EO;
    st_new := disk_new EO;
    st_new_from_slice_with_config := disk_new_from_slice_with_config EO;
    st_new_from_slice := disk_new_from_slice EO;
    st_new_from_disk := disk_new_from_disk EO;
    st_write_at := disk_write_at EO;
    st_copy_from_slice := disk_copy_from_slice EO;
    st_compact := disk_compact EO;
    st_reinit := sret tt;                              (* store/mod.rs 231-233 *)
    st_delete := fun c => fs_remove (cfg_path c);      (* disk.rs 291-294 *)
    st_read_at := disk_read_at EO;
    st_read_range := disk_read_range EO;
    st_read_into := disk_read_into EO;
    st_read_range_into := disk_read_range_into EO;
    st_len := ds_len;                                  (* disk.rs 201-203 *)
    st_loaded_from_disk := ds_loaded;                  (* disk.rs 205-207 *)
    st_is_empty := fun s => ds_len s =? 0;             (* disk.rs 296-298 *)
    st_push := disk_push EO;
    st_sync := sret tt;                                (* disk.rs 313-315; sync_all is a no-op *)
    st_build := fun en A b leafs row_count c =>
                  disk_build_fuel EO en A b (S leafs) leafs row_count c
  |}.
End DiskOps.
