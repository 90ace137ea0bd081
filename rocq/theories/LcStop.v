(* A LevelCacheStore build whose process dies on the way, as Stop.v for DiskStore:
   lc_store of LevelCache.v, except that the process dies at one chosen point.
   The result "killed" stands for no result at all. *)
From Coq Require Import String List Arith Bool Lia Init.Byte.
From Verif Require Import Base Element Hash Sizing FS Sched Store DiskStore LevelCache Faults Stop.
Import ListNotations.

Inductive lkill : Type :=
| L_create                       (* the file exists, set_len has not run: level_cache.rs 166-186 *)
| L_copy (i p : nat)             (* in the write of the leaves that start at element i, after p bytes:
                                    level_cache.rs 865 from merkle.rs 2041, 2046, 2079 and level_cache.rs 238 *)
| L_sync                         (* at the call of sync: merkle.rs 2047, 2082-2085 *)
| L_layer (level : nat) (sched : list (nat * nat))
                                 (* while row level + 1 is hashed, after the worker steps of sched:
                                    level_cache.rs 481-512 *)
| L_trunc (level n : nat) (sizes : nat -> nat).
                                 (* while row level is removed, after n pieces of the given sizes have been
                                    moved (all, if there are fewer), before set_len: level_cache.rs 626-629 *)

Section LcStop.
  Context {E : Type} (EO : ElementOps E) (kp : lkill).
  Let bl := e_byte_len EO.
  Let St := (lc_t * fs)%type.

  (* level_cache.rs 155-199 *)
  Definition lstop_new_with_config (size branches : nat) (c : StoreConfig) : SM fs lc_t :=
    let! f := sget in
    if fs_exists f (cfg_path c) then lc_new_from_disk EO size branches c
    else
      let! file := fs_create_new (cfg_path c) in
      let store_size := bl * size in
      let! leafs := slift (get_merkle_tree_leafs size branches) in
      let! _ := slift (ensure (leafs =? next_pow2 leafs) "Inconsistent merkle tree row_count detected") in
      let! cs := slift (get_merkle_tree_cache_size leafs branches (sc_rows_to_discard c)) in
      let! cache_index_start := slift (checked_sub store_size (cs * bl)) in
      let! _ := slift (match kp with L_create => killed | _ => Ok tt end) in
      let! _ := fs_set_len file store_size in
      sret {| lc_len := 0; lc_file := file; lc_data_width := leafs;
              lc_cache_index_start := cache_index_start; lc_loaded := false;
              lc_size := store_size; lc_reader := None |}.

  (* level_cache.rs 859-868 *)
  Definition lstop_store_copy (start : nat) (d : list byte) : SM St unit := fun st =>
    match kp with
    | L_copy i p =>
        if start =? i * bl then
          if start + List.length d <=? lc_size (fst st) then
            match on_fs (fs_write_all_at (lc_file (fst st)) start (firstn p d)) st with
            | (_, st') => (killed, st')
            end
          else (Err "Requested slice too large", st)
        else lc_store_copy_from_slice start d st
    | _ => lc_store_copy_from_slice start d st
    end.

  (* level_cache.rs 237-240 *)
  Definition lstop_fill (data : list byte) (s : lc_t) : SM fs lc_t := fun f =>
    match lstop_store_copy 0 data (s, f) with
    | (Ok _, (s', f')) => (Ok (lc_set_len s' (List.length data / bl)), f')
    | (Err m, (_, f')) => (Err m, f')
    | (Panic m, (_, f')) => (Panic m, f')
    | (Diverge, (_, f')) => (Diverge, f')
    end.

  (* level_cache.rs 219-243 *)
  Definition lstop_new_from_slice_with_config (size branches : nat) (data : list byte)
      (c : StoreConfig) : SM fs lc_t :=
    let! _ := slift (ensure (List.length data mod bl =? 0) "data size must be a multiple of byte_len") in
    let! s := lstop_new_with_config size branches c in
    if lc_loaded s then sret s else lstop_fill data s.

  (* level_cache.rs 335-345 *)
  Definition lstop_copy_from_slice (buf : list byte) (start : nat) : SM St unit :=
    let! _ := slift (ensure (List.length buf mod bl =? 0) "buf size must be a multiple of byte_len") in
    let! _ := lstop_store_copy (start * bl) buf in
    let! st := sget in
    lc_upd_len (Nat.max (lc_len (fst st)) (start + List.length buf / bl)).

  Variable en : env.
  Variable A : AlgOps E.
  Variable branches : nat.

  (* level_cache.rs 455-513 *)
  Definition lstop_layer (width level read_start write_start : nat) : SM St unit :=
    match kp with
    | L_layer k sched =>
        if level =? k then
          let! _ := mmap_layer_by EO A branches (p_chunk (env_params en))
                      (fun n start rd comp wr _ => run_bytes_until n start rd comp wr sched) lc_file
                      (fun st s e => lc_check EO st (s * bl) (e * bl)) width level read_start write_start in
          slift killed
        else lc_process_layer EO en A branches (env_bytes en level) width level read_start write_start
    | _ => lc_process_layer EO en A branches (env_bytes en level) width level read_start write_start
    end.

  (* level_cache.rs 604-632 *)
  Definition lstop_truncate (level : nat) (c : StoreConfig) (width : nat) : SM St unit :=
    match kp with
    | L_trunc k n sizes =>
        if level =? k then
          let! st := sget in
          let s := fst st in
          let store_size := fs_size (snd st) (lc_file s) in
          let len := width * bl in
          let! _ := slift (ensure (len <=? store_size) "Invalid truncation length") in
          let! reader := slift (fs_open_ro (snd st) (cfg_path c)) in
          let! file := slift (fs_open_rw (snd st) (cfg_path c)) in
          let! _ := sput (lc_set_file s file, snd st) in
          fun st => (killed, snd (on_fs (copy_loop n sizes 0 reader file len 0 0) st))
        else lc_front_truncate EO (env_copy en level) c width
    | _ => lc_front_truncate EO (env_copy en level) c width
    end.

  (* level_cache.rs 516-595 *)
  Definition lstop_build (leafs row_count : nat) (c : option StoreConfig) : SM St E :=
    let! _ := slift (ensure (next_pow2 branches =? branches) "branches MUST be a power of 2") in
    let! st := sget in
    let! _ := slift (ensure (lc_len (fst st) =? leafs) "Inconsistent data") in
    let! _ := slift (ensure (leafs mod 2 =? 0) "Leafs must be a power of two") in
    let! cfg := slift (match c with
                       | Some x => Ok x
                       | None => Err "LevelCacheStore build requires a valid config"
                       end) in
    let! cache_size := slift (get_merkle_tree_cache_size leafs branches (sc_rows_to_discard cfg)) in
    let! total := slift (get_merkle_tree_len leafs branches) in
    let! cis := slift (checked_sub total cache_size) in
    let! level := lc_build_loop_with lstop_layer lstop_truncate (S leafs) (log2_pow2 branches) cis cfg 0 leafs 0 in
    let! st := sget in
    let! _ := lc_upd_len (lc_len (fst st) + 1) in
    let! st := sget in
    let! _ := slift (ensure (lc_len (fst st) =? total) "Invalid merkle tree length") in
    let! _ := slift (ensure (row_count =? level + 1) "Invalid tree row_count") in
    let! i := slift (do a <- checked_sub (lc_len (fst st)) cis; checked_sub a 1) in
    sreads (fun st => lc_read_at_internal EO st i).
End LcStop.

(* the store of the process that will die at kp (level_cache.rs 154-596);
   everything else as in lc_store *)
Definition lstop_store {E} (EO : ElementOps E) (kp : lkill) : StoreOps E := {|
  st_t := lc_t;
  st_new_with_config := lstop_new_with_config EO kp;
  st_new := st_new (lc_store EO);
  st_new_from_slice_with_config := lstop_new_from_slice_with_config EO kp;
  st_new_from_slice := st_new_from_slice (lc_store EO);
  st_new_from_disk := st_new_from_disk (lc_store EO);
  st_write_at := st_write_at (lc_store EO);
  st_copy_from_slice := lstop_copy_from_slice EO kp;
  st_compact := st_compact (lc_store EO);
  st_reinit := st_reinit (lc_store EO);
  st_delete := st_delete (lc_store EO);
  st_read_at := st_read_at (lc_store EO);
  st_read_range := st_read_range (lc_store EO);
  st_read_into := st_read_into (lc_store EO);
  st_read_range_into := st_read_range_into (lc_store EO);
  st_len := lc_len;
  st_loaded_from_disk := lc_loaded;
  st_is_empty := fun s => lc_len s =? 0;
  st_push := st_push (lc_store EO);
  st_sync := match kp with L_sync => slift killed | _ => sret tt end;
  st_build := fun en A b leafs row_count c => lstop_build EO kp en A b leafs row_count c
|}.
