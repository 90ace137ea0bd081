(* A DiskStore build whose process dies on the way (kill -9, a crash of the
   program; the operating system keeps the pages it was given).  The store below
   is disk_store of DiskStore.v except that the process dies at one chosen point;
   what matters is the file system left behind.  The result "killed" stands for
   no result at all. *)
From Coq Require Import String List Arith Bool Lia Init.Byte.
From Verif Require Import Base Element Hash Sizing FS Sched Store DiskStore Faults.
Import ListNotations.

Inductive kill : Type :=
| K_create                       (* the file exists, set_len has not run: disk.rs 57-65 *)
| K_copy (i p : nat)             (* in the write of the leaves that start at element i, after p bytes:
                                    disk.rs 548 from merkle.rs 2041, 2046, 2079 and disk.rs 108 *)
| K_sync                         (* at the call of sync: merkle.rs 2047, 2082-2085 *)
| K_layer (level : nat) (sched : list (nat * nat)).
                                 (* while row level + 1 is hashed, after the worker steps of sched:
                                    disk.rs 349-375 *)

Definition killed {X} : res X := Panic "killed".

Section Stop.
  Context {E : Type} (EO : ElementOps E) (kp : kill).
  Let bl := e_byte_len EO.
  Let St := (disk_t * fs)%type.

  (* disk.rs 47-73 *)
  Definition stop_new_with_config (size branches : nat) (c : StoreConfig) : SM fs disk_t :=
    let! f := sget in
    if fs_exists f (cfg_path c) then disk_new_from_disk EO size branches c
    else
      let! file := fs_create_new (cfg_path c) in
      let! _ := slift (match kp with K_create => killed | _ => Ok tt end) in
      let store_size := bl * size in
      let! _ := fs_set_len file store_size in
      sret {| ds_len := 0; ds_file := file; ds_loaded := false; ds_size := store_size |}.

  (* disk.rs 540-549 *)
  Definition stop_store_copy (start : nat) (d : list byte) : SM St unit := fun st =>
    match kp with
    | K_copy i p =>
        if start =? i * bl then
          if start + List.length d <=? ds_size (fst st) then
            match on_fs (fs_write_all_at (ds_file (fst st)) start (firstn p d)) st with
            | (_, st') => (killed, st')
            end
          else (Err "Requested slice too large", st)
        else disk_store_copy_from_slice start d st
    | _ => disk_store_copy_from_slice start d st
    end.

  (* disk.rs 108-111 *)
  Definition stop_fill (data : list byte) (s : disk_t) : SM fs disk_t := fun f =>
    match stop_store_copy 0 data (s, f) with
    | (Ok _, (s', f')) => (Ok (ds_set_len s' (List.length data / bl)), f')
    | (Err m, (_, f')) => (Err m, f')
    | (Panic m, (_, f')) => (Panic m, f')
    | (Diverge, (_, f')) => (Diverge, f')
    end.

  (* disk.rs 90-114 *)
  Definition stop_new_from_slice_with_config (size branches : nat) (data : list byte)
      (c : StoreConfig) : SM fs disk_t :=
    let! _ := slift (ensure (List.length data mod bl =? 0) "data size must be a multiple of byte_len") in
    let! s := stop_new_with_config size branches c in
    if ds_loaded s then sret s else stop_fill data s.

  (* disk.rs 141-151 *)
  Definition stop_copy_from_slice (buf : list byte) (start : nat) : SM St unit :=
    let! _ := slift (ensure (List.length buf mod bl =? 0) "buf size must be a multiple of byte_len") in
    let! _ := stop_store_copy (start * bl) buf in
    let! st := sget in
    disk_upd_len (Nat.max (ds_len (fst st)) (start + List.length buf / bl)).

  Variable en : env.
  Variable A : AlgOps E.
  Variable branches : nat.

  (* disk.rs 318-376 *)
  Definition stop_layer (width level read_start write_start : nat) : SM St unit :=
    match kp with
    | K_layer k sched =>
        if level =? k then
          let! _ := mmap_layer_by EO A branches (p_chunk (env_params en))
                      (fun n start rd comp wr _ => run_bytes_until n start rd comp wr sched) ds_file
                      (fun st s e => disk_check EO st (s * bl) (e * bl)) width level read_start write_start in
          slift killed
        else disk_process_layer EO en A branches (env_bytes en level) width level read_start write_start
    | _ => disk_process_layer EO en A branches (env_bytes en level) width level read_start write_start
    end.

  (* disk.rs 379-439 *)
  Definition stop_build (leafs row_count : nat) (c : option StoreConfig) : SM St E :=
    let! _ := slift (ensure (next_pow2 branches =? branches) "branches MUST be a power of 2") in
    let! st := sget in
    let! _ := slift (ensure (ds_len (fst st) =? leafs) "Inconsistent data") in
    let! _ := slift (ensure (leafs mod 2 =? 0) "Leafs must be a power of two") in
    let! level := disk_build_loop_with stop_layer (S leafs) (log2_pow2 branches) 0 leafs 0 in
    let! total := slift (get_merkle_tree_len leafs branches) in
    let! st := sget in
    let! _ := slift (ensure (ds_len (fst st) =? total) "Invalid merkle tree length") in
    let! _ := slift (ensure (row_count =? level + 1) "Invalid tree row_count") in
    default_last ds_len (disk_read_at EO).
End Stop.

(* disk.rs 46-440: the store of the process that will die at kp; everything else as in disk_store *)
Definition stop_store {E} (EO : ElementOps E) (kp : kill) : StoreOps E := {|
  st_t := disk_t;
  st_new_with_config := stop_new_with_config EO kp;
  st_new := st_new (disk_store EO);
  st_new_from_slice_with_config := stop_new_from_slice_with_config EO kp;
  st_new_from_slice := st_new_from_slice (disk_store EO);
  st_new_from_disk := st_new_from_disk (disk_store EO);
  st_write_at := st_write_at (disk_store EO);
  st_copy_from_slice := stop_copy_from_slice EO kp;
  st_compact := st_compact (disk_store EO);
  st_reinit := st_reinit (disk_store EO);
  st_delete := st_delete (disk_store EO);
  st_read_at := st_read_at (disk_store EO);
  st_read_range := st_read_range (disk_store EO);
  st_read_into := st_read_into (disk_store EO);
  st_read_range_into := st_read_range_into (disk_store EO);
  st_len := ds_len;
  st_loaded_from_disk := ds_loaded;
  st_is_empty := fun s => ds_len s =? 0;
  st_push := st_push (disk_store EO);
  st_sync := match kp with K_sync => slift killed | _ => sret tt end;
  st_build := fun en A b leafs row_count c => stop_build EO kp en A b leafs row_count c
|}.
