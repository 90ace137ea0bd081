(* DiskStore::compact in which an input/output operation fails.  In DiskStore.v its
   operations fail only for the reasons of FS.v; here each may also fail by itself.
   Simplifications: a failing open, seek, set_len, sync or metadata changes nothing; a
   failing copy has moved some pieces before (piece sizes are arbitrary, so any number
   of bytes). *)
From Coq Require Import String List Arith Bool.
From Verif Require Import Base Element Hash Sizing FS Sched Store DiskStore.
Import ListNotations.

(* the operations of disk.rs 246-281 in their order, each followed by `?` *)
Inductive io_point : Type :=
| IO_open_reader      (* disk.rs 246-248 *)
| IO_seek_reader      (* disk.rs 249 *)
| IO_open_writer      (* disk.rs 252-255 *)
| IO_seek_writer      (* disk.rs 258 *)
| IO_copy (k : nat)   (* disk.rs 261, after k pieces *)
| IO_set_len          (* disk.rs 266, 271 *)
| IO_sync             (* disk.rs 280 *)
| IO_metadata.        (* disk.rs 281 *)

(* the position of an operation in the method, disk.rs 246-281 *)
Definition io_rank (p : io_point) : nat :=
  match p with
  | IO_open_reader => 0 | IO_seek_reader => 1 | IO_open_writer => 2 | IO_seek_writer => 3
  | IO_copy _ => 4 | IO_set_len => 5 | IO_sync => 6 | IO_metadata => 7
  end.

(* io::copy with an error after k pieces (none if it needs fewer), disk.rs 261 *)
Definition copy_failing (k : nat) (sizes : nat -> nat) (r w : handle) (rpos wpos : nat) : SM fs nat := fun f =>
  match copy_loop k sizes 0 r w rpos wpos 0 f with
  | (Diverge, f') => (Err "input/output error", f')
  | x => x
  end.

Section CompactIo.
  Context {E : Type} (EO : ElementOps E).
  Local Notation bl := (e_byte_len EO).
  Local Notation St := (disk_t * fs)%type.

  (* the `?` after the operation of rank n, disk.rs 246-281 *)
  Definition io_ok (p : option io_point) (n : nat) : SM St unit :=
    slift (match p with
           | Some (IO_copy _) => Ok tt
           | Some q => ensure (negb (io_rank q =? n)) "input/output error"
           | None => Ok tt
           end).
  (* disk.rs 261 *)
  Definition io_copy (p : option io_point) (sizes : nat -> nat) : handle -> handle -> nat -> nat -> SM fs nat :=
    match p with Some (IO_copy k) => copy_failing k sizes | _ => fs_copy sizes end.

  (* disk.rs 212-289; p: the operation that fails, if any *)
  Definition disk_compact_io (p : option io_point) (sizes : nat -> nat) (branches : nat)
      (c : StoreConfig) (store_version : nat) : SM St bool :=
    let! st := sget in
    let s := fst st in
    let! leafs := slift (get_merkle_tree_leafs (ds_len s) branches) in
    let data_width := leafs * bl in
    let! cs := slift (get_merkle_tree_cache_size leafs branches (sc_rows_to_discard c)) in
    let cache_size := cs * bl in
    let! _ := slift (ensure ((cache_size <? ds_len s * bl) && negb (cache_size =? 0))
                       "Cannot compact with this configuration") in
    let v1 := store_version =? 1 in
    let start := if v1 then data_width else 0 in
    let! cache_start := slift (checked_sub (ds_size s) cache_size) in
    let! _ := io_ok p 0 in
    let! reader := slift (fs_open_ro (snd st) (cfg_path c)) in
    let! _ := io_ok p 1 in
    let! _ := io_ok p 2 in
    let! file := slift (fs_open_rw (snd st) (cfg_path c)) in
    let! _ := sput (ds_set_file s file, snd st) in
    let! _ := io_ok p 3 in
    let! written := on_fs (io_copy p sizes reader file cache_start start) in
    let! _ := slift (ensure (written =? cache_size) "Failed to copy all data") in
    let new_bytes := if v1 then data_width + cache_size else cache_size in
    let! _ := io_ok p 5 in
    let! _ := on_fs (fs_set_len file new_bytes) in
    let! _ := disk_upd_len (new_bytes / bl) in
    let! _ := io_ok p 6 in
    let! _ := io_ok p 7 in
    let! st := sget in
    let! _ := slift (ensure (ds_len (fst st) * bl =? fs_size (snd st) (ds_file (fst st)))
                       "Inconsistent metadata detected") in
    sret true.

  (* compact called again and again, each time with a failing operation, on the same
     store object or on one reopened from the file (disk.rs 130-133); an attempt to reopen that fails
     leaves the object at hand in use *)
  Definition io_try (size branches : nat) (c : StoreConfig) (v : nat) (x : bool * io_point * (nat -> nat)) (st : St) : St :=
    let '(reopen, p, sizes) := x in
    if reopen then
      match disk_new_from_disk EO size branches c (snd st) with
      | (Ok s, f) => snd (disk_compact_io (Some p) sizes branches c v (s, f))
      | (_, f) => (fst st, f)
      end
    else snd (disk_compact_io (Some p) sizes branches c v st).
  (* disk.rs 130-133, 212-289, any number of times *)
  Definition io_tries (size branches : nat) (c : StoreConfig) (v : nat) (l : list (bool * io_point * (nat -> nat))) (st : St) : St :=
    fold_left (fun st x => io_try size branches c v x st) l st.
End CompactIo.
