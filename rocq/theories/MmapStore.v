(* src/store/mmap.rs *)
From Coq Require Import String List Arith Bool Lia Init.Byte.
From Verif Require Import Base Element Hash Sizing FS Sched Store DiskStore.
Import ListNotations.

(* mmap.rs 15-20: the map is represented by its length in bytes *)
Record mmap_t : Type := {
  mm_map : option nat;
  mm_file : handle;
  mm_len : nat
}.

Section Mmap.
  Context {E : Type} (EO : ElementOps E).
  Let bl := e_byte_len EO.
  Let St := (mmap_t * fs)%type.

  (* mmap.rs 124, 145, 177, 196 *)
  Definition mm_set_len (s : mmap_t) (n : nat) : mmap_t :=
    {| mm_map := mm_map s; mm_file := mm_file s; mm_len := n |}.
  (* mmap.rs 269, 276 *)
  Definition mm_set_map (s : mmap_t) (m : option nat) : mmap_t :=
    {| mm_map := m; mm_file := mm_file s; mm_len := mm_len s |}.

  (* MmapMut::map_mut(&file): whole file *)
  (* mmap.rs 50, 67, 276 *)
  Definition mm_map_mut (h : handle) : SM fs nat := fun f =>
    (do _ <- fs_map_mut h; Ok (fs_size f h), f).

  (* mmap.rs 78-112; an open failure panics (line 89) *)
  Definition mmap_new_from_disk (size branches : nat) (c : StoreConfig) : SM fs mmap_t := fun f =>
    (do _ <- ensure (fs_exists f (cfg_path c)) "[MmapStore] new_from_disk constructor can be used only for instantiating already existing storages";
     do file <- (match fs_open_rw f (cfg_path c) with
                 | Ok h => Ok h
                 | Err m => Panic m
                 | r => r
                 end);
     let store_size := fs_size f file in
     do _ <- ensure (store_size =? size * bl) "Invalid formatted file provided";
     do _ <- fs_map_mut file;
     Ok {| mm_map := Some store_size; mm_file := file; mm_len := size |}, f).

  (* mmap.rs 32-58 *)
  Definition mmap_new_with_config (size branches : nat) (c : StoreConfig) : SM fs mmap_t :=
    let! f := sget in
    if fs_exists f (cfg_path c) then mmap_new_from_disk size branches c
    else
      let! file := fs_create_new (cfg_path c) in
      let! _ := fs_set_len file (bl * size) in
      let! m := mm_map_mut file in
      sret {| mm_map := Some m; mm_file := file; mm_len := 0 |}.

  (* mmap.rs 61-75 *)
  Definition mmap_new (size : nat) : SM fs mmap_t :=
    let! file := fs_tempfile in
    let! _ := fs_set_len file (bl * size) in
    let! m := mm_map_mut file in
    sret {| mm_map := Some m; mm_file := file; mm_len := 0 |}.

  (* mmap.rs 275-280 *)
  Definition mmap_reinit : SM St unit := fun st =>
    match mm_map_mut (mm_file (fst st)) (snd st) with
    | (Ok m, f') => (Ok tt, (mm_set_map (fst st) (Some m), f'))
    | (Err e, f') => (Err e, (fst st, f'))
    | (Panic e, f') => (Panic e, (fst st, f'))
    | (Diverge, f') => (Diverge, (fst st, f'))
    end.

  (* if self.map.is_none() { self.reinit()?; } *)
  (* mmap.rs 118-120, 139-141, 169-171, 293-295 *)
  Definition mmap_ensure_map : SM St unit := fun st =>
    match mm_map (fst st) with
    | None => mmap_reinit st
    | Some _ => (Ok tt, st)
    end.

  (* self.map.as_mut().unwrap()[start..start+d.len()].copy_from_slice(d) *)
  (* mmap.rs 123, 144, 176, 195 *)
  Definition mmap_store (start : nat) (d : list byte) : SM St unit := fun st =>
    match mm_map (fst st) with
    | None => (Panic "called unwrap on a None value", st)
    | Some m =>
        if start + List.length d <=? m then
          on_fs (fs_map_write (mm_file (fst st)) start d) st
        else (Panic "range end index out of range for slice", st)
    end.

  (* mmap.rs 124, 145, 177, 196 *)
  Definition mmap_upd_len (n : nat) : SM St unit := fun st =>
    (Ok tt, (mm_set_len (fst st) n, snd st)).

  (* mmap.rs 114-127 *)
  Definition mmap_write_at (el : E) (index : nat) : SM St unit :=
    let! _ := mmap_ensure_map in
    let! _ := mmap_store (index * bl) (e_as_ref EO el) in
    let! st := sget in
    mmap_upd_len (Nat.max (mm_len (fst st)) (index + 1)).

  (* mmap.rs 129-148 *)
  Definition mmap_copy_from_slice (buf : list byte) (start : nat) : SM St unit :=
    let! _ := slift (ensure (List.length buf mod bl =? 0) "buf size must be a multiple of byte_len") in
    let! _ := mmap_ensure_map in
    let! _ := mmap_store (start * bl) buf in
    let! st := sget in
    mmap_upd_len (Nat.max (mm_len (fst st)) (start + List.length buf / bl)).

  (* shared tail of mmap.rs 169-178 and 191-196 *)
  Definition mmap_fill (data : list byte) (s : mmap_t) : SM fs mmap_t := fun f =>
    match sbind mmap_ensure_map (fun _ => mmap_store 0 data) (s, f) with
    | (Ok _, (s', f')) => (Ok (mm_set_len s' (List.length data / bl)), f')
    | (Err m, (_, f')) => (Err m, f')
    | (Panic m, (_, f')) => (Panic m, f')
    | (Diverge, (_, f')) => (Diverge, f')
    end.

  (* mmap.rs 150-181; loaded_from_disk() is constantly false *)
  Definition mmap_new_from_slice_with_config (size branches : nat) (data : list byte)
      (c : StoreConfig) : SM fs mmap_t :=
    let! _ := slift (ensure (List.length data mod bl =? 0) "data size must be a multiple of byte_len") in
    let! s := mmap_new_with_config size branches c in
    mmap_fill data s.

  (* mmap.rs 183-199 *)
  Definition mmap_new_from_slice (size : nat) (data : list byte) : SM fs mmap_t :=
    let! _ := slift (ensure (List.length data mod bl =? 0) "data size must be a multiple of byte_len") in
    let! s := mmap_new size in
    mmap_fill data s.

  (* range checks of mmap.rs 206-207, 221-222, 242-243 *)
  Definition mmap_check (st : St) (s e : nat) : res unit :=
    let len := mm_len (fst st) * bl in
    do _ <- ensure (s <? len) "start out of range";
    ensure (e <=? len) "end out of range".

  (* &data[start..end] of the map: slice bounds panic, then load *)
  (* mmap.rs 209-213, 224-228, 245-252 *)
  Definition mmap_slice (st : St) (s e : nat) : res (list byte) :=
    match mm_map (fst st) with
    | None => Err "Internal map needs to be initialized"
    | Some m =>
        if (s <=? e) && (e <=? m) then fs_map_read (snd st) (mm_file (fst st)) s (e - s)
        else Panic "slice index out of range"
    end.

  (* mmap.rs 201-214 *)
  Definition mmap_read_at (st : St) (index : nat) : res E :=
    let s := index * bl in
    let e := s + bl in
    do _ <- mmap_check st s e;
    do bs <- mmap_slice st s e;
    e_from_slice EO bs.

  (* mmap.rs 216-231 *)
  Definition mmap_read_into (st : St) (index : nat) (buf : list byte) : res (list byte) :=
    let s := index * bl in
    let e := s + bl in
    do _ <- mmap_check st s e;
    do bs <- mmap_slice st s e;
    if List.length buf =? List.length bs then Ok bs
    else Panic "source slice length does not match destination slice length".

  (* mmap.rs 233-235 *)
  Definition mmap_read_range_into (st : St) (s e : nat) (buf : list byte) : res (list byte) :=
    Panic "not implemented: Not required here".

  (* mmap.rs 237-253 *)
  Definition mmap_read_range (st : St) (start end_ : nat) : res (list E) :=
    let s := start * bl in
    let e := end_ * bl in
    do _ <- mmap_check st s e;
    do bs <- mmap_slice st s e;
    decode EO bs.

  (* mmap.rs 263-272 *)
  Definition mmap_compact (sizes : nat -> nat) (branches : nat) (c : StoreConfig) (v : nat)
    : SM St bool := fun st =>
    (Ok (match mm_map (fst st) with Some _ => true | None => false end),
     (mm_set_map (fst st) None, snd st)).

  (* mmap.rs 290-304 *)
  Definition mmap_push (el : E) : SM St unit :=
    let! _ := mmap_ensure_map in
    let! st := sget in
    let l := mm_len (fst st) in
    let! _ := slift (match mm_map (fst st) with
                     | Some m => ensure ((l + 1) * bl <=? m) "not enough space"
                     | None => Panic "called unwrap on a None value"
                     end) in
    mmap_write_at el l.

  (* default Store::build *)
  (* store/mod.rs 369-419, which mmap.rs does not override *)
  Definition mmap_build (en : env) (A : AlgOps E) (branches leafs row_count : nat)
      (c : option StoreConfig) : SM St E :=
    default_build_fuel EO mm_len mmap_read_at mmap_read_range mmap_write_at
      mmap_copy_from_slice A branches (p_chunk (env_params en)) (S leafs)
      (p_small (env_params en)) (env_sched en) leafs row_count.

  (* mmap.rs 30-305 *)
  Definition mmap_store_ops : StoreOps E := {|
    st_t := mmap_t;
    st_new_with_config := mmap_new_with_config;
    st_new := mmap_new;
    st_new_from_slice_with_config := mmap_new_from_slice_with_config;
    st_new_from_slice := mmap_new_from_slice;
    st_new_from_disk := mmap_new_from_disk;
    st_write_at := mmap_write_at;
    st_copy_from_slice := mmap_copy_from_slice;
    st_compact := mmap_compact;
    st_reinit := mmap_reinit;
    st_delete := fun _ => sret tt;                 (* mmap.rs 282-284 *)
    st_read_at := mmap_read_at;
    st_read_range := mmap_read_range;
    st_read_into := mmap_read_into;
    st_read_range_into := mmap_read_range_into;
    st_len := mm_len;                              (* mmap.rs 255-257 *)
    st_loaded_from_disk := fun _ => false;         (* mmap.rs 259-261 *)
    st_is_empty := fun s => mm_len s =? 0;         (* mmap.rs 286-288 *)
    st_push := mmap_push;
    st_sync := sret tt;                            (* store/mod.rs 254-256 *)
    st_build := mmap_build
  |}.
End Mmap.
