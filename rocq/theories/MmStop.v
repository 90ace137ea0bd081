(* A MmapStore build whose process dies on the way, as Stop.v for DiskStore:
   mmap_store_ops of MmapStore.v, except that the process dies at one chosen point.
   Everything a MmapStore build puts into its file goes through one slice copy into
   the map (mmap.rs 123, 144, 176); between two of them the file does not change.
   The result "killed" stands for no result at all. *)
From Coq Require Import String List Arith Bool Lia Init.Byte.
From Verif Require Import Base Element Hash Sizing FS Sched Store DiskStore MmapStore Faults Stop.
Import ListNotations.

Inductive mkill : Type :=
| M_create                       (* the file exists, set_len has not run: mmap.rs 41-47 *)
| M_store (i : nat) (ps : list nat).
                                 (* in the copy into the map that starts at element i, after the bytes ps of
                                    it, in that order: mmap.rs 123, 144, 176.  A memory copy may store its
                                    bytes in any order. *)

Section MmStop.
  Context {E : Type} (EO : ElementOps E) (kp : mkill).
  Let bl := e_byte_len EO.
  Let St := (mmap_t * fs)%type.

  (* mmap.rs 32-58 *)
  Definition mstop_new_with_config (size branches : nat) (c : StoreConfig) : SM fs mmap_t :=
    let! f := sget in
    if fs_exists f (cfg_path c) then mmap_new_from_disk EO size branches c
    else
      let! file := fs_create_new (cfg_path c) in
      let! _ := slift (match kp with M_create => killed | _ => Ok tt end) in
      let! _ := fs_set_len file (bl * size) in
      let! m := mm_map_mut file in
      sret {| mm_map := Some m; mm_file := file; mm_len := 0 |}.

  (* the bytes ps of d, stored at start *)
  (* mmap.rs 123, 144, 176: part of copy_from_slice *)
  Fixpoint poke (h : handle) (start : nat) (d : list byte) (ps : list nat) : SM fs unit :=
    match ps with
    | [] => sret tt
    | j :: r =>
        match nth_error d j with
        | Some x => let! _ := fs_map_write h (start + j) [x] in poke h start d r
        | None => poke h start d r
        end
    end.

  (* mmap.rs 123, 144, 176 *)
  Definition mstop_put (start : nat) (d : list byte) : SM St unit := fun st =>
    match kp with
    | M_store i ps =>
        if (start =? i * bl) && negb (List.length d =? 0) then
          match mm_map (fst st) with
          | None => (Panic "called unwrap on a None value", st)
          | Some m =>
              if start + List.length d <=? m then
                (killed, (fst st, snd (poke (mm_file (fst st)) start d ps (snd st))))
              else (Panic "range end index out of range for slice", st)
          end
        else mmap_store start d st
    | _ => mmap_store start d st
    end.

  (* mmap.rs 114-127 *)
  Definition mstop_write_at (el : E) (index : nat) : SM St unit :=
    let! _ := mmap_ensure_map in
    let! _ := mstop_put (index * bl) (e_as_ref EO el) in
    let! st := sget in
    mmap_upd_len (Nat.max (mm_len (fst st)) (index + 1)).

  (* mmap.rs 129-148 *)
  Definition mstop_copy_from_slice (buf : list byte) (start : nat) : SM St unit :=
    let! _ := slift (ensure (List.length buf mod bl =? 0) "buf size must be a multiple of byte_len") in
    let! _ := mmap_ensure_map in
    let! _ := mstop_put (start * bl) buf in
    let! st := sget in
    mmap_upd_len (Nat.max (mm_len (fst st)) (start + List.length buf / bl)).

  (* mmap.rs 169-178 *)
  Definition mstop_fill (data : list byte) (s : mmap_t) : SM fs mmap_t := fun f =>
    match sbind mmap_ensure_map (fun _ => mstop_put 0 data) (s, f) with
    | (Ok _, (s', f')) => (Ok (mm_set_len s' (List.length data / bl)), f')
    | (Err m, (_, f')) => (Err m, f')
    | (Panic m, (_, f')) => (Panic m, f')
    | (Diverge, (_, f')) => (Diverge, f')
    end.

  (* mmap.rs 150-181 *)
  Definition mstop_new_from_slice_with_config (size branches : nat) (data : list byte)
      (c : StoreConfig) : SM fs mmap_t :=
    let! _ := slift (ensure (List.length data mod bl =? 0) "data size must be a multiple of byte_len") in
    let! s := mstop_new_with_config size branches c in
    mstop_fill data s.

  (* store/mod.rs 369-419; a process that dies in new_with_config runs none of it *)
  Definition mstop_build (en : env) (A : AlgOps E) (branches leafs row_count : nat)
      (c : option StoreConfig) : SM St E :=
    match kp with
    | M_create => st_build (mmap_store_ops EO) en A branches leafs row_count c
    | M_store _ _ =>
        default_build_fuel EO mm_len (mmap_read_at EO) (mmap_read_range EO) mstop_write_at
          mstop_copy_from_slice A branches (p_chunk (env_params en)) (S leafs)
          (p_small (env_params en)) (env_sched en) leafs row_count
    end.
End MmStop.

(* the store of the process that will die at kp (mmap.rs 30-305); everything else as
   in mmap_store_ops *)
Definition mstop_store {E} (EO : ElementOps E) (kp : mkill) : StoreOps E := {|
  st_t := mmap_t;
  st_new_with_config := mstop_new_with_config EO kp;
  st_new := st_new (mmap_store_ops EO);
  st_new_from_slice_with_config := mstop_new_from_slice_with_config EO kp;
  st_new_from_slice := st_new_from_slice (mmap_store_ops EO);
  st_new_from_disk := st_new_from_disk (mmap_store_ops EO);
  st_write_at := mstop_write_at EO kp;
  st_copy_from_slice := mstop_copy_from_slice EO kp;
  st_compact := st_compact (mmap_store_ops EO);
  st_reinit := st_reinit (mmap_store_ops EO);
  st_delete := st_delete (mmap_store_ops EO);
  st_read_at := st_read_at (mmap_store_ops EO);
  st_read_range := st_read_range (mmap_store_ops EO);
  st_read_into := st_read_into (mmap_store_ops EO);
  st_read_range_into := st_read_range_into (mmap_store_ops EO);
  st_len := mm_len;
  st_loaded_from_disk := fun _ => false;
  st_is_empty := fun s => mm_len s =? 0;
  st_push := st_push (mmap_store_ops EO);
  st_sync := sret tt;
  st_build := mstop_build EO kp
|}.
