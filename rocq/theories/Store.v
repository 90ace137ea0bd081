(* The Store trait (store/mod.rs 201-423) and its default methods. *)
From Coq Require Import String List Arith Bool Lia Init.Byte.
From Verif Require Import Base Element Hash Sizing FS Sched.
Import ListNotations.

(* store/mod.rs 201-258.  &self methods read the pair (store, file system);
   &mut self methods are state transformers.  Buffers passed as &mut [u8] are
   passed by value and returned. *)
Record StoreOps (E : Type) : Type := {
  st_t : Type;
  st_new_with_config : nat -> nat -> StoreConfig -> SM fs st_t;
  st_new : nat -> SM fs st_t;
  st_new_from_slice_with_config : nat -> nat -> list byte -> StoreConfig -> SM fs st_t;
  st_new_from_slice : nat -> list byte -> SM fs st_t;
  st_new_from_disk : nat -> nat -> StoreConfig -> SM fs st_t;
  st_write_at : E -> nat -> SM (st_t * fs) unit;
  st_copy_from_slice : list byte -> nat -> SM (st_t * fs) unit;
  st_compact : (nat -> nat) -> nat -> StoreConfig -> nat -> SM (st_t * fs) bool;
  st_reinit : SM (st_t * fs) unit;
  st_delete : StoreConfig -> SM fs unit;
  st_read_at : st_t * fs -> nat -> res E;
  st_read_range : st_t * fs -> nat -> nat -> res (list E);
  st_read_into : st_t * fs -> nat -> list byte -> res (list byte);
  st_read_range_into : st_t * fs -> nat -> nat -> list byte -> res (list byte);
  st_len : st_t -> nat;
  st_loaded_from_disk : st_t -> bool;
  st_is_empty : st_t -> bool;
  st_push : E -> SM (st_t * fs) unit;
  st_sync : SM (st_t * fs) unit;
  st_build : env -> AlgOps E -> nat -> nat -> nat -> option StoreConfig -> SM (st_t * fs) E
}.
Arguments st_t {E} _.
Arguments st_new_with_config {E} _ _ _ _.
Arguments st_new {E} _ _.
Arguments st_new_from_slice_with_config {E} _ _ _ _ _.
Arguments st_new_from_slice {E} _ _ _.
Arguments st_new_from_disk {E} _ _ _ _.
Arguments st_write_at {E} _ _ _.
Arguments st_copy_from_slice {E} _ _ _.
Arguments st_compact {E} _ _ _ _ _.
Arguments st_reinit {E} _.
Arguments st_delete {E} _ _.
Arguments st_read_at {E} _ _ _.
Arguments st_read_range {E} _ _ _ _.
Arguments st_read_into {E} _ _ _ _.
Arguments st_read_range_into {E} _ _ _ _ _.
Arguments st_len {E} _ _.
Arguments st_loaded_from_disk {E} _ _.
Arguments st_is_empty {E} _ _.
Arguments st_push {E} _ _.
Arguments st_sync {E} _.
Arguments st_build {E} _ _ _ _ _ _ _.

Section Defaults.
  Context {E : Type} (EO : ElementOps E).
  Context {T : Type}.                                   (* the store type *)
  Let St := (T * fs)%type.
  Variable len : T -> nat.
  Variable read_at : St -> nat -> res E.
  Variable read_range : St -> nat -> nat -> res (list E).
  Variable write_at : E -> nat -> SM St unit.
  Variable copy_from_slice : list byte -> nat -> SM St unit.

  (* store/mod.rs 248-250; len() - 1 underflows on an empty store *)
  Definition default_last : SM St E := fun st =>
    (do i <- checked_sub (len (fst st)) 1; read_at st i, st).

  (* store/mod.rs 292-294: write the hashed layer node by node *)
  Fixpoint write_nodes (nodes : list E) (at_ : nat) : SM St unit :=
    match nodes with
    | [] => sret tt
    | x :: r => let! _ := write_at x at_ in write_nodes r (S at_)
    end.

  Variable A : AlgOps E.
  Variable branches : nat.

  (* hashed row: row.chunks(branches).map(|nodes| A::default().multi_node(nodes, level)) *)
  (* store/mod.rs 285-288 (default_build_small: par_chunks); 345-352 *)
  Definition hash_row (level : nat) (row : list E) : list E :=
    map (h_node A level) (chunks branches row).

  (* read_start, write_start of a level: store/mod.rs 276-281, 400-406 *)
  Definition level_bounds (level level_node_index width : nat) : SM St (nat * nat) :=
    fun st =>
      (Ok (if level =? 0 then (0, len (fst st))
           else (level_node_index, level_node_index + width)), st).

  (* store/mod.rs 273-299: the while loop of build_small_tree; returns the final level *)
  Fixpoint small_tree_loop (fuel shift level width level_node_index : nat) : SM St nat :=
    match fuel with
    | 0 => slift Diverge
    | S f =>
        if 1 <? width then
          let! (read_start, write_start) := level_bounds level level_node_index width in
          let! row := sreads (fun st => read_range st read_start (read_start + width)) in
          let! _ := write_nodes (hash_row level row) write_start in
          small_tree_loop f shift (S level) (Nat.shiftr width shift)
            (level_node_index + width)
        else sret level
    end.

  (* store/mod.rs 261-307 *)
  Definition build_small_tree_fuel (fuel leafs row_count : nat) : SM St E :=
    let! _ := slift (ensure (leafs mod 2 =? 0) "Leafs must be a power of two") in
    let! level := small_tree_loop fuel (log2_pow2 branches) 0 leafs 0 in
    let! _ := slift (ensure (row_count =? level + 1) "Invalid tree row_count") in
    default_last.

  Variable chunk : nat.                                 (* BUILD_CHUNK_NODES *)

  (* store/mod.rs 326: number of elements of (read_start..read_start + width).step_by(chunk) *)
  Definition num_chunks (width : nat) : nat := (width + chunk - 1) / chunk.

  (* store/mod.rs 330-357: what a task computes from its chunk *)
  Definition chunk_task (rr : St -> nat -> nat -> res (list E))
      (width level read_start k : nat) (st : St) : res (list byte) :=
    let chunk_index := read_start + k * chunk in
    let chunk_size := Nat.min chunk (read_start + width - chunk_index) in
    do chunk_nodes <- rr st chunk_index (chunk_index + chunk_size);
    let bytes := encode EO (hash_row level chunk_nodes) in
    do _ <- ensure (List.length bytes =? chunk_size / branches * e_byte_len EO)
              "Invalid hashed node length";
    Ok bytes.

  (* store/mod.rs 309-366 *)
  Definition process_layer (sched : list nat) (width level read_start write_start : nat)
    : SM St unit :=
    let! _ := slift (ensure (chunk mod branches =? 0) "Invalid chunk size") in
    run_tasks (num_chunks width)
      (chunk_task read_range width level read_start)
      (fun k bytes =>
         let chunk_index := read_start + k * chunk in
         let write_delta := (chunk_index - read_start) / branches in
         copy_from_slice bytes (write_start + write_delta))
      sched.

  (* store/mod.rs 396-414: the while loop of build; returns the final level *)
  Fixpoint build_loop (sched : nat -> list nat)
      (fuel shift level width level_node_index : nat) : SM St nat :=
    match fuel with
    | 0 => slift Diverge
    | S f =>
        if 1 <? width then
          let! (read_start, write_start) := level_bounds level level_node_index width in
          let! _ := process_layer (sched level) width level read_start write_start in
          build_loop sched f shift (S level) (Nat.shiftr width shift)
            (level_node_index + width)
        else sret level
    end.

  (* store/mod.rs 369-422 *)
  Definition default_build_fuel (fuel small : nat) (sched : nat -> list nat)
      (leafs row_count : nat) : SM St E :=
    let! _ := slift (ensure (next_pow2 branches =? branches) "branches MUST be a power of 2") in
    let! st := sget in
    let! _ := slift (ensure (len (fst st) =? leafs) "Inconsistent data") in
    let! _ := slift (ensure (leafs mod 2 =? 0) "Leafs must be a power of two") in
    if leafs <=? small then build_small_tree_fuel fuel leafs row_count
    else
      let! level := build_loop sched fuel (log2_pow2 branches) 0 leafs 0 in
      let! _ := slift (ensure (row_count =? level + 1) "Invalid tree row_count") in
      default_last.

  (* disk.rs 359-374, level_cache.rs 496-511: what a task makes of the bytes it
     read; the result has to fit its piece of the map (write_mmap[0..len]) *)
  Definition map_task (width level read_start map_len piece k : nat) (d : list byte) : res (list byte) :=
    let chunk_index := read_start + k * chunk in
    let chunk_size := Nat.min chunk (read_start + width - chunk_index) in
    do chunk_nodes <- decode EO d;
    let bytes := encode EO (hash_row level chunk_nodes) in
    do _ <- ensure (List.length bytes =? chunk_size / branches * e_byte_len EO)
              "Invalid hashed node length";
    if List.length bytes <=? Nat.min piece (map_len - k * piece) then Ok bytes
    else Panic "range end index out of range for slice".

  (* the task's check (disk.rs 186-192, level_cache.rs 778-787 and 757-764, as
     [chk]), byte j of its read, byte j of its write *)
  Definition map_start (chk : St -> nat -> nat -> res unit) (width read_start k : nat) (st : St) : res nat :=
    let chunk_index := read_start + k * chunk in
    let chunk_size := Nat.min chunk (read_start + width - chunk_index) in
    do _ <- chk st chunk_index (chunk_index + chunk_size);
    Ok (chunk_size * e_byte_len EO).
  (* disk.rs 347-353, level_cache.rs 484-490: byte j of the chunk of task k *)
  Definition map_read (h : handle) (read_start k j : nat) (st : St) : res byte :=
    fs_read_byte (snd st) h ((read_start + k * chunk) * e_byte_len EO + j).
  (* disk.rs 330, 343, 372; level_cache.rs 467, 480, 509: byte j of the piece of task k
     *)
  Definition map_write (h : handle) (write_start piece k j : nat) (x : byte) : SM St unit := fun st =>
    let '(r, f') := fs_map_write h (write_start * e_byte_len EO + k * piece + j) [x] (snd st)
    in (r, (fst st, f')).

  (* disk.rs 319-376 and level_cache.rs 455-513: the layer is hashed by tasks
     writing disjoint pieces of a memory map of the store's file, starting at
     write_start; map length width * byte_len, piece length
     (chunk >> shift) * byte_len.  zip stops at the shorter of the two lists.
     [file] is the store's handle.  Neither the reads of the file nor the stores
     into the map are atomic.  [run] is run_bytes; Stop.v runs it otherwise. *)
  Definition mmap_layer_by
      (run : nat -> (nat -> St -> res nat) -> (nat -> nat -> St -> res byte) ->
             (nat -> list byte -> res (list byte)) -> (nat -> nat -> byte -> SM St unit) -> nat -> SM St unit)
      (file : T -> handle) (chk : St -> nat -> nat -> res unit)
      (width level read_start write_start : nat) : SM St unit :=
    let! st0 := sget in
    let h := file (fst st0) in
    let! _ := slift (fs_map_mut h) in
    let! _ := slift (ensure (chunk mod branches =? 0) "Invalid chunk size") in
    let piece := Nat.shiftr chunk (log2_pow2 branches) * e_byte_len EO in
    let map_len := width * e_byte_len EO in
    let n := Nat.min (num_chunks width) ((map_len + piece - 1) / piece) in
    run n (map_start chk width read_start) (map_read h read_start)
      (map_task width level read_start map_len piece) (map_write h write_start piece)
      (Nat.min chunk width * e_byte_len EO).
  (* disk.rs 318-376, level_cache.rs 455-513 *)
  Definition mmap_process_layer (file : T -> handle) (chk : St -> nat -> nat -> res unit)
      (sched : list (nat * nat)) (width level read_start write_start : nat) : SM St unit :=
    mmap_layer_by (fun n start rd comp wr most => run_bytes n start rd comp wr most sched)
      file chk width level read_start write_start.
End Defaults.
