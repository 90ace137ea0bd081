(* Input/output failures.  The stores of the other files only fail for the
   reasons listed in FS.v.  Here any store method may fail at any call: an
   oracle, chosen adversarially, looks at the method, its arguments and the
   state and may replace the call by a failure; a failing &mut method leaves an
   arbitrary store and file system behind (a short write, a full disk, a
   truncated file).  A &self read leaves the state alone.
   Simplifications: a repeated identical call in an identical state fails in
   the same way; the failures inside one store method are not told apart (the
   constructors of a store, copy_from_slice and front_truncate are single
   calls here). *)
From Coq Require Import String List Arith Bool Lia Init.Byte.
From Verif Require Import Base Element Hash Sizing FS Sched Store VecStore DiskStore MmapStore LevelCache.
Import ListNotations.

(* what the caller sees: a returned error, or a panic (SIGBUS, a poisoned lock) *)
(* the Err or panic of a method of store/mod.rs 201-258 *)
Inductive failure : Type :=
| FErr (m : string)
| FPanic (m : string).
(* the Err or panic of a method of store/mod.rs 201-258 *)
Definition failed {X} (e : failure) : res X :=
  match e with FErr m => Err m | FPanic m => Panic m end.

(* the methods of trait Store, store/mod.rs 201-258, and the internal calls of
   the overridden build methods: mapping the file (disk.rs 327-334,
   level_cache.rs 465-472), front_truncate (level_cache.rs 604-632) and the
   internal reads (level_cache.rs 778-810) *)
Inductive create_op : Type :=
| C_new_with_config (size branches : nat) (c : StoreConfig)
| C_new (size : nat)
| C_slice_with_config (size branches : nat) (d : list byte) (c : StoreConfig)
| C_slice (size : nat) (d : list byte)
| C_from_disk (size branches : nat) (c : StoreConfig)
| C_delete (c : StoreConfig).
(* &mut self methods of store/mod.rs 201-258 and disk.rs 327-333, level_cache.rs
   464-470, 604-632 *)
Inductive write_op (E : Type) : Type :=
| W_write (x : E) (i : nat)
| W_copy (d : list byte) (i : nat)
| W_push (x : E)
| W_sync
| W_reinit
| W_compact (c : StoreConfig) (version : nat)
| W_map (level : nat)
| W_truncate (level : nat).
Arguments W_write {E} _ _.
Arguments W_copy {E} _ _.
Arguments W_push {E} _.
Arguments W_sync {E}.
Arguments W_reinit {E}.
Arguments W_compact {E} _ _.
Arguments W_map {E} _.
Arguments W_truncate {E} _.
(* &self methods of store/mod.rs 201-258 and level_cache.rs 778-810 *)
Inductive read_op : Type :=
| R_at (i : nat)
| R_range (s e : nat)
| R_into (i : nat)
| R_range_into (s e : nat)
| R_at_internal (i : nat)
| R_range_internal (s e : nat).

(* one oracle per kind of call of store/mod.rs 201-258 *)
Record faults (E T : Type) : Type := {
  flt_create : create_op -> fs -> option (failure * fs);
  flt_write : write_op E -> T * fs -> option (failure * (T * fs));
  flt_read : read_op -> T * fs -> option failure
}.
Arguments flt_create {E T} _ _ _.
Arguments flt_write {E T} _ _ _.
Arguments flt_read {E T} _ _ _.

(* the calls of store/mod.rs 201-258 as modelled in the other files *)
Definition no_faults {E T} : faults E T :=
  {| flt_create := fun _ _ => None; flt_write := fun _ _ => None; flt_read := fun _ _ => None |}.

Section Inject.
  Context {E T : Type} (fl : faults E T).

  (* a constructor of store/mod.rs 201-222 or delete *)
  Definition inj_create {X} (o : create_op) (m : SM fs X) : SM fs X := fun f =>
    match flt_create fl o f with
    | Some (e, f') => (failed e, f')
    | None => m f
    end.
  (* a &mut self method of store/mod.rs 218-258 *)
  Definition inj_write {X} (o : write_op E) (m : SM (T * fs) X) : SM (T * fs) X := fun st =>
    match flt_write fl o st with
    | Some (e, st') => (failed e, st')
    | None => m st
    end.
  (* a &self method of store/mod.rs 241-253 *)
  Definition inj_read {X} (o : read_op) (st : T * fs) (r : res X) : res X :=
    match flt_read fl o st with
    | Some e => failed e
    | None => r
    end.
End Inject.

(* the store SO with failures; [bld] is its build method with failures *)
(* store/mod.rs 201-258 *)
Definition faulty {E} (SO : StoreOps E) (fl : faults E (st_t SO))
    (bld : env -> AlgOps E -> nat -> nat -> nat -> option StoreConfig -> SM (st_t SO * fs) E)
  : StoreOps E := {|
    st_t := st_t SO;
    st_new_with_config := fun n b c => inj_create fl (C_new_with_config n b c) (st_new_with_config SO n b c);
    st_new := fun n => inj_create fl (C_new n) (st_new SO n);
    st_new_from_slice_with_config := fun n b d c =>
      inj_create fl (C_slice_with_config n b d c) (st_new_from_slice_with_config SO n b d c);
    st_new_from_slice := fun n d => inj_create fl (C_slice n d) (st_new_from_slice SO n d);
    st_new_from_disk := fun n b c => inj_create fl (C_from_disk n b c) (st_new_from_disk SO n b c);
    st_write_at := fun x i => inj_write fl (W_write x i) (st_write_at SO x i);
    st_copy_from_slice := fun d i => inj_write fl (W_copy d i) (st_copy_from_slice SO d i);
    st_compact := fun sizes b c v => inj_write fl (W_compact c v) (st_compact SO sizes b c v);
    st_reinit := inj_write fl W_reinit (st_reinit SO);
    st_delete := fun c => inj_create fl (C_delete c) (st_delete SO c);
    st_read_at := fun st i => inj_read fl (R_at i) st (st_read_at SO st i);
    st_read_range := fun st s e => inj_read fl (R_range s e) st (st_read_range SO st s e);
    st_read_into := fun st i buf => inj_read fl (R_into i) st (st_read_into SO st i buf);
    st_read_range_into := fun st s e buf => inj_read fl (R_range_into s e) st (st_read_range_into SO st s e buf);
    st_len := st_len SO;
    st_loaded_from_disk := st_loaded_from_disk SO;
    st_is_empty := st_is_empty SO;
    st_push := fun x => inj_write fl (W_push x) (st_push SO x);
    st_sync := inj_write fl W_sync (st_sync SO);
    st_build := bld
  |}.

(* store/mod.rs 369-422 with failures: the default build method, calling the
   failing methods of its own store *)
Definition faulty_default_build {E} (EO : ElementOps E) (SO : StoreOps E) (fl : faults E (st_t SO))
    (en : env) (A : AlgOps E) (b leafs row_count : nat) (c : option StoreConfig) : SM (st_t SO * fs) E :=
  default_build_fuel EO (st_len SO)
    (fun st i => inj_read fl (R_at i) st (st_read_at SO st i))
    (fun st s e => inj_read fl (R_range s e) st (st_read_range SO st s e))
    (fun x i => inj_write fl (W_write x i) (st_write_at SO x i))
    (fun d i => inj_write fl (W_copy d i) (st_copy_from_slice SO d i))
    A b (p_chunk (env_params en)) (S leafs) (p_small (env_params en)) (env_sched en) leafs row_count.

(* vec.rs 19-133 *)
Definition faulty_vec {E} (EO : ElementOps E) (fl : faults E (list E)) : StoreOps E :=
  faulty (vec_store EO) fl (faulty_default_build EO (vec_store EO) fl).
(* mmap.rs 30-305 *)
Definition faulty_mmap {E} (EO : ElementOps E) (fl : faults E mmap_t) : StoreOps E :=
  faulty (mmap_store_ops EO) fl (faulty_default_build EO (mmap_store_ops EO) fl).

Section Disk.
  Context {E : Type} (EO : ElementOps E) (fl : faults E disk_t).
  Variable en : env.
  Variable A : AlgOps E.
  Variable b : nat.

  (* disk.rs 402-426 over the layer method used *)
  Fixpoint disk_build_loop_with (pl : nat -> nat -> nat -> nat -> SM (disk_t * fs) unit)
      (fuel shift level width level_node_index : nat) : SM (disk_t * fs) nat :=
    match fuel with
    | 0 => slift Diverge
    | S f =>
        if 1 <? width then
          let! (read_start, write_start) := level_bounds ds_len level level_node_index width in
          let! _ := pl width level read_start write_start in
          let width' := Nat.shiftr width shift in
          let! st := sget in
          let! _ := disk_upd_len (ds_len (fst st) + width') in
          disk_build_loop_with pl f shift (S level) width' (level_node_index + width)
        else sret level
    end.

  (* disk.rs 319-376 with failures *)
  Definition faulty_disk_layer (width level read_start write_start : nat) : SM (disk_t * fs) unit :=
    let! _ := inj_write fl (W_map level) (sret tt) in
    mmap_process_layer EO A b (p_chunk (env_params en)) ds_file
      (fun st s e => inj_read fl (R_range s e) st (disk_check EO st (s * e_byte_len EO) (e * e_byte_len EO)))
      (env_bytes en level) width level read_start write_start.

  (* disk.rs 379-439 with failures *)
  Definition faulty_disk_build (leafs row_count : nat) (c : option StoreConfig) : SM (disk_t * fs) E :=
    let! _ := slift (ensure (next_pow2 b =? b) "branches MUST be a power of 2") in
    let! st := sget in
    let! _ := slift (ensure (ds_len (fst st) =? leafs) "Inconsistent data") in
    let! _ := slift (ensure (leafs mod 2 =? 0) "Leafs must be a power of two") in
    let! level := disk_build_loop_with faulty_disk_layer (S leafs) (log2_pow2 b) 0 leafs 0 in
    let! total := slift (get_merkle_tree_len leafs b) in
    let! st := sget in
    let! _ := slift (ensure (ds_len (fst st) =? total) "Invalid merkle tree length") in
    let! _ := slift (ensure (row_count =? level + 1) "Invalid tree row_count") in
    default_last ds_len (fun st i => inj_read fl (R_at i) st (disk_read_at EO st i)).
End Disk.
(* disk.rs 46-440 *)
Definition faulty_disk {E} (EO : ElementOps E) (fl : faults E disk_t) : StoreOps E :=
  faulty (disk_store EO) fl (faulty_disk_build EO fl).

Section LevelCache.
  Context {E : Type} (EO : ElementOps E) (fl : faults E lc_t).
  Variable en : env.
  Variable A : AlgOps E.
  Variable b : nat.

  (* level_cache.rs 547-577 over the layer and truncation methods used *)
  Fixpoint lc_build_loop_with (pl : nat -> nat -> nat -> nat -> SM (lc_t * fs) unit)
      (tr : nat -> StoreConfig -> nat -> SM (lc_t * fs) unit)
      (fuel shift cis : nat) (c : StoreConfig) (level width level_node_index : nat) : SM (lc_t * fs) nat :=
    match fuel with
    | 0 => slift Diverge
    | S f =>
        if 1 <? width then
          let! st := sget in
          let '(read_start, write_start) :=
            if level =? 0 then (0, lc_len (fst st))
            else if level_node_index <? cis then (0, width)
            else (level_node_index - cis, level_node_index + width - cis) in
          let! _ := pl width level read_start write_start in
          let! _ := (if level_node_index <? cis then tr level c width else sret tt) in
          let! _ := lc_upd_len (level_node_index + width) in
          lc_build_loop_with pl tr f shift cis c (S level) (Nat.shiftr width shift)
            (level_node_index + width)
        else sret level
    end.

  (* level_cache.rs 455-513 with failures *)
  Definition faulty_lc_layer (width level read_start write_start : nat) : SM (lc_t * fs) unit :=
    let! _ := inj_write fl (W_map level) (sret tt) in
    mmap_process_layer EO A b (p_chunk (env_params en)) lc_file
      (fun st s e => inj_read fl (R_range_internal s e) st (lc_check EO st (s * e_byte_len EO) (e * e_byte_len EO)))
      (env_bytes en level) width level read_start write_start.

  (* level_cache.rs 604-632 *)
  Definition faulty_lc_truncate (level : nat) (c : StoreConfig) (width : nat) : SM (lc_t * fs) unit :=
    inj_write fl (W_truncate level) (lc_front_truncate EO (env_copy en level) c width).

  (* level_cache.rs 516-595 with failures *)
  Definition faulty_lc_build (leafs row_count : nat) (c : option StoreConfig) : SM (lc_t * fs) E :=
    let! _ := slift (ensure (next_pow2 b =? b) "branches MUST be a power of 2") in
    let! st := sget in
    let! _ := slift (ensure (lc_len (fst st) =? leafs) "Inconsistent data") in
    let! _ := slift (ensure (leafs mod 2 =? 0) "Leafs must be a power of two") in
    let! cfg := slift (match c with
                       | Some x => Ok x
                       | None => Err "LevelCacheStore build requires a valid config"
                       end) in
    let! cache_size := slift (get_merkle_tree_cache_size leafs b (sc_rows_to_discard cfg)) in
    let! total := slift (get_merkle_tree_len leafs b) in
    let! cis := slift (checked_sub total cache_size) in
    let! level := lc_build_loop_with faulty_lc_layer faulty_lc_truncate (S leafs) (log2_pow2 b) cis cfg 0 leafs 0 in
    let! st := sget in
    let! _ := lc_upd_len (lc_len (fst st) + 1) in
    let! st := sget in
    let! _ := slift (ensure (lc_len (fst st) =? total) "Invalid merkle tree length") in
    let! _ := slift (ensure (row_count =? level + 1) "Invalid tree row_count") in
    let! i := slift (do a <- checked_sub (lc_len (fst st)) cis; checked_sub a 1) in
    sreads (fun st => inj_read fl (R_at_internal i) st (lc_read_at_internal EO st i)).
End LevelCache.
(* level_cache.rs 154-596 *)
Definition faulty_lc {E} (EO : ElementOps E) (fl : faults E lc_t) : StoreOps E :=
  faulty (lc_store EO) fl (faulty_lc_build EO fl).
