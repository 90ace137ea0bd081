(* src/store/vec.rs *)
From Coq Require Import String List Arith Bool Lia Init.Byte.
From Verif Require Import Base Element Hash Sizing FS Sched Store.
Import ListNotations.

Section Vec.
  Context {E : Type} (EO : ElementOps E).
  (* vec.rs 9: struct VecStore<E>(Vec<E>); capacity is not modelled *)
  Definition vec_t := list E.
  Let St := (vec_t * fs)%type.

  (* vec.rs 24-26 *)
  Definition vec_new (size : nat) : SM fs vec_t := sret [].
  (* vec.rs 20-22 *)
  Definition vec_new_with_config (size branches : nat) (c : StoreConfig) : SM fs vec_t :=
    vec_new size.

  (* vec.rs 28-35 *)
  Definition vec_write_at (el : E) (index : nat) : SM St unit := fun st =>
    let v := fst st in
    let v := if List.length v <=? index then resize v (index + 1) (e_default EO) else v in
    (Ok tt, (overwrite v index [el], snd st)).

  (* vec.rs 42-59 *)
  Definition vec_copy_from_slice (buf : list byte) (start : nat) : SM St unit := fun st =>
    if List.length buf mod e_byte_len EO =? 0 then
      let num_elem := List.length buf / e_byte_len EO in
      let v := fst st in
      let v := if List.length v <? start + num_elem
               then resize v (start + num_elem) (e_default EO) else v in
      match decode_exact EO buf with
      | Ok els => (Ok tt, (overwrite v start els, snd st))
      | Err m => (Err m, (v, snd st))
      | Panic m => (Panic m, (v, snd st))
      | Diverge => (Diverge, (v, snd st))
      end
    else (Err "buf size must be a multiple of byte_len", st).

  (* vec.rs 70-79; size - v.len() underflows when more data than size is given *)
  Definition vec_new_from_slice (size : nat) (data : list byte) : SM fs vec_t := fun f =>
    (do v <- decode_exact EO data;
     do _ <- checked_sub size (List.length v);
     Ok v, f).
  (* vec.rs 61-68 *)
  Definition vec_new_from_slice_with_config (size branches : nat) (data : list byte)
      (c : StoreConfig) : SM fs vec_t := vec_new_from_slice size data.
  (* vec.rs 81-83 *)
  Definition vec_new_from_disk (size branches : nat) (c : StoreConfig) : SM fs vec_t :=
    slift (Panic "not implemented: Cannot load a VecStore from disk").

  (* vec.rs 85-87 *)
  Definition vec_read_at (st : St) (i : nat) : res E := rnth (fst st) i.
  (* vec.rs 89-92 *)
  Definition vec_read_into (st : St) (i : nat) (buf : list byte) : res (list byte) :=
    do e <- rnth (fst st) i; e_copy_to_slice EO e buf.
  (* vec.rs 94-96 *)
  Definition vec_read_range_into (st : St) (s e : nat) (buf : list byte) : res (list byte) :=
    Panic "not implemented: Not required here".
  (* vec.rs 98-100: slice indexing panics when start > end or end > len *)
  Definition vec_read_range (st : St) (s e : nat) : res (list E) :=
    if (s <=? e) && (e <=? List.length (fst st)) then Ok (sub (fst st) s (e - s))
    else Panic "slice index out of range".

  (* vec.rs 110-119 *)
  Definition vec_compact (sizes : nat -> nat) (branches : nat) (c : StoreConfig) (v : nat)
    : SM St bool := sret true.
  (* vec.rs 129-132 *)
  Definition vec_push (el : E) : SM St unit := fun st => (Ok tt, (fst st ++ [el], snd st)).

  (* vec.rs does not override build: the trait's, store/mod.rs 369-422 *)
  Definition vec_build (en : env) (A : AlgOps E) (branches leafs row_count : nat)
      (c : option StoreConfig) : SM St E :=
    default_build_fuel EO (@List.length E) vec_read_at vec_read_range vec_write_at
      vec_copy_from_slice A branches (p_chunk (env_params en)) (S leafs)
      (p_small (env_params en)) (env_sched en) leafs row_count.

  (* vec.rs 19-133 *)
  Definition vec_store : StoreOps E := {|
    st_t := vec_t;
    st_new_with_config := vec_new_with_config;
    st_new := vec_new;
    st_new_from_slice_with_config := vec_new_from_slice_with_config;
    st_new_from_slice := vec_new_from_slice;
    st_new_from_disk := vec_new_from_disk;
    st_write_at := vec_write_at;
    st_copy_from_slice := vec_copy_from_slice;
    st_compact := vec_compact;
    st_reinit := sret tt;                          (* store/mod.rs 231-233 *)
    st_delete := fun _ => sret tt;                 (* vec.rs 121-123 *)
    st_read_at := vec_read_at;
    st_read_range := vec_read_range;
    st_read_into := vec_read_into;
    st_read_range_into := vec_read_range_into;
    st_len := @List.length E;                      (* vec.rs 102-104 *)
    st_loaded_from_disk := fun _ => false;         (* vec.rs 106-108 *)
    st_is_empty := fun v => match v with [] => true | _ => false end;  (* 125-127 *)
    st_push := vec_push;
    st_sync := sret tt;                            (* store/mod.rs 254-256 *)
    st_build := vec_build
  |}.
End Vec.
