(* Several processes call DiskStore::new_from_slice_with_config for the same path at
   once.  Each system call is one step; the steps of the processes interleave in any
   order.  A write of bytes is cut into arbitrary pieces.
   Simplification: nobody removes the file. *)
From Coq Require Import String List Arith Bool Init.Byte.
From Verif Require Import Base Element Hash Sizing FS Sched Store DiskStore.
Import ListNotations.

(* where a process is *)
Inductive pc : Type :=
| P_start                          (* disk.rs 96-100, then 51 *)
| P_exists                         (* disk.rs 444 *)
| P_open_rw                        (* disk.rs 446 *)
| P_open_ro                        (* disk.rs 454-457 *)
| P_size (h : handle)              (* disk.rs 461-480 *)
| P_create                         (* disk.rs 56-60 *)
| P_len (h : handle)               (* disk.rs 62-63 *)
| P_write (h : handle) (off : nat) (* disk.rs 540-549 called at 109 *)
| P_done (r : res disk_t).

(* the arguments of one call, disk.rs 90-95 *)
Record caller : Type := { ca_size : nat; ca_data : list byte }.

Section Race.
  Context {E : Type} (EO : ElementOps E).
  Local Notation bl := (e_byte_len EO).

  (* one step of a process; n + 1: at most so many bytes of a write are done in it.  disk.rs 47-60, 90-113,
     443-480, 540-549 *)
  Definition pc_step (path : string) (a : caller) (n : nat) (p : pc) (f : fs) : pc * fs :=
    match p with
    | P_start =>
        if List.length (ca_data a) mod bl =? 0
        then (if fs_exists f path then P_exists else P_create, f)
        else (P_done (Err "data size must be a multiple of byte_len"), f)
    | P_exists =>
        if fs_exists f path then (P_open_rw, f)
        else (P_done (Err "[DiskStore] new_from_disk constructor can be used only for instantiating already existing storages"), f)
    | P_open_rw => match fs_open_rw f path with Ok h => (P_size h, f) | _ => (P_open_ro, f) end
    | P_open_ro =>
        match fs_open_ro f path with
        | Ok h => (P_size h, f)
        | Err e => (P_done (Err e), f)
        | Panic e => (P_done (Panic e), f)
        | Diverge => (P_done Diverge, f)
        end
    | P_size h =>
        if fs_size f h =? ca_size a * bl
        then (P_done (Ok {| ds_len := ca_size a; ds_file := h; ds_loaded := true; ds_size := fs_size f h |}), f)
        else (P_done (Err "Invalid formatted file provided"), f)
    | P_create =>
        match fs_create_new path f with
        | (Ok h, f') => (P_len h, f')
        | (Err e, f') => (P_done (Err e), f')
        | (Panic e, f') => (P_done (Panic e), f')
        | (Diverge, f') => (P_done Diverge, f')
        end
    | P_len h =>
        match fs_set_len h (bl * ca_size a) f with
        | (Ok _, f') => (if 0 + List.length (ca_data a) <=? bl * ca_size a then P_write h 0
                         else P_done (Err "Requested slice too large"), f')
        | (Err e, f') => (P_done (Err e), f')
        | (Panic e, f') => (P_done (Panic e), f')
        | (Diverge, f') => (P_done Diverge, f')
        end
    | P_write h off =>
        if off <? List.length (ca_data a) then
          let d := sub (ca_data a) off (S n) in
          match fs_write_all_at h off d f with
          | (Ok _, f') => (P_write h (off + List.length d), f')
          | (Err e, f') => (P_done (Err e), f')
          | (Panic e, f') => (P_done (Panic e), f')
          | (Diverge, f') => (P_done Diverge, f')
          end
        else (P_done (Ok {| ds_len := List.length (ca_data a) / bl; ds_file := h; ds_loaded := false;
                            ds_size := bl * ca_size a |}), f)
    | P_done r => (P_done r, f)
    end.

  (* all processes in DiskStore::new_with_config and its like (disk.rs 90-113): their states and the file system *)
  Definition race_t : Type := (nat -> pc) * fs.
  (* process k takes a step; the others wait.  disk.rs 90-113 *)
  Definition race_step (path : string) (ps : nat -> caller) (x : nat * nat) (st : race_t) : race_t :=
    let '(k, n) := x in
    let '(p, f') := pc_step path (ps k) n (fst st k) (snd st) in
    (fun j => if j =? k then p else fst st j, f').
  (* disk.rs 90-113 by every process; the schedule names the process that takes the next step *)
  Definition race (path : string) (ps : nat -> caller) (sched : list (nat * nat)) (f : fs) : race_t :=
    fold_left (fun st x => race_step path ps x st) sched (fun _ => P_start, f).
End Race.
