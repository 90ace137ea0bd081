(* Interleaving semantics of rayon's try_for_each over a fixed list of tasks.
   Each task k performs one atomic read-and-compute step (holding the store's
   read lock) and then one atomic write step (holding the write lock).  A schedule is a list of task numbers;
   naming a task runs its next step.  The schedule is completed so that every
   task finishes.  When a task fails the error is remembered (the first one is
   returned) and the remaining scheduled steps may still happen, as rayon only
   stops other tasks eventually. *)
From Coq Require Import String List Arith Bool Lia Init.Byte.
From Verif Require Import Base.
Import ListNotations.

Section Sched.
  Context {St D : Type}.
  Variable n : nat.                              (* number of tasks *)
  Variable rd : nat -> St -> res D.              (* read step *)
  Variable wr : nat -> D -> SM St unit.          (* write step *)

  (* a worker of store/mod.rs 326-365 or merkle.rs 2066-2080: before its read, between
     its read and its write, finished *)
  Inductive tstate : Type :=
  | TNew
  | TRead (d : D)
  | TDone.

  (* bookkeeping of the interleaving of store/mod.rs 326-365 *)
  Definition tset (ts : nat -> tstate) (k : nat) (t : tstate) : nat -> tstate :=
    fun j => if j =? k then t else ts j.

  (* the error that try_for_each returns, store/mod.rs 328, 365; merkle.rs 2068 *)
  Definition first_failure (fl : option (res unit)) (e : res unit) : option (res unit) :=
    match fl with Some _ => fl | None => Some e end.

  (* one scheduled step of task k *)
  (* store/mod.rs 331-337 (read) and 345-365 (hash, write) *)
  Definition task_step (k : nat) (ts : nat -> tstate) (fl : option (res unit)) (st : St)
    : (nat -> tstate) * option (res unit) * St :=
    if k <? n then
      match ts k with
      | TNew =>
          match rd k st with
          | Ok d => (tset ts k (TRead d), fl, st)
          | Err m => (tset ts k TDone, first_failure fl (Err m), st)
          | Panic m => (tset ts k TDone, first_failure fl (Panic m), st)
          | Diverge => (tset ts k TDone, first_failure fl Diverge, st)
          end
      | TRead d =>
          match wr k d st with
          | (Ok _, st') => (tset ts k TDone, fl, st')
          | (Err m, st') => (tset ts k TDone, first_failure fl (Err m), st')
          | (Panic m, st') => (tset ts k TDone, first_failure fl (Panic m), st')
          | (Diverge, st') => (tset ts k TDone, first_failure fl Diverge, st')
          end
      | TDone => (ts, fl, st)
      end
    else (ts, fl, st).

  (* store/mod.rs 326-365 under one interleaving *)
  Fixpoint run_sched (sched : list nat) (ts : nat -> tstate) (fl : option (res unit)) (st : St)
    : (nat -> tstate) * option (res unit) * St :=
    match sched with
    | [] => (ts, fl, st)
    | k :: r =>
        let '(ts', fl', st') := task_step k ts fl st in
        run_sched r ts' fl' st'
    end.

  (* every task twice: finishes whatever the oracle left undone (the try_for_each of store/mod.rs 328
     and merkle.rs 2068 returns when all tasks are done) *)
  Definition completion : list nat := flat_map (fun k => [k; k]) (seq 0 n).

  (* store/mod.rs 326-365; merkle.rs 2066-2080 *)
  Definition run_tasks (sched : list nat) : SM St unit := fun st =>
    let '(ts, fl, st1) := run_sched sched (fun _ => TNew) None st in
    match fl with
    | Some e => (e, st1)
    | None =>
        let '(_, fl2, st2) := run_sched completion ts None st1 in
        match fl2 with
        | Some e => (e, st2)
        | None => (Ok tt, st2)
        end
    end.
End Sched.
Arguments TNew {D}.
Arguments TRead {D} _.
Arguments TDone {D}.

(* Finer interleavings, for workers that write through a memory map without
   holding the store's lock (disk.rs 349-375, level_cache.rs 486-512).  Task k
   checks its range, reads the bytes of its chunk one at a time, in any order,
   hashes them, and then writes the bytes of its result one at a time, in any
   order.  A schedule is a list of pairs (task, byte); naming (k, j) lets task k
   take its next step: the check, the reading of its byte j, the hashing (once
   all bytes are read), or the writing of its byte j. *)
Section Bytes.
  Context {St : Type}.
  Variable n : nat.                                       (* number of tasks *)
  Variable start : nat -> St -> res nat.                  (* the check: how many bytes to read *)
  Variable rd : nat -> nat -> St -> res byte.             (* read byte j *)
  Variable comp : nat -> list byte -> res (list byte).    (* hash *)
  Variable wr : nat -> nat -> byte -> SM St unit.         (* write byte j *)

  (* a worker of disk.rs 344-375 or level_cache.rs 481-512 *)
  Inductive bstate : Type :=
  | BNew
  | BRead (got : list (option byte))
  | BWrite (out : list (byte * bool))                     (* with flag: written *)
  | BFailed.

  (* disk.rs 347-353: the chunk once all its bytes are there *)
  Fixpoint collect (got : list (option byte)) : option (list byte) :=
    match got with
    | [] => Some []
    | Some x :: r => match collect r with Some l => Some (x :: l) | None => None end
    | None :: _ => None
    end.
  (* one byte more of disk.rs 347-353 or 372 *)
  Fixpoint set_nth {X} (l : list X) (j : nat) (x : X) : list X :=
    match l, j with
    | [], _ => []
    | _ :: r, 0 => x :: r
    | y :: r, S j' => y :: set_nth r j' x
    end.
  (* bookkeeping of the interleaving of disk.rs 344-375 *)
  Definition bset (ts : nat -> bstate) (k : nat) (t : bstate) : nat -> bstate :=
    fun j => if j =? k then t else ts j.

  (* task k goes on with [next] or fails *)
  (* the ? and expect of disk.rs 349-375 *)
  Definition go_on {X} (k : nat) (ts : nat -> bstate) (fl : option (res unit)) (st : St)
      (r : res X) (next : X -> bstate) : (nat -> bstate) * option (res unit) * St :=
    match r with
    | Ok x => (bset ts k (next x), fl, st)
    | Err m => (bset ts k BFailed, first_failure fl (Err m), st)
    | Panic m => (bset ts k BFailed, first_failure fl (Panic m), st)
    | Diverge => (bset ts k BFailed, first_failure fl Diverge, st)
    end.

  (* disk.rs 345-375, level_cache.rs 482-512 *)
  Definition byte_step (k j : nat) (ts : nat -> bstate) (fl : option (res unit)) (st : St)
    : (nat -> bstate) * option (res unit) * St :=
    if k <? n then
      match ts k with
      | BNew => go_on k ts fl st (start k st) (fun m => BRead (repeat None m))
      | BRead got =>
          match collect got with
          | Some bytes => go_on k ts fl st (comp k bytes) (fun out => BWrite (map (fun x => (x, false)) out))
          | None =>
              match nth_error got j with
              | Some None => go_on k ts fl st (rd k j st) (fun x => BRead (set_nth got j (Some x)))
              | _ => (ts, fl, st)
              end
          end
      | BWrite out =>
          match nth_error out j with
          | Some (x, false) =>
              let '(r, st') := wr k j x st in
              go_on k ts fl st' r (fun _ => BWrite (set_nth out j (x, true)))
          | _ => (ts, fl, st)
          end
      | BFailed => (ts, fl, st)
      end
    else (ts, fl, st).

  (* disk.rs 341-375, level_cache.rs 478-512 under one interleaving *)
  Fixpoint run_byte_sched (sched : list (nat * nat)) (ts : nat -> bstate) (fl : option (res unit)) (st : St)
    : (nat -> bstate) * option (res unit) * St :=
    match sched with
    | [] => (ts, fl, st)
    | (k, j) :: r =>
        let '(ts', fl', st') := byte_step k j ts fl st in
        run_byte_sched r ts' fl' st'
    end.

  (* disk.rs 341-375: finishes what the oracle left undone, for tasks of at most [most] bytes *)
  Definition byte_completion (most : nat) : list (nat * nat) :=
    flat_map (fun k => let all := (k, 0) :: map (fun j => (k, j)) (seq 0 most) in all ++ all) (seq 0 n).

  (* disk.rs 341-375, level_cache.rs 478-512 *)
  Definition run_bytes (most : nat) (sched : list (nat * nat)) : SM St unit := fun st =>
    let '(ts, fl, st1) := run_byte_sched sched (fun _ => BNew) None st in
    match fl with
    | Some e => (e, st1)
    | None =>
        let '(_, fl2, st2) := run_byte_sched (byte_completion most) ts None st1 in
        match fl2 with
        | Some e => (e, st2)
        | None => (Ok tt, st2)
        end
    end.

  (* disk.rs 341-375: the tasks stopped where the schedule ends (the process was killed) *)
  Definition run_bytes_until (sched : list (nat * nat)) : SM St unit := fun st =>
    let '(_, fl, st1) := run_byte_sched sched (fun _ => BNew) None st in
    match fl with Some e => (e, st1) | None => (Ok tt, st1) end.
End Bytes.

(* Environment chosen adversarially by the proofs: compile-time constants, the
   interleaving of each level's tasks, of the population tasks, and the
   io::copy piece sizes. *)
From Verif Require Import Sizing.
(* store/mod.rs 328, disk.rs 341, level_cache.rs 478, merkle.rs 2066 (rayon); disk.rs
   261, level_cache.rs 626 (io::copy) *)
Record env : Type := {
  env_params : params;
  env_sched : nat -> list nat;       (* process_layer of Vec- and MmapStore, per level *)
  env_bytes : nat -> list (nat * nat);   (* process_layer of Disk- and LevelCacheStore, per level *)
  env_pop : list nat;                (* populate_data_par *)
  env_copy : nat -> nat -> nat       (* io::copy sizes, per level *)
}.
