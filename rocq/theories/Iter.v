(* store/mod.rs 425-625: impl_parallel_iter!, the rayon producer and the double-ended
   iterator of VecStore and DiskStore.  The store is borrowed for the whole iteration,
   so the pair (store, file system) is a constant.  rayon's bridge itself is represented
   by the ways it may use a Producer: split it at an index, or turn it into an iterator
   and call next / next_back (IterPlan below). *)
From Coq Require Import String List Arith Bool Lia Init.Byte.
From Verif Require Import Base Element Hash Sizing FS Sched Store.
Import ListNotations.

(* store/mod.rs 498-503 *)
Record producer : Type := mk_producer { pr_cur : nat; pr_end : nat }.
(* store/mod.rs 562-568 *)
Record siter : Type := mk_iter { it_cur : nat; it_end : nat; it_err : bool }.

(* store/mod.rs 514-516; end - current underflows when current > end *)
Definition pr_len (p : producer) : res nat := checked_sub (pr_end p) (pr_cur p).

(* store/mod.rs 527-540 *)
Definition pr_into_iter (p : producer) : siter := mk_iter (pr_cur p) (pr_end p) false.

(* store/mod.rs 542-560; the debug assertions hold by construction *)
Definition pr_split_at (p : producer) (index : nat) : res (producer * producer) :=
  do len <- pr_len p;
  if len =? 0 then Ok (mk_producer 0 0, mk_producer 0 0)
  else
    let current := pr_cur p in
    let first_end := current + Nat.min len index in
    Ok (mk_producer current first_end, mk_producer first_end (current + len)).

(* store/mod.rs 598-603 *)
Definition it_len (i : siter) : res nat :=
  if it_cur i <=? it_end i then Ok (it_end i - it_cur i)
  else Panic "assertion failed: self.current <= self.end".

(* store/mod.rs 570-574; && is short-circuiting *)
Definition it_is_done (i : siter) : res bool :=
  if negb (it_err i) then do n <- it_len i; Ok (n =? 0) else Ok false.

Section Iter.
  Context {E : Type} (SO : StoreOps E) (s : st_t SO) (f : fs).

  (* store/mod.rs 476, 494 *)
  Definition with_producer : producer := mk_producer 0 (st_len SO s).

  (* store/mod.rs 579-595; a read error is swallowed into None, a panic is not *)
  Definition it_next (i : siter) : res (option E * siter) :=
    do done <- it_is_done i;
    if done then Ok (None, i)
    else match st_read_at SO (s, f) (it_cur i) with
         | Ok el => Ok (Some el, mk_iter (it_cur i + 1) (it_end i) (it_err i))
         | Err _ => Ok (None, mk_iter (it_cur i) (it_end i) true)
         | Panic m => Panic m
         | Diverge => Diverge
         end.

  (* store/mod.rs 606-621 *)
  Definition it_next_back (i : siter) : res (option E * siter) :=
    do done <- it_is_done i;
    if done then Ok (None, i)
    else
      do last <- checked_sub (it_end i) 1;
      match st_read_at SO (s, f) last with
      | Ok el => Ok (Some el, mk_iter (it_cur i) (it_end i - 1) (it_err i))
      | Err _ => Ok (None, mk_iter (it_cur i) (it_end i) true)
      | Panic m => Panic m
      | Diverge => Diverge
      end.

  (* drain an iterator: true = next, false = next_back, then next until None.  Items
     taken from the front are collected in order, items taken from the back in reverse. *)
  (* calls of store/mod.rs 579-595 *)
  Fixpoint drain_front (fuel : nat) (i : siter) : res (list E) :=
    match fuel with
    | 0 => Diverge
    | S n => do r <- it_next i;
             match fst r with
             | Some x => do l <- drain_front n (snd r); Ok (x :: l)
             | None => Ok []
             end
    end.
  (* calls of store/mod.rs 579-595 and 606-621 *)
  Fixpoint drain (fuel : nat) (ops : list bool) (i : siter) : res (list E) :=
    match ops with
    | [] => drain_front fuel i
    | true :: ops => do r <- it_next i;
                     match fst r with
                     | Some x => do l <- drain fuel ops (snd r); Ok (x :: l)
                     | None => Ok []
                     end
    | false :: ops => do r <- it_next_back i;
                      match fst r with
                      | Some x => do l <- drain fuel ops (snd r); Ok (l ++ [x])
                      | None => Ok []
                      end
    end.

  (* how a consumer may use a producer *)
  (* calls of store/mod.rs 527-560 *)
  Inductive plan : Type :=
  | Drain (ops : list bool)
  | Split (index : nat) (l r : plan).

  (* calls of store/mod.rs 527-560 *)
  Fixpoint run_plan (fuel : nat) (pl : plan) (p : producer) : res (list E) :=
    match pl with
    | Drain ops => drain fuel ops (pr_into_iter p)
    | Split index l r =>
        do (a, b) <- pr_split_at p index;
        do x <- run_plan fuel l a;
        do y <- run_plan fuel r b;
        Ok (x ++ y)
    end.
End Iter.
