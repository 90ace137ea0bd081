(* Shared vocabulary: results of fallible Rust calls, stateful operations,
   byte/element list helpers.  No proofs here. *)
From Coq Require Import String List Arith Bool Lia NArith Init.Byte.
Import ListNotations.

(* Outcome of a Rust call.
   [Err]     : the call returned anyhow::Err (ensure!, bail!, ?)
   [Panic]   : the thread panicked (index out of bounds, expect, assert!,
               unimplemented!, subtraction underflow in a debug build, SIGBUS)
   [Diverge] : a loop did not finish within its fuel. *)
(* the results of the calls in all source files, e.g. store/mod.rs 201-258 (Result) and
   merkle.rs 1630 (expect) *)
Inductive res (A : Type) : Type :=
| Ok (a : A)
| Err (m : string)
| Panic (m : string)
| Diverge.
Arguments Ok {A} _.
Arguments Err {A} _.
Arguments Panic {A} _.
Arguments Diverge {A}.

(* the ? operator, e.g. disk.rs 63, 109 *)
Definition rbind {A B} (m : res A) (f : A -> res B) : res B :=
  match m with
  | Ok a => f a
  | Err e => Err e
  | Panic e => Panic e
  | Diverge => Diverge
  end.

Notation "'do' x <- m ; k" := (rbind m (fun x => k))
  (at level 200, x pattern, m at level 100, k at level 200, right associativity).

(* anyhow's ensure! *)
(* e.g. disk.rs 142-146, merkle.rs 933-938 *)
Definition ensure (b : bool) (msg : string) : res unit :=
  if b then Ok tt else Err msg.

(* usize subtraction; underflow is a panic (debug profile) *)
(* e.g. disk.rs 509, merkle.rs 1919 *)
Definition checked_sub (a b : nat) : res nat :=
  if b <=? a then Ok (a - b) else Panic "attempt to subtract with overflow".

(* e.g. disk.rs 446 (match on the result of open) *)
Definition is_ok {A} (r : res A) : bool :=
  match r with Ok _ => true | _ => false end.

(* Stateful operations ([&mut self] plus the file system): the state is
   also returned when the operation fails. *)
(* e.g. store/mod.rs 218, 224 (methods with &mut self) *)
Definition SM (St A : Type) : Type := St -> res A * St.

(* the value at the end of a &mut self method, e.g. disk.rs 138 *)
Definition sret {St A} (a : A) : SM St A := fun s => (Ok a, s).
(* a fallible computation inside such a method, e.g. disk.rs 142-146 *)
Definition slift {St A} (r : res A) : SM St A := fun s => (r, s).
(* the sequence of two statements of such a method, e.g. disk.rs 136-137 *)
Definition sbind {St A B} (m : SM St A) (f : A -> SM St B) : SM St B :=
  fun s =>
    match m s with
    | (Ok a, s') => f a s'
    | (Err e, s') => (Err e, s')
    | (Panic e, s') => (Panic e, s')
    | (Diverge, s') => (Diverge, s')
    end.
(* reading self.len, self.file, e.g. disk.rs 137 *)
Definition sget {St} : SM St St := fun s => (Ok s, s).
(* assigning to self.len, self.file, e.g. disk.rs 252, 482-484 *)
Definition sput {St} (s : St) : SM St unit := fun _ => (Ok tt, s).
(* calling a &self method, e.g. merkle.rs 1785 *)
Definition sreads {St A} (f : St -> res A) : SM St A := fun s => (f s, s).

Notation "'let!' x := m 'in' k" := (sbind m (fun x => k))
  (at level 200, x pattern, m at level 100, k at level 200, right associativity).

(* [l[start .. start+n]], clipped to the list *)
(* e.g. mmap.rs 228, 249 *)
Definition sub {A} (l : list A) (start n : nat) : list A :=
  firstn n (skipn start l).

(* overwrite the elements of [l] starting at [pos] by [d] *)
(* e.g. disk.rs 372, mmap.rs 123 *)
Definition overwrite {A} (l : list A) (pos : nat) (d : list A) : list A :=
  firstn pos l ++ d ++ skipn (pos + List.length d) l.

(* Vec::resize / File::set_len *)
(* vec.rs 51; disk.rs 63 *)
Definition resize {A} (l : list A) (n : nat) (x : A) : list A :=
  firstn n l ++ repeat x (n - List.length l).

(* slice::chunks(n) for n > 0: consecutive pieces of n elements, the last one
   possibly shorter *)
(* e.g. disk.rs 196, store/mod.rs 345 *)
Fixpoint chunks_fuel {A} (fuel : nat) (n : nat) (l : list A) : list (list A) :=
  match fuel with
  | 0 => []
  | S f =>
      match l with
      | [] => []
      | _ :: _ => firstn n l :: chunks_fuel f n (skipn n l)
      end
  end.
(* e.g. disk.rs 196, store/mod.rs 345 *)
Definition chunks {A} (n : nat) (l : list A) : list (list A) :=
  chunks_fuel (List.length l) n l.

(* slice::chunks_exact(n): as chunks but a shorter last piece is dropped *)
(* vec.rs 56, 72 *)
Definition chunks_exact {A} (n : nat) (l : list A) : list (list A) :=
  chunks n (firstn (List.length l / n * n) l).

(* collect the results of a fallible map *)
(* e.g. disk.rs 195-198 *)
Fixpoint rmap {A B} (f : A -> res B) (l : list A) : res (list B) :=
  match l with
  | [] => Ok []
  | x :: r => do y <- f x; do ys <- rmap f r; Ok (y :: ys)
  end.

(* v[i] *)
(* e.g. merkle.rs 527, 545 *)
Definition rnth {A} (l : list A) (i : nat) : res A :=
  match nth_error l i with
  | Some x => Ok x
  | None => Panic "index out of bounds"
  end.
