(* src/hash.rs and src/hash_impl.rs *)
From Coq Require Import String List Arith Bool Lia Init.Byte NArith.
From Verif Require Import Base Element.
Import ListNotations.

(* hash.rs 114-153: trait Algorithm<T>: Hasher + Default.
   [a_hash], [a_leaf], ... take the hasher state by &mut: new state returned. *)
Record AlgOps (E : Type) : Type := {
  a_state : Type;
  a_default : a_state;
  a_write : a_state -> list byte -> a_state;
  a_hash : a_state -> E * a_state;
  a_reset : a_state -> a_state;
  a_leaf : a_state -> E -> E * a_state;
  a_node : a_state -> E -> E -> nat -> E * a_state;
  a_multi_node : a_state -> list E -> nat -> E * a_state
}.
Arguments a_state {E} _.
Arguments a_default {E} _.
Arguments a_write {E} _ _ _.
Arguments a_hash {E} _ _.
Arguments a_reset {E} _ _.
Arguments a_leaf {E} _ _ _.
Arguments a_node {E} _ _ _ _ _.
Arguments a_multi_node {E} _ _ _ _.

(* The law expected of an overriding [reset] (hash.rs 121-125). *)
Definition AlgLaws {E} (A : AlgOps E) : Prop :=
  forall s, a_reset A s = a_default A.

(* hash.rs 99 *)
Definition LEAF : byte := x00.
(* hash.rs 102 *)
Definition INTERIOR : byte := x01.

(* An Algorithm that keeps the trait's default method bodies
   (hash.rs 122-152): only Hasher::write, Algorithm::hash and Default are
   user code. *)
Definition default_alg {E} (EO : ElementOps E) (St : Type) (dflt : St)
    (write : St -> list byte -> St) (hash : St -> E * St) : AlgOps E := {|
  a_state := St;
  a_default := dflt;
  a_write := write;
  a_hash := hash;
  (* hash.rs 123-125 *)
  a_reset := fun _ => dflt;
  (* hash.rs 129-133 *)
  a_leaf := fun s x => hash (write (write s [LEAF]) (e_as_ref EO x));
  (* hash.rs 137-142 *)
  a_node := fun s l r _ =>
    hash (write (write (write s [INTERIOR]) (e_as_ref EO l)) (e_as_ref EO r));
  (* hash.rs 146-152 *)
  a_multi_node := fun s nodes _ =>
    hash (fold_left (fun s n => write s (e_as_ref EO n)) nodes
            (write s [INTERIOR]))
|}.

(* A::default().multi_node(nodes, level) *)
(* store/mod.rs 287, 348; disk.rs 359; level_cache.rs 496 *)
Definition h_node {E} (A : AlgOps E) (level : nat) (nodes : list E) : E :=
  fst (a_multi_node A (a_default A) nodes level).

(* leaf hash of one item from a fresh state *)
(* merkle.rs 2036, 2074; proof.rs 203 *)
Definition h_leaf {E} (A : AlgOps E) (x : E) : E :=
  fst (a_leaf A (a_default A) x).

(* ------------------------------------------------------------------ *)
(* Hashable (hash.rs 79-96, hash_impl.rs).  [feed] is the sequence of
   Hasher::write calls a value makes.  Simplification: the Hasher's
   write_u8/write_u16/... methods are the std defaults, i.e. write of the
   value's native-endian bytes (little endian targets).  Raw pointers
   (hash_impl.rs 142-170) hash their address(es): HInt 8 a, or
   HTuple [HInt 8 a; HInt 8 b] for fat ones. *)
Inductive hval : Type :=
| HInt (width : nat) (v : N)   (* u8..u128/usize and, reinterpreted, i8..i128:
                                  width bytes, hash_impl.rs 7-37 *)
| HBytes (bs : list byte)      (* [u8; N], Vec<u8>: 39-56 *)
| HBool (b : bool)             (* 58-62 *)
| HChar (c : N)                (* 64-68: as u32 *)
| HStr (bs : list byte)        (* str and String: utf-8 bytes, no terminator, 70-82 *)
| HTuple (l : list hval)       (* (), (A,), ..., (A..L): 84-122 *)
| HSlice (l : list hval)       (* [T] through the default hash_slice, hash.rs 88-95,
                                  hash_impl.rs 124-128 *)
| HIntSlice (width : nat) (l : list N)  (* [u16] etc.: overridden hash_slice, 15-19 *)
| HBytesSlice (l : list (list byte))    (* [[u8; N]]: overridden hash_slice, 44-49 *)
| HRef (h : hval).             (* &T, &mut T: 130-140 *)

(* little endian bytes of v: the writes of hash_impl.rs 11, 19 on a little endian machine *)
Definition byte_of_N (v : N) : byte :=
  match Byte.of_N (v mod 256) with Some b => b | None => x00 end.
(* the same lines: the whole integer, lowest byte first; hash_impl.rs 11, 19 *)
Fixpoint le_bytes (width : nat) (v : N) : list byte :=
  match width with
  | 0 => []
  | S w => byte_of_N v :: le_bytes w (v / 256)
  end.

(* hash_impl.rs: the writes made by value.hash(state) *)
Fixpoint feed (h : hval) : list (list byte) :=
  match h with
  | HInt w v => [le_bytes w v]
  | HBytes bs => [bs]
  | HBool b => [[if b then x01 else x00]]
  | HChar c => [le_bytes 4 c]
  | HStr bs => [bs]
  | HTuple l => flat_map feed l
  | HSlice l => flat_map feed l
  | HIntSlice w l => [flat_map (le_bytes w) l]
  | HBytesSlice l => [concat l]
  | HRef h => feed h
  end.

(* value.hash(&mut a) *)
(* hash.rs 79-96; e.g. hash_impl.rs 9-13 *)
Definition hash_into {E} (A : AlgOps E) (s : a_state A) (h : hval) : a_state A :=
  fold_left (a_write A) (feed h) s.
