(* Independent specification of inclusion proofs: plain lists and numbers. *)
From Coq Require Import String List Arith Bool Lia.
From Verif Require Import Base Spec.
Import ListNotations.

Section ProofSpec.
  Context {E : Type}.
  Variable b : nat.

  Definition remove_at (c : nat) (l : list E) : list E := firstn c l ++ skipn (S c) l.

  (* digit r of i in base b: which child the ancestor of leaf i in row r is *)
  Definition digit (r i : nat) : nat := (i / b ^ r) mod b.

  (* all children of the row-(r+1) ancestor of leaf i, in a full tree [els] with b^d leaves *)
  Definition kids (els : list E) (d r i : nat) : list E :=
    sub els (row_off b d r + i / b ^ S r * b) b.

  (* the inclusion proof of leaf i: the leaf, then per row the siblings of the
     ancestor, then the root *)
  Definition lemma_of (els : list E) (d i : nat) : list E :=
    sub els i 1 ++ flat_map (fun r => remove_at (digit r i) (kids els d r i)) (seq 0 d)
      ++ sub els (geom b d - 1) 1.
  Definition path_of (d i : nat) : list nat := map (fun r => digit r i) (seq 0 d).

  (* the list of nodes hashed at level k when climbing from x with the given
     siblings and positions, and the value reached *)
  Variable h : nat -> list E -> E.
  Fixpoint climb (k : nat) (x : E) (sibs : list (list E)) (path : list nat) : E :=
    match sibs, path with
    | s :: ss, c :: cs => climb (S k) (h k (insert_at c x s)) ss cs
    | _, _ => x
    end.
  (* [climb_nodes k ...] : the node list hashed at the k-th step *)
  Fixpoint climb_nodes (k0 : nat) (x : E) (sibs : list (list E)) (path : list nat) (k : nat) : list E :=
    match sibs, path with
    | s :: ss, c :: cs =>
        match k with
        | 0 => insert_at c x s
        | S k' => climb_nodes (S k0) (h k0 (insert_at c x s)) ss cs k'
        end
    | _, _ => []
    end.

  (* sibling groups of a lemma with n levels *)
  Definition groups (lemma : list E) (n : nat) : list (list E) :=
    map (fun k => sub lemma (1 + k * (b - 1)) (b - 1)) (seq 0 n).
End ProofSpec.
