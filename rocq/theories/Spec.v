(* Independent specification.  Uses only lists and numbers, no definition of the
   model except the list slice [sub]. *)
From Coq Require Import String List Arith Bool Lia.
From Verif Require Import Base.
Import ListNotations.

(* 1 + b + ... + b^d : number of nodes of a full arity-b tree with b^d leaves *)
Fixpoint geom (b d : nat) : nat :=
  match d with
  | 0 => 1
  | S d' => b ^ d + geom b d'
  end.

(* index of the first node of row r in a full tree with b^d leaves whose rows are
   stored one after the other, leaves first *)
Fixpoint row_off (b d r : nat) : nat :=
  match r with
  | 0 => 0
  | S r' => row_off b d r' + b ^ (d - r')
  end.

Definition pow2 (n : nat) : Prop := exists k, n = 2 ^ k.

Section Spec.
  Context {E : Type}.
  Variable h : nat -> list E -> E.      (* parent of the given children; the children are in row [fst] *)
  Variable b : nat.                     (* arity *)

  (* the arity-b Merkle root of b^d leaves *)
  Inductive MRoot : nat -> list E -> E -> Prop :=
  | MR_leaf : forall x, MRoot 0 [x] x
  | MR_node : forall d parts roots,
      List.length parts = b ->
      Forall2 (MRoot d) parts roots ->
      MRoot (S d) (concat parts) (h d roots).

  (* [els] are all nodes of the full tree over [leaves], row by row *)
  Definition Layout (d : nat) (leaves els : list E) : Prop :=
    List.length leaves = b ^ d /\
    List.length els = geom b d /\
    forall r j, r <= d -> j < b ^ (d - r) ->
      exists x, nth_error els (row_off b d r + j) = Some x /\
                MRoot r (sub leaves (j * b ^ r) (b ^ r)) x.

  (* leaf index spelt by a path of child indices, lowest row first *)
  Fixpoint path_index (path : list nat) : nat :=
    match path with
    | [] => 0
    | c :: r => c + b * path_index r
    end.

  (* children [i, i+1, ..., i+b-1] of node i/b... of row r+1 : children of node j of row r+1 *)
  Definition children (row : list E) (j : nat) : list E := sub row (j * b) b.
End Spec.

(* insert x into the sibling list so that it becomes element c *)
Definition insert_at {E} (c : nat) (x : E) (siblings : list E) : list E :=
  firstn c siblings ++ x :: skipn c siblings.
