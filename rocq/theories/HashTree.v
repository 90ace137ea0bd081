(* Independent specification for C83: hash trees of any shape and what a proof object of
   any shape says about one.  Plain trees, lists and numbers. *)
From Coq Require Import String List Arith Bool Lia Init.Byte.
From Verif Require Import Base Element Hash ProofModel Spec ProofSpec.
Import ListNotations.

(* a tree over elements; the elements are leaf-hashed, the inner nodes multi_node-hashed *)
Inductive htree (E : Type) : Type :=
| HL (x : E)
| HN (cs : list (htree E)).
Arguments HL {E} _.
Arguments HN {E} _.

Section HashTree.
  Context {E : Type} (EO : ElementOps E).

  (* the bytes hashed for a leaf and for an inner node *)
  Definition leaf_bytes (x : E) : list byte := x00 :: e_as_ref EO x.
  Definition node_bytes (nodes : list E) : list byte := x01 :: concat (map (e_as_ref EO) nodes).

  Variable H : list byte -> E.            (* the underlying hash *)

  Fixpoint value (t : htree E) : E :=
    match t with
    | HL x => H (leaf_bytes x)
    | HN cs => H (node_bytes (map value cs))
    end.

  (* every byte string hashed to compute [value t] *)
  Fixpoint tree_bytes (t : htree E) : list (list byte) :=
    match t with
    | HL x => [leaf_bytes x]
    | HN cs => node_bytes (map value cs) :: flat_map tree_bytes cs
    end.

  (* the elements, left to right *)
  Fixpoint fringe (t : htree E) : list E :=
    match t with
    | HL x => [x]
    | HN cs => flat_map fringe cs
    end.

  (* the node at an address: child numbers, root first *)
  Fixpoint descend (t : htree E) (addr : list nat) : option (htree E) :=
    match addr with
    | [] => Some t
    | c :: r =>
        match t with
        | HL _ => None
        | HN cs => match nth_error cs c with Some u => descend u r | None => None end
        end
    end.

  (* all leaves at the same depth, the inner nodes of layer k with [nth k ars] children *)
  Fixpoint shaped (ars : list nat) (t : htree E) : Prop :=
    match ars, t with
    | [], HL _ => True
    | a :: r, HN cs => List.length cs = a /\ Forall (shaped r) cs
    | _, _ => False
    end.

  (* position of an address of a leaf among the elements *)
  Definition product (ars : list nat) : nat := fold_right Nat.mul 1 ars.
  Fixpoint addr_index (ars addr : list nat) : nat :=
    match ars, addr with
    | _ :: ar, c :: r => c * product ar + addr_index ar r
    | _, _ => 0
    end.
End HashTree.

(* ---- proof objects of any shape ---- *)
Section AnyProof.
  Context {E : Type} (EO : ElementOps E).
  Variable b : nat.                       (* arity of the base layer *)
  Variable hn : list E -> E.              (* hash of an inner node *)

  (* number of steps made over a lemma of the given size *)
  Definition levels (size : nat) : nat := (size - 2 + (b - 2)) / (b - 1).

  Fixpoint innermost (p : proof E) : proof E :=
    match pf_sub p with Some sp => innermost sp | None => p end.

  (* where the innermost item claims to be *)
  Fixpoint address (p : proof E) : list nat :=
    match pf_sub p with
    | Some sp => firstn 1 (pf_path p) ++ address sp
    | None => rev (firstn (levels (List.length (pf_lemma p))) (pf_path p))
    end.

  (* the lists of nodes hashed when the proof is checked *)
  Definition layer_arity (p : proof E) : nat := if 0 <? pf_top_nodes p then pf_top_nodes p else pf_sub_nodes p.
  Definition base_lists (p : proof E) : list (list E) :=
    match pf_lemma p with
    | [] => []
    | x :: _ =>
        let n := levels (List.length (pf_lemma p)) in
        map (climb_nodes (fun _ => hn) 0 x (groups b (pf_lemma p) n) (firstn n (pf_path p))) (seq 0 n)
    end.
  Fixpoint hashed (p : proof E) : list (list E) :=
    match pf_sub p with
    | Some sp =>
        match pf_lemma sp with
        | [] => []
        | x :: _ => insert_at (hd 0 (pf_path p)) (last (pf_lemma sp) x) (firstn (layer_arity p - 1) (pf_lemma p)) :: hashed sp
        end
    | None => base_lists p
    end.
  Definition proof_bytes (p : proof E) : list (list byte) := map (node_bytes EO) (hashed p).
End AnyProof.
