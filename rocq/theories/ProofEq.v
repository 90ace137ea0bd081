(* Comparing proofs. *)
From Coq Require Import String List Arith Bool.
From Verif Require Import Base Element ProofModel.
Import ListNotations.

(* the items of Vec<T>::eq as used by the derived PartialEq, proof.rs 18 *)
Fixpoint items_eqb {X} (eqb : X -> X -> bool) (l m : list X) : bool :=
  match l, m with
  | [], [] => true
  | x :: l', y :: m' => eqb x y && items_eqb eqb l' m'
  | _, _ => false
  end.
(* Vec<T>::eq, proof.rs 18: the lengths first, then item by item *)
Definition vec_eqb {X} (eqb : X -> X -> bool) (l m : list X) : bool :=
  (List.length l =? List.length m) && items_eqb eqb l m.

(* proof.rs 18-33, #[derive(PartialEq)]: the fields in their order; PhantomData is always equal *)
Fixpoint proof_eqb {E} (EO : ElementOps E) (p q : proof E) : bool :=
  match p, q with
  | mk_proof sp top sub_ lemma path, mk_proof sp' top' sub' lemma' path' =>
      match sp, sp' with
      | None, None => true
      | Some x, Some y => proof_eqb EO x y
      | _, _ => false
      end && (top =? top') && (sub_ =? sub') && vec_eqb (e_eqb EO) lemma lemma' && vec_eqb Nat.eqb path path'
  end.
