(* src/proof.rs *)
From Coq Require Import String List Arith Bool Lia Init.Byte.
From Verif Require Import Base Element Hash Sizing.
Import ListNotations.

(* proof.rs 21-33; BaseTreeArity is passed to the functions *)
Inductive proof (E : Type) : Type := mk_proof {
  pf_sub : option (proof E);
  pf_top_nodes : nat;
  pf_sub_nodes : nat;
  pf_lemma : list E;
  pf_path : list nat
}.
Arguments mk_proof {E} _ _ _ _ _.
Arguments pf_sub {E} _.
Arguments pf_top_nodes {E} _.
Arguments pf_sub_nodes {E} _.
Arguments pf_lemma {E} _.
Arguments pf_path {E} _.

Section Proof.
  Context {E : Type} (EO : ElementOps E).

  (* proof.rs 37-59 *)
  Definition proof_new (b top sub_ : nat) (sp : option (proof E)) (lemma : list E) (path : list nat)
    : res (proof E) :=
    do _ <- (if (top =? 0) && (sub_ =? 0) then
               do _ <- ensure (2 <? List.length lemma) "Invalid lemma length (short)";
               do n <- get_merkle_proof_lemma_len (List.length path + 1) b;
               ensure (List.length lemma =? n) "Invalid lemma length"
             else Ok tt);
    Ok (mk_proof sp top sub_ lemma path).

  (* proof.rs 62-67 *)
  Definition pf_item (p : proof E) : res E :=
    match pf_lemma p with
    | x :: _ => Ok x
    | [] => Panic "[item] requested element is empty"
    end.

  (* proof.rs 77-82 *)
  Definition pf_root (p : proof E) : res E :=
    match rev (pf_lemma p) with
    | x :: _ => Ok x
    | [] => Panic "[root] requested element is empty"
    end.

  (* proof.rs 70-74 *)
  Definition pf_sub_tree_root (p : proof E) : res E :=
    match pf_sub p with
    | Some sp =>
        if 0 <? pf_sub_nodes p then pf_root sp
        else Panic "assertion failed: sub_tree_layer_nodes > 0 && sub_tree_proof.is_some()"
    | None => Panic "assertion failed: sub_tree_layer_nodes > 0 && sub_tree_proof.is_some()"
    end.

  (* proof.rs 105-112 and 169-176: for j in js: push [mid] at position [at_], else
     lemma[off + cur_index].  Returns the nodes and the final cur_index.
     [mid] and [at_] are evaluated inside the loop in the code, hence the [res]. *)
  Fixpoint place_nodes (lemma : list E) (off : nat) (at_ : res nat) (mid : res E)
      (js : list nat) (cur_index : nat) : res (list E * nat) :=
    match js with
    | [] => Ok ([], cur_index)
    | j :: r =>
        do a <- at_;
        if j =? a then
          do x <- mid;
          do (nodes, c) <- place_nodes lemma off at_ mid r cur_index;
          Ok (x :: nodes, c)
        else
          do x <- rnth lemma (off + cur_index);
          do (nodes, c) <- place_nodes lemma off at_ mid r (S cur_index);
          Ok (x :: nodes, c)
    end.

  Variable A : AlgOps E.
  Variable b : nat.                       (* BaseTreeArity::to_usize() *)

  (* proof.rs 163-187: for i in (1..size - 1).step_by(branches - 1).  [a] is the
     hasher reused between iterations.  None = early return Ok(false). *)
  Fixpoint base_loop (fuel : nat) (p : proof E) (size i path_index : nat)
      (a : a_state A) (h : E) : res (option E) :=
    match fuel with
    | 0 => Diverge
    | S f =>
        if i <? size - 1 then
          let a := a_reset A a in
          do (nodes, cur_index) <-
             place_nodes (pf_lemma p) i (rnth (pf_path p) (path_index - 1)) (Ok h) (seq 0 b) 0;
          do b1 <- checked_sub b 1;
          if negb (cur_index =? b1) then Ok None
          else
            let '(h', a') := a_multi_node A a nodes (i - 1) in
            base_loop f p size (i + (b - 1)) (S path_index) a' h'
        else Ok (Some h)
    end.

  (* proof.rs 147-194: base layer part of validate.  step_by(0) panics (b = 1),
     branches - 1 underflows (b = 0). *)
  Definition validate_base (p : proof E) : res bool :=
    do _ <- ensure (pf_sub_nodes p =? 0) "Base layer proof must have 0 as sub-tree layer node count";
    do _ <- ensure (pf_top_nodes p =? 0) "Base layer proof must have 0 as top layer node count";
    do _ <- ensure (match pf_sub p with None => true | Some _ => false end)
              "Sub tree proof must be None";
    let size := List.length (pf_lemma p) in
    if size <? 2 then Ok false
    else
      do h <- pf_item p;
      do b1 <- checked_sub b 1;
      if b1 =? 0 then Panic "assertion failed: step != 0"
      else
        do r <- base_loop size p size 1 1 (a_default A) h;
        match r with
        | None => Ok false
        | Some h => do rt <- pf_root p; Ok (e_eqb EO h rt)
        end.

  (* proof.rs 103-125: the part of validate_sub_tree_proof after the recursive call *)
  Definition validate_top (p : proof E) (arity : nat) : res bool :=
    let a := a_reset A (a_default A) in
    do (nodes, cur_index) <-
       place_nodes (pf_lemma p) 0 (rnth (pf_path p) 0) (pf_sub_tree_root p) (seq 0 arity) 0;
    do n1 <- checked_sub arity 1;
    if negb (cur_index =? n1) then Ok false
    else
      let '(h, _) := a_multi_node A a nodes 0 in
      do rt <- pf_root p;
      Ok (e_eqb EO h rt).

  (* proof.rs 129-195 with validate_sub_tree_proof (85-126) inlined *)
  Fixpoint validate (p : proof E) : res bool :=
    if 0 <? pf_top_nodes p then
      match pf_sub p with
      | None => Err "Sub tree proof must be present for validation"
      | Some sp =>
          do v <- validate sp;
          if negb v then Ok v else validate_top p (pf_top_nodes p)
      end
    else if 0 <? pf_sub_nodes p then
      match pf_sub p with
      | None => Err "Sub tree proof must be present for validation"
      | Some sp =>
          do v <- validate sp;
          if negb v then Ok v else validate_top p (pf_sub_nodes p)
      end
    else validate_base p.

  (* proof.rs 198-210 *)
  Definition validate_with_data (p : proof E) (leaf_data : hval) : res bool :=
    let a := hash_into A (a_default A) leaf_data in
    let '(item, a) := a_hash A a in
    let a := a_reset A a in
    let '(leaf_hash, _) := a_leaf A a item in
    do it <- pf_item p;
    if e_eqb EO leaf_hash it then validate p else Ok false.
End Proof.
