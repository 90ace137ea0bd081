(* Concrete elements, algorithms and environments for the worked cases. *)
From Coq Require Import String List Arith Bool Lia Init.Byte NArith.
From Verif Require Import Base Element Hash Sizing FS Sched Store StoreSpec ListFacts.
Import ListNotations.

(* one-byte elements *)
Definition B1 : Type := barray 1.
Definition el (n : nat) : B1 :=
  @mk_barray 1 [match Byte.of_nat (n mod 256) with Some x => x | None => x00 end] eq_refl.
Definition val (x : B1) : nat := match ba_bytes x with c :: _ => Byte.to_nat c | [] => 0 end.
Definition BO : ElementOps B1 := ba_ops 1.
Lemma BL : ElementLaws BO.
Proof. apply ba_laws. lia. Qed.

(* the trait's default methods over a weighted byte sum (17 * acc + byte + 1) *)
Definition poly (bs : list byte) : nat := fold_left (fun a c => (a * 17 + Byte.to_nat c + 1) mod 251) bs 0.
Definition sum_alg : AlgOps B1 :=
  default_alg BO (list byte) [] (fun s bs => s ++ bs) (fun s => (el (poly s), s)).
Lemma sum_laws : AlgLaws sum_alg.
Proof. intros s. reflexivity. Qed.

(* an algorithm whose multi_node mixes in the height *)
Definition height_alg : AlgOps B1 := {|
  a_state := unit; a_default := tt; a_write := fun s _ => s; a_hash := fun s => (el 7, s);
  a_reset := fun s => s; a_leaf := fun s x => (x, s);
  a_node := fun s l r h => (el (val l + 3 * val r + 10 * h), s);
  a_multi_node := fun s nodes h => (el (fold_left (fun a x => 3 * a + val x) nodes 0 + 10 * h), s)
|}.
Lemma height_laws : AlgLaws height_alg.
Proof. intros []. reflexivity. Qed.

(* small compile-time constants, a task order that interleaves the workers *)
Definition env_of (small chunk block : nat) (sched : list nat) : env := {|
  env_params := {| p_small := small; p_chunk := chunk; p_block := block |};
  env_sched := fun _ => sched;
  env_bytes := fun _ => flat_map (fun j => map (fun k => (k, j)) sched) [0; 3; 1; 2; 0; 1];
  env_pop := sched;
  env_copy := fun _ _ => 3
|}.
Definition env1 : env := env_of 4 4 3 [2; 0; 1; 1; 3; 0; 2].
Definition env2 : env := env_of 0 8 5 [1; 0; 0; 1].
Definition cfg0 : StoreConfig := {| sc_path := "/d"; sc_id := "t"; sc_size := None; sc_rows_to_discard := 1 |}.
