(* Element trait (merkle.rs 190-199) and the [u8; 32] instance
   (merkle.rs 1820-1835). *)
From Coq Require Import String List Arith Bool Lia Init.Byte.
From Verif Require Import Base.
Import ListNotations.

Notation byte := Coq.Init.Byte.byte.

(* merkle.rs 190-199: trait Element: Ord + Clone + AsRef<[u8]> + Default.
   [e_from_slice] panics when the slice is not appropriately sized.
   copy_to_slice(&self, bytes) copies as_ref into a buffer that must have
   exactly the same length (slice::copy_from_slice panics otherwise). *)
Record ElementOps (E : Type) : Type := {
  e_byte_len : nat;
  e_as_ref : E -> list byte;
  e_from_slice : list byte -> res E;
  e_default : E;
  e_eqb : E -> E -> bool
}.
Arguments e_byte_len {E} _.
Arguments e_as_ref {E} _ _.
Arguments e_from_slice {E} _ _.
Arguments e_default {E} _.
Arguments e_eqb {E} _ _ _.

(* What a lawful user implementation of the trait of merkle.rs 191-200 must satisfy. *)
Record ElementLaws {E} (EO : ElementOps E) : Prop := {
  el_pos : 0 < e_byte_len EO;
  el_len : forall e, List.length (e_as_ref EO e) = e_byte_len EO;
  el_round : forall e, e_from_slice EO (e_as_ref EO e) = Ok e;
  el_total : forall bs, List.length bs = e_byte_len EO ->
                        exists e, e_from_slice EO bs = Ok e;
  el_eqb : forall a b, e_eqb EO a b = true <-> a = b
}.

(* Additional law used only where bytes are required to survive a trip
   through an element. *)
(* merkle.rs 190-199 does not ask for this; the [u8; 32] of merkle.rs 1820-1835 has it
   *)
Definition ElementBytesLaw {E} (EO : ElementOps E) : Prop :=
  forall bs e, e_from_slice EO bs = Ok e -> e_as_ref EO e = bs.

(* merkle.rs 198, 1832-1834 *)
Definition e_copy_to_slice {E} (EO : ElementOps E) (e : E) (buf : list byte)
  : res (list byte) :=
  if List.length buf =? e_byte_len EO then Ok (e_as_ref EO e)
  else Panic "source slice length does not match destination slice length".

(* Elements of a byte slice cut into byte_len pieces:
   [.chunks(E::byte_len()).map(E::from_slice).collect()] *)
(* disk.rs 195-198, level_cache.rs 405-408, mmap.rs 249-252, store/mod.rs 345 *)
Definition decode {E} (EO : ElementOps E) (bs : list byte) : res (list E) :=
  rmap (e_from_slice EO) (chunks (e_byte_len EO) bs).

(* the same with chunks_exact *)
(* vec.rs 56, 71-73 *)
Definition decode_exact {E} (EO : ElementOps E) (bs : list byte) : res (list E) :=
  rmap (e_from_slice EO) (chunks_exact (e_byte_len EO) bs).

(* concatenated bytes of elements *)
(* merkle.rs 2027-2046, store/mod.rs 345-352 *)
Definition encode {E} (EO : ElementOps E) (l : list E) : list byte :=
  concat (map (e_as_ref EO) l).

(* Byte-array elements of a fixed length; merkle.rs 1820-1835 is n = 32.
   Carrier: byte lists of length n, represented as a boolean subset. *)
Record barray (n : nat) : Type := mk_barray {
  ba_bytes : list byte;
  ba_ok : (List.length ba_bytes =? n) = true
}.
Arguments mk_barray {n} _ _.
Arguments ba_bytes {n} _.
Arguments ba_ok {n} _.

(* merkle.rs 1825-1830 *)
Definition ba_from_slice (n : nat) (bs : list byte) : res (barray n) :=
  (if List.length bs =? n as b return ((List.length bs =? n) = b -> res (barray n))
   then fun H => Ok (mk_barray bs H)
   else fun _ => Panic "invalid length") eq_refl.

Lemma ba_repeat_ok (n : nat) : (List.length (repeat x00 n) =? n) = true.
Proof. rewrite repeat_length. apply Nat.eqb_refl. Defined.

(* == on [u8; n], proof.rs 125, 194, 205 *)
Fixpoint bytes_eqb (a b : list byte) : bool :=
  match a, b with
  | [], [] => true
  | x :: a', y :: b' => Byte.eqb x y && bytes_eqb a' b'
  | _, _ => false
  end.

(* merkle.rs 1820-1835 for n = 32 *)
Definition ba_ops (n : nat) : ElementOps (barray n) := {|
  e_byte_len := n;
  e_as_ref := fun a => ba_bytes a;
  e_from_slice := ba_from_slice n;
  e_default := mk_barray (repeat x00 n) (ba_repeat_ok n);
  e_eqb := fun a b => bytes_eqb (ba_bytes a) (ba_bytes b)
|}.

(* merkle.rs 1820-1835 *)
Definition u8_32_ops : ElementOps (barray 32) := ba_ops 32.
