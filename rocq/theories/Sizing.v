(* Size arithmetic: merkle.rs 1837-2011 and StoreConfig::default_rows_to_discard
   (store/mod.rs 150-173).
   usize is nat (unbounded); subtraction underflow is a panic.
   While-loops carry fuel; each function is given fuel that suffices whenever
   the loop terminates (SizingFacts.v). *)
From Coq Require Import String List Arith Bool Lia NArith.
From Verif Require Import Base.
Import ListNotations.

(* merkle.rs 2004-2006: n.next_power_of_two(); next_power_of_two(0) = 1 *)
Definition next_pow2 (n : nat) : nat := 2 ^ Nat.log2_up n.

(* usize::trailing_zeros, merkle.rs 1948, 2010 *)
Fixpoint tz_fuel (fuel n : nat) : nat :=
  match fuel with
  | 0 => 0
  | S f => if Nat.even n then S (tz_fuel f (n / 2)) else 0
  end.
(* the same; 64 for 0, as usize has 64 bits: merkle.rs 1948, 2010 *)
Definition trailing_zeros (n : nat) : nat :=
  if n =? 0 then 64 else tz_fuel n n.

(* merkle.rs 2009-2011 *)
Definition log2_pow2 (n : nat) : nat := trailing_zeros n.

(* merkle.rs 1884-1890: while cur > 0 { cur >>= shift; ensure!(cur < leafs); len += cur } *)
Fixpoint len_loop (fuel shift leafs cur len : nat) : res nat :=
  match fuel with
  | 0 => Diverge
  | S f =>
      if 0 <? cur then
        let cur := Nat.shiftr cur shift in
        do _ <- ensure (cur <? leafs) "invalid input provided";
        len_loop f shift leafs cur (len + cur)
      else Ok len
  end.

(* merkle.rs 1866-1893 *)
Definition get_merkle_tree_len (leafs branches : nat) : res nat :=
  do _ <- ensure (branches <=? leafs) "leaf and branch mis-match";
  do _ <- ensure (branches =? next_pow2 branches) "branches must be a power of 2";
  if branches =? 2 then
    do _ <- ensure (leafs =? next_pow2 leafs) "leafs must be a power of 2";
    checked_sub (2 * leafs) 1
  else
    let shift := log2_pow2 branches in
    if shift =? 0 then Ok leafs
    else len_loop (S (S leafs)) shift leafs leafs leafs.

(* merkle.rs 1839-1861 *)
Definition get_merkle_tree_len_generic (b sub_arity top_arity leaves : nat) : res nat :=
  do base_tree_len <- get_merkle_tree_len leaves b;
  if 0 <? top_arity then
    Ok (1 + top_arity + sub_arity * top_arity * base_tree_len)
  else if 0 <? sub_arity then
    Ok (1 + sub_arity * base_tree_len)
  else Ok base_tree_len.

(* usize::MAX, a result of the cast of merkle.rs 1950; a function so that it is never evaluated as a constant *)
Definition usize_max (_ : unit) : nat := N.to_nat (2 ^ 64 - 1).

(* merkle.rs 1950: floor (log_b n) for b >= 2, n >= 1 *)
Fixpoint ilog_fuel (fuel b n : nat) : nat :=
  match fuel with
  | 0 => 0
  | S f => if n <? b then 0 else S (ilog_fuel f b (n / b))
  end.
(* merkle.rs 1950, with fuel enough *)
Definition ilog (b n : nat) : nat := ilog_fuel n b n.

(* merkle.rs 1945-1952.  Simplification: the f64 expression
   (b * leafs).log(b) as usize is replaced by the exact value; the f64
   special cases are: log of 0 is -inf -> 0; branches = 0 gives NaN -> 0;
   branches = 1 gives ln(leafs)/0, i.e. NaN -> 0 for one leaf and +inf ->
   usize::MAX for more.  For powers of two (which all callers check, except
   default_rows_to_discard) C54 shows the f64 expression, evaluated with a
   correctly rounded ln, to have this value, except for arity 2^21 with 2^42
   leaves; for other leaf counts the exact value is a simplification. *)
Definition get_merkle_tree_row_count (leafs branches : nat) : nat :=
  if branches =? 2 then trailing_zeros (leafs * branches)
  else if branches =? 0 then 0
  else if branches =? 1 then (if leafs <=? 1 then 0 else usize_max tt)
  else if leafs =? 0 then 0
  else ilog branches (branches * leafs).

(* merkle.rs 1918-1922: while row_count > cache_base
   { cache_size -= cur_leafs; cur_leafs >>= shift; row_count -= 1 } *)
Fixpoint cache_loop (fuel shift row_count cache_base cache_size cur_leafs : nat) : res nat :=
  match fuel with
  | 0 => Diverge
  | S f =>
      if cache_base <? row_count then
        do cs <- checked_sub cache_size cur_leafs;
        do rc <- checked_sub row_count 1;
        cache_loop f shift rc cache_base cs (Nat.shiftr cur_leafs shift)
      else Ok cache_size
  end.

(* merkle.rs 1897-1925 *)
Definition get_merkle_tree_cache_size (leafs branches rows_to_discard : nat) : res nat :=
  let shift := log2_pow2 branches in
  do len <- get_merkle_tree_len leafs branches;
  let row_count := get_merkle_tree_row_count leafs branches in
  do rc1 <- checked_sub row_count 1;
  do _ <- ensure (rows_to_discard <? rc1) "Cannot discard all rows except for the base";
  do cache_base <- checked_sub rc1 rows_to_discard;
  cache_loop (S (S rows_to_discard)) shift row_count cache_base len leafs.

(* merkle.rs 1934-1939: while cur != 1 { cur >>= shift; if cur > leafs || cur == 0 { return false } } *)
Fixpoint valid_loop (fuel shift leafs cur : nat) : res bool :=
  match fuel with
  | 0 => Diverge
  | S f =>
      if cur =? 1 then Ok true
      else
        let cur := Nat.shiftr cur shift in
        if (leafs <? cur) || (cur =? 0) then Ok false
        else valid_loop f shift leafs cur
  end.

(* merkle.rs 1927-1942 *)
Definition is_merkle_tree_size_valid_fuel (fuel leafs branches : nat) : res bool :=
  if (branches =? 0) || negb (leafs =? next_pow2 leafs)
     || negb (branches =? next_pow2 branches)
  then Ok false
  else valid_loop fuel (log2_pow2 branches) leafs leafs.
(* merkle.rs 1927-1942 *)
Definition is_merkle_tree_size_valid (leafs branches : nat) : res bool :=
  is_merkle_tree_size_valid_fuel (S leafs) leafs branches.

(* merkle.rs 1956-1958 *)
Definition get_merkle_proof_lemma_len (row_count branches : nat) : res nat :=
  do b1 <- checked_sub branches 1;
  do r1 <- checked_sub row_count 1;
  Ok (2 + b1 * r1).

(* merkle.rs 1977-1989: while cur != 1 { leafs <<= shift; ensure!(cur > leafs);
   cur -= leafs; ensure!(cur < len) } *)
Fixpoint leafs_loop (fuel shift len leafs cur : nat) : res nat :=
  match fuel with
  | 0 => Diverge
  | S f =>
      if cur =? 1 then Ok leafs
      else
        let leafs := Nat.shiftl leafs shift in
        do _ <- ensure (leafs <? cur) "Invalid tree length provided for the specified arity";
        let cur := cur - leafs in
        do _ <- ensure (cur <? len) "Invalid tree length provided for the specified arity";
        leafs_loop f shift len leafs cur
  end.

(* merkle.rs 1963-2000 *)
Definition get_merkle_tree_leafs (len branches : nat) : res nat :=
  do _ <- ensure (branches =? next_pow2 branches) "branches must be a power of 2";
  do leafs <-
     (if branches =? 2 then Ok (Nat.shiftr len 1 + 1)
      else leafs_loop (S len) (log2_pow2 branches) len 1 len);
  do _ <- ensure (leafs =? next_pow2 leafs)
            "Invalid tree length provided for the specified arity";
  Ok leafs.

(* store/mod.rs 150-173 *)
Definition default_rows_to_discard (leafs branches : nat) : nat :=
  let row_count := get_merkle_tree_row_count leafs branches in
  if row_count <=? 2 then 0
  else if row_count =? 3 then 1
  else
    let max_rows_to_discard := row_count - 2 in
    match branches with
    | 2 => Nat.min max_rows_to_discard 7
    | 4 => Nat.min max_rows_to_discard 5
    | _ => Nat.min max_rows_to_discard 2
    end.

(* Compile-time constants: SMALL_TREE_BUILD = 1024 and BUILD_CHUNK_NODES = 1024*4
   (store/mod.rs 26-29), BUILD_DATA_BLOCK_SIZE = 64 * BUILD_CHUNK_NODES
   (merkle.rs 19). *)
Record params : Type := {
  p_small : nat;
  p_chunk : nat;
  p_block : nat
}.
(* store/mod.rs 26, 29; merkle.rs 19 *)
Definition real_params : params := {|
  p_small := N.to_nat 1024;
  p_chunk := N.to_nat 4096;
  p_block := N.to_nat (64 * 4096)
|}.
