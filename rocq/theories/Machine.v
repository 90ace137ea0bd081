(* The size functions of merkle.rs 1837-2011 and store/mod.rs 150-173 in 64-bit machine
   arithmetic.  A number is an N below 2^64.  Every arithmetic operation comes in two
   modes: [Wrap] is a release build (the result is taken modulo 2^64, shift amounts
   modulo 64, next_power_of_two overflowing to 0), [Check] is a build with overflow
   checks (the operation panics).  Loops carry 66 rounds of fuel: MachineFacts.v shows
   that this is enough whenever the unbounded functions of Sizing.v terminate. *)
From Coq Require Import String List Arith Bool Lia NArith.
From Verif Require Import Base.
Import ListNotations.
Local Open Scope N_scope.

(* build profile: the arithmetic of merkle.rs 1837-2011 compiled without and with overflow checks *)
Inductive mode := Wrap | Check.
(* usize of a 64-bit target *)
Definition w64 : N := 2 ^ 64.

(* plus, as in merkle.rs 1889 *)
Definition add64 (m : mode) (a b : N) : res N :=
  if a + b <? w64 then Ok (a + b)
  else match m with Wrap => Ok ((a + b) mod w64) | Check => Panic "attempt to add with overflow" end.
(* times, as in merkle.rs 1876 *)
Definition mul64 (m : mode) (a b : N) : res N :=
  if a * b <? w64 then Ok (a * b)
  else match m with Wrap => Ok ((a * b) mod w64) | Check => Panic "attempt to multiply with overflow" end.
(* minus, as in merkle.rs 1876 *)
Definition sub64 (m : mode) (a b : N) : res N :=
  if b <=? a then Ok (a - b)
  else match m with Wrap => Ok (w64 + a - b) | Check => Panic "attempt to subtract with overflow" end.
(* >>, as in merkle.rs 1887 *)
Definition shr64 (m : mode) (a s : N) : res N :=
  if s <? 64 then Ok (N.shiftr a s)
  else match m with Wrap => Ok (N.shiftr a (s mod 64)) | Check => Panic "attempt to shift right with overflow" end.
(* <<, as in merkle.rs 1978; bits shifted out on the left are lost in both modes *)
Definition shl64 (m : mode) (a s : N) : res N :=
  if s <? 64 then Ok (N.shiftl a s mod w64)
  else match m with Wrap => Ok (N.shiftl a (s mod 64) mod w64) | Check => Panic "attempt to shift left with overflow" end.

(* merkle.rs 2004-2006 *)
Definition npow64 (m : mode) (n : N) : res N :=
  let p := 2 ^ N.log2_up n in
  if p <? w64 then Ok p else match m with Wrap => Ok 0 | Check => Panic "attempt to add with overflow" end.

(* merkle.rs 2009-2011: usize::trailing_zeros *)
Fixpoint ptz (p : positive) : N := match p with xO q => 1 + ptz q | _ => 0 end.
(* merkle.rs 1948, 2010; 64 for 0 *)
Definition tz64 (n : N) : N := match n with N0 => 64 | Npos p => ptz p end.

(* merkle.rs 1884-1890 *)
Fixpoint len_loop64 (m : mode) (fuel : nat) (shift leafs cur len : N) : res N :=
  match fuel with
  | O => Diverge
  | S f =>
      if 0 <? cur then
        do cur <- shr64 m cur shift;
        do _ <- ensure (cur <? leafs) "invalid input provided";
        do len <- add64 m len cur;
        len_loop64 m f shift leafs cur len
      else Ok len
  end.

(* merkle.rs 1866-1893 *)
Definition get_merkle_tree_len64 (m : mode) (leafs branches : N) : res N :=
  do _ <- ensure (branches <=? leafs) "leaf and branch mis-match";
  do nb <- npow64 m branches;
  do _ <- ensure (branches =? nb) "branches must be a power of 2";
  if branches =? 2 then
    do nl <- npow64 m leafs;
    do _ <- ensure (leafs =? nl) "leafs must be a power of 2";
    do x <- mul64 m 2 leafs;
    sub64 m x 1
  else
    let shift := tz64 branches in
    if shift =? 0 then Ok leafs
    else len_loop64 m 66 shift leafs leafs leafs.

(* merkle.rs 1839-1861 *)
Definition get_merkle_tree_len_generic64 (m : mode) (b sub_arity top_arity leaves : N) : res N :=
  do base_tree_len <- get_merkle_tree_len64 m leaves b;
  if 0 <? top_arity then
    do a <- add64 m 1 top_arity;
    do s <- mul64 m sub_arity top_arity;
    do s <- mul64 m s base_tree_len;
    add64 m a s
  else if 0 <? sub_arity then
    do s <- mul64 m sub_arity base_tree_len;
    add64 m 1 s
  else Ok base_tree_len.

(* merkle.rs 1950, floor (log_b n): the value of the floating-point expression, see C54 *)
Fixpoint ilog64 (fuel : nat) (b n : N) : N :=
  match fuel with
  | O => 0
  | S f => if n <? b then 0 else 1 + ilog64 f b (n / b)
  end.

(* merkle.rs 1945-1952; only the branches = 2 case uses integer arithmetic *)
Definition get_merkle_tree_row_count64 (m : mode) (leafs branches : N) : res N :=
  if branches =? 2 then do x <- mul64 m leafs branches; Ok (tz64 x)
  else if branches =? 0 then Ok 0
  else if branches =? 1 then Ok (if leafs <=? 1 then 0 else w64 - 1)
  else if leafs =? 0 then Ok 0
  else Ok (ilog64 130 branches (branches * leafs)).

(* merkle.rs 1918-1922 *)
Fixpoint cache_loop64 (m : mode) (fuel : nat) (shift row_count cache_base cache_size cur_leafs : N) : res N :=
  match fuel with
  | O => Diverge
  | S f =>
      if cache_base <? row_count then
        do cs <- sub64 m cache_size cur_leafs;
        do cl <- shr64 m cur_leafs shift;
        do rc <- sub64 m row_count 1;
        cache_loop64 m f shift rc cache_base cs cl
      else Ok cache_size
  end.

(* merkle.rs 1897-1925 *)
Definition get_merkle_tree_cache_size64 (m : mode) (leafs branches rows_to_discard : N) : res N :=
  let shift := tz64 branches in
  do len <- get_merkle_tree_len64 m leafs branches;
  do row_count <- get_merkle_tree_row_count64 m leafs branches;
  do rc1 <- sub64 m row_count 1;
  do _ <- ensure (rows_to_discard <? rc1) "Cannot discard all rows except for the base";
  do rc1 <- sub64 m row_count 1;
  do cache_base <- sub64 m rc1 rows_to_discard;
  cache_loop64 m 66 shift row_count cache_base len leafs.

(* merkle.rs 1934-1939 *)
Fixpoint valid_loop64 (m : mode) (fuel : nat) (shift leafs cur : N) : res bool :=
  match fuel with
  | O => Diverge
  | S f =>
      if cur =? 1 then Ok true
      else
        do cur <- shr64 m cur shift;
        if (leafs <? cur) || (cur =? 0) then Ok false
        else valid_loop64 m f shift leafs cur
  end.

(* merkle.rs 1927-1942 *)
Definition is_merkle_tree_size_valid64 (m : mode) (leafs branches : N) : res bool :=
  if branches =? 0 then Ok false
  else
    do nl <- npow64 m leafs;
    if negb (leafs =? nl) then Ok false
    else
      do nb <- npow64 m branches;
      if negb (branches =? nb) then Ok false
      else valid_loop64 m 66 (tz64 branches) leafs leafs.

(* merkle.rs 1956-1958 *)
Definition get_merkle_proof_lemma_len64 (m : mode) (row_count branches : N) : res N :=
  do b1 <- sub64 m branches 1;
  do r1 <- sub64 m row_count 1;
  do x <- mul64 m b1 r1;
  add64 m 2 x.

(* merkle.rs 1977-1989 *)
Fixpoint leafs_loop64 (m : mode) (fuel : nat) (shift len leafs cur : N) : res N :=
  match fuel with
  | O => Diverge
  | S f =>
      if cur =? 1 then Ok leafs
      else
        do leafs <- shl64 m leafs shift;
        do _ <- ensure (leafs <? cur) "Invalid tree length provided for the specified arity";
        do cur <- sub64 m cur leafs;
        do _ <- ensure (cur <? len) "Invalid tree length provided for the specified arity";
        leafs_loop64 m f shift len leafs cur
  end.

(* merkle.rs 1963-2000; the fuel is a parameter *)
Definition get_merkle_tree_leafs64 (m : mode) (fuel : nat) (len branches : N) : res N :=
  do nb <- npow64 m branches;
  do _ <- ensure (branches =? nb) "branches must be a power of 2";
  do leafs <-
     (if branches =? 2 then do h <- shr64 m len 1; add64 m h 1
      else leafs_loop64 m fuel (tz64 branches) len 1 len);
  do nl <- npow64 m leafs;
  do _ <- ensure (leafs =? nl) "Invalid tree length provided for the specified arity";
  Ok leafs.

(* store/mod.rs 150-173 *)
Definition default_rows_to_discard64 (m : mode) (leafs branches : N) : res N :=
  do row_count <- get_merkle_tree_row_count64 m leafs branches;
  if row_count <=? 2 then Ok 0
  else if row_count =? 3 then Ok 1
  else
    do max_rows_to_discard <- sub64 m row_count 2;
    if branches =? 2 then Ok (N.min max_rows_to_discard 7)
    else if branches =? 4 then Ok (N.min max_rows_to_discard 5)
    else Ok (N.min max_rows_to_discard 2).
