(* The Debug text of a LevelCacheStore. *)
From Coq Require Import String List Arith Bool DecimalString.
From Verif Require Import Base FS LevelCache.
Import ListNotations.

(* what the fields of level_cache.rs 63-69 print: usize or bool *)
Inductive dbg : Type := DNat (n : nat) | DBool (v : bool).
(* core's Debug for usize (decimal) and bool, used by level_cache.rs 64-69 *)
Definition dbg_show (v : dbg) : string :=
  match v with
  | DNat n => NilEmpty.string_of_uint (Nat.to_uint n)
  | DBool true => "true"
  | DBool false => "false"
  end.
(* core's DebugStruct for {:?} after the first field, level_cache.rs 65-70 (the alternate
   form {:#?} has line breaks instead and is not modelled) *)
Fixpoint dbg_more (l : list (string * dbg)) : string :=
  match l with
  | [] => " }"
  | (k, v) :: r => ", " ++ k ++ ": " ++ dbg_show v ++ dbg_more r
  end.
(* core's DebugStruct, level_cache.rs 63-70 *)
Definition dbg_struct (name : string) (l : list (string * dbg)) : string :=
  match l with
  | [] => name
  | (k, v) :: r => name ++ " { " ++ k ++ ": " ++ dbg_show v ++ dbg_more r
  end.
(* level_cache.rs 61-72: the pairs given to .field; line 65 gives &self.len under the name elem_len *)
Definition lc_debug_fields (s : lc_t) : list (string * dbg) :=
  [("len", DNat (lc_len s)); ("elem_len", DNat (lc_len s)); ("data_width", DNat (lc_data_width s));
   ("loaded_from_disk", DBool (lc_loaded s)); ("cache_index_start", DNat (lc_cache_index_start s));
   ("store_size", DNat (lc_size s))]%string.
(* level_cache.rs 61-72 *)
Definition lc_debug (s : lc_t) : string := dbg_struct "LevelCacheStore" (lc_debug_fields s).
