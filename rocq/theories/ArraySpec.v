(* Specification: a store is a plain array. *)
From Coq Require Import String List Arith Bool Lia Init.Byte.
From Verif Require Import Base Element FS Store.
Import ListNotations.

(* the three updates of a store *)
Inductive sop (E : Type) : Type :=
| OWrite (x : E) (i : nat)
| OCopy (bs : list byte) (start : nat)
| OPush (x : E).
Arguments OWrite {E} x i.
Arguments OCopy {E} bs start.
Arguments OPush {E} x.

Definition is_ok {A} (r : res A) : bool := match r with Ok _ => true | _ => false end.

Section Arr.
  Context {E : Type} (EO : ElementOps E).
  Variable z : E.                  (* what a gap holds *)
  Variable cap : option nat.       (* capacity in elements; None is unbounded *)

  (* put [els] at [start]: those positions hold [els], all others what they held,
     positions never written hold [z] *)
  Definition arr_put (arr : list E) (start : nat) (els : list E) : list E :=
    map (fun i => if (start <=? i) && (i <? start + List.length els)
                  then nth (i - start) els z else nth i arr z)
        (seq 0 (Nat.max (List.length arr) (start + List.length els))).

  (* where an update puts which elements; None when the bytes are no elements *)
  Definition op_effect (arr : list E) (o : sop E) : option (nat * list E) :=
    match o with
    | OWrite x i => Some (i, [x])
    | OPush x => Some (List.length arr, [x])
    | OCopy bs start =>
        if List.length bs mod e_byte_len EO =? 0 then
          match decode EO bs with Ok els => Some (start, els) | _ => None end
        else None
    end.

  Definition fits (start : nat) (els : list E) : bool :=
    match cap with None => true | Some c => start + List.length els <=? c end.

  (* one update of the array: success flag and new contents *)
  Definition arr_op (o : sop E) (arr : list E) : bool * list E :=
    match op_effect arr o with
    | Some (start, els) => if fits start els then (true, arr_put arr start els) else (false, arr)
    | None => (false, arr)
    end.

  Fixpoint arr_ops (ops : list (sop E)) (arr : list E) : list bool * list E :=
    match ops with
    | [] => ([], arr)
    | o :: r => let '(k, a) := arr_op o arr in
                let '(ks, a') := arr_ops r a in (k :: ks, a')
    end.
End Arr.

Section Run.
  Context {E : Type} (SO : StoreOps E).
  Definition run_op (o : sop E) : SM (st_t SO * fs) unit :=
    match o with
    | OWrite x i => st_write_at SO x i
    | OCopy bs start => st_copy_from_slice SO bs start
    | OPush x => st_push SO x
    end.
  Fixpoint run_ops (ops : list (sop E)) (st : st_t SO * fs) : list (res unit) * (st_t SO * fs) :=
    match ops with
    | [] => ([], st)
    | o :: r => let '(k, s) := run_op o st in
                let '(ks, s') := run_ops r s in (k :: ks, s')
    end.
End Run.

(* what an observer of a store state [st] sees of an array; [vis] restricts the
   positions that can be read *)
Definition shows {E} {T : Type} (len : T -> nat) (ra : T * fs -> nat -> res E)
    (rr : T * fs -> nat -> nat -> res (list E)) (vis : nat -> Prop)
    (arr : list E) (st : T * fs) : Prop :=
  len (fst st) = List.length arr /\
  (forall i x, nth_error arr i = Some x -> vis i -> ra st i = Ok x) /\
  (forall s e, s < e -> e <= List.length arr -> vis s -> rr st s e = Ok (sub arr s (e - s))) /\
  (forall i, List.length arr <= i -> is_ok (ra st i) = false) /\
  (forall s e, List.length arr < e -> is_ok (rr st s e) = false).

(* from the state [st] with contents [arr] every sequence of updates behaves as on
   an array with gap element z and capacity cap *)
Definition behaves {E} (EO : ElementOps E) (SO : StoreOps E) (z : E) (cap : option nat)
    (ra : st_t SO * fs -> nat -> res E) (rr : st_t SO * fs -> nat -> nat -> res (list E))
    (vis : nat -> Prop) (arr : list E) (st : st_t SO * fs) : Prop :=
  forall ops,
    let '(rs, st') := run_ops SO ops st in
    let '(ks, arr') := arr_ops EO z cap ops arr in
    map is_ok rs = ks /\ shows (st_len SO) ra rr vis arr' st'.

(* MmapStore: updates interleaved with compact and reinit *)
Inductive mop (E : Type) : Type :=
| MUpdate (o : sop E)
| MCompact
| MReinit.
Arguments MUpdate {E} o.
Arguments MCompact {E}.
Arguments MReinit {E}.

Section Mapped.
  Context {E : Type} (EO : ElementOps E) (SO : StoreOps E).
  Variable z : E.
  Variable cap : nat.

  (* specification state: contents and whether the file is mapped; compact reports
     whether it was mapped, every update except a rejected slice maps it again *)
  Definition mspec_op (o : mop E) (s : list E * bool) : bool * (list E * bool) :=
    match o with
    | MCompact => (true, (fst s, false))
    | MReinit => (true, (fst s, true))
    | MUpdate u =>
        let maps := match u with
                    | OCopy bs _ => if List.length bs mod e_byte_len EO =? 0 then true else snd s
                    | _ => true
                    end in
        let '(k, a) := arr_op EO z (Some cap) u (fst s) in (k, (a, maps))
    end.
  Fixpoint mspec_ops (ops : list (mop E)) (s : list E * bool) : list bool * (list E * bool) :=
    match ops with
    | [] => ([], s)
    | o :: r => let '(k, s1) := mspec_op o s in
                let '(ks, s2) := mspec_ops r s1 in (k :: ks, s2)
    end.

  Variable sizes : nat -> nat.
  Variable branches : nat.
  Variable cfg : StoreConfig.
  Variable version : nat.
  Definition run_mop (o : mop E) (st : st_t SO * fs) : bool * (st_t SO * fs) :=
    match o with
    | MUpdate u => let '(r, st') := run_op SO u st in (is_ok r, st')
    | MCompact => let '(r, st') := st_compact SO sizes branches cfg version st in (is_ok r, st')
    | MReinit => let '(r, st') := st_reinit SO st in (is_ok r, st')
    end.
  Fixpoint run_mops (ops : list (mop E)) (st : st_t SO * fs) : list bool * (st_t SO * fs) :=
    match ops with
    | [] => ([], st)
    | o :: r => let '(k, s1) := run_mop o st in
                let '(ks, s2) := run_mops r s1 in (k :: ks, s2)
    end.
End Mapped.

(* stores of capacity [cap] just created, with their contents *)
Inductive created {E} (EO : ElementOps E) (SO : StoreOps E) : nat -> list E -> st_t SO * fs -> Prop :=
| cr_new : forall cap f s f', st_new SO cap f = (Ok s, f') -> created EO SO cap [] (s, f')
| cr_config : forall cap b c f s f', fs_dir f (cfg_path c) = None ->
    st_new_with_config SO cap b c f = (Ok s, f') -> created EO SO cap [] (s, f')
| cr_slice : forall cap data els f s f', List.length data mod e_byte_len EO = 0 -> decode EO data = Ok els ->
    st_new_from_slice SO cap data f = (Ok s, f') -> created EO SO cap els (s, f')
| cr_slice_config : forall cap b c data els f s f', fs_dir f (cfg_path c) = None ->
    List.length data mod e_byte_len EO = 0 -> decode EO data = Ok els ->
    st_new_from_slice_with_config SO cap b data c f = (Ok s, f') -> created EO SO cap els (s, f').

(* stores opened on an existing writable file *)
Inductive reopened {E} (EO : ElementOps E) (SO : StoreOps E) : nat -> list E -> st_t SO * fs -> Prop :=
| re_disk : forall cap b c i els f s f', fs_dir f (cfg_path c) = Some i -> i_ro (fs_ino f i) = false ->
    decode EO (fs_data f i) = Ok els ->
    st_new_from_disk SO cap b c f = (Ok s, f') -> reopened EO SO cap els (s, f').

(* first byte position behind an update of a store with [len] elements *)
Definition op_end {E} (EO : ElementOps E) (len : nat) (o : sop E) : nat :=
  match o with
  | OWrite x i => (i + 1) * e_byte_len EO
  | OPush x => (len + 1) * e_byte_len EO
  | OCopy bs start => start * e_byte_len EO + List.length bs
  end.
