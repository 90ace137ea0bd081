(* Specification: which files a store may touch. *)
From Coq Require Import String List Arith Bool Lia Init.Byte.
From Verif Require Import Base Element Hash FS Sched Store ArraySpec.
Import ListNotations.

(* operations on an open store; compact and build get the store's own config *)
Inductive fop (E : Type) : Type :=
| FUpdate (o : sop E)
| FCompact (sizes : nat -> nat) (branches version : nat)
| FBuild (en : env) (A : AlgOps E) (branches leafs row_count : nat) (with_config : bool)
| FReinit
| FSync.
Arguments FUpdate {E} o.
Arguments FCompact {E} sizes branches version.
Arguments FBuild {E} en A branches leafs row_count with_config.
Arguments FReinit {E}.
Arguments FSync {E}.

Section Run.
  Context {E : Type} (SO : StoreOps E) (c : StoreConfig).
  Local Notation St := (st_t SO * fs)%type.
  Definition flag {A} (x : res A * St) : bool * St := (is_ok (fst x), snd x).
  Definition run_fop (o : fop E) (st : St) : bool * St :=
    match o with
    | FUpdate u => flag (run_op SO u st)
    | FCompact sizes b v => flag (st_compact SO sizes b c v st)
    | FBuild en A b leafs rc wc => flag (st_build SO en A b leafs rc (if wc then Some c else None) st)
    | FReinit => flag (st_reinit SO st)
    | FSync => flag (st_sync SO st)
    end.
  Fixpoint run_fops (ops : list (fop E)) (st : St) : list bool * St :=
    match ops with
    | [] => ([], st)
    | o :: r => let '(k, s1) := run_fop o st in
                let '(ks, s2) := run_fops r s1 in (k :: ks, s2)
    end.
End Run.

(* operations that try to change the file *)
Definition attempts {E} (o : fop E) : bool :=
  match o with
  | FUpdate (OCopy [] _) => false
  | FUpdate _ => true
  | FCompact _ _ _ => true
  | FBuild _ _ _ leafs _ _ => 1 <? leafs
  | FReinit | FSync => false
  end.

(* the file at a path *)
Definition file_at (f : fs) (p : string) : option inode :=
  match fs_dir f p with Some i => Some (fs_ino f i) | None => None end.

(* inode numbers in use are below fs_next and no file has two names *)
Definition fs_ok (f : fs) : Prop :=
  (forall p i, fs_dir f p = Some i -> i < fs_next f) /\
  (forall p q i, fs_dir f p = Some i -> fs_dir f q = Some i -> p = q).

(* the same file system except that the file is writable *)
Definition fs_writable (f : fs) (i : nat) : fs := {|
  fs_dir := fs_dir f;
  fs_ino := fun k => if k =? i then {| i_data := i_data (fs_ino f i); i_ro := false |} else fs_ino f k;
  fs_next := fs_next f
|}.

(* all four readers agree *)
Definition same_reads {E} (SO : StoreOps E) (st1 st2 : st_t SO * fs) : Prop :=
  st_len SO (fst st1) = st_len SO (fst st2) /\
  (forall i, st_read_at SO st1 i = st_read_at SO st2 i) /\
  (forall s e, st_read_range SO st1 s e = st_read_range SO st2 s e) /\
  (forall i buf, st_read_into SO st1 i buf = st_read_into SO st2 i buf) /\
  (forall s e buf, st_read_range_into SO st1 s e buf = st_read_range_into SO st2 s e buf).
