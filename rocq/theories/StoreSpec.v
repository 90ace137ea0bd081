(* The laws a whole store satisfies: core reads and writes, creation, population
   and build.  Also the file-system relations used to follow several stores living
   in one file system. *)
From Coq Require Import String List Arith Bool Lia Init.Byte ZifyBool ZifyNat.
From Verif Require Import Base Element Hash Sizing FS Sched Store ListFacts Spec SpecFacts SizingFacts SchedFacts StoreLaws RowFacts BuildFacts BuildLoop.
Import ListNotations.

(* every named file is an allocated inode *)
Definition fs_wf (f : fs) : Prop := forall p i, fs_dir f p = Some i -> i < fs_next f.

(* f' is f with one more file [o] (anonymous, or at path p) *)
Definition Created (f f' : fs) (p : option string) (o : option nat) : Prop :=
  fs_next f <= fs_next f' /\
  (forall i, i < fs_next f -> fs_ino f' i = fs_ino f i) /\
  (forall i, o = Some i -> fs_next f <= i < fs_next f') /\
  (forall q, Some q <> p -> fs_dir f' q = fs_dir f q) /\
  (forall q, Some q = p -> fs_dir f' q = match o with None => fs_dir f q | Some i => Some i end) /\
  (forall i, o = Some i -> i_ro (fs_ino f' i) = false).

Lemma Created_frame f f1 f2 p o : Created f f1 p o -> fs_frame o f1 f2 -> Created f f2 p o.
Proof.
  intros (C1 & C2 & C3 & C4 & C5 & C6) (F1 & F2 & F3 & F4). repeat split.
  - lia.
  - intros i Hi. rewrite F3; [auto|]. intros G. specialize (C3 i G). lia.
  - specialize (C3 i H). lia.
  - specialize (C3 i H). lia.
  - intros q Hq. rewrite F1. auto.
  - intros q Hq. rewrite F1. auto.
  - intros i Hi. rewrite F4. auto.
Qed.

Lemma Created_wf f f' p o : fs_wf f -> Created f f' p o -> fs_wf f'.
Proof.
  intros W (C1 & C2 & C3 & C4 & C5 & _) q i Hq.
  assert (D : Some q <> p \/ Some q = p) by (destruct p as [p|]; [destruct (string_dec q p); [right|left]; congruence|left; congruence]).
  destruct D as [D|D].
  - rewrite C4 in Hq by auto. apply W in Hq. lia.
  - rewrite (C5 q D) in Hq. destruct o as [j|]; [|apply W in Hq; lia]. inversion Hq; subst. specialize (C3 i eq_refl). lia.
Qed.

(* f' keeps all files of f *)
Definition fs_ext (f f' : fs) : Prop :=
  fs_next f <= fs_next f' /\ forall i, i < fs_next f -> fs_ino f' i = fs_ino f i.
Lemma fs_ext_refl f : fs_ext f f.
Proof. split; auto. Qed.
Lemma fs_ext_trans a b c : fs_ext a b -> fs_ext b c -> fs_ext a c.
Proof. intros [A1 A2] [B1 B2]. split; [lia|]. intros i Hi. rewrite B2 by lia. auto. Qed.
Lemma Created_ext f f' p o : Created f f' p o -> fs_ext f f'.
Proof. intros (C1 & C2 & _). split; auto. Qed.

Section SL.
  Context {E : Type} (EO : ElementOps E) (SO : StoreOps E).
  Let T := st_t SO.
  Variable owner : T -> option nat.
  Variable W : T -> Prop.
  Variable Rep : nat -> nat -> (nat -> option E) -> T * fs -> Prop.
  Variable np : bool.

  Definition fresh_store (size : nat) (f : fs) (p : option string) (r : res T * fs) : Prop :=
    exists s f', r = (Ok s, f') /\ Rep size 0 (fun _ => None) (s, f') /\ W s /\
      st_loaded_from_disk SO s = false /\ Created f f' p (owner s) /\
      (forall q, p = Some q -> forall i, owner s = Some i -> fs_dir f' q = Some i).

  (* a chunk size the store's build accepts for arity b *)
  Definition chunk_ok (en : env) (b : nat) : Prop :=
    0 < p_chunk (env_params en) /\ p_chunk (env_params en) mod b = 0.

  Record StoreLaws : Prop := {
    sl_core : CoreLaws EO (st_len SO) (st_read_at SO) (st_read_range SO) (st_write_at SO)
                (st_copy_from_slice SO) owner W Rep np;
    sl_new : forall size f, fresh_store size f None (st_new SO size f);
    sl_newc : forall size b c f, fs_dir f (cfg_path c) = None ->
      fresh_store size f (Some (cfg_path c)) (st_new_with_config SO size b c f);
    sl_empty : forall cap n v st, Rep cap n v st -> st_is_empty SO (fst st) = (n =? 0);
    sl_sync : forall st, st_sync SO st = (Ok tt, st);
    sl_build_ok : forall en A b leaves d c v st,
      arity b -> 1 <= d -> List.length leaves = b ^ d -> chunk_ok en b ->
      W (fst st) -> Rep (geom b d) (b ^ d) v st -> knows v 0 leaves ->
      exists root st', st_build SO en A b (b ^ d) (S d) c st = (Ok root, st') /\
        nth_error (all_rows A b leaves d) (geom b d - 1) = Some root /\
        Rep (geom b d) (geom b d) (nth_error (all_rows A b leaves d)) st' /\
        Step owner st st' /\ W (fst st');
    sl_build_bad : forall en A b leaves m q c v st,
      arity b -> 1 <= q -> 1 < m < b -> List.length leaves = m * b ^ q -> chunk_ok en b ->
      W (fst st) -> Rep (m * geom b q) (m * b ^ q) v st -> knows v 0 leaves ->
      exists r st', st_build SO en A b (m * b ^ q) (S q) c st = (r, st') /\ failed np r;
    sl_build_len : forall en A b leafs rc c st, arity b -> st_len SO (fst st) <> leafs ->
      exists e, st_build SO en A b leafs rc c st = (Err e, st);
    (* creation from bytes *)
    sl_slice : forall els size f, List.length els <= size ->
      exists s f', st_new_from_slice SO size (encode EO els) f = (Ok s, f') /\
        Rep size (List.length els) (nth_error els) (s, f') /\ W s /\ Created f f' None (owner s);
    sl_slicec : forall els size b c f, List.length els <= size -> fs_dir f (cfg_path c) = None ->
      exists s f', st_new_from_slice_with_config SO size b (encode EO els) c f = (Ok s, f') /\
        Rep size (List.length els) (nth_error els) (s, f') /\ W s /\
        Created f f' (Some (cfg_path c)) (owner s)
  }.

  (* the part needed to fill a store *)
  Record PopLaws : Prop := {
    pl_core : CoreLaws EO (st_len SO) (st_read_at SO) (st_read_range SO) (st_write_at SO)
                (st_copy_from_slice SO) owner W Rep np;
    pl_empty : forall cap n v st, Rep cap n v st -> st_is_empty SO (fst st) = (n =? 0);
    pl_sync : forall st, st_sync SO st = (Ok tt, st)
  }.
  Lemma sl_pop : StoreLaws -> PopLaws.
  Proof. intros SL. constructor; [exact (sl_core SL)|exact (sl_empty SL)|exact (sl_sync SL)]. Qed.
End SL.
