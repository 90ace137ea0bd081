(* C98: what {:?} prints of a LevelCacheStore. *)
From Coq Require Import Ascii String List Arith NArith Bool Lia Init.Byte DecimalString DecimalNat.
From Verif Require Import Base Element Hash Sizing FS Sched Store LevelCache Tree LcDebug Cases Props_Build Props_Compact.
Import ListNotations.

(* the fields of the struct, level_cache.rs 24-60, that have a printable value *)
Definition lc_values {E} (EO : ElementOps E) (s : lc_t) (k : string) : option dbg :=
  if String.eqb k "len" then Some (DNat (lc_len s))
  else if String.eqb k "elem_len" then Some (DNat (e_byte_len EO))
  else if String.eqb k "data_width" then Some (DNat (lc_data_width s))
  else if String.eqb k "loaded_from_disk" then Some (DBool (lc_loaded s))
  else if String.eqb k "cache_index_start" then Some (DNat (lc_cache_index_start s))
  else if String.eqb k "store_size" then Some (DNat (lc_size s))
  else None.

(* the wish: each name is printed with the value of that field *)
Definition C98_full : Prop := forall E (EO : ElementOps E) s k v, ElementLaws EO ->
  In (k, v) (lc_debug_fields s) -> lc_values EO s k = Some v.

(* it is so for all names but elem_len, and for that exactly when the store has as many
   elements as an element has bytes *)
Theorem C98_fields_partial : forall E (EO : ElementOps E) s k v,
  In (k, v) (lc_debug_fields s) ->
  (k <> "elem_len"%string -> lc_values EO s k = Some v) /\
  (k = "elem_len"%string -> v = DNat (lc_len s) /\ (lc_values EO s k = Some v <-> lc_len s = e_byte_len EO)).
Proof.
  intros E EO s k v H. cbn [lc_debug_fields In] in H.
  repeat (destruct H as [H|H]; [injection H as <- <-; split; [intros N; first [reflexivity|congruence]|intros N; try discriminate N]|]); [|contradiction].
  split; [reflexivity|]. unfold lc_values. cbn [String.eqb Ascii.eqb Bool.eqb]. split; [intros G; injection G as G; auto|intros ->; reflexivity].
Qed.

(* the six names, in this order *)
Theorem C98_names : forall s, map fst (lc_debug_fields s) =
  ["len"; "elem_len"; "data_width"; "loaded_from_disk"; "cache_index_start"; "store_size"]%string.
Proof. reflexivity. Qed.

Definition nondigit (s : string) : Prop := exists r, s = String ","%char r \/ s = String " "%char r.
Lemma uint_prefix : forall u v s t, nondigit s -> nondigit t ->
  (NilEmpty.string_of_uint u ++ s = NilEmpty.string_of_uint v ++ t)%string -> u = v /\ s = t.
Proof.
  induction u; intros v s t Hs Ht H; destruct v; cbn in H;
    try (injection H as H; destruct (IHu v s t Hs Ht H) as [-> ->]; auto; fail);
    try discriminate H; auto;
    first [destruct Hs as [r [->| ->]]; discriminate H|destruct Ht as [r [->| ->]]; discriminate H].
Qed.
Lemma show_nat n m s t : nondigit s -> nondigit t ->
  (dbg_show (DNat n) ++ s = dbg_show (DNat m) ++ t)%string -> n = m /\ s = t.
Proof.
  intros Hs Ht H. cbn [dbg_show] in H. destruct (uint_prefix _ _ _ _ Hs Ht H) as [G ->]. split; [|reflexivity].
  rewrite <- (Unsigned.of_to n), <- (Unsigned.of_to m), G. reflexivity.
Qed.
Lemma show_bool v w s t : (dbg_show (DBool v) ++ s = dbg_show (DBool w) ++ t)%string -> v = w /\ s = t.
Proof. destruct v, w; cbn; intros H; try discriminate H; injection H as ->; auto. Qed.
Lemma more_nondigit l : nondigit (dbg_more l).
Proof. destruct l as [|[k v] r]; eexists; [right|left]; reflexivity. Qed.
Lemma strip p s t : (p ++ s = p ++ t)%string -> s = t.
Proof. induction p as [|c p IH]; cbn; intros H; [exact H|injection H as H; auto]. Qed.
Lemma more_cons k v r : dbg_more ((k, v) :: r) = (", " ++ k ++ ": " ++ dbg_show v ++ dbg_more r)%string.
Proof. reflexivity. Qed.

(* The text tells two stores apart exactly when one of these five fields does; the element
   size has no part in it. *)
Theorem C98_text_partial : forall s s',
  lc_debug s = lc_debug s' <->
  lc_len s = lc_len s' /\ lc_data_width s = lc_data_width s' /\ lc_loaded s = lc_loaded s' /\
  lc_cache_index_start s = lc_cache_index_start s' /\ lc_size s = lc_size s'.
Proof.
  intros s s'. split.
  - unfold lc_debug, lc_debug_fields, dbg_struct. intros H.
    do 4 apply strip in H. apply show_nat in H; try apply more_nondigit. destruct H as [H1 H]. rewrite !more_cons in H.
    repeat match goal with
    | H : (?p ++ _ = ?p ++ _)%string |- _ => apply strip in H
    | H : (dbg_show (DNat _) ++ _ = dbg_show (DNat _) ++ _)%string |- _ => apply show_nat in H; [|eexists; first [left; reflexivity|right; reflexivity]..]; destruct H as [? H]
    | H : (dbg_show (DBool _) ++ _ = dbg_show (DBool _) ++ _)%string |- _ => apply show_bool in H; destruct H as [? H]
    end. auto.
  - intros (H1 & H2 & H3 & H4 & H5). unfold lc_debug, lc_debug_fields. rewrite H1, H2, H3, H4, H5. reflexivity.
Qed.

(* a level-cache tree over eight one-byte leaves: fifteen elements *)
Definition dbg_tree := mt_new_with_config BO (lc_store BO) sum_alg env1 2 leaves8 (cfg_r 1) fs_empty.
Definition dbg_store : option lc_t := match dbg_tree with (Ok t, _) => match mt_data t with BaseTree s => Some s | _ => None end | _ => None end.
Lemma dbg_case : exists s, dbg_store = Some s /\ lc_len s = 15 /\
  lc_debug s = "LevelCacheStore { len: 15, elem_len: 15, data_width: 8, loaded_from_disk: false, cache_index_start: 12, store_size: 15 }"%string.
Proof. eexists. split; [vm_compute; reflexivity|]. split; reflexivity. Qed.
(* it is wrong for the store of a tree just built *)
Theorem C98_refuted : ~ C98_full.
Proof.
  intros H. destruct dbg_case as (s & _ & Hl & _).
  pose proof (H B1 BO s "elem_len"%string (DNat (lc_len s)) BL (or_intror (or_introl eq_refl))) as G.
  cbn in G. rewrite Hl in G. discriminate G.
Qed.
(* the printed text of a built tree with one-byte elements *)
Example C98_case :
  option_map lc_debug dbg_store = Some "LevelCacheStore { len: 15, elem_len: 15, data_width: 8, loaded_from_disk: false, cache_index_start: 12, store_size: 15 }"%string /\
  e_byte_len BO = 1.
Proof. vm_compute. split; reflexivity. Qed.
Print Assumptions C98_fields_partial.
Print Assumptions C98_text_partial.
Print Assumptions C98_names.
Print Assumptions C98_refuted.
