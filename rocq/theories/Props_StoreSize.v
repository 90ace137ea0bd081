(* C99: the cached size of a store and the size of its file. *)
From Coq Require Import String List Arith NArith Bool Lia Init.Byte ZifyBool ZifyNat.
From Verif Require Import Base Element Hash Sizing FS Sched Store VecStore DiskStore MmapStore LevelCache ProofModel Tree ListFacts Spec SpecFacts SizingFacts SchedFacts StoreLaws RowFacts ChunkFacts BuildFacts BuildLoop StoreSpec FileFacts ByteFacts VecFacts MapLayer DiskFacts MmapFacts PopFacts TreeFacts ProofSpec ProofFacts TreeProofs TreeObs Builders BuiltFacts ArraySpec CompactFacts CompactTrees AgainFacts Cases Props_Build Props_Compact Props_Again Props_Check.
Import ListNotations.

(* "We cache the `store.len()` call to avoid accessing disk unnecessarily": disk.rs 40-43,
   level_cache.rs 50-52; returned by store_size, disk.rs 504-506, level_cache.rs 634-636 *)
Definition disk_sized (st : disk_t * fs) : Prop := ds_size (fst st) = fs_size (snd st) (ds_file (fst st)).
Definition lc_sized (st : lc_t * fs) : Prop := lc_size (fst st) = fs_size (snd st) (lc_file (fst st)).

Lemma write_size h off d f : off + List.length d <= fs_size f h ->
  fs_size (snd (fs_write_all_at h off d f)) h = fs_size f h.
Proof.
  intros H. destruct (h_write h) eqn:Hw.
  - destruct (write_all_in h off d f Hw H) as (f' & -> & HD & _). cbn [snd]. unfold fs_size in *. rewrite HD. apply overwrite_length. exact H.
  - unfold fs_write_all_at. rewrite Hw. destruct (_ =? 0); reflexivity.
Qed.
Lemma set_len_size h n f : h_write h = true -> fs_size (snd (fs_set_len h n f)) h = n.
Proof. intros Hw. unfold fs_set_len, fs_size. rewrite Hw. cbn [snd]. rewrite fs_set_data_get. apply resize_length. Qed.

Section Disk.
  Context {E : Type} (EO : ElementOps E).
  Lemma disk_put_sized start d st : disk_sized st -> disk_sized (snd (disk_store_copy_from_slice start d st)).
  Proof.
    intros H. unfold disk_store_copy_from_slice. destruct (_ <=? _) eqn:G; [|exact H]. unfold on_fs.
    pose proof (write_size (ds_file (fst st)) start d (snd st)) as W. destruct (fs_write_all_at _ _ _ _) as [r f']. cbn [snd] in *.
    unfold disk_sized in *. cbn [fst snd]. rewrite W; [exact H|]. rewrite <- H. lia.
  Qed.
  Lemma disk_upd_sized n st : disk_sized st -> disk_sized (snd (disk_upd_len n st)).
  Proof. intros H. exact H. Qed.
  Lemma disk_put_then start d k st : disk_sized st ->
    disk_sized (snd ((let! _ := disk_store_copy_from_slice start d in let! st := sget in disk_upd_len (k (fst st))) st)).
  Proof.
    intros H. pose proof (disk_put_sized start d st H) as W. unfold sbind. destruct (disk_store_copy_from_slice start d st) as [[u|?|?|] st']; cbn [snd] in W; exact W.
  Qed.
  Lemma disk_op_sized o st : disk_sized st -> disk_sized (snd (run_op (disk_store EO) o st)).
  Proof.
    intros H. destruct o as [x i|bs i|x]; cbn [run_op disk_store st_write_at st_copy_from_slice st_push].
    - exact (disk_put_then _ _ (fun s => Nat.max (ds_len s) (i + 1)) st H).
    - unfold disk_copy_from_slice. unfold sbind at 1, slift. destruct (ensure _ _); try exact H.
      exact (disk_put_then _ _ (fun s => Nat.max (ds_len s) (i + List.length bs / e_byte_len EO)) st H).
    - unfold disk_push. unfold sbind at 1, sget. unfold sbind at 1, slift. destruct (ensure _ _); try exact H.
      exact (disk_put_then _ _ (fun s => Nat.max (ds_len s) (ds_len (fst st) + 1)) st H).
  Qed.
  Lemma disk_fill_sized data s f s' f' : disk_sized (s, f) -> disk_fill EO data s f = (Ok s', f') -> disk_sized (s', f').
  Proof.
    intros H. unfold disk_fill. pose proof (disk_put_sized 0 data (s, f) H) as W. destruct (disk_store_copy_from_slice 0 data (s, f)) as [[u|?|?|] [s1 f1]]; intros Q; try discriminate Q.
    inversion Q; subst. exact W.
  Qed.
  Lemma disk_open_sized n b c f s f' : disk_new_from_disk EO n b c f = (Ok s, f') -> disk_sized (s, f').
  Proof.
    unfold disk_new_from_disk, disk_new_from_disk_with_path. destruct (ensure (fs_exists f (cfg_path c)) _); try discriminate. cbn [rbind].
    destruct (match fs_open_rw f (cfg_path c) with Ok h => Ok h | _ => fs_open_ro f (cfg_path c) end) as [h|?|?|]; try discriminate. cbn [rbind].
    destruct (ensure (fs_size f h =? _) _); try discriminate. cbn [rbind]. intros Q. inversion Q; subst. reflexivity.
  Qed.
  Lemma disk_newc_sized n b c f s f' : disk_new_with_config EO n b c f = (Ok s, f') -> disk_sized (s, f').
  Proof.
    unfold disk_new_with_config. unfold sbind at 1, sget. destruct (fs_exists f (cfg_path c)) eqn:HX; [apply disk_open_sized|].
    unfold sbind at 1. unfold fs_create_new. rewrite HX. destruct (fs_alloc f) as [i f1]. unfold sbind.
    pose proof (set_len_size {| h_ino := i; h_write := true |} (e_byte_len EO * n) ({| fs_dir := fun q => if String.eqb q (cfg_path c) then Some i else fs_dir f1 q; fs_ino := fs_ino f1; fs_next := fs_next f1 |}) eq_refl) as W.
    destruct (fs_set_len _ _ _) as [[u|?|?|] f2]; try discriminate. unfold sret. intros Q. inversion Q; subst. symmetry. exact W.
  Qed.
  Lemma disk_new_sized n f s f' : disk_new EO n f = (Ok s, f') -> disk_sized (s, f').
  Proof.
    unfold disk_new. unfold sbind at 1. unfold fs_tempfile. destruct (fs_alloc f) as [i f1]. unfold sbind.
    pose proof (set_len_size {| h_ino := i; h_write := true |} (e_byte_len EO * n) f1 eq_refl) as W.
    destruct (fs_set_len _ _ _) as [[u|?|?|] f2]; try discriminate. unfold sret. intros Q. inversion Q; subst. symmetry. exact W.
  Qed.
End Disk.

(* a store from any constructor *)
Inductive made {E} (SO : StoreOps E) (f : fs) : st_t SO -> fs -> Prop :=
| MD_new n s f' : st_new SO n f = (Ok s, f') -> made SO f s f'
| MD_config n b c s f' : st_new_with_config SO n b c f = (Ok s, f') -> made SO f s f'
| MD_slice n d s f' : st_new_from_slice SO n d f = (Ok s, f') -> made SO f s f'
| MD_slice_config n b d c s f' : st_new_from_slice_with_config SO n b d c f = (Ok s, f') -> made SO f s f'
| MD_open n b c s f' : st_new_from_disk SO n b c f = (Ok s, f') -> made SO f s f'.

Lemma disk_made_sized {E} (EO : ElementOps E) f s f' : made (disk_store EO) f s f' -> disk_sized (s, f').
Proof.
  intros H. destruct H as [n s f' H|n b c s f' H|n d s f' H|n b d c s f' H|n b c s f' H]; cbn [disk_store st_new st_new_with_config st_new_from_slice st_new_from_slice_with_config st_new_from_disk] in H.
  - exact (disk_new_sized EO n f s f' H).
  - exact (disk_newc_sized EO n b c f s f' H).
  - unfold disk_new_from_slice in H. unfold sbind at 1, slift in H. destruct (ensure _ _); try discriminate H. unfold sbind in H.
    destruct (disk_new EO n f) as [[s0|?|?|] f0] eqn:Q; try discriminate H. exact (disk_fill_sized EO d s0 f0 s f' (disk_new_sized EO n f s0 f0 Q) H).
  - unfold disk_new_from_slice_with_config in H. unfold sbind at 1, slift in H. destruct (ensure _ _); try discriminate H. unfold sbind in H.
    destruct (disk_new_with_config EO n b c f) as [[s0|?|?|] f0] eqn:Q; try discriminate H. pose proof (disk_newc_sized EO n b c f s0 f0 Q) as W.
    destruct (ds_loaded s0); [unfold sret in H; inversion H; subst; exact W|]. exact (disk_fill_sized EO d s0 f0 s f' W H).
  - exact (disk_open_sized EO n b c f s f' H).
Qed.
Lemma disk_ops_sized {E} (EO : ElementOps E) ops st : disk_sized st -> disk_sized (snd (run_ops (disk_store EO) ops st)).
Proof.
  revert st. induction ops as [|o r IH]; intros st H; [exact H|]. cbn [run_ops]. pose proof (disk_op_sized EO o st H) as W.
  destruct (run_op (disk_store EO) o st) as [k s1]. cbn [snd] in W. specialize (IH s1 W). destruct (run_ops (disk_store EO) r s1). exact IH.
Qed.

Section Lc.
  Context {E : Type} (EO : ElementOps E).
  Lemma lc_put_sized start d st : lc_sized st -> lc_sized (snd (lc_store_copy_from_slice start d st)).
  Proof.
    intros H. unfold lc_store_copy_from_slice. destruct (_ <=? _) eqn:G; [|exact H]. unfold on_fs.
    pose proof (write_size (lc_file (fst st)) start d (snd st)) as W. destruct (fs_write_all_at _ _ _ _) as [r f']. cbn [snd] in *.
    unfold lc_sized in *. cbn [fst snd]. rewrite W; [exact H|]. rewrite <- H. lia.
  Qed.
  Lemma lc_put_then start d k st : lc_sized st ->
    lc_sized (snd ((let! _ := lc_store_copy_from_slice start d in let! st := sget in lc_upd_len (k (fst st))) st)).
  Proof.
    intros H. pose proof (lc_put_sized start d st H) as W. unfold sbind. destruct (lc_store_copy_from_slice start d st) as [[u|?|?|] st']; cbn [snd] in W; exact W.
  Qed.
  Lemma lc_op_sized o st : lc_sized st -> lc_sized (snd (run_op (lc_store EO) o st)).
  Proof.
    intros H. destruct o as [x i|bs i|x]; cbn [run_op lc_store st_write_at st_copy_from_slice st_push].
    - exact (lc_put_then _ _ (fun s => Nat.max (lc_len s) (i + 1)) st H).
    - unfold lc_copy_from_slice. unfold sbind at 1, slift. destruct (ensure _ _); try exact H.
      exact (lc_put_then _ _ (fun s => Nat.max (lc_len s) (i + List.length bs / e_byte_len EO)) st H).
    - unfold lc_push. unfold sbind at 1, sget. unfold sbind at 1, slift. destruct (ensure _ _); try exact H.
      exact (lc_put_then _ _ (fun s => Nat.max (lc_len s) (lc_len (fst st) + 1)) st H).
  Qed.
  Lemma lc_fill_sized data s f s' f' : lc_sized (s, f) -> lc_fill EO data s f = (Ok s', f') -> lc_sized (s', f').
  Proof.
    intros H. unfold lc_fill. pose proof (lc_put_sized 0 data (s, f) H) as W. destruct (lc_store_copy_from_slice 0 data (s, f)) as [[u|?|?|] [s1 f1]]; intros Q; try discriminate Q.
    inversion Q; subst. exact W.
  Qed.
  Ltac step := match goal with
    | |- context [rbind ?x _] => destruct x; try discriminate; cbn [rbind]
    end.
  Lemma lc_open_sized n b c f s f' : lc_new_from_disk EO n b c f = (Ok s, f') -> lc_sized (s, f').
  Proof. unfold lc_new_from_disk. repeat step. intros Q. inversion Q; subst. reflexivity. Qed.
  Lemma lc_open_reader_sized n b c r f s f' : lc_new_from_disk_with_reader EO n b c r f = (Ok s, f') -> lc_sized (s, f').
  Proof. unfold lc_new_from_disk_with_reader. repeat step. intros Q. inversion Q; subst. reflexivity. Qed.
  Lemma lc_newc_sized n b c f s f' : lc_new_with_config EO n b c f = (Ok s, f') -> lc_sized (s, f').
  Proof.
    unfold lc_new_with_config. unfold sbind at 1, sget. destruct (fs_exists f (cfg_path c)) eqn:HX; [apply lc_open_sized|].
    unfold sbind at 1. unfold fs_create_new. rewrite HX. destruct (fs_alloc f) as [i f1].
    unfold slift. unfold sbind.
    destruct (get_merkle_tree_leafs n b) as [l|?|?|]; try discriminate. destruct (ensure (l =? next_pow2 l) _); try discriminate.
    destruct (get_merkle_tree_cache_size l b (sc_rows_to_discard c)) as [cs|?|?|]; try discriminate. destruct (checked_sub _ _); try discriminate.
    pose proof (set_len_size {| h_ino := i; h_write := true |} (e_byte_len EO * n) ({| fs_dir := fun q => if String.eqb q (cfg_path c) then Some i else fs_dir f1 q; fs_ino := fs_ino f1; fs_next := fs_next f1 |}) eq_refl) as W.
    destruct (fs_set_len _ _ _) as [[u|?|?|] f2]; try discriminate. unfold sret. intros Q. inversion Q; subst. symmetry. exact W.
  Qed.
  Lemma lc_new_sized n f s f' : lc_new EO n f = (Ok s, f') -> lc_sized (s, f').
  Proof.
    unfold lc_new. unfold sbind at 1. unfold fs_tempfile. destruct (fs_alloc f) as [i f1]. unfold sbind.
    pose proof (set_len_size {| h_ino := i; h_write := true |} (e_byte_len EO * n) f1 eq_refl) as W.
    destruct (fs_set_len _ _ _) as [[u|?|?|] f2]; try discriminate. unfold sret. intros Q. inversion Q; subst. symmetry. exact W.
  Qed.
End Lc.

Lemma lc_made_sized {E} (EO : ElementOps E) f s f' : made (lc_store EO) f s f' -> lc_sized (s, f').
Proof.
  intros H. destruct H as [n s f' H|n b c s f' H|n d s f' H|n b d c s f' H|n b c s f' H]; cbn [lc_store st_new st_new_with_config st_new_from_slice st_new_from_slice_with_config st_new_from_disk] in H.
  - exact (lc_new_sized EO n f s f' H).
  - exact (lc_newc_sized EO n b c f s f' H).
  - unfold lc_new_from_slice in H. unfold sbind at 1, slift in H. destruct (ensure _ _); try discriminate H. unfold sbind in H.
    destruct (lc_new EO n f) as [[s0|?|?|] f0] eqn:Q; try discriminate H. exact (lc_fill_sized EO d s0 f0 s f' (lc_new_sized EO n f s0 f0 Q) H).
  - unfold lc_new_from_slice_with_config in H. unfold sbind at 1, slift in H. destruct (ensure _ _); try discriminate H. unfold sbind in H.
    destruct (lc_new_with_config EO n b c f) as [[s0|?|?|] f0] eqn:Q; try discriminate H. pose proof (lc_newc_sized EO n b c f s0 f0 Q) as W.
    destruct (lc_loaded s0); [unfold sret in H; inversion H; subst; exact W|]. exact (lc_fill_sized EO d s0 f0 s f' W H).
  - exact (lc_open_sized EO n b c f s f' H).
Qed.
Lemma lc_ops_sized {E} (EO : ElementOps E) ops st : lc_sized st -> lc_sized (snd (run_ops (lc_store EO) ops st)).
Proof.
  revert st. induction ops as [|o r IH]; intros st H; [exact H|]. cbn [run_ops]. pose proof (lc_op_sized EO o st H) as W.
  destruct (run_op (lc_store EO) o st) as [k s1]. cbn [snd] in W. specialize (IH s1 W). destruct (run_ops (lc_store EO) r s1). exact IH.
Qed.

(* From its constructor on, through any successful or failing updates, a DiskStore knows the
   size of its file; so does the store of a finished tree. *)
Theorem C99_disk_partial : forall E (EO : ElementOps E) f s f1 ops,
  made (disk_store EO) f s f1 ->
  let '(_, (s', f2)) := run_ops (disk_store EO) ops (s, f1) in ds_size s' = fs_size f2 (ds_file s').
Proof.
  intros E EO f s f1 ops H. pose proof (disk_ops_sized EO ops (s, f1) (disk_made_sized EO f s f1 H)) as W.
  destruct (run_ops (disk_store EO) ops (s, f1)) as [ks [s' f2]]. exact W.
Qed.
Theorem C99_tree_partial : forall E (EO : ElementOps E) A en b c leaves t f,
  disk_tree EO A en b (cfg_path c) leaves t f ->
  exists s, mt_data t = BaseTree s /\ ds_size s = fs_size f (ds_file s) /\ ds_size s = mt_len (disk_store EO) t * e_byte_len EO.
Proof.
  intros E EO A en b c leaves t f HT. pose proof HT as (EL & AL & Hb & Hch & _).
  destruct (disk_tree_at _ _ _ _ _ _ _ _ HT) as (d & s & i & els & Hd & Hl & HD).
  pose proof (dt_full EO EL A b Hb t s f c i d leaves els HD) as HF. rewrite (ft_len _ _ _ _ _ _ _ _ HF).
  pose proof (dt_rep _ _ _ _ _ _ _ _ _ _ _ HD) as (_ & _ & R3 & R4 & _). cbn [fst snd] in *.
  exists s. split; [exact (ta_data _ _ _ _ _ _ _ _ _ _ (dt_at _ _ _ _ _ _ _ _ _ _ _ HD))|]. unfold fs_size. split; [congruence|exact R3].
Qed.

(* the same for a LevelCacheStore, also one opened with a reader *)
Theorem C99_lc_partial : forall E (EO : ElementOps E) f s f1 ops,
  made (lc_store EO) f s f1 \/ (exists n b c r, lc_new_from_disk_with_reader EO n b c r f = (Ok s, f1)) ->
  let '(_, (s', f2)) := run_ops (lc_store EO) ops (s, f1) in lc_size s' = fs_size f2 (lc_file s').
Proof.
  intros E EO f s f1 ops H.
  assert (H0 : lc_sized (s, f1)) by (destruct H as [H|(n & b & c & r & H)]; [exact (lc_made_sized EO f s f1 H)|exact (lc_open_reader_sized EO n b c r f s f1 H)]).
  pose proof (lc_ops_sized EO ops (s, f1) H0) as W.
  destruct (run_ops (lc_store EO) ops (s, f1)) as [ks [s' f2]]. exact W.
Qed.

(* compact keeps the old size although it cuts the file *)
Theorem C99_compact : forall E (EO : ElementOps E) A en b leaves t t' f1 f2 sizes c v,
  compaction EO A en b leaves t t' f1 f2 sizes c v ->
  exists s', mt_data t' = BaseTree s' /\ ds_size s' = mt_len (disk_store EO) t * e_byte_len EO /\
    fs_size f2 (ds_file s') = ds_len s' * e_byte_len EO /\
    (v <> 1 \/ 1 <= sc_rows_to_discard c -> fs_size f2 (ds_file s') + e_byte_len EO <= ds_size s').
Proof.
  intros E EO A en b leaves t t' f1 f2 sizes c v HC.
  destruct (compaction_at _ _ _ _ _ _ _ _ _ _ _ _ HC) as (d & s & i & els & EL & Hb & HR & Hr & HD). destruct HC as [_ HC].
  destruct (again_state EO EL A b Hb t s f1 c i d leaves els HD sizes v t' f2 HR HC) as (s' & T1 & _ & _ & _ & _ & S1 & S2 & S3 & S4 & _).
  pose proof (dt_full EO EL A b Hb t s f1 c i d leaves els HD) as HF. rewrite (ft_len _ _ _ _ _ _ _ _ HF).
  assert (HS : fs_size f2 (ds_file s') = ds_len s' * e_byte_len EO) by (unfold fs_size; rewrite S2; cbn [h_ino]; rewrite S4, (encode_length EO EL), S1; reflexivity).
  exists s'. split; [exact T1|]. split; [exact S3|]. split; [exact HS|]. intros HV.
  pose proof (compacted_short EO A b Hb t s f1 c i d leaves els HD v HR HV) as HL. rewrite <- S1 in HL.
  pose proof (geom_row_off b d (d - 1) ltac:(lia)) as G. replace (d - (d - 1)) with 1 in G by lia. change (geom b 1) with (b ^ 1 + 1) in G. rewrite Nat.pow_1_r in G.
  pose proof (arity_ge b Hb) as H2. rewrite HS, S3, <- Nat.mul_succ_l. apply Nat.mul_le_mono_r. lia.
Qed.

Lemma append_write h x f : h_write h = true -> x <> [] ->
  fs_write_all_at h (fs_size f h) x f = (Ok tt, fs_set_data f (h_ino h) (fs_data f (h_ino h) ++ x)).
Proof.
  intros Hw Hx. unfold fs_write_all_at, fs_size. destruct (List.length x =? 0) eqn:Z.
  { apply Nat.eqb_eq in Z. destruct x; [contradiction|discriminate Z]. }
  rewrite Hw. do 2 f_equal. set (d := fs_data f (h_ino h)). rewrite Nat.max_r by lia. unfold resize, overwrite.
  rewrite (firstn_all2 d) by lia. rewrite firstn_app, Nat.sub_diag, firstn_O, app_nil_r, firstn_all.
  rewrite skipn_all2 by (rewrite app_length, repeat_length; lia). rewrite app_nil_r. reflexivity.
Qed.

(* what the stale size allows: push on the compacted store goes through, the file gets an
   element behind the root, and none of the three checks takes the file any more *)
Theorem C99_push : forall E (EO : ElementOps E) A en b leaves t t' f1 f2 sizes c v x,
  compaction EO A en b leaves t t' f1 f2 sizes c v -> v <> 1 \/ 1 <= sc_rows_to_discard c ->
  exists s' s3 f3 bytes, mt_data t' = BaseTree s' /\ fs_file f2 (cfg_path c) = Some bytes /\
    st_push (disk_store EO) x (s', f2) = (Ok tt, (s3, f3)) /\
    fs_file f3 (cfg_path c) = Some (bytes ++ e_as_ref EO x) /\
    checks EO (mt_len (disk_store EO) t) b c f3 = (Ok false, Ok false, Ok false).
Proof.
  intros E EO A en b leaves t t' f1 f2 sizes c v x HC HV.
  destruct (compaction_at _ _ _ _ _ _ _ _ _ _ _ _ HC) as (d & s & i & els & EL & Hb & HR & Hr & HD). destruct HC as [_ HC].
  destruct (again_state EO EL A b Hb t s f1 c i d leaves els HD sizes v t' f2 HR HC) as (s' & T1 & _ & _ & _ & _ & S1 & S2 & S3 & S4 & S5 & _).
  pose proof (dt_full EO EL A b Hb t s f1 c i d leaves els HD) as HF. rewrite (ft_len _ _ _ _ _ _ _ _ HF).
  pose proof (compacted_short EO A b Hb t s f1 c i d leaves els HD v HR HV) as HL.
  pose proof (compacted_length EO A b t s f1 c i d leaves els HD v HR) as HK.
  set (K := List.length (compacted b c d leaves els v)) in *.
  pose proof (geom_row_off b d (d - 1) ltac:(lia)) as G. replace (d - (d - 1)) with 1 in G by lia. change (geom b 1) with (b ^ 1 + 1) in G. rewrite Nat.pow_1_r in G.
  pose proof (arity_ge b Hb) as H2. pose proof (bl_pos EO EL) as Hbl.
  assert (HX : List.length (e_as_ref EO x) = e_byte_len EO) by apply (el_len EO EL).
  assert (HN : e_as_ref EO x <> []) by (intros Q; rewrite Q in HX; cbn in HX; lia).
  assert (HS : K * e_byte_len EO = fs_size f2 (ds_file s')) by (unfold fs_size; rewrite S2; cbn [h_ino]; rewrite S4, (encode_length EO EL); reflexivity).
  assert (HM : (K + 1) * e_byte_len EO <= geom b d * e_byte_len EO) by (apply Nat.mul_le_mono_r; lia).
  assert (HP : exists s3, st_push (disk_store EO) x (s', f2) = (Ok tt, (s3, fs_set_data f2 i (fs_data f2 i ++ e_as_ref EO x)))).
  { cbn [st_push disk_store]. unfold disk_push, sbind, sget, slift. cbn [fst snd]. rewrite S1, S3.
    replace ((K + 1) * e_byte_len EO <=? geom b d * e_byte_len EO) with true by (symmetry; apply Nat.leb_le; lia). cbn [ensure].
    unfold disk_write_at, disk_store_copy_from_slice, on_fs, sbind. cbn [fst snd]. rewrite HX, S3.
    replace (K * e_byte_len EO + e_byte_len EO <=? geom b d * e_byte_len EO) with true by (symmetry; apply Nat.leb_le; lia).
    rewrite HS, append_write by (rewrite ?S2; auto). rewrite S2. cbn [h_ino]. eexists. reflexivity. }
  destruct HP as [s3 HP]. exists s', s3, (fs_set_data f2 i (fs_data f2 i ++ e_as_ref EO x)), (fs_data f2 i).
  split; [exact T1|]. split; [unfold fs_file; rewrite S5; reflexivity|]. split; [exact HP|].
  assert (HF3 : fs_file (fs_set_data f2 i (fs_data f2 i ++ e_as_ref EO x)) (cfg_path c) = Some (fs_data f2 i ++ e_as_ref EO x)).
  { unfold fs_file. change (fs_dir (fs_set_data f2 i (fs_data f2 i ++ e_as_ref EO x)) (cfg_path c)) with (fs_dir f2 (cfg_path c)). rewrite S5, fs_set_data_get. reflexivity. }
  split; [exact HF3|]. rewrite (checks_file EO b c _ d _ Hb HR HF3), app_length, HX, S4, (encode_length EO EL).
  fold K. replace (K * e_byte_len EO + e_byte_len EO) with ((K + 1) * e_byte_len EO) by lia.
  rewrite <- Nat.mul_add_distr_r, !eqb_mul by exact Hbl.
  assert (HB2 : 2 <= b ^ d) by (replace d with (S (d - 1)) by lia; cbn [Nat.pow]; pose proof (pow_pos b (d - 1) ltac:(lia)); nia).
  assert (HD1 : geom b d = b ^ d + geom b (d - 1)) by (replace d with (S (d - 1)) at 1 2 by lia; reflexivity).
  assert (Q : K + 1 <> geom b d) by lia.
  repeat apply f_equal2; apply f_equal; apply Nat.eqb_neq; destruct (v =? 1); lia.
Qed.
(* the compacted store of 3 elements out of 15 takes one more *)
Definition push_after (r v : nat) (x : B1) : option (list byte * bool * option (list byte)) :=
  match case_built 2 leaves8 with
  | (Ok t, f) =>
    match mt_compact (disk_store BO) 2 (fun k => k mod 3) (cfg_r r) v (t, f) with
    | (Ok true, (t', f')) =>
      match mt_data t' with
      | BaseTree s => let '(q, (_, f3)) := st_push (disk_store BO) x (s, f') in
        Some (match fs_file f' (cfg_path (cfg_r r)) with Some l => l | None => [] end, match q with Ok _ => true | _ => false end, fs_file f3 (cfg_path (cfg_r r)))
      | _ => None
      end
    | _ => None
    end
  | _ => None
  end.
Example C99_push_case :
  match push_after 1 2 (el 7) with
  | Some (l, ok, Some l') => List.length l = 3 /\ ok = true /\ List.length l' = 4 /\ l' = l ++ e_as_ref BO (el 7)
  | _ => False
  end.
Proof. vm_compute. repeat split; reflexivity. Qed.

(* the claim: the cached size is the size of the file for the store of every tree, built on
   disk and compacted, or built with a level cache *)
Definition C99_full : Prop :=
  (forall E (EO : ElementOps E) A en b leaves t t' f1 f2 sizes c v s',
    compaction EO A en b leaves t t' f1 f2 sizes c v -> mt_data t' = BaseTree s' -> ds_size s' = fs_size f2 (ds_file s')) /\
  (forall E (EO : ElementOps E) A en b leaves c f t f1 s, ElementLaws EO -> arity b ->
    mt_new_with_config EO (lc_store EO) A en b leaves c f = (Ok t, f1) -> mt_data t = BaseTree s -> lc_size s = fs_size f1 (lc_file s)).

(* sizes (cached, of the file) in the two cases, 8 leaves, elements of one byte *)
Definition sizes_disk (r v : nat) : option (nat * nat) :=
  match case_built 2 leaves8 with
  | (Ok t, f) =>
    match mt_compact (disk_store BO) 2 (fun k => k mod 3) (cfg_r r) v (t, f) with
    | (Ok true, (t', f')) => match mt_data t' with BaseTree s => Some (ds_size s, fs_size f' (ds_file s)) | _ => None end
    | _ => None
    end
  | _ => None
  end.
Definition sizes_lc (r : nat) : option (nat * nat) :=
  match mt_new_with_config BO (lc_store BO) sum_alg env1 2 leaves8 (cfg_r r) fs_empty with
  | (Ok t, f) => match mt_data t with BaseTree s => Some (lc_size s, fs_size f (lc_file s)) | _ => None end
  | _ => None
  end.
Example C99_case :
  sizes_disk 1 1 = Some (15, 11) /\ sizes_disk 1 2 = Some (15, 3) /\ sizes_disk 0 1 = Some (15, 15) /\ sizes_lc 1 = Some (15, 3).
Proof. vm_compute. repeat split; reflexivity. Qed.

Lemma sizes_disk_some r v x y : sizes_disk r v = Some (x, y) -> exists t f t' f' s,
  case_built 2 leaves8 = (Ok t, f) /\ mt_compact (disk_store BO) 2 (fun k => k mod 3) (cfg_r r) v (t, f) = (Ok true, (t', f')) /\
  mt_data t' = BaseTree s /\ ds_size s = x /\ fs_size f' (ds_file s) = y.
Proof.
  unfold sizes_disk. generalize (case_built 2 leaves8). intros [[t|m|m|] f] G; try discriminate G.
  destruct (mt_compact _ _ _ _ _ _) as [[[]|m|m|] [t' f']] eqn:H2; try discriminate G.
  destruct (mt_data t') as [s| |] eqn:H3; try discriminate G. injection G as G1 G2. exists t, f, t', f', s. auto.
Qed.
Lemma sizes_lc_some r x y : sizes_lc r = Some (x, y) -> exists t f s,
  mt_new_with_config BO (lc_store BO) sum_alg env1 2 leaves8 (cfg_r r) fs_empty = (Ok t, f) /\
  mt_data t = BaseTree s /\ lc_size s = x /\ fs_size f (lc_file s) = y.
Proof.
  unfold sizes_lc. generalize (mt_new_with_config BO (lc_store BO) sum_alg env1 2 leaves8 (cfg_r r) fs_empty).
  intros [[t|m|m|] f] G; try discriminate G.
  destruct (mt_data t) as [s| |] eqn:H3; try discriminate G. injection G as G1 G2. exists t, f, s. auto.
Qed.

Theorem C99_refuted : ~ C99_full /\
  ~ (forall E (EO : ElementOps E) A en b leaves t t' f1 f2 sizes c v s',
    compaction EO A en b leaves t t' f1 f2 sizes c v -> mt_data t' = BaseTree s' -> ds_size s' = fs_size f2 (ds_file s')) /\
  ~ (forall E (EO : ElementOps E) A en b leaves c f t f1 s, ElementLaws EO -> arity b ->
    mt_new_with_config EO (lc_store EO) A en b leaves c f = (Ok t, f1) -> mt_data t = BaseTree s -> lc_size s = fs_size f1 (lc_file s)).
Proof.
  match goal with |- _ /\ ?B /\ ?C => assert (HB : B); [|assert (HC : C); [|split; [intros [H _]; exact (HB H)|split; assumption]]] end.
  - intros H. destruct C99_case as (_ & G & _). destruct (sizes_disk_some _ _ _ _ G) as (t & f & t' & f' & s & H1 & H2 & H3 & G1 & G2).
    pose proof (H _ _ _ _ _ _ _ _ _ _ _ _ _ s (compaction_case 1 2 t f t' f' H1 H2) H3) as K. rewrite G1, G2 in K. discriminate K.
  - intros H. destruct C99_case as (_ & _ & _ & G). destruct (sizes_lc_some _ _ _ G) as (t & f & s & H1 & H3 & G1 & G2).
    pose proof (H _ _ _ _ _ _ _ _ t f s BL arity_2 H1 H3) as K. rewrite G1, G2 in K. discriminate K.
Qed.

Print Assumptions C99_disk_partial.
Print Assumptions C99_lc_partial.
Print Assumptions C99_tree_partial.
Print Assumptions C99_compact.
Print Assumptions C99_push.
Print Assumptions C99_refuted.
