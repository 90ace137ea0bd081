(* C77: loaded_from_disk. *)
From Coq Require Import String List Arith NArith Bool Lia Init.Byte ZifyBool ZifyNat.
From Verif Require Import Base Element Hash Sizing FS Sched Store VecStore DiskStore MmapStore LevelCache ProofModel Tree ListFacts BuildFacts Cases.
Import ListNotations.

(* after each constructor: whether the contents are those of a file that was there before *)
Definition tells {E} (SO : StoreOps E) : Prop := forall size b c data f s f',
  (st_new_with_config SO size b c f = (Ok s, f') -> st_loaded_from_disk SO s = fs_exists f (cfg_path c)) /\
  (st_new_from_slice_with_config SO size b data c f = (Ok s, f') -> st_loaded_from_disk SO s = fs_exists f (cfg_path c)) /\
  (st_new_from_disk SO size b c f = (Ok s, f') -> st_loaded_from_disk SO s = true) /\
  (st_new SO size f = (Ok s, f') -> st_loaded_from_disk SO s = false) /\
  (st_new_from_slice SO size data f = (Ok s, f') -> st_loaded_from_disk SO s = false).
(* no later call changes the answer, whether it succeeds or not *)
Definition same_answer {E A} (SO : StoreOps E) (m : SM (st_t SO * fs) A) : Prop :=
  forall st, st_loaded_from_disk SO (fst (snd (m st))) = st_loaded_from_disk SO (fst st).
Definition remembers {E} (SO : StoreOps E) : Prop :=
  (forall el i, same_answer SO (st_write_at SO el i)) /\
  (forall buf i, same_answer SO (st_copy_from_slice SO buf i)) /\
  (forall el, same_answer SO (st_push SO el)) /\
  (forall sizes b c v, same_answer SO (st_compact SO sizes b c v)) /\
  same_answer SO (st_reinit SO) /\ same_answer SO (st_sync SO) /\
  (forall en A b leafs rows c, same_answer SO (st_build SO en A b leafs rows c)).

(* the wish: for every store that reads files, and the constructor with a reader *)
Definition C77_full : Prop := forall E (EO : ElementOps E),
  (tells (disk_store EO) /\ remembers (disk_store EO)) /\ (tells (mmap_store_ops EO) /\ remembers (mmap_store_ops EO)) /\
  (tells (lc_store EO) /\ remembers (lc_store EO)) /\
  (forall size b c rd f s f', lc_new_from_disk_with_reader EO size b c rd f = (Ok s, f') -> lc_loaded s = true).

Section Keep.
  Context {T B : Type} (g : T -> B) (v : B).
  Definition keep {A} (m : SM (T * fs) A) : Prop := forall st, g (fst st) = v -> g (fst (snd (m st))) = v.
  Lemma keep_bind {A C} (m : SM (T * fs) A) (k : A -> SM (T * fs) C) : keep m -> (forall a, keep (k a)) -> keep (sbind m k).
  Proof. intros Hm Hk st H. unfold sbind. specialize (Hm st H). destruct (m st) as [[a|e|e|] st']; cbn [fst snd] in *; auto. apply Hk. exact Hm. Qed.
  Lemma keep_get {C} (k : (T * fs) -> SM (T * fs) C) : (forall st, g (fst st) = v -> keep (k st)) -> keep (sbind sget k).
  Proof. intros Hk st H. unfold sbind, sget. exact (Hk st H st H). Qed.
  Lemma keep_ret {A} (a : A) : keep (sret a).
  Proof. intros st H. exact H. Qed.
  Lemma keep_lift {A} (r : res A) : keep (slift r).
  Proof. intros st H. exact H. Qed.
  Lemma keep_reads {A} (r : T * fs -> res A) : keep (sreads r).
  Proof. intros st H. exact H. Qed.
  Lemma keep_put st : g (fst st) = v -> keep (sput st).
  Proof. intros H st' _. exact H. Qed.
  Lemma keep_fs {A} (m : SM fs A) : keep (on_fs m).
  Proof. intros st H. unfold on_fs. destruct (m (snd st)). exact H. Qed.
  Lemma keep_last {E} len (rd : T * fs -> nat -> res E) : keep (default_last len rd).
  Proof. intros st H. exact H. Qed.
  Lemma keep_bounds len l i w : keep (level_bounds len l i w).
  Proof. intros st H. exact H. Qed.
  Lemma keep_bytes n start rd comp wr most sched : (forall k j x, keep (wr k j x)) ->
    keep (run_bytes n start rd comp wr most sched).
  Proof.
    intros Hw.
    assert (Hs : forall k j ts fl st, g (fst st) = v -> g (fst (snd (byte_step n start rd comp wr k j ts fl st))) = v).
    { intros k j ts fl st H. unfold byte_step, go_on. destruct (k <? n); [|exact H].
      destruct (ts k) as [|got|out|]; [|destruct (collect got)|destruct (nth_error out j) as [[x []]|]|]; try exact H.
      - destruct (start k st); exact H.
      - destruct (comp k _); exact H.
      - destruct (nth_error got j) as [[|]|]; try exact H. destruct (rd k j st); exact H.
      - specialize (Hw k j x st H). destruct (wr k j x st) as [[|m|m|] st']; exact Hw. }
    assert (Hr : forall sched ts fl st, g (fst st) = v -> g (fst (snd (run_byte_sched n start rd comp wr sched ts fl st))) = v).
    { clear sched. induction sched as [|[k j] r IH]; intros ts fl st H; cbn [run_byte_sched]; [exact H|].
      specialize (Hs k j ts fl st H). destruct (byte_step n start rd comp wr k j ts fl st) as [[ts' fl'] st']. apply IH. exact Hs. }
    intros st H. unfold run_bytes. pose proof (Hr sched (fun _ => BNew) None st H) as H1.
    destruct (run_byte_sched n start rd comp wr sched (fun _ => BNew) None st) as [[ts fl] st1]. cbn [snd] in H1.
    destruct fl; [exact H1|]. pose proof (Hr (byte_completion n most) ts None st1 H1) as H2.
    destruct (run_byte_sched n start rd comp wr (byte_completion n most) ts None st1) as [[ts2 fl2] st2]. destruct fl2; exact H2.
  Qed.
  Lemma keep_map_write {E} (EO : ElementOps E) h ws p k j x : keep (map_write EO (T := T) h ws p k j x).
  Proof. intros st H. unfold map_write. destruct (fs_map_write _ _ _ _). exact H. Qed.
  Lemma keep_layer {E} (EO : ElementOps E) A b chunk file chk sched w l rs ws :
    keep (mmap_process_layer EO A b chunk (T := T) file chk sched w l rs ws).
  Proof.
    unfold mmap_process_layer, mmap_layer_by. apply keep_get. intros st0 _.
    repeat (apply keep_bind; [apply keep_lift|intros _]). apply keep_bytes. intros. apply keep_map_write.
  Qed.
End Keep.

Ltac kp := repeat match goal with
  | |- keep _ _ (sbind sget _) => apply keep_get; intros ? ?
  | |- keep _ _ (sbind _ _) => apply keep_bind; [|intros ?]
  | |- keep _ _ (sret _) => apply keep_ret
  | |- keep _ _ (slift _) => apply keep_lift
  | |- keep _ _ (sreads _) => apply keep_reads
  | |- keep _ _ (on_fs _) => apply keep_fs
  | |- keep _ _ (default_last _ _) => apply keep_last
  | |- keep _ _ (level_bounds _ _ _ _) => apply keep_bounds
  | |- keep _ _ (mmap_process_layer _ _ _ _ _ _ _ _ _ _ _) => apply keep_layer
  | |- keep _ _ (sput _) => apply keep_put; assumption
  | |- keep _ _ (if ?x then _ else _) => destruct x
  | |- keep _ _ (let '(_, _) := ?x in _) => destruct x
  | |- keep _ _ (match ?x with (_, _) => _ end) => destruct x
  end.
Lemma same_answer_keep {E A} (SO : StoreOps E) (m : SM (st_t SO * fs) A) :
  (forall v, keep (st_loaded_from_disk SO) v m) -> same_answer SO m.
Proof. intros H st. exact (H _ st eq_refl). Qed.

Theorem C77_disk_partial : forall E (EO : ElementOps E), tells (disk_store EO) /\ remembers (disk_store EO).
Proof.
  intros E EO. split.
  - intros size b c data f s f'.
    assert (HC : forall s f', disk_new_with_config EO size b c f = (Ok s, f') -> ds_loaded s = fs_exists f (cfg_path c)).
    { clear. intros s f'. unfold disk_new_with_config, sbind, sget. destruct (fs_exists f (cfg_path c)) eqn:X.
      - unfold disk_new_from_disk, disk_new_from_disk_with_path. rewrite X. cbn [ensure rbind].
        destruct (match fs_open_rw f (cfg_path c) with Ok h => Ok h | _ => fs_open_ro f (cfg_path c) end); cbn [rbind]; try discriminate.
        destruct (_ =? _); cbn [ensure rbind]; [|discriminate]. intros [= <- _]. reflexivity.
      - destruct (fs_create_new (cfg_path c) f) as [[h|m|m|] f1]; try discriminate.
        destruct (fs_set_len h _ f1) as [[u|m|m|] f2]; try discriminate. intros [= <- _]. reflexivity. }
    assert (HF : forall s0 f0 s f', disk_fill EO data s0 f0 = (Ok s, f') -> ds_loaded s = ds_loaded s0).
    { clear. intros s0 f0 s f'. unfold disk_fill, disk_store_copy_from_slice, on_fs. cbn [fst snd].
      destruct (_ <=? _); [|discriminate]. destruct (fs_write_all_at _ _ _ _) as [[u|m|m|] f1]; try discriminate. intros [= <- _]. reflexivity. }
    assert (HN : forall s f', disk_new EO size f = (Ok s, f') -> ds_loaded s = false).
    { clear. intros s f'. unfold disk_new, sbind. destruct (fs_tempfile f) as [[h|m|m|] f1]; try discriminate.
      destruct (fs_set_len h _ f1) as [[u|m|m|] f2]; try discriminate. intros [= <- _]. reflexivity. }
    cbn [st_new_with_config st_new_from_slice_with_config st_new_from_disk st_new st_new_from_slice st_loaded_from_disk disk_store].
    split; [apply HC|]. split.
    { unfold disk_new_from_slice_with_config, sbind, slift, ensure. destruct (_ =? 0); [|discriminate].
      destruct (disk_new_with_config EO size b c f) as [[s1|m|m|] f1] eqn:N; try discriminate.
      pose proof (HC _ _ eq_refl) as L. destruct (ds_loaded s1) eqn:L1.
      - intros [= <- _]. congruence.
      - intros H. rewrite (HF _ _ _ _ H). congruence. }
    split.
    { unfold disk_new_from_disk, disk_new_from_disk_with_path. destruct (ensure _ _); cbn [rbind]; try discriminate.
      destruct (match fs_open_rw f (cfg_path c) with Ok h => Ok h | _ => fs_open_ro f (cfg_path c) end); cbn [rbind]; try discriminate.
      destruct (_ =? _); cbn [ensure rbind]; [|discriminate]. intros [= <- _]. reflexivity. }
    split; [apply HN|].
    unfold disk_new_from_slice, sbind, slift, ensure. destruct (_ =? 0); [|discriminate].
    destruct (disk_new EO size f) as [[s1|m|m|] f1] eqn:N; try discriminate. intros H. rewrite (HF _ _ _ _ H). apply (HN _ _ eq_refl).
  - assert (Hc : forall v a d, keep ds_loaded v (disk_store_copy_from_slice a d)).
    { intros v a d st H. unfold disk_store_copy_from_slice. destruct (_ <=? _); [|exact H]. exact (keep_fs ds_loaded v _ st H). }
    assert (Hu : forall v n, keep ds_loaded v (disk_upd_len n)) by (intros v n st H; exact H).
    assert (Hw : forall v el i, keep ds_loaded v (disk_write_at EO el i)) by (intros; unfold disk_write_at; kp; auto).
    unfold remembers. repeat (apply conj); intros; apply same_answer_keep; intros w;
      cbn [st_loaded_from_disk st_write_at st_copy_from_slice st_push st_compact st_reinit st_sync st_build disk_store].
    + apply Hw.
    + unfold disk_copy_from_slice. kp; auto.
    + unfold disk_push. kp; auto.
    + unfold disk_compact, disk_compact_with. kp; auto.
    + kp.
    + kp.
    + unfold disk_build_fuel. kp; auto. 
      assert (G : forall fuel sh l w0 i, keep ds_loaded w (disk_build_loop EO en A b fuel sh l w0 i)).
      { induction fuel as [|fuel IH]; intros; cbn [disk_build_loop]; unfold disk_process_layer; kp; auto. }
      apply G.
Qed.

Theorem C77_lc_partial : forall E (EO : ElementOps E), tells (lc_store EO) /\ remembers (lc_store EO).
Proof.
  intros E EO. split.
  - intros size b c data f s f'.
    assert (HD : forall s f', lc_new_from_disk EO size b c f = (Ok s, f') -> lc_loaded s = true).
    { clear. intros s f'. unfold lc_new_from_disk.
      destruct (ensure _ _); cbn [rbind]; try discriminate. destruct (lc_open _ _); cbn [rbind]; try discriminate.
      destruct (get_merkle_tree_leafs _ _); cbn [rbind]; try discriminate. destruct (ensure _ _); cbn [rbind]; try discriminate.
      destruct (get_merkle_tree_cache_size _ _ _); cbn [rbind]; try discriminate. destruct (checked_sub _ _); cbn [rbind]; try discriminate.
      intros [= <- _]. reflexivity. }
    assert (HC : forall s f', lc_new_with_config EO size b c f = (Ok s, f') -> lc_loaded s = fs_exists f (cfg_path c)).
    { intros s0 f0. unfold lc_new_with_config, sbind, sget, slift. destruct (fs_exists f (cfg_path c)) eqn:X; [apply HD|].
      destruct (fs_create_new (cfg_path c) f) as [[h|m|m|] f1]; try discriminate.
      destruct (get_merkle_tree_leafs _ _); try discriminate. destruct (ensure _ _); try discriminate.
      destruct (get_merkle_tree_cache_size _ _ _); try discriminate. destruct (checked_sub _ _); try discriminate.
      destruct (fs_set_len h _ f1) as [[u|m|m|] f2]; try discriminate. intros [= <- _]. reflexivity. }
    assert (HF : forall s0 f0 s f', lc_fill EO data s0 f0 = (Ok s, f') -> lc_loaded s = lc_loaded s0).
    { clear. intros s0 f0 s f'. unfold lc_fill, lc_store_copy_from_slice, on_fs. cbn [fst snd].
      destruct (_ <=? _); [|discriminate]. destruct (fs_write_all_at _ _ _ _) as [[u|m|m|] f1]; try discriminate. intros [= <- _]. reflexivity. }
    assert (HN : forall s f', lc_new EO size f = (Ok s, f') -> lc_loaded s = false).
    { clear. intros s f'. unfold lc_new, sbind. destruct (fs_tempfile f) as [[h|m|m|] f1]; try discriminate.
      destruct (fs_set_len h _ f1) as [[u|m|m|] f2]; try discriminate. intros [= <- _]. reflexivity. }
    cbn [st_new_with_config st_new_from_slice_with_config st_new_from_disk st_new st_new_from_slice st_loaded_from_disk lc_store].
    split; [apply HC|]. split.
    { unfold lc_new_from_slice_with_config, sbind, slift, ensure. destruct (_ =? 0); [|discriminate].
      destruct (lc_new_with_config EO size b c f) as [[s1|m|m|] f1] eqn:N; try discriminate.
      pose proof (HC _ _ eq_refl) as L. destruct (lc_loaded s1) eqn:L1.
      - intros [= <- _]. congruence.
      - intros H. rewrite (HF _ _ _ _ H). congruence. }
    split; [apply HD|]. split; [apply HN|].
    unfold lc_new_from_slice, sbind, slift, ensure. destruct (_ =? 0); [|discriminate].
    destruct (lc_new EO size f) as [[s1|m|m|] f1] eqn:N; try discriminate. intros H. rewrite (HF _ _ _ _ H). apply (HN _ _ eq_refl).
  - assert (Hc : forall v a d, keep lc_loaded v (lc_store_copy_from_slice a d)).
    { intros v a d st H. unfold lc_store_copy_from_slice. destruct (_ <=? _); [|exact H]. exact (keep_fs lc_loaded v _ st H). }
    assert (Hu : forall v n, keep lc_loaded v (lc_upd_len n)) by (intros v n st H; exact H).
    assert (Hw : forall v el i, keep lc_loaded v (lc_write_at EO el i)) by (intros; unfold lc_write_at; kp; auto).
    assert (Ht : forall v sizes c n, keep lc_loaded v (lc_front_truncate EO sizes c n)) by (intros; unfold lc_front_truncate; kp; auto).
    unfold remembers. repeat (apply conj); intros; apply same_answer_keep; intros w;
      cbn [st_loaded_from_disk st_write_at st_copy_from_slice st_push st_compact st_reinit st_sync st_build lc_store].
    + apply Hw.
    + unfold lc_copy_from_slice. kp; auto.
    + unfold lc_push. kp; auto.
    + kp.
    + kp.
    + kp.
    + assert (G : forall fuel sh cis cf l w0 i, keep lc_loaded w (lc_build_loop EO en A b fuel sh cis cf l w0 i)).
      { induction fuel as [|fuel IH]; intros; cbn [lc_build_loop]; unfold lc_process_layer; kp; auto. }
      unfold lc_build_fuel. kp; auto.
Qed.

(* an MmapStore always answers no *)
Theorem C77_mmap : forall E (EO : ElementOps E) s, st_loaded_from_disk (mmap_store_ops EO) s = false.
Proof. reflexivity. Qed.
(* and so does a LevelCacheStore opened with a reader *)
Theorem C77_reader : forall E (EO : ElementOps E) size b c rd f s f',
  lc_new_from_disk_with_reader EO size b c rd f = (Ok s, f') -> lc_loaded s = false.
Proof.
  intros until f'. unfold lc_new_from_disk_with_reader.
  destruct (ensure _ _); cbn [rbind]; try discriminate. destruct (lc_open _ _); cbn [rbind]; try discriminate.
  destruct (get_merkle_tree_leafs _ _); cbn [rbind]; try discriminate. destruct (ensure _ _); cbn [rbind]; try discriminate.
  destruct (get_merkle_tree_cache_size _ _ _); cbn [rbind]; try discriminate. destruct (checked_sub _ _); cbn [rbind]; try discriminate.
  destruct (ensure _ _); cbn [rbind]; try discriminate. intros [= <- _]. reflexivity.
Qed.

(* a file of four elements, written by an MmapStore, opened again *)
Definition reopened := sbind (mmap_new_with_config BO 4 2 cfg0) (fun _ => mmap_new_from_disk BO 4 2 cfg0) fs_empty.
Theorem C77_refuted : ~ C77_full.
Proof.
  intros H. destruct (H B1 BO) as (_ & (T & _) & _).
  assert (R : is_ok (fst reopened) = true) by (vm_compute; reflexivity).
  unfold reopened, sbind in R. destruct (mmap_new_with_config BO 4 2 cfg0 fs_empty) as [[s0|m|m|] f0]; try discriminate R.
  destruct (mmap_new_from_disk BO 4 2 cfg0 f0) as [[s|m|m|] f1] eqn:D; try discriminate R.
  destruct (T 4 2 cfg0 [] f0 s f1) as (_ & _ & T3 & _). specialize (T3 D). discriminate T3.
Qed.

(* a DiskStore made, filled, and opened again; the same for a LevelCacheStore of 4 leaves;
   with the data passed the second time ignored *)
Example C77_case :
  (match disk_new_from_slice_with_config BO 7 2 (map (fun n => Byte.x07) (seq 0 7)) cfg0 fs_empty with
   | (Ok s, f) => match disk_new_from_slice_with_config BO 7 2 [Byte.x01] cfg0 f with
                  | (Ok s', f') => (ds_loaded s, ds_loaded s', map (fun i => match disk_read_at BO (s', f') i with Ok x => val x | _ => 0 end) [0; 6])
                  | _ => (false, false, []) end
   | _ => (false, false, []) end) = (false, true, [7; 7]) /\
  (match lc_new_from_slice_with_config BO 7 2 (map (fun n => Byte.x07) (seq 0 7)) cfg0 fs_empty with
   | (Ok s, f) => match lc_new_from_slice_with_config BO 7 2 [Byte.x01] cfg0 f with
                  | (Ok s', f') => (lc_loaded s, lc_loaded s')
                  | _ => (false, false) end
   | _ => (true, false) end) = (false, true).
Proof. vm_compute. split; reflexivity. Qed.

Print Assumptions C77_disk_partial.
Print Assumptions C77_lc_partial.
Print Assumptions C77_mmap.
Print Assumptions C77_reader.
Print Assumptions C77_refuted.
