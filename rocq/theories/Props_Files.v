(* C50, C51: read-only files; stores touch only their own file. *)
From Coq Require Import String Ascii List Arith Bool Lia Init.Byte ZifyBool ZifyNat.
From Verif Require Import Base Element Hash Sizing FS Sched Store VecStore DiskStore MmapStore LevelCache ListFacts Spec SpecFacts SizingFacts SchedFacts StoreLaws RowFacts ChunkFacts BuildFacts BuildLoop StoreSpec FileFacts MapLayer DiskFacts ArraySpec ArrayFacts ArrayStart FrameFacts FileSpec Cases.
Import ListNotations.

(* ---- C51 ---- *)
Section Touch.
  Context {E : Type} (SO : StoreOps E).
  Local Notation T := (st_t SO).
  Variable own : T -> nat -> Prop.

  (* a constructor leaves f alone or makes/keeps inode i at path p *)
  Definition touches (p : string) (f : fs) (rf : res T * fs) : Prop :=
    (snd rf = f /\ forall s, fst rf <> Ok s) \/
    exists i, at_path p i (snd rf) /\ (at_path p i f \/ fs_dir f p = None /\ i = fs_next f) /\
      (forall q, q <> p -> fs_dir (snd rf) q = fs_dir f q) /\
      (forall j, j <> i -> fs_ino (snd rf) j = fs_ino f j) /\
      (forall s, fst rf = Ok s -> own s i).

  Hypothesis Hops : forall i c o, fr (fun s => own s i) (at_path (cfg_path c) i) (fs_frame (Some i))
                      (fun st => let '(k, st') := run_fop SO c o st in (Ok k, st')).

  Lemma ops_fr i c ops : forall st, own (fst st) i -> at_path (cfg_path c) i (snd st) ->
    fs_frame (Some i) (snd st) (snd (snd (run_fops SO c ops st))).
  Proof.
    induction ops as [|o ops IH]; intros st Ho Hp; cbn [run_fops]; [apply fs_frame_refl|].
    pose proof (Hops i c o st Ho Hp) as H. cbn beta in H. destruct (run_fop SO c o st) as [k s1]. cbn [fst snd] in H.
    destruct H as [H1 H2]. specialize (IH s1 H1 (at_path_frame _ _ _ _ _ Hp H2)).
    destruct (run_fops SO c ops s1) as [ks s2]. cbn [fst snd] in *. eapply fs_frame_trans; eauto.
  Qed.

  Lemma other_files p i f f' q : fs_ok f ->
    (at_path p i f \/ fs_dir f p = None /\ i = fs_next f) ->
    (forall q, q <> p -> fs_dir f' q = fs_dir f q) -> (forall j, j <> i -> fs_ino f' j = fs_ino f j) ->
    q <> p -> file_at f' q = file_at f q.
  Proof.
    intros [W1 W2] Hi Hd Hn Hq. unfold file_at. rewrite Hd by auto. destruct (fs_dir f q) as [j|] eqn:Hj; [|reflexivity].
    rewrite Hn; [reflexivity|]. intros ->. destruct Hi as [Hi|[_ Hi]].
    - apply Hq. eapply W2; eauto.
    - apply W1 in Hj. lia.
  Qed.

  Lemma touches_spec c f rf : fs_ok f -> touches (cfg_path c) f rf ->
    (forall q, q <> cfg_path c -> file_at (snd rf) q = file_at f q) /\
    (forall s, fst rf = Ok s -> forall ops q, q <> cfg_path c ->
       file_at (snd (snd (run_fops SO c ops (s, snd rf)))) q = file_at f q).
  Proof.
    intros W [[H1 H2]|(i & H1 & H2 & H3 & H4 & H5)].
    - rewrite H1. split; [auto|]. intros s Hs. exfalso. eapply H2; eauto.
    - split; [intros q Hq; eapply other_files; eauto|].
      intros s Hs ops q Hq. pose proof (ops_fr i c ops (s, snd rf) (H5 s Hs) H1) as (F1 & F2 & F3 & _).
      eapply (other_files (cfg_path c) i); eauto.
      + intros q' Hq'. rewrite F1. auto.
      + intros j Hj. rewrite F3 by congruence. auto.
  Qed.
End Touch.

Lemma fr_flag {T A B} (own : T -> Prop) P R (m : SM (T * fs) A) (k : res A -> B) :
  fr own P R m -> fr own P R (fun st => (Ok (k (fst (m st))), snd (m st))).
Proof. intros H st Ho Hp. exact (H st Ho Hp). Qed.

Section Mk.
  Context {E : Type} (EO : ElementOps E).
  Local Notation bl := (e_byte_len EO).

  Definition down (s : disk_t) (i : nat) := disk_own i s.
  Definition mown (s : mmap_t) (i : nat) := mmap_own i s.
  Definition lown (s : lc_t) (i : nat) := lc_own i s.

  Lemma disk_ops_fr i c o : fr (fun s => down s i) (at_path (cfg_path c) i) (fs_frame (Some i))
                      (fun st => let '(k, st') := run_fop (disk_store EO) c o st in (Ok k, st')).
  Proof.
    destruct o as [u|sizes b v|en A b leafs rc wc| |]; cbn [run_fop flag].
    - apply (fr_flag _ _ _ (run_op (disk_store EO) u)). destruct u; cbn [run_op disk_store st_write_at st_copy_from_slice st_push].
      + apply disk_write_fr.
      + apply disk_slice_fr.
      + apply disk_push_fr.
    - apply (fr_flag _ _ _ (disk_compact EO sizes b c v)). apply disk_compact_fr. reflexivity.
    - apply (fr_flag _ _ _ (disk_build_fuel EO en A b (S leafs) leafs rc (if wc then Some c else None))). apply disk_build_fr.
    - apply fr_pure; [apply fs_frame_refl|reflexivity].
    - apply fr_pure; [apply fs_frame_refl|reflexivity].
  Qed.
  Lemma mmap_ops_fr i c o : fr (fun s => mown s i) (at_path (cfg_path c) i) (fs_frame (Some i))
                      (fun st => let '(k, st') := run_fop (mmap_store_ops EO) c o st in (Ok k, st')).
  Proof.
    destruct o as [u|sizes b v|en A b leafs rc wc| |]; cbn [run_fop flag].
    - apply (fr_flag _ _ _ (run_op (mmap_store_ops EO) u)). destruct u; cbn [run_op mmap_store_ops st_write_at st_copy_from_slice st_push].
      + apply mmap_write_fr.
      + apply mmap_slice_fr.
      + apply mmap_push_fr.
    - apply (fr_flag _ _ _ (mmap_compact sizes b c v)). apply mmap_compact_fr.
    - apply (fr_flag _ _ _ (mmap_build EO en A b leafs rc (if wc then Some c else None))). apply mmap_build_fr.
    - apply (fr_flag _ _ _ mmap_reinit). apply mmap_reinit_fr.
    - apply fr_pure; [apply fs_frame_refl|reflexivity].
  Qed.
  Lemma lc_ops_fr i c o : fr (fun s => lown s i) (at_path (cfg_path c) i) (fs_frame (Some i))
                      (fun st => let '(k, st') := run_fop (lc_store EO) c o st in (Ok k, st')).
  Proof.
    destruct o as [u|sizes b v|en A b leafs rc wc| |]; cbn [run_fop flag].
    - apply (fr_flag _ _ _ (run_op (lc_store EO) u)). destruct u; cbn [run_op lc_store st_write_at st_copy_from_slice st_push].
      + apply lc_write_fr.
      + apply lc_slice_fr.
      + apply lc_push_fr.
    - apply fr_pure; [apply fs_frame_refl|reflexivity].
    - apply (fr_flag _ _ _ (lc_build_fuel EO en A b (S leafs) leafs rc (if wc then Some c else None))). apply lc_build_fr.
      intros x Hx. destruct wc; inversion Hx. reflexivity.
    - apply fr_pure; [apply fs_frame_refl|reflexivity].
    - apply fr_pure; [apply fs_frame_refl|reflexivity].
  Qed.

  (* opening an existing file changes nothing *)
  Lemma disk_open_touches p size f i : at_path p i f -> touches (disk_store EO) down p f (disk_new_from_disk_with_path EO size p f).
  Proof.
    intros Hp. right. exists i. unfold disk_new_from_disk_with_path. cbn [fst snd].
    split; [exact Hp|]. split; [auto|]. split; [auto|]. split; [auto|]. intros s.
    unfold fs_exists, fs_open_rw, fs_open_ro. unfold at_path in Hp. rewrite Hp. destruct (i_ro (fs_ino f i)); cbn [ensure rbind];
      match goal with |- context [?a =? ?b] => destruct (a =? b) end; cbn [ensure rbind];
      intros H; inversion H; reflexivity.
  Qed.
  Lemma mmap_open_touches c b size f i : at_path (cfg_path c) i f -> touches (mmap_store_ops EO) mown (cfg_path c) f (mmap_new_from_disk EO size b c f).
  Proof.
    intros Hp. right. exists i. unfold mmap_new_from_disk. cbn [fst snd].
    split; [exact Hp|]. split; [auto|]. split; [auto|]. split; [auto|]. intros s.
    unfold fs_exists, fs_open_rw, fs_open_ro. unfold at_path in Hp. rewrite Hp. destruct (i_ro (fs_ino f i)); cbn [ensure rbind]; try discriminate.
    match goal with |- context [?a =? ?b] => destruct (a =? b) end; cbn [ensure rbind];
      intros H; inversion H; reflexivity.
  Qed.
  Lemma lc_open_touches c b size f i : at_path (cfg_path c) i f -> touches (lc_store EO) lown (cfg_path c) f (lc_new_from_disk EO size b c f).
  Proof.
    intros Hp. right. exists i. unfold lc_new_from_disk. cbn [fst snd].
    split; [exact Hp|]. split; [auto|]. split; [auto|]. split; [auto|]. intros s.
    unfold fs_exists, lc_open, fs_open_rw, fs_open_ro. unfold at_path in Hp. rewrite Hp.
    destruct (i_ro (fs_ino f i)); cbn [ensure rbind]; (destruct (get_merkle_tree_leafs size b); cbn [rbind]; try discriminate);
    (match goal with |- context [?a =? ?b] => destruct (a =? b) end; cbn [ensure rbind]; try discriminate);
    (destruct (get_merkle_tree_cache_size _ _ _); cbn [rbind]; try discriminate);
    (destruct (checked_sub _ _); cbn [rbind]; try discriminate);
      intros H; inversion H; reflexivity.
  Qed.

  (* a new file at an unused path, then anything with a handle on it *)
  Lemma create_touches {T} (own : T -> nat -> Prop) p f (k : handle -> SM fs T) :
    fs_dir f p = None ->
    (forall h f1, fs_frame (Some (h_ino h)) f1 (snd (k h f1)) /\ forall s, fst (k h f1) = Ok s -> own s (h_ino h)) ->
    let rf := sbind (fs_create_new p) k f in
    exists i, at_path p i (snd rf) /\ (at_path p i f \/ fs_dir f p = None /\ i = fs_next f) /\
      (forall q, q <> p -> fs_dir (snd rf) q = fs_dir f q) /\
      (forall j, j <> i -> fs_ino (snd rf) j = fs_ino f j) /\
      (forall s, fst rf = Ok s -> own s i).
  Proof.
    intros Hp Hk. unfold sbind, fs_create_new, fs_exists. rewrite Hp. cbn [fs_alloc]. cbn zeta.
    match goal with |- context [k ?h ?f1] => destruct (Hk h f1) as [HF HO]; destruct (k h f1) as [r f2] end.
    cbn [fst snd h_ino fs_dir fs_ino fs_next] in *. destruct HF as (F1 & F2 & F3 & F4). cbn [fs_dir fs_ino fs_next] in *.
    exists (fs_next f). unfold at_path. rewrite F1, String.eqb_refl. split; [reflexivity|]. split; [auto|]. split.
    - intros q Hq. rewrite F1. apply String.eqb_neq in Hq. rewrite Hq. reflexivity.
    - split; [|exact HO]. intros j Hj. rewrite F3 by congruence. replace (j =? fs_next f) with false by lia. reflexivity.
  Qed.

  Lemma disk_newc_touches size b c f : touches (disk_store EO) down (cfg_path c) f (disk_new_with_config EO size b c f).
  Proof.
    unfold disk_new_with_config. rewrite (sbind_ok _ _ f f f) by reflexivity. unfold fs_exists.
    destruct (fs_dir f (cfg_path c)) as [i|] eqn:Hp; [apply (disk_open_touches _ _ _ i); exact Hp|].
    right. apply (create_touches down); [exact Hp|]. intros h f1. unfold sbind.
    pose proof (set_len_frame h (bl * size) f1) as HF. destruct (fs_set_len _ _ _) as [r f2] eqn:G. cbn [snd] in HF.
    destruct r; cbn [fst snd]; (split; [exact HF|]); intros s H; inversion H. reflexivity.
  Qed.
  Lemma mmap_newc_touches size b c f : touches (mmap_store_ops EO) mown (cfg_path c) f (mmap_new_with_config EO size b c f).
  Proof.
    unfold mmap_new_with_config. rewrite (sbind_ok _ _ f f f) by reflexivity. unfold fs_exists.
    destruct (fs_dir f (cfg_path c)) as [i|] eqn:Hp; [apply (mmap_open_touches _ _ _ _ i); exact Hp|].
    right. apply (create_touches mown); [exact Hp|]. intros h f1. unfold sbind.
    pose proof (set_len_frame h (bl * size) f1) as HF. destruct (fs_set_len _ _ _) as [r f2] eqn:G. cbn [snd] in HF.
    destruct r; cbn [fst snd]; try (split; [exact HF|]; intros s H; inversion H; fail).
    unfold mm_map_mut. destruct (fs_map_mut h); cbn [rbind fst snd]; (split; [exact HF|]); intros s H; inversion H. reflexivity.
  Qed.
  Lemma lc_newc_touches size b c f : touches (lc_store EO) lown (cfg_path c) f (lc_new_with_config EO size b c f).
  Proof.
    unfold lc_new_with_config. rewrite (sbind_ok _ _ f f f) by reflexivity. unfold fs_exists.
    destruct (fs_dir f (cfg_path c)) as [i|] eqn:Hp; [apply (lc_open_touches _ _ _ _ i); exact Hp|].
    right. apply (create_touches lown); [exact Hp|]. intros h f1.
    assert (X : forall {A} (r : res A) (k : A -> SM fs lc_t), 
       (forall a, fs_frame (Some (h_ino h)) f1 (snd (k a f1)) /\ (forall s, fst (k a f1) = Ok s -> lown s (h_ino h))) ->
       fs_frame (Some (h_ino h)) f1 (snd (sbind (slift r) k f1)) /\ (forall s, fst (sbind (slift r) k f1) = Ok s -> lown s (h_ino h))).
    { intros A r k Hk. unfold sbind, slift. destruct r; [apply Hk| | |]; cbn [fst snd]; split; try apply fs_frame_refl; discriminate. }
    do 4 (apply X; intros). unfold sbind.
    pose proof (set_len_frame h (bl * size) f1) as HF. destruct (fs_set_len _ _ _) as [r f2] eqn:G. cbn [snd] in HF.
    destruct r; cbn [fst snd]; (split; [exact HF|]); intros s H; inversion H. reflexivity.
  Qed.

  (* constructors that go on writing into the store they opened *)
  Lemma touches_then {SO : StoreOps E} (own : st_t SO -> nat -> Prop) p f rf (k : st_t SO -> SM fs (st_t SO)) :
    touches SO own p f rf ->
    (forall s i f1, own s i -> fs_frame (Some i) f1 (snd (k s f1)) /\ forall s', fst (k s f1) = Ok s' -> own s' i) ->
    touches SO own p f (sbind (fun _ => rf) k f).
  Proof.
    intros H Hk. unfold sbind. destruct rf as [r f1]. cbn [fst snd] in *.
    destruct H as [[H1 H2]|(i & H1 & H2 & H3 & H4 & H5)]; cbn [fst snd] in *.
    - left. destruct r; try (exfalso; eapply H2; reflexivity); cbn [fst snd]; (split; [exact H1|]); discriminate.
    - right. exists i. destruct r; cbn [fst snd]; try (split; [exact H1|]; split; [exact H2|]; split; [exact H3|]; split; [exact H4|]; discriminate).
      destruct (Hk a i f1 (H5 a eq_refl)) as [HF HO]. destruct HF as (F1 & F2 & F3 & F4).
      split; [unfold at_path; rewrite F1; exact H1|]. split; [exact H2|]. split; [intros q Hq; rewrite F1; auto|].
      split; [intros j Hj; rewrite F3 by congruence; auto|exact HO].
  Qed.

  Lemma disk_slicec_touches size b data c f : touches (disk_store EO) down (cfg_path c) f (disk_new_from_slice_with_config EO size b data c f).
  Proof.
    unfold disk_new_from_slice_with_config. unfold sbind at 1, slift. destruct (_ =? 0); cbn [ensure].
    2: { left. split; [reflexivity|discriminate]. }
    replace (sbind (disk_new_with_config EO size b c) (fun s => if ds_loaded s then sret s else disk_fill EO data s) f)
      with (sbind (fun _ => disk_new_with_config EO size b c f) (fun s => if ds_loaded s then sret s else disk_fill EO data s) f) by reflexivity.
    apply (touches_then (SO := disk_store EO) down); [apply disk_newc_touches|]. intros s i f1 Ho.
    destruct (ds_loaded s).
    - cbn. split; [apply fs_frame_refl|]. intros s' H. inversion H. subst. exact Ho.
    - unfold disk_fill, disk_store_copy_from_slice. cbn [fst]. destruct (_ <=? _); [|cbn; split; [apply fs_frame_refl|discriminate]].
      unfold on_fs. cbn [fst snd]. pose proof (write_all_frame (ds_file s) 0 data f1) as HF.
      destruct (fs_write_all_at _ _ _ _) as [r f2]. cbn [snd] in HF. unfold down, disk_own in Ho. rewrite Ho in HF.
      destruct r; cbn [fst snd]; (split; [exact HF|]); intros s' H; inversion H. exact Ho.
  Qed.
  Lemma mmap_slicec_touches size b data c f : touches (mmap_store_ops EO) mown (cfg_path c) f (mmap_new_from_slice_with_config EO size b data c f).
  Proof.
    unfold mmap_new_from_slice_with_config. unfold sbind at 1, slift. destruct (_ =? 0); cbn [ensure].
    2: { left. split; [reflexivity|discriminate]. }
    replace (sbind (mmap_new_with_config EO size b c) (fun s => mmap_fill EO data s) f)
      with (sbind (fun _ => mmap_new_with_config EO size b c f) (fun s => mmap_fill EO data s) f) by reflexivity.
    apply (touches_then (SO := mmap_store_ops EO) mown); [apply mmap_newc_touches|]. change (st_t (mmap_store_ops EO)) with mmap_t. intros s i f1 Ho.
    unfold mmap_fill.
    assert (G : fr (fun s => mown s i) (fun _ => True) (fs_frame (Some i)) (let! _ := mmap_ensure_map in mmap_store 0 data)).
    { apply fr_bind.
      - intros x y w. apply fs_frame_trans.
      - auto.
      - intros st Ho' _. unfold mmap_ensure_map, mmap_reinit, mm_map_mut, fs_map_mut. destruct (mm_map (fst st)); [cbn; split; [exact Ho'|apply fs_frame_refl]|].
        destruct (h_write _); cbn; (split; [exact Ho'|apply fs_frame_refl]).
      - intros _ st Ho' _. unfold mmap_store. destruct (mm_map (fst st)); [|cbn; split; [exact Ho'|apply fs_frame_refl]].
        destruct (_ <=? _); [|cbn; split; [exact Ho'|apply fs_frame_refl]]. unfold on_fs.
        pose proof (map_write_frame (mm_file (fst st)) 0 data (snd st)) as HF. destruct (fs_map_write _ _ _ _). cbn [fst snd] in *.
        unfold mown, mmap_own in Ho'. rewrite Ho' in HF. auto. }
    specialize (G (s, f1) Ho I). destruct ((let! _ := mmap_ensure_map in mmap_store 0 data) (s, f1)) as [r [s2 f2]]. cbn [fst snd] in G. destruct G as [G1 G2].
    destruct r; cbn [fst snd]; (split; [exact G2|]); intros s' H; inversion H. exact G1.
  Qed.
  Lemma lc_slicec_touches size b data c f : touches (lc_store EO) lown (cfg_path c) f (lc_new_from_slice_with_config EO size b data c f).
  Proof.
    unfold lc_new_from_slice_with_config. unfold sbind at 1, slift. destruct (_ =? 0); cbn [ensure].
    2: { left. split; [reflexivity|discriminate]. }
    replace (sbind (lc_new_with_config EO size b c) (fun s => if lc_loaded s then sret s else lc_fill EO data s) f)
      with (sbind (fun _ => lc_new_with_config EO size b c f) (fun s => if lc_loaded s then sret s else lc_fill EO data s) f) by reflexivity.
    apply (touches_then (SO := lc_store EO) lown); [apply lc_newc_touches|]. intros s i f1 Ho.
    destruct (lc_loaded s).
    - cbn. split; [apply fs_frame_refl|]. intros s' H. inversion H. subst. exact Ho.
    - unfold lc_fill, lc_store_copy_from_slice. cbn [fst]. destruct (_ <=? _); [|cbn; split; [apply fs_frame_refl|discriminate]].
      unfold on_fs. cbn [fst snd]. pose proof (write_all_frame (lc_file s) 0 data f1) as HF.
      destruct (fs_write_all_at _ _ _ _) as [r f2]. cbn [snd] in HF. unfold lown, lc_own in Ho. rewrite Ho in HF.
      destruct r; cbn [fst snd]; (split; [exact HF|]); intros s' H; inversion H. exact Ho.
  Qed.

  Lemma disk_from_disk_touches size b c f : touches (disk_store EO) down (cfg_path c) f (disk_new_from_disk EO size b c f).
  Proof.
    unfold disk_new_from_disk. destruct (fs_dir f (cfg_path c)) as [i|] eqn:Hp; [apply (disk_open_touches _ _ _ i); exact Hp|].
    left. unfold disk_new_from_disk_with_path, fs_exists. rewrite Hp. split; [reflexivity|discriminate].
  Qed.
  Lemma mmap_from_disk_touches size b c f : touches (mmap_store_ops EO) mown (cfg_path c) f (mmap_new_from_disk EO size b c f).
  Proof.
    destruct (fs_dir f (cfg_path c)) as [i|] eqn:Hp; [apply (mmap_open_touches _ _ _ _ i); exact Hp|].
    left. unfold mmap_new_from_disk, fs_exists. rewrite Hp. split; [reflexivity|discriminate].
  Qed.
  Lemma lc_from_disk_touches size b c f : touches (lc_store EO) lown (cfg_path c) f (lc_new_from_disk EO size b c f).
  Proof.
    destruct (fs_dir f (cfg_path c)) as [i|] eqn:Hp; [apply (lc_open_touches _ _ _ _ i); exact Hp|].
    left. unfold lc_new_from_disk, fs_exists. rewrite Hp. split; [reflexivity|discriminate].
  Qed.
End Mk.

(* whichever way a store is made with a config, and whatever is done with it: every other
   file is what it was; this also holds when the constructor fails *)
Definition only_own_file {E} (SO : StoreOps E) : Prop := forall c f size b data rf,
  fs_ok f ->
  rf = st_new_with_config SO size b c f \/
  rf = st_new_from_slice_with_config SO size b data c f \/
  rf = st_new_from_disk SO size b c f ->
  (forall q, q <> cfg_path c -> file_at (snd rf) q = file_at f q) /\
  (forall s, fst rf = Ok s -> forall ops q, q <> cfg_path c ->
     file_at (snd (snd (run_fops SO c ops (s, snd rf)))) q = file_at f q).

Theorem C51_disk : forall E (EO : ElementOps E), only_own_file (disk_store EO).
Proof.
  intros E EO c f size b data rf W H. apply (touches_spec (disk_store EO) down (disk_ops_fr EO) c f rf W).
  destruct H as [-> |[-> | ->]]; cbn [disk_store st_new_with_config st_new_from_slice_with_config st_new_from_disk].
  - apply disk_newc_touches.
  - apply disk_slicec_touches.
  - apply disk_from_disk_touches.
Qed.
Theorem C51_mmap : forall E (EO : ElementOps E), only_own_file (mmap_store_ops EO).
Proof.
  intros E EO c f size b data rf W H. apply (touches_spec (mmap_store_ops EO) mown (mmap_ops_fr EO) c f rf W).
  destruct H as [-> |[-> | ->]]; cbn [mmap_store_ops st_new_with_config st_new_from_slice_with_config st_new_from_disk].
  - apply mmap_newc_touches.
  - apply mmap_slicec_touches.
  - apply mmap_from_disk_touches.
Qed.
Theorem C51_level_cache : forall E (EO : ElementOps E), only_own_file (lc_store EO).
Proof.
  intros E EO c f size b data rf W H. apply (touches_spec (lc_store EO) lown (lc_ops_fr EO) c f rf W).
  destruct H as [-> |[-> | ->]]; cbn [lc_store st_new_with_config st_new_from_slice_with_config st_new_from_disk].
  - apply lc_newc_touches.
  - apply lc_slicec_touches.
  - apply lc_from_disk_touches.
Qed.

(* delete *)
Definition deletes_own_file {E} (SO : StoreOps E) : Prop := forall c f,
  let '(r, f') := st_delete SO c f in
  (is_ok r = true <-> file_at f (cfg_path c) <> None) /\
  file_at f' (cfg_path c) = None /\
  (forall q, q <> cfg_path c -> file_at f' q = file_at f q).

Lemma remove_deletes c f : let '(r, f') := fs_remove (cfg_path c) f in
  (is_ok r = true <-> file_at f (cfg_path c) <> None) /\
  file_at f' (cfg_path c) = None /\
  (forall q, q <> cfg_path c -> file_at f' q = file_at f q).
Proof.
  unfold fs_remove, fs_exists, file_at. destruct (fs_dir f (cfg_path c)) eqn:G; cbn.
  - rewrite String.eqb_refl. split; [split; [congruence|auto]|]. split; [reflexivity|].
    intros q Hq. apply String.eqb_neq in Hq. rewrite Hq. reflexivity.
  - rewrite G. split; [split; congruence|]. auto.
Qed.
Theorem C51_disk_delete : forall E (EO : ElementOps E), deletes_own_file (disk_store EO).
Proof. intros E EO c f. exact (remove_deletes c f). Qed.
Theorem C51_level_cache_delete : forall E (EO : ElementOps E), deletes_own_file (lc_store EO).
Proof. intros E EO c f. exact (remove_deletes c f). Qed.

(* MmapStore::delete does nothing *)
Theorem C51_mmap_delete_refuted : forall E (EO : ElementOps E), ~ deletes_own_file (mmap_store_ops EO).
Proof.
  intros E EO H.
  specialize (H cfg0 {| fs_dir := fun _ => Some 0; fs_ino := fun _ => {| i_data := []; i_ro := false |}; fs_next := 1 |}).
  cbn in H. destruct H as (_ & H & _). discriminate.
Qed.

(* different ids in one directory are different files *)
Lemma append_inj_r a b c : (a ++ c)%string = (b ++ c)%string -> a = b.
Proof.
  assert (L : forall x y, String.length (x ++ y) = String.length x + String.length y).
  { induction x; intros y; simpl; auto. }
  assert (N : forall d x, x = (String d x ++ c)%string -> False) by (intros; apply (f_equal String.length) in H; rewrite L in H; simpl in H; lia).
  revert b. induction a as [|x a IH]; intros [|y b] H; simpl in H; auto.
  - apply (f_equal String.length) in H. simpl in H. rewrite L in H. lia.
  - apply (f_equal String.length) in H. simpl in H. rewrite L in H. lia.
  - inversion H. f_equal. apply IH. auto.
Qed.
Lemma append_inj_l a b c : (c ++ a)%string = (c ++ b)%string -> a = b.
Proof. induction c; simpl; intros H; [auto|]. inversion H. auto. Qed.

Theorem C51_paths : forall c1 c2, sc_path c1 = sc_path c2 -> sc_id c1 <> sc_id c2 -> cfg_path c1 <> cfg_path c2.
Proof.
  intros [p1 i1 z1 r1] [p2 i2 z2 r2]. cbn. intros <- Hne H. apply Hne. clear Hne.
  unfold cfg_path, data_path, path_join in H. cbn [sc_path sc_id] in H.
  destruct p1 as [|x p].
  - apply append_inj_l in H. apply append_inj_r in H. exact H.
  - destruct (String.eqb _ "/").
    + apply append_inj_l in H. apply append_inj_l in H. apply append_inj_r in H. exact H.
    + apply append_inj_l in H. cbn [append] in H. apply (append_inj_l _ _ "/sc-02-data-") in H. apply append_inj_r in H. exact H.
Qed.

(* two stores in one directory: building and compacting one leaves the other alone *)
Definition cfg_a : StoreConfig := {| sc_path := "/d"; sc_id := "a"; sc_size := None; sc_rows_to_discard := 1 |}.
Example C51_case :
  match disk_new_from_slice_with_config BO 15 2 (repeat x07 8) cfg0 fs_empty with
  | (Ok s0, f0) =>
      match disk_new_from_slice_with_config BO 15 2 (repeat x05 8) cfg_a f0 with
      | (Ok s, f) =>
          let '(ks, st) := run_fops (disk_store BO) cfg_a
             [FBuild env1 sum_alg 2 8 4 true; FCompact (fun _ => 2) 2 2; FUpdate (OPush (el 3)); FSync] (s, f) in
          ks = [true; true; true; true] /\ file_at (snd st) (cfg_path cfg0) = file_at f0 (cfg_path cfg0) /\
          file_at (snd st) (cfg_path cfg_a) <> file_at f (cfg_path cfg_a)
      | _ => False end
  | _ => False end.
Proof. vm_compute. split; [reflexivity|]. split; [reflexivity|discriminate]. Qed.

(* the hypothesis holds for file systems made by creating files *)
Example C51_ok : fs_ok (snd (fs_create_new (cfg_path cfg_a) (snd (fs_create_new (cfg_path cfg0) fs_empty)))).
Proof.
  split; cbn; intros p; intros;
  repeat match goal with H : context [String.eqb ?x ?y] |- _ => destruct (String.eqb_spec x y) end; try discriminate;
  repeat match goal with H : Some _ = Some _ |- _ => injection H as H end; subst; try lia; auto.
Qed.

(* ---- C50 ---- *)
Section RO.
  Context {E : Type} (EO : ElementOps E) (EL : ElementLaws EO).
  Local Notation bl := (e_byte_len EO).

  (* one operation on a store with a read-only handle on a read-only file *)
  Lemma map_layer_ro {T} (file : T -> handle) rr A b chunk sched w lev rs ws (st : T * fs) :
    h_write (file (fst st)) = false ->
    exists e, mmap_process_layer EO A b chunk file rr sched w lev rs ws st = (Err e, st).
  Proof.
    intros H. unfold mmap_process_layer, mmap_layer_by. rewrite (sbind_ok _ _ st st st) by reflexivity.
    unfold fs_map_mut. rewrite H. eexists. reflexivity.
  Qed.
  Lemma write_ro h off d f : h_write h = false -> d <> [] -> fs_write_all_at h off d f = (Err "bad file descriptor", f).
  Proof. intros H Hd. unfold fs_write_all_at. rewrite H. destruct d; [congruence|reflexivity]. Qed.
  Lemma as_ref_ne x : e_as_ref EO x <> [].
  Proof. intros H. pose proof (el_len EO EL x) as L. pose proof (el_pos EO EL). rewrite H in L. simpl in L. lia. Qed.

  Section Disk.
    Variables (c : StoreConfig) (i : nat) (f : fs).
    Hypothesis Hp : at_path (cfg_path c) i f.
    Hypothesis Hro : i_ro (fs_ino f i) = true.
    Variable s : disk_t.
    Hypothesis Hw : h_write (ds_file s) = false.

    Lemma disk_copy_ro off d n : d <> [] ->
      exists e, disk_store_copy_from_slice off d (ds_set_len s n, f) = (Err e, (ds_set_len s n, f)).
    Proof.
      intros Hd. unfold disk_store_copy_from_slice. cbn [fst snd ds_set_len ds_file ds_size]. destruct (_ <=? _); [|eexists; reflexivity].
      unfold on_fs. cbn [fst snd ds_set_len ds_file]. rewrite write_ro by auto. eexists. reflexivity.
    Qed.
    Lemma disk_write_ro x k n : exists e, disk_write_at EO x k (ds_set_len s n, f) = (Err e, (ds_set_len s n, f)).
    Proof.
      destruct (disk_copy_ro (k * bl) (e_as_ref EO x) n (as_ref_ne x)) as [e H].
      unfold disk_write_at, sbind at 1. rewrite H. eexists; reflexivity.
    Qed.

    Lemma disk_fop_ro o n : exists k m, run_fop (disk_store EO) c o (ds_set_len s n, f) = (k, (ds_set_len s m, f)) /\
      (attempts o = true -> k = false /\ m = n).
    Proof.
      destruct o as [u|sizes b v|en A b leafs rc wc| |]; cbn [run_fop].
      - destruct u as [x k|bs start|x]; cbn [run_op disk_store st_write_at st_copy_from_slice st_push].
        + destruct (disk_write_ro x k n) as [e ->]. eexists _, n. split; [reflexivity|auto].
        + unfold disk_copy_from_slice. destruct (_ =? 0) eqn:Hm; [|eexists _, n; split; [reflexivity|auto]].
          unfold ensure. rewrite (sbind_ok _ _ _ tt (ds_set_len s n, f)) by reflexivity.
          destruct bs as [|x bs].
          * unfold disk_store_copy_from_slice. cbn [List.length fst ds_set_len ds_size].
            unfold sbind. destruct (_ <=? _).
            -- cbn. eexists _, _. split; [reflexivity|discriminate].
            -- eexists _, n. split; [reflexivity|discriminate].
          * destruct (disk_copy_ro (start * bl) (x :: bs) n ltac:(discriminate)) as [e G].
            unfold sbind at 1. rewrite G. eexists _, n. split; [reflexivity|auto].
        + unfold disk_push. rewrite (sbind_ok _ _ _ (ds_set_len s n, f) (ds_set_len s n, f)) by reflexivity.
          destruct (_ <=? _); [|eexists _, n; split; [reflexivity|auto]].
          unfold ensure. rewrite (sbind_ok _ _ _ tt (ds_set_len s n, f)) by reflexivity.
          destruct (disk_write_ro x (ds_len (ds_set_len s n)) n) as [e G]. cbn [fst]. rewrite G. eexists _, n. split; [reflexivity|auto].
      - cbn [disk_store st_compact]. unfold disk_compact, disk_compact_with. rewrite (sbind_ok _ _ _ (ds_set_len s n, f) (ds_set_len s n, f)) by reflexivity.
        cbn [fst snd].
        assert (X : forall {A} (r : res A) (k : A -> SM (disk_t * fs) bool) st,
          (forall a, r = Ok a -> snd (k a st) = st /\ is_ok (fst (k a st)) = false) ->
          snd (sbind (slift r) k st) = st /\ is_ok (fst (sbind (slift r) k st)) = false).
        { intros A r k st Hk. unfold sbind, slift. destruct r; cbn; auto. }
        match goal with |- context [flag _ ?x] => assert (Y : snd x = (ds_set_len s n, f) /\ is_ok (fst x) = false) end.
        { do 5 (apply X; intros). apply X. intros wh Hwh. exfalso. unfold fs_open_rw in Hwh. rewrite Hp, Hro in Hwh. discriminate. }
        destruct Y as [Y1 Y2]. eexists false, n. split; [unfold flag; f_equal; [exact Y2|exact Y1]|auto].
      - cbn [disk_store st_build attempts].
        assert (X : forall {A} (r : res A) (k : A -> SM (disk_t * fs) E) st,
          (forall a, r = Ok a -> snd (k a st) = st /\ (1 < leafs -> is_ok (fst (k a st)) = false)) ->
          snd (sbind (slift r) k st) = st /\ (1 < leafs -> is_ok (fst (sbind (slift r) k st)) = false)).
        { intros A0 r k st Hk. unfold sbind, slift. destruct r; cbn; auto. }
        match goal with |- context [flag _ ?x] => assert (Y : snd x = (ds_set_len s n, f) /\ (1 < leafs -> is_ok (fst x) = false)) end.
        { unfold disk_build_fuel. apply X; intros. rewrite (sbind_ok _ _ _ (ds_set_len s n, f) (ds_set_len s n, f)) by reflexivity.
          do 2 (apply X; intros). cbn [disk_build_loop]. destruct (1 <? leafs) eqn:Hl.
          - destruct (map_layer_ro ds_file (fun st s e => disk_check EO st (s * bl) (e * bl)) A b (p_chunk (env_params en)) (env_bytes en 0) leafs 0 0 (ds_len (ds_set_len s n)) (ds_set_len s n, f) Hw) as [e G].
            match goal with |- context [sbind (sbind (level_bounds ?l ?x ?y ?z) ?k1) ?k2 ?st] =>
              assert (Z : sbind (sbind (level_bounds l x y z) k1) k2 st = (Err e, st)) end.
            { unfold sbind at 1. rewrite (sbind_ok _ _ (ds_set_len s n, f) (0, ds_len (ds_set_len s n)) (ds_set_len s n, f)) by reflexivity.
              unfold disk_process_layer. unfold sbind at 1. rewrite G. reflexivity. }
            rewrite Z. cbn. auto.
          - unfold sbind at 1. cbn [sret]. apply X. intros. rewrite (sbind_ok _ _ _ (ds_set_len s n, f) (ds_set_len s n, f)) by reflexivity.
            do 2 (apply X; intros). cbn. split; [reflexivity|lia]. }
        destruct Y as [Y1 Y2]. eexists _, n. split; [unfold flag; f_equal; exact Y1|]. intros. split; [apply Y2; lia|reflexivity].
      - eexists _, n. split; [reflexivity|discriminate].
      - eexists _, n. split; [reflexivity|discriminate].
    Qed.

    Lemma disk_fops_ro ops : forall n, exists ks m, run_fops (disk_store EO) c ops (ds_set_len s n, f) = (ks, (ds_set_len s m, f)) /\
      Forall2 (fun o k => attempts o = true -> k = false) ops ks /\ (Forall (fun o => attempts o = true) ops -> m = n).
    Proof.
      induction ops as [|o ops IH]; intros n; cbn [run_fops].
      - exists [], n. auto.
      - destruct (disk_fop_ro o n) as (k & m & -> & H2). destruct (IH m) as (ks & m' & -> & H3 & H4).
        exists (k :: ks), m'. split; [reflexivity|]. split; [constructor; [apply H2|exact H3]|].
        intros HF. inversion HF; subst. rewrite H4 by auto. apply H2. auto.
    Qed.
  End Disk.

  Section Lc.
    Variables (c : StoreConfig) (i : nat) (f : fs).
    Hypothesis Hp : at_path (cfg_path c) i f.
    Hypothesis Hro : i_ro (fs_ino f i) = true.
    Variable s : lc_t.
    Hypothesis Hw : h_write (lc_file s) = false.

    Lemma lc_copy_ro off d n : d <> [] ->
      exists e, lc_store_copy_from_slice off d (lc_set_len s n, f) = (Err e, (lc_set_len s n, f)).
    Proof.
      intros Hd. unfold lc_store_copy_from_slice. cbn [fst snd lc_set_len lc_file lc_size]. destruct (_ <=? _); [|eexists; reflexivity].
      unfold on_fs. cbn [fst snd lc_set_len lc_file]. rewrite write_ro by auto. eexists. reflexivity.
    Qed.
    Lemma lc_write_ro x k n : exists e, lc_write_at EO x k (lc_set_len s n, f) = (Err e, (lc_set_len s n, f)).
    Proof.
      destruct (lc_copy_ro (k * bl) (e_as_ref EO x) n (as_ref_ne x)) as [e H].
      unfold lc_write_at, sbind at 1. rewrite H. eexists; reflexivity.
    Qed.

    Lemma lc_fop_ro o n : exists k m, run_fop (lc_store EO) c o (lc_set_len s n, f) = (k, (lc_set_len s m, f)) /\
      (attempts o = true -> k = false /\ m = n).
    Proof.
      destruct o as [u|sizes b v|en A b leafs rc wc| |]; cbn [run_fop].
      - destruct u as [x k|bs start|x]; cbn [run_op lc_store st_write_at st_copy_from_slice st_push].
        + destruct (lc_write_ro x k n) as [e ->]. eexists _, n. split; [reflexivity|auto].
        + unfold lc_copy_from_slice. destruct (_ =? 0) eqn:Hm; [|eexists _, n; split; [reflexivity|auto]].
          unfold ensure. rewrite (sbind_ok _ _ _ tt (lc_set_len s n, f)) by reflexivity.
          destruct bs as [|x bs].
          * unfold lc_store_copy_from_slice. cbn [List.length fst lc_set_len lc_size].
            unfold sbind. destruct (_ <=? _).
            -- cbn. eexists _, _. split; [reflexivity|discriminate].
            -- eexists _, n. split; [reflexivity|discriminate].
          * destruct (lc_copy_ro (start * bl) (x :: bs) n ltac:(discriminate)) as [e G].
            unfold sbind at 1. rewrite G. eexists _, n. split; [reflexivity|auto].
        + unfold lc_push. rewrite (sbind_ok _ _ _ (lc_set_len s n, f) (lc_set_len s n, f)) by reflexivity.
          destruct (_ <=? _); [|eexists _, n; split; [reflexivity|auto]].
          unfold ensure. rewrite (sbind_ok _ _ _ tt (lc_set_len s n, f)) by reflexivity.
          destruct (lc_write_ro x (lc_len (lc_set_len s n)) n) as [e G]. cbn [fst]. rewrite G. eexists _, n. split; [reflexivity|auto].
      - eexists _, n. split; [reflexivity|auto].
      - cbn [lc_store st_build attempts].
        assert (X : forall {A} (r : res A) (k : A -> SM (lc_t * fs) E) st,
          (forall a, r = Ok a -> exists m, snd (k a st) = (lc_set_len s m, f) /\ (1 < leafs -> is_ok (fst (k a st)) = false /\ m = n)) ->
          st = (lc_set_len s n, f) ->
          exists m, snd (sbind (slift r) k st) = (lc_set_len s m, f) /\ (1 < leafs -> is_ok (fst (sbind (slift r) k st)) = false /\ m = n)).
        { intros A0 r k st Hk Hst. unfold sbind, slift. destruct r; [apply Hk; reflexivity| | |]; exists n; cbn; auto. }
        match goal with |- context [flag _ ?x] => assert (Y : exists m, snd x = (lc_set_len s m, f) /\ (1 < leafs -> is_ok (fst x) = false /\ m = n)) end.
        { unfold lc_build_fuel. apply X; [intros|reflexivity].
          rewrite (sbind_ok _ _ _ (lc_set_len s n, f) (lc_set_len s n, f)) by reflexivity.
          do 6 (apply X; [intros|reflexivity]). cbn [lc_build_loop]. destruct (1 <? leafs) eqn:Hl.
          - destruct (map_layer_ro lc_file (fun st s e => lc_check EO st (s * bl) (e * bl)) A b (p_chunk (env_params en)) (env_bytes en 0) leafs 0 0 (lc_len (lc_set_len s n)) (lc_set_len s n, f) Hw) as [e G].
            match goal with |- context [sbind (sbind sget ?k1) ?k2 ?st] =>
              assert (Z : sbind (sbind sget k1) k2 st = (Err e, st)) end.
            { unfold sbind at 1. rewrite (sbind_ok _ _ (lc_set_len s n, f) (lc_set_len s n, f) (lc_set_len s n, f)) by reflexivity.
              cbn [Nat.eqb fst]. unfold lc_process_layer. unfold sbind at 1. rewrite G. reflexivity. }
            rewrite Z. exists n. cbn. auto.
          - unfold sbind at 1. cbn [sret].
            rewrite (sbind_ok _ _ _ (lc_set_len s n, f) (lc_set_len s n, f)) by reflexivity.
            cbn [fst lc_set_len lc_len].
            assert (Z : forall (k : SM (lc_t * fs) E), (forall st, snd (k st) = st) ->
               exists m, snd (sbind (lc_upd_len (n + 1)) (fun _ => k) (lc_set_len s n, f)) = (lc_set_len s m, f) /\
                (1 < leafs -> is_ok (fst (sbind (lc_upd_len (n + 1)) (fun _ => k) (lc_set_len s n, f))) = false /\ m = n)).
            { intros k Hk. exists (n + 1). unfold sbind, lc_upd_len. cbn [fst snd]. rewrite Hk. split; [reflexivity|lia]. }
            apply Z. intros st0. unfold sbind, sget, slift, sreads. cbn [fst snd].
            repeat match goal with |- context [match ?r with Ok _ => _ | _ => _ end] => destruct r end; reflexivity. }
        destruct Y as (m & Y1 & Y2). eexists _, m. split; [unfold flag; f_equal; exact Y1|]. intros. apply Y2. lia.
      - eexists _, n. split; [reflexivity|discriminate].
      - eexists _, n. split; [reflexivity|discriminate].
    Qed.

    Lemma lc_fops_ro ops : forall n, exists ks m, run_fops (lc_store EO) c ops (lc_set_len s n, f) = (ks, (lc_set_len s m, f)) /\
      Forall2 (fun o k => attempts o = true -> k = false) ops ks /\ (Forall (fun o => attempts o = true) ops -> m = n).
    Proof.
      induction ops as [|o ops IH]; intros n; cbn [run_fops].
      - exists [], n. auto.
      - destruct (lc_fop_ro o n) as (k & m & -> & H2). destruct (IH m) as (ks & m' & -> & H3 & H4).
        exists (k :: ks), m'. split; [reflexivity|]. split; [constructor; [apply H2|exact H3]|].
        intros HF. inversion HF; subst. rewrite H4 by auto. apply H2. auto.
    Qed.
  End Lc.
End RO.

(* every operation that would change the file fails, the file system never changes, and
   unless an operation without effect (an empty slice) succeeded neither does the store *)
Theorem C50_disk_writes : forall E (EO : ElementOps E), ElementLaws EO ->
  forall c i f size b s f' ops, fs_dir f (cfg_path c) = Some i -> i_ro (fs_ino f i) = true ->
  st_new_from_disk (disk_store EO) size b c f = (Ok s, f') ->
  let '(ks, st) := run_fops (disk_store EO) c ops (s, f') in
  snd st = f /\ Forall2 (fun o k => attempts o = true -> k = false) ops ks /\
  (Forall (fun o => attempts o = true) ops -> st = (s, f')).
Proof.
  intros E EO EL c i f size b s f' ops Hp Hro H. cbn [disk_store st_new_from_disk] in H.
  unfold disk_new_from_disk, disk_new_from_disk_with_path in H.
  unfold fs_exists, fs_open_rw, fs_open_ro in H. rewrite Hp, Hro in H. cbn [ensure rbind] in H.
  destruct (_ =? _); cbn [ensure rbind] in H; [|discriminate]. injection H as Hs0 Hf0. subst f'.
  assert (Hw : h_write (ds_file s) = false) by (subst s; reflexivity). clear Hs0.
  destruct (disk_fops_ro EO EL c i f Hp Hro s Hw ops (ds_len s)) as (ks & m & G1 & G2 & G3).
  assert (Hs : ds_set_len s (ds_len s) = s) by (destruct s; reflexivity). rewrite Hs in G1.
  match goal with |- context [run_fops ?a ?b ?c ?d] => replace (run_fops a b c d) with (ks, (ds_set_len s m, f)) by (symmetry; exact G1) end.
  split; [reflexivity|]. split; [exact G2|]. intros HF. rewrite G3 by auto. rewrite Hs. reflexivity.
Qed.

Theorem C50_level_cache_writes : forall E (EO : ElementOps E), ElementLaws EO ->
  forall c i f size b s f' ops, fs_dir f (cfg_path c) = Some i -> i_ro (fs_ino f i) = true ->
  (st_new_from_disk (lc_store EO) size b c f = (Ok s, f') \/
   exists r, lc_new_from_disk_with_reader EO size b c r f = (Ok s, f')) ->
  let '(ks, st) := run_fops (lc_store EO) c ops (s, f') in
  snd st = f /\ Forall2 (fun o k => attempts o = true -> k = false) ops ks /\
  (Forall (fun o => attempts o = true) ops -> st = (s, f')).
Proof.
  intros E EO EL c i f size b s f' ops Hp Hro H.
  assert (HH : h_write (lc_file s) = false /\ f' = f).
  { destruct H as [H|[r H]]; [cbn [lc_store st_new_from_disk] in H; unfold lc_new_from_disk in H|unfold lc_new_from_disk_with_reader in H];
    unfold fs_exists, lc_open, fs_open_rw, fs_open_ro in H; rewrite Hp, Hro in H; cbn [ensure rbind] in H;
    (destruct (get_merkle_tree_leafs size b); cbn [rbind] in H; try discriminate);
    (destruct (_ =? _); cbn [ensure rbind] in H; try discriminate);
    (destruct (get_merkle_tree_cache_size _ _ _); cbn [rbind] in H; try discriminate);
    (destruct (checked_sub _ _); cbn [rbind] in H; try discriminate).
    - inversion H. auto.
    - destruct (_ =? _); cbn [ensure rbind] in H; [|discriminate]. inversion H. auto. }
  destruct HH as [Hw ->].
  destruct (lc_fops_ro EO EL c i f Hro s Hw ops (lc_len s)) as (ks & m & G1 & G2 & G3).
  assert (Hs : lc_set_len s (lc_len s) = s) by (destruct s; reflexivity). rewrite Hs in G1.
  match goal with |- context [run_fops ?a ?b ?c ?d] => replace (run_fops a b c d) with (ks, (lc_set_len s m, f)) by (symmetry; exact G1) end.
  split; [reflexivity|]. split; [exact G2|]. intros HF. rewrite G3 by auto. rewrite Hs. reflexivity.
Qed.

(* opening succeeds exactly as on the writable file and then serves the same reads *)
Definition opens_alike {E} (SO : StoreOps E) (x y : res (st_t SO) * fs) : Prop :=
  match fst x, fst y with
  | Ok s1, Ok s2 => same_reads SO (s1, snd x) (s2, snd y)
  | Ok _, _ | _, Ok _ => False
  | _, _ => True
  end.

Lemma writable_data f i j : fs_data (fs_writable f i) j = fs_data f j.
Proof. unfold fs_data, fs_writable. cbn. destruct (j =? i) eqn:G; [|reflexivity]. apply Nat.eqb_eq in G. subst. reflexivity. Qed.
Lemma writable_size f i h h' : h_ino h = h_ino h' -> fs_size (fs_writable f i) h' = fs_size f h.
Proof. intros H. unfold fs_size. rewrite writable_data, H. reflexivity. Qed.
Lemma writable_read f i h h' off n : h_ino h = h_ino h' -> fs_read_exact_at (fs_writable f i) h' off n = fs_read_exact_at f h off n.
Proof. intros H. unfold fs_read_exact_at. rewrite (writable_size f i h h'), writable_data, H by auto. reflexivity. Qed.

Theorem C50_disk_reads : forall E (EO : ElementOps E) c i f size b,
  fs_dir f (cfg_path c) = Some i -> i_ro (fs_ino f i) = true ->
  opens_alike (disk_store EO) (st_new_from_disk (disk_store EO) size b c f)
                              (st_new_from_disk (disk_store EO) size b c (fs_writable f i)).
Proof.
  intros E EO c i f size b Hp Hro. cbn [disk_store st_new_from_disk].
  unfold disk_new_from_disk, disk_new_from_disk_with_path, opens_alike. cbn [fst snd].
  unfold fs_exists, fs_open_rw, fs_open_ro. cbn [fs_writable fs_dir fs_ino]. rewrite Hp, Nat.eqb_refl, Hro. cbn [ensure rbind i_ro].
  rewrite (writable_size f i {| h_ino := i; h_write := false |} {| h_ino := i; h_write := true |}) by reflexivity.
  destruct (_ =? _); cbn [ensure rbind]; [|exact I].
  unfold same_reads. cbn [fst st_len st_read_at st_read_range st_read_into st_read_range_into disk_store ds_len].
  assert (R : forall off n, fs_read_exact_at (fs_writable f i) {| h_ino := i; h_write := true |} off n
                          = fs_read_exact_at f {| h_ino := i; h_write := false |} off n)
    by (intros; apply writable_read; reflexivity).
  unfold disk_read_at, disk_read_range, disk_read_into, disk_read_range_into, disk_check, disk_store_read_range, disk_store_read_into.
  cbn [fst snd ds_len ds_file]. split; [reflexivity|].
  split; [intros; destruct (_ <? _); cbn [ensure rbind]; [|reflexivity]; destruct (_ <=? _); cbn [ensure rbind]; [|reflexivity]; destruct (checked_sub _ _); cbn [rbind]; rewrite ?R; reflexivity|].
  split; [intros; destruct (_ <? _); cbn [ensure rbind]; [|reflexivity]; destruct (_ <=? _); cbn [ensure rbind]; [|reflexivity]; destruct (checked_sub _ _); cbn [rbind]; rewrite ?R; reflexivity|].
  split; intros; destruct (_ <? _); cbn [ensure rbind]; try reflexivity; destruct (_ <=? _); cbn [ensure rbind]; rewrite ?R; reflexivity.
Qed.

Lemma lc_same_reads {E} (EO : ElementOps E) f f2 s1 s2 :
  lc_len s1 = lc_len s2 -> lc_data_width s1 = lc_data_width s2 -> lc_cache_index_start s1 = lc_cache_index_start s2 ->
  lc_reader s1 = lc_reader s2 ->
  (forall off n, fs_read_exact_at f (lc_file s1) off n = fs_read_exact_at f2 (lc_file s2) off n) ->
  (forall r, lc_reader s1 = Some r -> forall a b buf, er_read_fn r f a b buf = er_read_fn r f2 a b buf) ->
  same_reads (lc_store EO) (s1, f) (s2, f2).
Proof.
  intros H1 H2 H3 H4 R RR.
  assert (B : forall a, lc_in_bounds EO s1 a = lc_in_bounds EO s2 a) by (intros; unfold lc_in_bounds; rewrite H2, H3; reflexivity).
  assert (K : forall a b, lc_check EO (s1, f) a b = lc_check EO (s2, f2) a b) by (intros; unfold lc_check; cbn [fst]; rewrite H1, B; reflexivity).
  assert (J : forall a, lc_adjust EO s1 a = lc_adjust EO s2 a) by (intros; unfold lc_adjust; rewrite H2, H3, H4; reflexivity).
  assert (Q1 : forall a b, lc_store_read_range EO (s1, f) a b = lc_store_read_range EO (s2, f2) a b).
  { intros a b. unfold lc_store_read_range. cbn [fst snd]. rewrite B, J, H2, <- H4.
    destruct (checked_sub b a); cbn [rbind]; auto. destruct (ensure _ _); cbn [rbind]; auto.
    destruct (a <? _); [|apply R]. destruct (lc_reader s1) as [r|] eqn:G; [|apply R]. unfold er_data, er_read. rewrite (RR r eq_refl). reflexivity. }
  assert (Q2 : forall a b buf, lc_store_read_into EO (s1, f) a b buf = lc_store_read_into EO (s2, f2) a b buf).
  { intros a b buf. unfold lc_store_read_into. cbn [fst snd]. rewrite B, J, H2, <- H4.
    destruct (ensure _ _); cbn [rbind]; auto.
    destruct (a <? _); [|apply R]. destruct (lc_reader s1) as [r|] eqn:G; [|apply R]. unfold er_data, er_read. rewrite (RR r eq_refl). reflexivity. }
  unfold same_reads. cbn [fst st_len st_read_at st_read_range st_read_into st_read_range_into lc_store].
  split; [exact H1|]. unfold lc_read_at, lc_read_range, lc_read_into, lc_read_range_into.
  split; [intros; rewrite K, Q1; reflexivity|]. split; [intros; rewrite K, Q1; reflexivity|].
  split; intros; rewrite K, Q2; reflexivity.
Qed.

Theorem C50_level_cache_reads : forall E (EO : ElementOps E) c i f size b,
  fs_dir f (cfg_path c) = Some i -> i_ro (fs_ino f i) = true ->
  opens_alike (lc_store EO) (st_new_from_disk (lc_store EO) size b c f)
                            (st_new_from_disk (lc_store EO) size b c (fs_writable f i)).
Proof.
  intros E EO c i f size b Hp Hro. cbn [lc_store st_new_from_disk].
  unfold lc_new_from_disk, opens_alike. cbn [fst snd].
  unfold fs_exists, lc_open, fs_open_rw, fs_open_ro. cbn [fs_writable fs_dir fs_ino]. rewrite Hp, Nat.eqb_refl, Hro. cbn [ensure rbind i_ro].
  rewrite (writable_size f i {| h_ino := i; h_write := false |} {| h_ino := i; h_write := true |}) by reflexivity.
  destruct (get_merkle_tree_leafs size b); cbn [rbind]; try exact I.
  destruct (_ =? _); cbn [ensure rbind]; [|exact I].
  destruct (get_merkle_tree_cache_size _ _ _); cbn [rbind]; try exact I.
  destruct (checked_sub _ _); cbn [rbind]; try exact I.
  apply lc_same_reads; try reflexivity; [|discriminate].
  intros. symmetry. apply writable_read. reflexivity.
Qed.
Theorem C50_level_cache_reader_reads : forall E (EO : ElementOps E) c i f size b r,
  fs_dir f (cfg_path c) = Some i -> i_ro (fs_ino f i) = true ->
  (forall s e buf, er_read_fn r f s e buf = er_read_fn r (fs_writable f i) s e buf) ->
  opens_alike (lc_store EO) (lc_new_from_disk_with_reader EO size b c r f)
                            (lc_new_from_disk_with_reader EO size b c r (fs_writable f i)).
Proof.
  intros E EO c i f size b r Hp Hro Hr.
  unfold lc_new_from_disk_with_reader, opens_alike. cbn [fst snd].
  unfold fs_exists, lc_open, fs_open_rw, fs_open_ro. cbn [fs_writable fs_dir fs_ino]. rewrite Hp, Nat.eqb_refl, Hro. cbn [ensure rbind i_ro].
  rewrite (writable_size f i {| h_ino := i; h_write := false |} {| h_ino := i; h_write := true |}) by reflexivity.
  destruct (get_merkle_tree_leafs size b); cbn [rbind]; try exact I.
  destruct (_ =? _); cbn [ensure rbind]; [|exact I].
  destruct (get_merkle_tree_cache_size _ _ _); cbn [rbind]; try exact I.
  destruct (checked_sub _ _); cbn [rbind]; try exact I.
  destruct (_ =? _); cbn [ensure rbind]; [|exact I].
  apply lc_same_reads; try reflexivity.
  - intros. symmetry. apply writable_read. reflexivity.
  - cbn [lc_reader]. intros r0 Hr0. inversion Hr0. subst. exact Hr.
Qed.

(* MmapStore has no read-only mode: both constructors panic and leave the files alone *)
Theorem C50_mmap_panics : forall E (EO : ElementOps E) c i f size b,
  fs_dir f (cfg_path c) = Some i -> i_ro (fs_ino f i) = true ->
  (exists e, st_new_from_disk (mmap_store_ops EO) size b c f = (Panic e, f)) /\
  (exists e, st_new_with_config (mmap_store_ops EO) size b c f = (Panic e, f)).
Proof.
  intros E EO c i f size b Hp Hro.
  assert (G : exists e, mmap_new_from_disk EO size b c f = (Panic e, f)).
  { unfold mmap_new_from_disk, fs_exists, fs_open_rw. rewrite Hp, Hro. eexists. reflexivity. }
  split; [exact G|]. destruct G as [e G]. exists e. cbn [mmap_store_ops st_new_with_config]. unfold mmap_new_with_config, fs_exists. unfold sbind at 1. cbn [sget]. rewrite Hp. exact G.
Qed.

(* a read-only file with a four-leaf tree *)
Definition fs_ro : fs := {|
  fs_dir := fun p => if String.eqb p (cfg_path cfg0) then Some 0 else None;
  fs_ino := fun _ => {| i_data := [x01; x02; x03; x04; x05; x06; x07]; i_ro := true |};
  fs_next := 1 |}.
Example C50_case :
  match st_new_from_disk (disk_store BO) 7 2 cfg0 fs_ro with
  | (Ok s, f) =>
      let '(ks, st) := run_fops (disk_store BO) cfg0
        [FUpdate (OWrite (el 9) 0); FCompact (fun _ => 0) 2 1; FUpdate (OCopy [x01] 3); FUpdate (OCopy [] 3); FSync] (s, f) in
      ks = [false; false; false; true; true] /\
      rbind (disk_read_range BO st 0 7) (fun l => Ok (map val l)) = Ok [1; 2; 3; 4; 5; 6; 7]
  | _ => False
  end.
Proof. vm_compute. split; reflexivity. Qed.

Print Assumptions C51_disk.
Print Assumptions C51_mmap.
Print Assumptions C51_level_cache.
Print Assumptions C51_disk_delete.
Print Assumptions C51_level_cache_delete.
Print Assumptions C51_mmap_delete_refuted.
Print Assumptions C51_paths.
Print Assumptions C50_disk_writes.
Print Assumptions C50_level_cache_writes.
Print Assumptions C50_disk_reads.
Print Assumptions C50_level_cache_reads.
Print Assumptions C50_level_cache_reader_reads.
Print Assumptions C50_mmap_panics.
