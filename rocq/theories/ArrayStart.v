(* The state of newly created stores. *)
From Coq Require Import String List Arith Bool Lia Init.Byte ZifyBool ZifyNat.
From Verif Require Import Base Element Hash Sizing FS Sched Store VecStore DiskStore MmapStore LevelCache ListFacts Spec SpecFacts SizingFacts SchedFacts StoreLaws RowFacts ChunkFacts BuildFacts BuildLoop StoreSpec FileFacts MapLayer DiskFacts ArraySpec ArrayFacts.
Import ListNotations.

Lemma arr_put_nil {E} (z : E) els : arr_put z [] 0 els = els.
Proof.
  apply nth_error_ext. intros i. destruct (le_lt_dec (List.length els) i).
  - rewrite !nth_error_past; auto. rewrite arr_put_length. simpl. lia.
  - rewrite arr_put_error by (simpl; lia). simpl. rewrite Nat.sub_0_r.
    replace (i <? List.length els) with true by lia. symmetry. apply nth_nth_error. auto.
Qed.

Section Start.
  Context {E : Type} (EO : ElementOps E) (EL : ElementLaws EO).
  Local Notation bl := (e_byte_len EO).
  Variable z : E.
  Hypothesis Hz : e_from_slice EO (repeat x00 bl) = Ok z.

  Lemma disk_new_arr cap f s f' : disk_new EO cap f = (Ok s, f') -> disk_arr EO z cap [] (s, f') /\ ds_loaded s = false.
  Proof.
    intros H. destruct (tempfile_len f (bl * cap)) as (h & f1 & _ & H1 & H2 & HW & HD & HC).
    unfold disk_new in H. rewrite (sbind_ok _ _ _ _ _ H1), (sbind_ok _ _ _ _ _ H2) in H. inversion H. subst. clear H.
    split; [|reflexivity]. split; [reflexivity|]. split; [cbn; lia|]. split; [exact HW|]. cbn [fst snd ds_file].
    rewrite HD, Nat.mul_comm. apply FRep_zero. exact Hz.
  Qed.
  Lemma disk_newc_arr cap b c f s f' : fs_dir f (cfg_path c) = None -> disk_new_with_config EO cap b c f = (Ok s, f') ->
    disk_arr EO z cap [] (s, f') /\ ds_loaded s = false.
  Proof.
    intros Hp H. destruct (create_new_len f (cfg_path c) (bl * cap) Hp) as (h & f1 & f2 & H1 & H2 & HW & HD & _).
    unfold disk_new_with_config in H. rewrite (sbind_ok _ _ f f f) in H by reflexivity.
    unfold fs_exists in H. rewrite Hp in H. rewrite (sbind_ok _ _ _ _ _ H1), (sbind_ok _ _ _ _ _ H2) in H.
    inversion H. subst. clear H.
    split; [|reflexivity]. split; [reflexivity|]. split; [cbn; lia|]. split; [exact HW|]. cbn [fst snd ds_file].
    rewrite HD, Nat.mul_comm. apply FRep_zero. exact Hz.
  Qed.
  Lemma disk_fill_arr cap data els s f s' f' : disk_arr EO z cap [] (s, f) ->
    List.length data mod bl = 0 -> decode EO data = Ok els ->
    disk_fill EO data s f = (Ok s', f') -> disk_arr EO z cap els (s', f').
  Proof.
    intros HR Hm Hd H. destruct (els_len EO EL z data els Hm Hd) as [Hl Hq].
    pose proof (el_pos EO EL). pose proof HR as (H1 & H2 & H3 & HD). cbn [fst snd] in *.
    unfold disk_fill in H. destruct (le_lt_dec (List.length els) cap) as [L|L].
    - destruct (disk_put EO EL z cap [] (s, f) 0 data els HR Hm Hd L) as (f1 & G1 & G2 & _).
      cbn [Nat.mul] in G1. rewrite G1 in H. inversion H. subst. rewrite arr_put_nil in G2.
      split; [exact Hq|]. auto.
    - rewrite disk_refuse in H; [discriminate|]. cbn [fst]. rewrite H2, Hl. nia.
  Qed.

  Lemma disk_created cap arr st : created EO (disk_store EO) cap arr st -> disk_arr EO z cap arr st.
  Proof.
    intros H. destruct H as [cap f s f' H|cap b c f s f' Hp H|cap data els f s f' Hm Hd H|cap b c data els f s f' Hp Hm Hd H];
      cbn [disk_store st_new st_new_with_config st_new_from_slice st_new_from_slice_with_config st_t] in *.
    - apply (disk_new_arr _ _ _ _ H).
    - apply (disk_newc_arr _ _ _ _ _ _ Hp H).
    - unfold disk_new_from_slice in H. rewrite Hm, Nat.eqb_refl in H. unfold ensure in H.
      rewrite (sbind_ok _ _ f tt f) in H by reflexivity.
      destruct (disk_new EO cap f) as [r f1] eqn:E1. unfold sbind in H. rewrite E1 in H. destruct r; try discriminate.
      destruct (disk_new_arr _ _ _ _ E1) as [HR _]. eapply disk_fill_arr; eauto.
    - unfold disk_new_from_slice_with_config in H. rewrite Hm, Nat.eqb_refl in H. unfold ensure in H.
      rewrite (sbind_ok _ _ f tt f) in H by reflexivity.
      destruct (disk_new_with_config EO cap b c f) as [r f1] eqn:E1. unfold sbind in H. rewrite E1 in H. destruct r; try discriminate.
      destruct (disk_newc_arr _ _ _ _ _ _ Hp E1) as [HR HL]. rewrite HL in H. eapply disk_fill_arr; eauto.
  Qed.

  Lemma file_arr cap arr data : decode EO data = Ok arr -> (List.length data =? cap * bl) = true -> FRep EO z cap arr data /\ List.length arr = cap.
  Proof.
    intros Hd Hl. apply Nat.eqb_eq in Hl. pose proof (el_pos EO EL).
    destruct (proj1 (decode_nth EO EL z data cap arr Hl) Hd) as [<- _]. split; [|reflexivity].
    apply (FRep_file EO EL); auto. rewrite Hl. apply Nat.mod_mul. lia.
  Qed.

  Lemma disk_reopened cap arr st : reopened EO (disk_store EO) cap arr st -> disk_arr EO z cap arr st.
  Proof.
    intros H. destruct H as [cap b c i els f s f' Hp Hro Hd H].
    cbn [disk_store st_new_from_disk st_t] in *. unfold disk_new_from_disk, disk_new_from_disk_with_path in H.
    unfold fs_exists, fs_open_rw, fs_size in H. rewrite Hp, Hro in H. cbn [ensure rbind h_ino] in H.
    destruct (_ =? _) eqn:G; [|discriminate]. cbn [ensure rbind] in H. inversion H. subst. clear H.
    destruct (file_arr cap els _ Hd G) as [HF HL]. split; [cbn; auto|]. split; [cbn; lia|]. split; [reflexivity|exact HF].
  Qed.

  (* ---- mmap ---- *)
  Lemma mmap_new_arr cap f s f' : mmap_new EO cap f = (Ok s, f') -> mm_arr EO z cap [] true (s, f').
  Proof.
    intros H. destruct (tempfile_len f (bl * cap)) as (h & f1 & _ & H1 & H2 & HW & HD & HC).
    unfold mmap_new in H. rewrite (sbind_ok _ _ _ _ _ H1), (sbind_ok _ _ _ _ _ H2) in H.
    unfold mm_map_mut, fs_map_mut, fs_size in H. unfold sbind at 1 in H. rewrite HW, HD, repeat_length in H. cbn [rbind] in H.
    inversion H. subst. clear H.
    split; [reflexivity|]. split; [exact HW|]. split; [cbn; f_equal; lia|]. cbn [fst snd mm_file].
    rewrite HD, Nat.mul_comm. apply FRep_zero. exact Hz.
  Qed.
  Lemma mmap_newc_arr cap b c f s f' : fs_dir f (cfg_path c) = None -> mmap_new_with_config EO cap b c f = (Ok s, f') ->
    mm_arr EO z cap [] true (s, f').
  Proof.
    intros Hp H. destruct (create_new_len f (cfg_path c) (bl * cap) Hp) as (h & f1 & f2 & H1 & H2 & HW & HD & _).
    unfold mmap_new_with_config in H. rewrite (sbind_ok _ _ f f f) in H by reflexivity.
    unfold fs_exists in H. rewrite Hp in H. rewrite (sbind_ok _ _ _ _ _ H1), (sbind_ok _ _ _ _ _ H2) in H.
    unfold mm_map_mut, fs_map_mut, fs_size in H. unfold sbind at 1 in H. rewrite HW, HD, repeat_length in H. cbn [rbind] in H.
    inversion H. subst. clear H.
    split; [reflexivity|]. split; [exact HW|]. split; [cbn; f_equal; lia|]. cbn [fst snd mm_file].
    rewrite HD, Nat.mul_comm. apply FRep_zero. exact Hz.
  Qed.
  Lemma mmap_fill_arr cap data els s f s' f' : mm_arr EO z cap [] true (s, f) ->
    List.length data mod bl = 0 -> decode EO data = Ok els ->
    mmap_fill EO data s f = (Ok s', f') -> mm_arr EO z cap els true (s', f').
  Proof.
    intros HR Hm Hd H. destruct (els_len EO EL z data els Hm Hd) as [Hl Hq].
    pose proof HR as (H1 & H2 & H3 & HD). cbn [fst snd] in *.
    unfold mmap_fill in H. unfold sbind, mmap_ensure_map in H. cbn [fst] in H. rewrite H3 in H.
    pose proof (mm_put EO EL z cap [] (s, f) 0 data els HR Hm Hd) as HP. cbn [Nat.mul Nat.add] in HP.
    destruct (List.length els <=? cap).
    - destruct HP as (f1 & G1 & G2 & _). rewrite G1 in H. inversion H. subst. rewrite arr_put_nil in G2.
      split; [exact Hq|]. auto.
    - destruct HP as [e He]. rewrite He in H. discriminate.
  Qed.
  Lemma mmap_created cap arr st : created EO (mmap_store_ops EO) cap arr st -> mm_arr EO z cap arr true st.
  Proof.
    intros H. destruct H as [cap f s f' H|cap b c f s f' Hp H|cap data els f s f' Hm Hd H|cap b c data els f s f' Hp Hm Hd H];
      cbn [mmap_store_ops st_new st_new_with_config st_new_from_slice st_new_from_slice_with_config st_t] in *.
    - apply (mmap_new_arr _ _ _ _ H).
    - apply (mmap_newc_arr _ _ _ _ _ _ Hp H).
    - unfold mmap_new_from_slice in H. rewrite Hm, Nat.eqb_refl in H. unfold ensure in H.
      rewrite (sbind_ok _ _ f tt f) in H by reflexivity.
      destruct (mmap_new EO cap f) as [r f1] eqn:E1. unfold sbind in H. rewrite E1 in H. destruct r; try discriminate.
      eapply mmap_fill_arr; eauto. eapply mmap_new_arr; eauto.
    - unfold mmap_new_from_slice_with_config in H. rewrite Hm, Nat.eqb_refl in H. unfold ensure in H.
      rewrite (sbind_ok _ _ f tt f) in H by reflexivity.
      destruct (mmap_new_with_config EO cap b c f) as [r f1] eqn:E1. unfold sbind in H. rewrite E1 in H. destruct r; try discriminate.
      eapply mmap_fill_arr; eauto. eapply mmap_newc_arr; eauto.
  Qed.
  Lemma mmap_reopened cap arr st : reopened EO (mmap_store_ops EO) cap arr st -> mm_arr EO z cap arr true st.
  Proof.
    intros H. destruct H as [cap b c i els f s f' Hp Hro Hd H].
    cbn [mmap_store_ops st_new_from_disk st_t] in *. unfold mmap_new_from_disk in H.
    unfold fs_exists, fs_open_rw, fs_size in H. rewrite Hp, Hro in H. cbn [ensure rbind h_ino] in H.
    destruct (_ =? _) eqn:G; [|discriminate]. cbn [ensure rbind] in H. inversion H. subst. clear H.
    destruct (file_arr cap els _ Hd G) as [HF HL]. split; [cbn; auto|]. split; [reflexivity|]. split; [cbn; f_equal; lia|exact HF].
  Qed.

  (* ---- level cache ---- *)
  Lemma lc_new_arr cap f s f' : lc_new EO cap f = (Ok s, f') -> lc_arr EO z cap [] cap 0 (s, f').
  Proof.
    intros H. destruct (tempfile_len f (bl * cap)) as (h & f1 & _ & H1 & H2 & HW & HD & HC).
    unfold lc_new in H. rewrite (sbind_ok _ _ _ _ _ H1), (sbind_ok _ _ _ _ _ H2) in H. inversion H. subst. clear H.
    split; [reflexivity|]. split; [cbn; lia|]. split; [exact HW|]. split; [reflexivity|]. split; [reflexivity|].
    cbn [fst snd lc_file]. rewrite HD, Nat.mul_comm. apply FRep_zero. exact Hz.
  Qed.
  Lemma lc_newc_arr cap b c f s f' : fs_dir f (cfg_path c) = None -> lc_new_with_config EO cap b c f = (Ok s, f') ->
    lc_loaded s = false /\ lc_arr EO z cap [] (lc_data_width s) (lc_cache_index_start s) (s, f') /\
    get_merkle_tree_leafs cap b = Ok (lc_data_width s) /\
    exists cs, get_merkle_tree_cache_size (lc_data_width s) b (sc_rows_to_discard c) = Ok cs /\
               lc_cache_index_start s + cs * bl = cap * bl.
  Proof.
    intros Hp H. destruct (create_new_len f (cfg_path c) (bl * cap) Hp) as (h & f1 & f2 & H1 & H2 & HW & HD & _).
    unfold lc_new_with_config in H. rewrite (sbind_ok _ _ f f f) in H by reflexivity.
    unfold fs_exists in H. rewrite Hp in H. rewrite (sbind_ok _ _ _ _ _ H1) in H.
    destruct (get_merkle_tree_leafs cap b) as [leafs| | |] eqn:Hl; try (unfold sbind, slift in H; discriminate).
    rewrite (sbind_ok _ _ f1 leafs f1) in H by reflexivity.
    destruct (leafs =? next_pow2 leafs); [|unfold sbind, slift in H; discriminate].
    unfold ensure in H. rewrite (sbind_ok _ _ f1 tt f1) in H by reflexivity.
    destruct (get_merkle_tree_cache_size leafs b (sc_rows_to_discard c)) as [cs| | |] eqn:Hcs; try (unfold sbind, slift in H; discriminate).
    rewrite (sbind_ok _ _ f1 cs f1) in H by reflexivity.
    unfold checked_sub in H. destruct (cs * bl <=? bl * cap) eqn:G; [|unfold sbind, slift in H; discriminate].
    rewrite (sbind_ok _ _ f1 (bl * cap - cs * bl) f1) in H by reflexivity.
    rewrite (sbind_ok _ _ _ _ _ H2) in H. inversion H. subst. clear H. split; [reflexivity|]. split.
    - split; [reflexivity|]. split; [cbn; lia|]. split; [exact HW|]. split; [reflexivity|]. split; [reflexivity|].
      cbn [fst snd lc_file]. rewrite HD, Nat.mul_comm. apply FRep_zero. exact Hz.
    - split; [reflexivity|]. exists cs. split; [exact Hcs|]. cbn. lia.
  Qed.
  Lemma lc_fill_arr cap dw cis data els s f s' f' : lc_arr EO z cap [] dw cis (s, f) ->
    List.length data mod bl = 0 -> decode EO data = Ok els ->
    lc_fill EO data s f = (Ok s', f') -> lc_arr EO z cap els dw cis (s', f').
  Proof.
    intros HR Hm Hd H. destruct (els_len EO EL z data els Hm Hd) as [Hl Hq].
    pose proof (el_pos EO EL). pose proof HR as (H1 & H2 & H3 & H4 & H5 & HD). cbn [fst snd] in *.
    unfold lc_fill in H. destruct (le_lt_dec (List.length els) cap) as [L|L].
    - destruct (lc_put EO EL z cap [] dw cis (s, f) 0 data els HR Hm Hd L) as (f1 & G1 & G2 & _).
      cbn [Nat.mul] in G1. rewrite G1 in H. inversion H. subst. rewrite arr_put_nil in G2.
      split; [exact Hq|]. repeat (split; auto).
    - rewrite lc_refuse in H; [discriminate|]. cbn [fst]. rewrite H2, Hl. nia.
  Qed.
  Lemma lc_created cap arr st : created EO (lc_store EO) cap arr st ->
    lc_arr EO z cap arr (lc_data_width (fst st)) (lc_cache_index_start (fst st)) st.
  Proof.
    assert (W : forall dw cis arr0 st0, lc_arr EO z cap arr0 dw cis st0 ->
      lc_arr EO z cap arr0 (lc_data_width (fst st0)) (lc_cache_index_start (fst st0)) st0).
    { intros dw cis arr0 st0 (H1 & H2 & H3 & H4 & H5 & H6). repeat (split; auto). }
    intros H. destruct H as [cap f s f' H|cap b c f s f' Hp H|cap data els f s f' Hm Hd H|cap b c data els f s f' Hp Hm Hd H];
      cbn [lc_store st_new st_new_with_config st_new_from_slice st_new_from_slice_with_config st_t] in *.
    - eapply W, lc_new_arr; eauto.
    - apply (lc_newc_arr _ _ _ _ _ _ Hp H).
    - unfold lc_new_from_slice in H. rewrite Hm, Nat.eqb_refl in H. unfold ensure in H.
      rewrite (sbind_ok _ _ f tt f) in H by reflexivity.
      destruct (lc_new EO cap f) as [r f1] eqn:E1. unfold sbind in H. rewrite E1 in H. destruct r; try discriminate.
      eapply W, lc_fill_arr; eauto. eapply lc_new_arr; eauto.
    - unfold lc_new_from_slice_with_config in H. rewrite Hm, Nat.eqb_refl in H. unfold ensure in H.
      rewrite (sbind_ok _ _ f tt f) in H by reflexivity.
      destruct (lc_new_with_config EO cap b c f) as [r f1] eqn:E1. unfold sbind in H. rewrite E1 in H. destruct r; try discriminate.
      destruct (lc_newc_arr _ _ _ _ _ _ Hp E1) as (HL & HR & _). rewrite HL in H. eapply W, lc_fill_arr; eauto.
  Qed.
End Start.

Section VecStart.
  Context {E : Type} (EO : ElementOps E) (EL : ElementLaws EO).
  Lemma vec_created cap arr st : created EO (vec_store EO) cap arr st -> fst st = arr.
  Proof.
    assert (D : forall data els, List.length data mod e_byte_len EO = 0 -> decode EO data = Ok els -> decode_exact EO data = Ok els).
    { intros data els Hm Hd. rewrite <- Hd. unfold decode_exact, decode, chunks_exact. pose proof (el_pos EO EL).
      pose proof (Nat.div_mod_eq (List.length data) (e_byte_len EO)) as Q. rewrite Hm in Q.
      rewrite firstn_all2 by lia. reflexivity. }
    intros H. destruct H as [cap f s f' H|cap b c f s f' Hp H|cap data els f s f' Hm Hd H|cap b c data els f s f' Hp Hm Hd H];
      cbn [vec_store st_new st_new_with_config st_new_from_slice st_new_from_slice_with_config st_t] in *;
      try (inversion H; reflexivity); cbn [fst];
      unfold vec_new_from_slice_with_config, vec_new_from_slice in H; rewrite (D _ _ Hm Hd) in H; cbn [rbind] in H;
      unfold checked_sub in H; destruct (_ <=? _); cbn [rbind] in H; inversion H; reflexivity.
  Qed.
End VecStart.
