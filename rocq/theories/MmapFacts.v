(* MmapStore satisfies the store laws; its writes panic when they do not fit. *)
From Coq Require Import String List Arith Bool Lia Init.Byte ZifyBool ZifyNat.
From Verif Require Import Base Element Hash Sizing FS Sched Store DiskStore MmapStore ListFacts Spec SpecFacts SizingFacts SchedFacts StoreLaws RowFacts ChunkFacts BuildFacts BuildLoop StoreSpec FileFacts MapLayer DiskFacts.
Import ListNotations.

Section Mmap.
  Context {E : Type} (EO : ElementOps E) (EL : ElementLaws EO).
  Let bl := e_byte_len EO.
  Let St := (mmap_t * fs)%type.

  Definition mmap_owner (s : mmap_t) : option nat := Some (h_ino (mm_file s)).
  Definition mmap_W (s : mmap_t) : Prop := h_write (mm_file s) = true.
  Definition mmap_rep (cap n : nat) (v : nat -> option E) (st : St) : Prop :=
    mm_len (fst st) = n /\ n <= cap /\ mm_map (fst st) = Some (cap * bl) /\
    DRep EO cap v (fs_data (snd st) (h_ino (mm_file (fst st)))).

  Lemma mmap_check_ok st s e n : mm_len (fst st) = n -> s < e -> e <= n ->
    mmap_check EO st (s * bl) (e * bl) = Ok tt.
  Proof.
    intros H H1 H2. pose proof (bl_pos EO EL) as Hbl. unfold mmap_check. fold bl in Hbl |- *. rewrite H.
    assert (s * bl < n * bl) by (apply Nat.mul_lt_mono_pos_r; lia).
    assert (e * bl <= n * bl) by (apply Nat.mul_le_mono_r; lia).
    replace (s * bl <? n * bl) with true by lia. replace (e * bl <=? n * bl) with true by lia. reflexivity.
  Qed.

  Lemma mmap_range_bytes st cap n v s (l : list E) :
    mmap_rep cap n v st -> knows v s l -> s + List.length l <= cap ->
    mmap_slice st (s * bl) ((s + List.length l) * bl) = Ok (encode EO l).
  Proof.
    intros (R1 & R2 & R3 & HD) Hk Hc. pose proof (bl_pos EO EL) as Hbl. fold bl in Hbl. unfold mmap_slice.
    rewrite R3. assert ((s + List.length l) * bl <= cap * bl) by (apply Nat.mul_le_mono_r; exact Hc).
    rewrite Nat.mul_add_distr_r in *.
    replace ((s * bl <=? s * bl + List.length l * bl) && (s * bl + List.length l * bl <=? cap * bl)) with true by lia.
    replace (s * bl + List.length l * bl - s * bl) with (List.length l * bl) by lia.
    unfold fs_map_read, fs_size. pose proof (proj1 HD) as HDl. fold bl in HDl. rewrite HDl.
    replace (s * bl + List.length l * bl <=? cap * bl) with true by lia. rewrite orb_true_r.
    f_equal. apply (DRep_range EO _ _ _ _ _ HD); auto.
  Qed.

  Lemma mmap_store_rep cap n v st start els :
    mmap_rep cap n v st -> start + List.length els <= cap ->
    exists f', sbind (mmap_ensure_map) (fun _ => mmap_store (start * bl) (encode EO els)) st = (Ok tt, (fst st, f')) /\
      mmap_ensure_map st = (Ok tt, st) /\ mmap_store (start * bl) (encode EO els) st = (Ok tt, (fst st, f')) /\
      DRep EO cap (upd v start els) (fs_data f' (h_ino (mm_file (fst st)))) /\
      fs_frame (mmap_owner (fst st)) (snd st) f'.
  Proof.
    intros (H1 & H2 & H3 & HD) Hc. pose proof (bl_pos EO EL) as Hbl. fold bl in Hbl.
    assert (He : mmap_ensure_map st = (Ok tt, st)) by (unfold mmap_ensure_map; rewrite H3; reflexivity).
    rewrite (sbind_ok _ _ _ _ _ He). unfold mmap_store. rewrite H3. rewrite encode_length by auto. fold bl.
    rewrite <- Nat.mul_add_distr_r.
    assert (Hle : (start + List.length els) * bl <= cap * bl) by (apply Nat.mul_le_mono_r; exact Hc).
    pose proof (proj2 (Nat.leb_le _ _) Hle) as Hle'. rewrite Hle'. unfold on_fs, fs_map_write.
    rewrite encode_length by auto. fold bl. rewrite <- Nat.mul_add_distr_r.
    pose proof (proj1 HD) as HDl. fold bl in HDl. rewrite HDl, Hle', orb_true_r.
    eexists. split; [reflexivity|]. split; [exact He|]. split; [reflexivity|]. split.
    - rewrite fs_set_data_data. apply DRep_write; auto.
    - apply fs_set_data_frame.
  Qed.

  Lemma mmap_ensure_any st : (exists s', mmap_ensure_map st = (Ok tt, (s', snd st)) /\ mm_len s' = mm_len (fst st)) \/
    exists e, mmap_ensure_map st = (Err e, st).
  Proof.
    destruct st as [s f]. unfold mmap_ensure_map, mmap_reinit, mm_map_mut, fs_map_mut. cbn [fst snd].
    destruct (mm_map s); [left; exists s; auto|].
    destruct (h_write (mm_file s)); cbn [rbind]; [left|right; eexists; reflexivity].
    eexists. split; reflexivity.
  Qed.

  Lemma mmap_store_any st off d :
    (exists f', mmap_store off d st = (Ok tt, (fst st, f'))) \/ exists e st', mmap_store off d st = (Panic e, st').
  Proof.
    unfold mmap_store. destruct (mm_map (fst st)); [|right; eexists _, _; reflexivity].
    destruct (_ <=? _); [|right; eexists _, _; reflexivity].
    unfold on_fs, fs_map_write. destruct (_ || _); [left; eexists|right; eexists _, _]; reflexivity.
  Qed.

  Lemma mmap_core : CoreLaws EO mm_len (mmap_read_at EO) (mmap_read_range EO) (mmap_write_at EO)
                     (mmap_copy_from_slice EO) mmap_owner mmap_W mmap_rep false.
  Proof.
    pose proof (bl_pos EO EL) as Hbl. fold bl in Hbl.
    constructor.
    - intros cap n v st [H _]. exact H.
    - intros cap n v1 v2 st H (H1 & H2 & H3 & H4).
      split; [auto|split; [auto|split; [auto|]]]. eapply DRep_weaken; eauto.
    - intros cap n v s f f' (H1 & H2 & H3 & H4) Hi. cbn [fst snd] in *.
      split; [auto|split; [auto|split; [auto|]]]. cbn [fst snd]. unfold fs_data in *. rewrite Hi by reflexivity. exact H4.
    - intros cap n v st i e HR Hi He. pose proof HR as (H1 & H2 & H3 & HD).
      unfold mmap_read_at. fold bl.
      replace (i * bl + bl) with ((i + 1) * bl) by lia.
      rewrite (mmap_check_ok st i (i + 1) n) by (auto; lia). cbn [rbind].
      assert (Hk : knows v i [e]).
      { intros k Hk. simpl in Hk. replace k with 0 by lia. rewrite Nat.add_0_r. exact He. }
      pose proof (mmap_range_bytes st cap n v i [e] HR Hk ltac:(simpl; lia)) as Hr.
      simpl List.length in Hr. rewrite Hr. cbn [rbind]. unfold encode. cbn [map concat]. rewrite app_nil_r.
      apply (el_round EO EL).
    - intros cap n v st s e l HR Hs He Hl Hk. pose proof HR as (H1 & H2 & H3 & HD).
      unfold mmap_read_range. fold bl.
      rewrite (mmap_check_ok st s e n) by auto. cbn [rbind].
      replace e with (s + List.length l) by lia.
      rewrite (mmap_range_bytes st cap n v s l HR Hk) by lia. cbn [rbind]. apply decode_encode. exact EL.
    - intros cap n v st e i HR HW Hi.
      destruct (mmap_store_rep cap n v st i [e] HR ltac:(simpl; lia)) as (f' & _ & Hm & Hs & HD & HF).
      unfold encode in Hs. cbn [map concat] in Hs. rewrite app_nil_r in Hs.
      unfold mmap_write_at. fold bl. rewrite (sbind_ok _ _ _ _ _ Hm), (sbind_ok _ _ _ _ _ Hs).
      rewrite (sbind_ok _ _ (fst st, f') (fst st, f') (fst st, f')) by reflexivity. cbn [fst].
      destruct HR as (H1 & H2 & H3 & _).
      eexists. split; [reflexivity|]. cbn [fst snd mm_set_len]. split; [|split; [split; auto|exact HW]].
      split; [cbn; lia|]. split; [lia|]. split; auto.
    - intros cap n v st els start HR HW Hc.
      destruct (mmap_store_rep cap n v st start els HR Hc) as (f' & _ & Hm & Hs & HD & HF).
      unfold mmap_copy_from_slice. fold bl.
      rewrite encode_length by auto. fold bl. rewrite Nat.mod_mul, Nat.eqb_refl, Nat.div_mul by lia.
      unfold ensure. rewrite (sbind_ok _ _ st tt st) by reflexivity.
      rewrite (sbind_ok _ _ _ _ _ Hm), (sbind_ok _ _ _ _ _ Hs).
      rewrite (sbind_ok _ _ (fst st, f') (fst st, f') (fst st, f')) by reflexivity. cbn [fst].
      destruct HR as (H1 & H2 & H3 & _).
      eexists. split; [reflexivity|]. cbn [fst snd mm_set_len]. split; [|split; [split; auto|exact HW]].
      split; [cbn; lia|]. split; [lia|]. split; auto.
    - intros e i st. unfold mmap_write_at.
      destruct (mmap_ensure_any st) as [(s' & H1 & H2)|[x H1]]; [|unfold sbind at 1; rewrite H1; exact I].
      rewrite (sbind_ok _ _ _ _ _ H1).
      destruct (mmap_store_any (s', snd st) (i * e_byte_len EO) (e_as_ref EO e)) as [[f' G]|(x & st' & G)];
        unfold sbind at 1; rewrite G; [|reflexivity]. cbn. rewrite <- H2. reflexivity.
    - intros els start st. unfold mmap_copy_from_slice.
      rewrite encode_length by auto. fold bl. rewrite Nat.mod_mul, Nat.eqb_refl, Nat.div_mul by lia.
      unfold ensure. rewrite (sbind_ok _ _ st tt st) by reflexivity.
      destruct (mmap_ensure_any st) as [(s' & H1 & H2)|[x H1]]; [|unfold sbind at 1; rewrite H1; exact I].
      rewrite (sbind_ok _ _ _ _ _ H1).
      destruct (mmap_store_any (s', snd st) (start * bl) (encode EO els)) as [[f' G]|(x & st' & G)];
        unfold sbind at 1; rewrite G; [|reflexivity]. cbn. rewrite <- H2. reflexivity.
  Qed.

  Lemma mmap_fresh size s f' : mm_len s = 0 -> mm_map s = Some (bl * size) ->
    fs_data f' (h_ino (mm_file s)) = repeat x00 (bl * size) -> mmap_rep size 0 (fun _ => None) (s, f').
  Proof.
    intros H1 H2 H3. split; [exact H1|]. split; [lia|]. cbn [fst snd]. split; [rewrite H2, Nat.mul_comm; reflexivity|].
    rewrite H3, Nat.mul_comm. apply DRep_empty.
  Qed.

  Lemma mmap_new_ok size f : exists s f', mmap_new EO size f = (Ok s, f') /\ mmap_rep size 0 (fun _ => None) (s, f') /\
    mmap_W s /\ Created f f' None (mmap_owner s).
  Proof.
    destruct (tempfile_len f (bl * size)) as (h & f' & _ & H1 & H2 & HW & HD & HC).
    unfold mmap_new. fold bl. rewrite (sbind_ok _ _ _ _ _ H1), (sbind_ok _ _ _ _ _ H2).
    assert (Hm : mm_map_mut h f' = (Ok (bl * size), f')).
    { unfold mm_map_mut, fs_map_mut, fs_size. rewrite HW, HD, repeat_length. reflexivity. }
    rewrite (sbind_ok _ _ _ _ _ Hm).
    eexists _, _. split; [reflexivity|]. split; [apply mmap_fresh; auto|]. auto.
  Qed.

  Lemma mmap_newc_ok size b c f : fs_dir f (cfg_path c) = None ->
    exists s f', mmap_new_with_config EO size b c f = (Ok s, f') /\ mmap_rep size 0 (fun _ => None) (s, f') /\
    mmap_W s /\ Created f f' (Some (cfg_path c)) (mmap_owner s) /\ fs_dir f' (cfg_path c) = mmap_owner s.
  Proof.
    intros Hp. destruct (create_new_len f (cfg_path c) (bl * size) Hp) as (h & f1 & f' & H1 & H2 & HW & HD & HC & Hd).
    unfold mmap_new_with_config. rewrite (sbind_ok _ _ f f f) by reflexivity.
    unfold fs_exists. rewrite Hp. fold bl. rewrite (sbind_ok _ _ _ _ _ H1), (sbind_ok _ _ _ _ _ H2).
    assert (Hm : mm_map_mut h f' = (Ok (bl * size), f')).
    { unfold mm_map_mut, fs_map_mut, fs_size. rewrite HW, HD, repeat_length. reflexivity. }
    rewrite (sbind_ok _ _ _ _ _ Hm).
    eexists _, _. split; [reflexivity|]. split; [apply mmap_fresh; auto|]. auto.
  Qed.

  Lemma mmap_fill_ok size els s f n : mmap_rep size n (fun _ => None) (s, f) -> List.length els <= size ->
    exists s' f', mmap_fill EO (encode EO els) s f = (Ok s', f') /\
      mmap_rep size (List.length els) (nth_error els) (s', f') /\
      (mmap_owner s' = mmap_owner s /\ mm_file s' = mm_file s) /\ fs_frame (mmap_owner s) f f'.
  Proof.
    intros HR Hl. pose proof (bl_pos EO EL) as Hbl. fold bl in Hbl.
    destruct (mmap_store_rep size n _ (s, f) 0 els HR ltac:(lia)) as (f' & Hs & _ & _ & HD & HF).
    rewrite Nat.mul_0_l in Hs. unfold mmap_fill. rewrite Hs. cbn [fst snd] in *.
    eexists _, _. split; [reflexivity|]. rewrite encode_length by auto. fold bl. rewrite Nat.div_mul by lia.
    split; [|auto]. destruct HR as (_ & _ & H3 & _). split; [reflexivity|]. split; [exact Hl|].
    split; [exact H3|]. cbn [fst snd mm_set_len mm_file]. eapply DRep_weaken; [|exact HD].
    intros i e He. pose proof (nth_error_lt _ _ _ He). rewrite upd_in by lia. rewrite Nat.sub_0_r. exact He.
  Qed.

  Lemma mmap_laws : StoreLaws EO (mmap_store_ops EO) mmap_owner mmap_W mmap_rep false.
  Proof.
    constructor.
    - exact mmap_core.
    - intros size f. destruct (mmap_new_ok size f) as (s & f' & H1 & H2 & HW & H3).
      exists s, f'. split; [exact H1|]. split; [exact H2|]. split; [exact HW|]. repeat (split; auto). discriminate.
    - intros size b c f Hp. destruct (mmap_newc_ok size b c f Hp) as (s & f' & H1 & H2 & HW & H3 & H4).
      exists s, f'. split; [exact H1|]. split; [exact H2|]. split; [exact HW|]. repeat (split; auto).
      intros q Hq i Hi. inversion Hq. rewrite H4. exact Hi.
    - intros cap n v [s f] [H _]. cbn in *. rewrite H. reflexivity.
    - reflexivity.
    - intros en A b leaves d c v st Hb Hd Hl [Hc1 Hc2] HW HR Hk.
      destruct (default_build_ok EO EL _ _ _ _ _ _ _ _ _ mmap_core A b Hb (p_chunk (env_params en))
                  (p_small (env_params en)) (env_sched en) leaves d (geom b d) v st Hl Hd (le_n _) ltac:(auto) HW HR Hk)
        as (root & st' & H1 & H2 & H3 & H4 & H5).
      exists root, st'. split; [exact H1|]. split; [exact H2|]. split; [|auto].
      unfold Full in H3.
      destruct (all_rows_Layout A b ltac:(pose proof (arity_ge b Hb); lia) leaves d Hl) as (_ & L & _).
      rewrite L in H3. exact H3.
    - intros en A b leaves m q c v st Hb Hq Hm Hl [Hc1 Hc2] HW HR Hk.
      exact (default_build_bad EO EL _ _ _ _ _ _ _ _ _ mmap_core A b Hb (p_chunk (env_params en))
                  (p_small (env_params en)) (env_sched en) leaves m q (m * geom b q) v st Hl Hm Hq (le_n _)
                  ltac:(auto) HW HR Hk).
    - intros en A b leafs rc c st Hb H.
      exact (default_build_len EO mm_len _ _ _ _ mmap_owner A b Hb _ _ _ _ _ _ st H).
    - intros els size f H. pose proof (bl_pos EO EL) as Hbl. fold bl in Hbl.
      destruct (mmap_new_ok size f) as (s & f1 & H1 & H2 & HW & H3).
      destruct (mmap_fill_ok size els s f1 0 H2 H) as (s' & f' & G1 & G2 & (G3 & G5) & G4).
      cbn [st_new_from_slice mmap_store_ops]. unfold mmap_new_from_slice. fold bl.
      rewrite encode_length by auto. fold bl. rewrite Nat.mod_mul, Nat.eqb_refl by lia.
      unfold ensure. rewrite (sbind_ok _ _ f tt f) by reflexivity. rewrite (sbind_ok _ _ _ _ _ H1), G1.
      exists s', f'. split; [reflexivity|]. split; [exact G2|]. split; [unfold mmap_W; rewrite G5; exact HW|].
      rewrite G3. eapply Created_frame; eauto.
    - intros els size b c f H Hp. pose proof (bl_pos EO EL) as Hbl. fold bl in Hbl.
      destruct (mmap_newc_ok size b c f Hp) as (s & f1 & H1 & H2 & HW & H3 & H4).
      destruct (mmap_fill_ok size els s f1 0 H2 H) as (s' & f' & G1 & G2 & (G3 & G5) & G4).
      cbn [st_new_from_slice_with_config mmap_store_ops]. unfold mmap_new_from_slice_with_config. fold bl.
      rewrite encode_length by auto. fold bl. rewrite Nat.mod_mul, Nat.eqb_refl by lia.
      unfold ensure. rewrite (sbind_ok _ _ f tt f) by reflexivity. rewrite (sbind_ok _ _ _ _ _ H1), G1.
      exists s', f'. split; [reflexivity|]. split; [exact G2|]. split; [unfold mmap_W; rewrite G5; exact HW|].
      rewrite G3. eapply Created_frame; eauto.
  Qed.
End Mmap.
