(* Creating a tree over a LevelCacheStore at a fresh path: population and build. *)
From Coq Require Import String List Arith Bool Lia Init.Byte ZifyBool ZifyNat.
From Verif Require Import Base Element Hash Sizing FS Sched Store VecStore DiskStore MmapStore LevelCache ProofModel Tree ListFacts Spec SpecFacts SizingFacts SchedFacts StoreLaws RowFacts ChunkFacts BuildFacts BuildLoop StoreSpec FileFacts VecFacts MapLayer DiskFacts MmapFacts PopFacts TreeFacts ProofSpec ProofFacts TreeProofs TreeObs Builders BuiltFacts CompactFacts LcBuild.
Import ListNotations.

Lemma with_store_ok {T X} (s : T) (m : SM (T * fs) X) f r s' f' : m (s, f) = (Ok r, (s', f')) -> with_store s m f = (Ok (r, s'), f').
Proof. intros H. unfold with_store. rewrite H. reflexivity. Qed.
Lemma sexpect_ok {St X} (m : SM St X) msg s r s' : m s = (Ok r, s') -> sexpect m msg s = (Ok r, s').
Proof. intros H. unfold sexpect. rewrite H. reflexivity. Qed.

Definition lc_owner (s : lc_t) : option nat := Some (h_ino (lc_file s)).

(* ---- while the leaves are written: reads and writes go straight to the file ---- *)
Section LcPop.
  Context {E : Type} (EO : ElementOps E) (EL : ElementLaws EO).
  Local Notation bl := (e_byte_len EO).
  Variables dw ci fc : nat.     (* data width, cache start, file size *)
  Hypothesis Hci : dw * bl <= ci.

  Definition lc_W (s : lc_t) : Prop :=
    h_write (lc_file s) = true /\ lc_data_width s = dw /\ lc_cache_index_start s = ci /\
    lc_size s = fc * bl /\ lc_reader s = None.
  Definition lc_rep (cap n : nat) (v : nat -> option E) (st : lc_t * fs) : Prop :=
    lc_len (fst st) = n /\ n <= cap /\ cap <= dw /\ cap <= fc /\
    (lc_data_width (fst st) = dw /\ lc_cache_index_start (fst st) = ci /\ lc_reader (fst st) = None /\ lc_size (fst st) = fc * bl) /\
    DRep EO fc v (fs_data (snd st) (h_ino (lc_file (fst st)))).

  Lemma lc_range_rep cap n v st lo hi l : lc_rep cap n v st -> lo < hi -> hi <= n -> List.length l = hi - lo -> knows v lo l ->
    lc_check EO st (lo * bl) (hi * bl) = Ok tt /\ lc_store_read_range EO st (lo * bl) (hi * bl) = Ok (encode EO l).
  Proof.
    destruct st as [s f]. intros (H1 & H2 & H3 & H4 & (G1 & G2 & G3 & G4) & HD) Hlo Hhi Hl Hk. cbn [fst snd] in *.
    pose proof (bl_pos EO EL) as Hbl.
    destruct (lc_internal_read EO EL fc v s f lo hi l HD Hk Hl Hlo ltac:(lia) ltac:(lia) ltac:(lia)) as [R1 R2].
    split; [exact R1|]. rewrite <- R2. unfold lc_store_read_range, lc_store_read_range_internal. cbn [fst snd].
    unfold lc_adjust. rewrite G1, G2, G3.
    assert (lo * bl < dw * bl) by (apply Nat.mul_lt_mono_pos_r; lia).
    replace (ci <=? lo * bl) with false by lia. destruct (lo * bl <? dw * bl); reflexivity.
  Qed.

  Lemma lc_copy_rep cap n v st start els : lc_rep cap n v st -> lc_W (fst st) -> start + List.length els <= cap ->
    exists f', lc_store_copy_from_slice (start * bl) (encode EO els) st = (Ok tt, (fst st, f')) /\
      DRep EO fc (upd v start els) (fs_data f' (h_ino (lc_file (fst st)))) /\
      fs_frame (lc_owner (fst st)) (snd st) f'.
  Proof.
    destruct st as [s f]. intros (H1 & H2 & H3 & H4 & (G1 & G2 & G3 & G4) & HD) (HW & _) Hc. cbn [fst snd] in *.
    pose proof (bl_pos EO EL) as Hbl.
    unfold lc_store_copy_from_slice. cbn [fst snd]. rewrite encode_length by auto. rewrite G4, <- Nat.mul_add_distr_r.
    assert (Hle : (start + List.length els) * bl <= fc * bl) by (apply Nat.mul_le_mono_r; lia).
    apply Nat.leb_le in Hle. rewrite Hle. unfold on_fs. cbn [fst snd].
    destruct (write_all_in (lc_file s) (start * bl) (encode EO els) f) as (f' & -> & Hd' & Hfr);
      [exact HW|rewrite encode_length by auto; rewrite <- Nat.mul_add_distr_r; rewrite (proj1 HD); apply Nat.leb_le; exact Hle|].
    eexists. split; [reflexivity|]. split; [|exact Hfr].
    rewrite Hd'. apply DRep_write; auto. lia.
  Qed.

  Lemma lc_pop_laws : PopLaws EO (lc_store EO) lc_owner lc_W lc_rep true.
  Proof.
    pose proof (bl_pos EO EL) as Hbl. constructor.
    2:{ intros cap n v [s f] (H & _). cbn [fst] in H. subst n. reflexivity. }
    2:{ reflexivity. }
    constructor.
    - intros cap n v st [H _]. exact H.
    - intros cap n v1 v2 st H (H1 & H2 & H3 & H4 & H5 & H6).
      do 5 (split; [auto|]). eapply DRep_weaken; eauto.
    - intros cap n v s f f' (H1 & H2 & H3 & H4 & H5 & H6) Hi. cbn [fst snd] in *.
      do 5 (split; [auto|]). cbn [fst snd]. unfold fs_data in *. rewrite Hi by reflexivity. exact H6.
    - intros cap n v st i e HR Hi He.
      assert (Hk : knows v i [e]) by (intros k Hk; cbn in Hk; replace k with 0 by lia; rewrite Nat.add_0_r; exact He).
      destruct (lc_range_rep cap n v st i (i + 1) [e] HR ltac:(lia) ltac:(lia) ltac:(cbn; lia) Hk) as [R1 R2].
      cbn [st_read_at lc_store]. unfold lc_read_at. replace (i * bl + bl) with ((i + 1) * bl) by ring.
      rewrite R1. cbn [rbind]. rewrite R2. cbn [rbind]. unfold encode. cbn [map concat]. rewrite app_nil_r. apply (el_round _ EL).
    - intros cap n v st s e l HR Hs He Hl Hk.
      destruct (lc_range_rep cap n v st s e l HR Hs He Hl Hk) as [R1 R2].
      cbn [st_read_range lc_store]. unfold lc_read_range. rewrite R1. cbn [rbind]. rewrite R2. cbn [rbind]. apply decode_encode; auto.
    - intros cap n v st e i HR HW Hi.
      destruct (lc_copy_rep cap n v st i [e] HR HW ltac:(cbn; lia)) as (f' & Hs & HD & HF).
      unfold encode in Hs. cbn [map concat] in Hs. rewrite app_nil_r in Hs.
      cbn [st_write_at lc_store]. unfold lc_write_at. rewrite (sbind_ok _ _ _ _ _ Hs).
      rewrite (sbind_ok _ _ (fst st, f') (fst st, f') (fst st, f')) by reflexivity. cbn [fst].
      destruct HR as (H1 & H2 & H3 & H4 & H5 & _).
      eexists. split; [reflexivity|]. cbn [fst snd]. split; [|split; [split; [reflexivity|exact HF]|exact HW]].
      split; [exact (f_equal (fun z => Nat.max z (i + 1)) H1)|]. split; [lia|]. auto.
    - intros cap n v st els start HR HW Hc.
      destruct (lc_copy_rep cap n v st start els HR HW Hc) as (f' & Hs & HD & HF).
      cbn [st_copy_from_slice lc_store]. unfold lc_copy_from_slice.
      rewrite encode_length by auto. rewrite Nat.mod_mul, Nat.eqb_refl, Nat.div_mul by lia.
      unfold ensure. rewrite (sbind_ok _ _ st tt st) by reflexivity.
      rewrite (sbind_ok _ _ _ _ _ Hs).
      rewrite (sbind_ok _ _ (fst st, f') (fst st, f') (fst st, f')) by reflexivity. cbn [fst].
      destruct HR as (H1 & H2 & H3 & H4 & H5 & _).
      eexists. split; [reflexivity|]. cbn [fst snd]. split; [|split; [split; [reflexivity|exact HF]|exact HW]].
      split; [exact (f_equal (fun z => Nat.max z (start + List.length els)) H1)|]. split; [lia|]. auto.
    - intros e i [s f]. cbn [st_write_at lc_store]. unfold lc_write_at. unfold sbind at 1. unfold lc_store_copy_from_slice.
      destruct (_ <=? _); [|exact I]. unfold on_fs. cbn [fst snd].
      destruct (write_all_any (lc_file s) (i * bl) (e_as_ref EO e) f) as [[f' ->]| ->]; [|exact I].
      reflexivity.
    - intros els start [s f]. cbn [st_copy_from_slice lc_store]. unfold lc_copy_from_slice.
      rewrite encode_length by auto. rewrite Nat.mod_mul, Nat.eqb_refl, Nat.div_mul by lia.
      unfold ensure. rewrite (sbind_ok _ _ (s, f) tt (s, f)) by reflexivity.
      unfold sbind at 1. unfold lc_store_copy_from_slice.
      destruct (_ <=? _); [|exact I]. unfold on_fs. cbn [fst snd].
      destruct (write_all_any (lc_file s) (start * bl) (encode EO els) f) as [[f' ->]| ->]; [|exact I].
      reflexivity.
  Qed.
End LcPop.

Section LcCreate.
  Context {E : Type} (EO : ElementOps E) (EL : ElementLaws EO) (A : AlgOps E) (AL : AlgLaws A) (en : env).
  Local Notation bl := (e_byte_len EO).
  Local Notation LO := (lc_store EO).
  Variable b : nat.
  Hypothesis Hb : arity b.
  Hypothesis Hch : chunk_ok en b.
  Variables (d : nat) (c : StoreConfig).
  Local Notation R := (sc_rows_to_discard c).
  Hypothesis Hd : 1 <= d.
  Local Notation cis := (row_off b d (S R) * bl).
  Local Notation WW := (lc_W EO (b ^ d) cis (geom b d)).
  Local Notation RR := (lc_rep EO (b ^ d) cis (geom b d)).

  Lemma lc_Hci : b ^ d * bl <= cis.
  Proof.
    apply Nat.mul_le_mono_r. pose proof (row_off_mono b d 1 (S R) ltac:(lia)) as M.
    change (row_off b d 1) with (0 + b ^ (d - 0)) in M. rewrite Nat.sub_0_r in M. exact M.
  Qed.

  Lemma lc_newc_ok f : R < d -> fs_dir f (cfg_path c) = None ->
    exists s f', lc_new_with_config EO (geom b d) b c f = (Ok s, f') /\ RR (b ^ d) 0 (fun _ => None) (s, f') /\ WW s /\
      lc_loaded s = false /\ Created f f' (Some (cfg_path c)) (lc_owner s) /\ fs_dir f' (cfg_path c) = lc_owner s.
  Proof.
    intros HR Hp. pose proof (bl_pos EO EL) as Hbl.
    destruct (create_new_len f (cfg_path c) (bl * geom b d) Hp) as (h & f1 & f' & H1 & H2 & HW & HD & HC & Hdir).
    pose proof (geom_row_off b d (S R) ltac:(lia)) as HG.
    unfold lc_new_with_config. rewrite (sbind_ok _ _ f f f) by reflexivity. unfold fs_exists. rewrite Hp.
    rewrite (sbind_ok _ _ _ _ _ H1).
    rewrite get_merkle_tree_leafs_full by (auto; lia). rewrite (sbind_ok _ _ f1 (b ^ d) f1) by reflexivity.
    replace (b ^ d =? next_pow2 (b ^ d)) with true by (symmetry; apply next_pow2_eqb', pow2_pow, arity_pow2; auto).
    cbn [ensure]. rewrite (sbind_ok _ _ f1 tt f1) by reflexivity.
    rewrite cache_size_full by auto. rewrite (sbind_ok _ _ f1 (geom b (d - 1 - R)) f1) by reflexivity.
    replace (d - 1 - R) with (d - S R) by lia.
    assert (HGb : bl * geom b d = cis + geom b (d - S R) * bl) by (rewrite HG; ring).
    assert (Hcs : bl * geom b d - geom b (d - S R) * bl = cis) by lia.
    rewrite checked_sub_ok by lia. rewrite Hcs.
    rewrite (sbind_ok _ _ f1 cis f1) by reflexivity. rewrite (sbind_ok _ _ _ _ _ H2).
    eexists _, _. split; [reflexivity|]. split; [|split; [|auto]].
    - split; [reflexivity|]. split; [lia|]. split; [lia|]. split; [pose proof (geom_gt b d); lia|]. split.
      + cbn [fst lc_data_width lc_cache_index_start lc_reader lc_size]. repeat split; auto; lia.
      + cbn [fst snd lc_file]. rewrite HD, Nat.mul_comm. apply DRep_empty.
    - unfold lc_W. cbn [lc_file lc_data_width lc_cache_index_start lc_reader lc_size]. repeat split; auto; lia.
  Qed.

  Lemma lc_newc_bad f : d <= R -> exists e f', lc_new_with_config EO (geom b d) b c f = (Err e, f').
  Proof.
    intros HR. unfold lc_new_with_config. rewrite (sbind_ok _ _ f f f) by reflexivity.
    destruct (cache_size_bad b d R) as [e He]; auto.
    destruct (fs_exists f (cfg_path c)) eqn:G.
    - assert (Ho : exists h, lc_open f (cfg_path c) = Ok h).
      { unfold lc_open, fs_open_rw, fs_open_ro. unfold fs_exists in G. destruct (fs_dir f (cfg_path c)) as [j|]; [|discriminate].
        destruct (i_ro (fs_ino f j)); eauto. }
      destruct Ho as [h Ho]. unfold lc_new_from_disk. rewrite G. cbn [ensure rbind]. rewrite Ho. cbn [rbind].
      rewrite get_merkle_tree_leafs_full by (auto; lia). cbn [rbind].
      replace (b ^ d =? next_pow2 (b ^ d)) with true by (symmetry; apply next_pow2_eqb', pow2_pow, arity_pow2; auto).
      cbn [ensure rbind]. rewrite He. cbn [rbind]. eauto.
    - unfold fs_exists in G. destruct (fs_dir f (cfg_path c)) eqn:Hp; [discriminate|].
      destruct (create_new_len f (cfg_path c) 0 Hp) as (h & f1 & f' & H1 & _).
      rewrite (sbind_ok _ _ _ _ _ H1).
      rewrite get_merkle_tree_leafs_full by (auto; lia). rewrite (sbind_ok _ _ f1 (b ^ d) f1) by reflexivity.
      replace (b ^ d =? next_pow2 (b ^ d)) with true by (symmetry; apply next_pow2_eqb', pow2_pow, arity_pow2; auto).
      cbn [ensure]. rewrite (sbind_ok _ _ f1 tt f1) by reflexivity.
      rewrite He. eexists _, _. reflexivity.
  Qed.

  (* what a direct build leaves behind: store and file *)
  Record LcBuilt (f : fs) (leaves : list E) (t : mtree (st_t LO) E) (f' : fs) : Prop := {
    lb_R : R < d;
    lb_leaves : List.length leaves = b ^ d;
    lb_s : exists s : lc_t, mt_data t = BaseTree (s : st_t LO) /\
      lc_len s = geom b d /\ lc_data_width s = b ^ d /\ lc_cache_index_start s = row_off b d (S R) * bl /\ lc_reader s = None /\
      fs_data f' (h_ino (lc_file s)) = encode EO (skipn (row_off b d (S R)) (all_rows A b leaves d)) /\
      fs_dir f' (cfg_path c) = Some (h_ino (lc_file s)) /\ Created f f' (Some (cfg_path c)) (lc_owner s);
    lb_leafs : mt_leafs t = b ^ d;
    lb_len : mt_len_field t = geom b d;
    lb_rows : mt_row_count t = S d;
    lb_root : nth_error (all_rows A b leaves d) (geom b d - 1) = Some (mt_root t)
  }.

  Lemma lc_populated leaves f f1 f2 s s1 v : R < d ->
    List.length leaves = b ^ d -> Created f f1 (Some (cfg_path c)) (lc_owner s) -> fs_dir f1 (cfg_path c) = lc_owner s ->
    Step lc_owner (s, f1) (s1, f2) -> WW s1 -> RR (b ^ d) (List.length leaves) v (s1, f2) -> knows v 0 leaves ->
    exists t f', (let! (root, data) := with_store s1 (st_build LO en A b (b ^ d) (S d) (Some c)) in
       sret (mk_base LO data (b ^ d) (geom b d) (S d) root)) f2 = (Ok t, f') /\ LcBuilt f leaves t f'.
  Proof.
    intros HR Hl HC Hdir [S1 S2] HW HRp Hk. cbn [fst snd] in *. rewrite Hl in HRp.
    destruct HRp as (P1 & P2 & P3 & P4 & (P5 & P6 & P7 & P8) & HD). cbn [fst snd] in *.
    pose proof S2 as (F1 & F2 & F3 & F4).
    destruct (lc_build_ok EO EL A en b Hb Hch leaves d c (h_ino (lc_file s1)) Hd HR Hl s1 f2) as
      (root & s' & f' & B1 & B2 & B3 & B4 & B5 & B6 & B7 & B8 & B9).
    { constructor; cbn [fst snd]; auto.
      - apply (proj1 HW).
      - rewrite F1, Hdir. symmetry. exact S1.
      - rewrite F4. pose proof HC as (_ & _ & _ & _ & _ & C6). apply C6. symmetry. exact S1.
      - exists v. cbn [Nat.min]. change (row_off b d 0) with 0. rewrite !Nat.sub_0_r. split; [exact HD|].
        intros r' _ Hr'. replace r' with 0 by lia. change (row_off b d 0) with 0. rewrite Nat.sub_0_r. exact Hk. }
    rewrite (sbind_ok _ _ f2 (root, s') f') by (apply with_store_ok; exact B1).
    eexists _, f'. split; [reflexivity|].
    assert (Hown : lc_owner s' = lc_owner s) by (rewrite <- S1; unfold lc_owner; rewrite B4; reflexivity).
    constructor; auto. exists s'. split; [reflexivity|]. rewrite B4. repeat (split; [auto; fail|]). 
    split; [|].
    - pose proof B9 as (F1' & _). rewrite F1', F1, Hdir. symmetry. exact S1.
    - rewrite Hown. eapply Created_frame; [eapply Created_frame; [exact HC|exact S2]|].
      rewrite <- S1. exact B9.
  Qed.

  Let LP := lc_pop_laws EO EL (b ^ d) cis (geom b d) lc_Hci.

  Lemma lc_iter_ok xs f : R < d -> List.length xs = b ^ d -> fs_dir f (cfg_path c) = None ->
    exists t f', try_from_iter_with_config EO LO A en b (Some (List.length xs)) (map Ok xs) c f = (Ok t, f') /\
      LcBuilt f (map (h_leaf A) xs) t f'.
  Proof.
    intros HR Hl Hp. unfold try_from_iter_with_config. rewrite (sbind_ok _ _ f (List.length xs) f) by reflexivity. rewrite Hl.
    rewrite (leafs_checks_full b Hb) by auto. rewrite (sbind_ok _ _ f (geom b d, S d) f) by reflexivity.
    destruct (lc_newc_ok f HR Hp) as (s & f1 & H1 & H2 & H3 & HL & H4 & H5).
    rewrite (sbind_ok _ _ _ _ _ H1). cbn [st_loaded_from_disk lc_store]. rewrite HL.
    destruct (populate_ok EO LO lc_owner WW RR true LP A AL en (b ^ d) xs _ (s, f1) H3 H2 ltac:(lia)) as (v & [s1 f2] & P1 & P2 & P3 & P4 & P5).
    rewrite (sbind_ok _ _ f1 (tt, s1) f2) by (apply with_store_ok, sexpect_ok; exact P1).
    apply (lc_populated _ f f1 f2 s s1 v); auto; rewrite ?map_length; auto.
  Qed.

  Lemma lc_par_ok xs f : R < d -> 0 < p_block (env_params en) -> List.length xs = b ^ d -> fs_dir f (cfg_path c) = None ->
    exists t f', from_par_iter_with_config EO LO A en b xs c f = (Ok t, f') /\ LcBuilt f (map (h_leaf A) xs) t f'.
  Proof.
    intros HR Hbl Hl Hp. unfold from_par_iter_with_config. cbv zeta. rewrite Hl.
    rewrite (leafs_checks_full b Hb) by auto. rewrite (sbind_ok _ _ f (geom b d, S d) f) by reflexivity.
    destruct (lc_newc_ok f HR Hp) as (s & f1 & H1 & H2 & H3 & HL & H4 & H5).
    rewrite (sbind_ok _ _ _ _ _ H1). cbn [st_loaded_from_disk lc_store]. rewrite HL.
    destruct (populate_par_ok EO LO lc_owner WW RR true LP A AL en (b ^ d) xs _ (s, f1) Hbl H3 H2 ltac:(lia)) as (v & [s1 f2] & P1 & P2 & P3 & P4 & P5).
    rewrite (sbind_ok _ _ f1 (tt, s1) f2) by (apply with_store_ok; exact P1).
    apply (lc_populated _ f f1 f2 s s1 v); auto; rewrite ?map_length; auto.
  Qed.

  Lemma lc_bytes_ok els f : R < d -> List.length els = b ^ d -> fs_dir f (cfg_path c) = None ->
    exists t f', from_byte_slice_with_config EO LO A en b (encode EO els) c f = (Ok t, f') /\ LcBuilt f els t f'.
  Proof.
    intros HR Hl Hp. pose proof (bl_pos EO EL) as Hbl. unfold from_byte_slice_with_config.
    rewrite encode_length, Nat.mod_mul, Nat.eqb_refl, Nat.div_mul by (auto; lia).
    unfold ensure at 1. rewrite (sbind_ok _ _ f tt f) by reflexivity.
    rewrite Hl, (leafs_checks_full b Hb) by auto. rewrite (sbind_ok _ _ f (geom b d, S d) f) by reflexivity.
    destruct (lc_newc_ok f HR Hp) as (s & f1 & H1 & H2 & H3 & HL & H4 & H5).
    destruct (lc_copy_rep EO EL (b ^ d) cis (geom b d) lc_Hci (b ^ d) 0 _ (s, f1) 0 els H2 H3 ltac:(lia)) as (f2 & Hs & HD & HF).
    rewrite Nat.mul_0_l in Hs. cbn [fst snd] in *.
    set (s1 := lc_set_len s (List.length els)).
    assert (Hn : lc_new_from_slice_with_config EO (geom b d) b (encode EO els) c f = (Ok s1, f2)).
    { unfold lc_new_from_slice_with_config. rewrite encode_length, Nat.mod_mul, Nat.eqb_refl by (auto; lia).
      cbn [ensure]. rewrite (sbind_ok _ _ f tt f) by reflexivity. rewrite (sbind_ok _ _ _ _ _ H1), HL.
      unfold lc_fill. rewrite Hs, encode_length, Nat.div_mul by (auto; lia). reflexivity. }
    cbn [st_new_from_slice_with_config lc_store]. rewrite (sbind_ok _ _ _ _ _ Hn).
    apply (lc_populated els f f1 f2 s s1 (upd (fun _ => None) 0 els)); auto.
    - split; [reflexivity|exact HF].
    - destruct H2 as (Q1 & Q2 & Q3 & Q4 & Q5 & _). cbn [fst snd] in *. 
      split; [reflexivity|]. do 3 (split; [lia|]). split; [exact Q5|exact HD].
    - apply knows_upd_same.
  Qed.

  Theorem lc_cfg_built leaves f r : fs_dir f (cfg_path c) = None -> List.length leaves = b ^ d -> R < d ->
    cfg_builder EO LO A en b c leaves f r -> exists t f', r = (Ok t, f') /\ LcBuilt f leaves t f'.
  Proof.
    intros Hp Hl HR HB. destruct HB; rewrite ?map_length in Hl.
    - apply lc_iter_ok; auto.
    - apply lc_par_ok; auto.
    - destruct (lc_iter_ok (map (hash_of A) xs) f HR) as (t & f' & H1 & H2); [rewrite map_length; exact Hl|exact Hp|].
      exists t, f'. rewrite map_map in H2. split; [|exact H2]. rewrite <- H1. unfold from_data_with_config.
      rewrite (hash_items_ok A AL), map_length. reflexivity.
    - apply lc_bytes_ok; auto.
  Qed.
End LcCreate.

(* ---- refusals ---- *)
Section LcRefused.
  Context {E : Type} (EO : ElementOps E) (EL : ElementLaws EO) (A : AlgOps E) (AL : AlgLaws A) (en : env).
  Local Notation LO := (lc_store EO).
  Variable b : nat.
  Hypothesis Hb : arity b.

  Lemma lc_cfg_err c leaves f r : cfg_builder EO LO A en b c leaves f r ->
    (forall size rc, leafs_checks b (List.length leaves) = Ok (size, rc) -> exists e f', lc_new_with_config EO size b c f = (Err e, f')) ->
    exists e f', r = (Err e, f').
  Proof.
    intros HB HN. pose proof (bl_pos EO EL) as Hbl.
    assert (HI : forall xs, List.length xs = List.length leaves ->
      exists e f', try_from_iter_with_config EO LO A en b (Some (List.length xs)) (map Ok xs) c f = (Err e, f')).
    { intros xs Hx. unfold try_from_iter_with_config. rewrite (sbind_ok _ _ f (List.length xs) f) by reflexivity. rewrite Hx.
      destruct (leafs_checks_cases b Hb (List.length leaves)) as [[e He]|(m & q & _ & _ & _ & _ & Hc)].
      - rewrite He. eexists _, _. reflexivity.
      - destruct (HN _ _ Hc) as (e & f' & He). rewrite Hc. rewrite (sbind_ok _ _ f (m * geom b q, S q) f) by reflexivity.
        cbn [st_new_with_config lc_store]. unfold sbind at 1. rewrite He. eexists _, _. reflexivity. }
    destruct HB; rewrite ?map_length in *.
    - apply HI. reflexivity.
    - unfold from_par_iter_with_config. cbv zeta.
      destruct (leafs_checks_cases b Hb (List.length xs)) as [[e He]|(m & q & _ & _ & _ & _ & Hc)].
      + rewrite He. eexists _, _. reflexivity.
      + destruct (HN _ _ Hc) as (e & f' & He). rewrite Hc. rewrite (sbind_ok _ _ f (m * geom b q, S q) f) by reflexivity.
        cbn [st_new_with_config lc_store]. unfold sbind at 1. rewrite He. eexists _, _. reflexivity.
    - unfold from_data_with_config. rewrite (hash_items_ok A AL), <- (map_length (hash_of A) xs). apply HI. rewrite map_length. reflexivity.
    - unfold from_byte_slice_with_config. rewrite encode_length, Nat.mod_mul, Nat.eqb_refl, Nat.div_mul by (auto; lia).
      unfold ensure at 1. rewrite (sbind_ok _ _ f tt f) by reflexivity.
      destruct (leafs_checks_cases b Hb (List.length els)) as [[e He]|(m & q & _ & _ & _ & _ & Hc)].
      + rewrite He. eexists _, _. reflexivity.
      + destruct (HN _ _ Hc) as (e & f' & He). rewrite Hc. rewrite (sbind_ok _ _ f (m * geom b q, S q) f) by reflexivity.
        cbn [st_new_from_slice_with_config lc_store]. unfold lc_new_from_slice_with_config.
        rewrite encode_length, Nat.mod_mul, Nat.eqb_refl by (auto; lia). cbn [ensure]. unfold sbind at 1.
        rewrite (sbind_ok _ _ f tt f) by reflexivity. unfold sbind at 1. rewrite He. eexists _, _. reflexivity.
  Qed.

  Lemma lc_newc_leafs size c f e0 : get_merkle_tree_leafs size b = Err e0 -> exists e f', lc_new_with_config EO size b c f = (Err e, f').
  Proof.
    intros He. unfold lc_new_with_config. rewrite (sbind_ok _ _ f f f) by reflexivity.
    destruct (fs_exists f (cfg_path c)) eqn:G.
    - assert (Ho : exists h, lc_open f (cfg_path c) = Ok h).
      { unfold lc_open, fs_open_rw, fs_open_ro. unfold fs_exists in G. destruct (fs_dir f (cfg_path c)) as [j|]; [|discriminate].
        destruct (i_ro (fs_ino f j)); eauto. }
      destruct Ho as [h Ho]. unfold lc_new_from_disk. rewrite G. cbn [ensure rbind]. rewrite Ho. cbn [rbind].
      rewrite He. cbn [rbind]. eauto.
    - unfold fs_exists in G. destruct (fs_dir f (cfg_path c)) eqn:Hp; [discriminate|].
      destruct (create_new_len f (cfg_path c) 0 Hp) as (h & f1 & f' & H1 & _).
      rewrite (sbind_ok _ _ _ _ _ H1). rewrite He. eexists _, _. reflexivity.
  Qed.

  Lemma geom_not_multiple m q k : 1 < m < b -> m * geom b q <> geom b k.
  Proof.
    intros Hm. pose proof (arity_ge b Hb) as H2. destruct (Nat.le_gt_cases k q) as [H|H].
    - pose proof (geom_mono b k q H). pose proof (geom_pos b q). nia.
    - pose proof (geom_mul b q ltac:(lia)) as G1. pose proof (geom_gt b (S q)) as G2. pose proof (geom_mono b (S q) k H) as G3.
      assert (m * geom b q <= (b - 1) * geom b q) by (apply Nat.mul_le_mono_r; lia). lia.
  Qed.

  (* leaf counts that are no power of the arity, and discard depths that leave no cached row *)
  Theorem lc_cfg_refused c leaves f r : cfg_builder EO LO A en b c leaves f r ->
    (forall d, sc_rows_to_discard c < d -> List.length leaves <> b ^ d) -> exists e f', r = (Err e, f').
  Proof.
    intros HB Hno. apply (lc_cfg_err c leaves f r HB). intros size rc Hck. pose proof (arity_ge b Hb) as H2.
    destruct (leafs_checks_cases b Hb (List.length leaves)) as [[e He]|(m & q & Hp & Hm & Hq & Hn & Hc)]; [congruence|].
    rewrite Hck in Hc. inversion Hc; subst size rc. destruct (Nat.eq_dec m 1) as [->|Hm1].
    - rewrite !Nat.mul_1_l in *. apply lc_newc_bad; auto. destruct (Nat.le_gt_cases q (sc_rows_to_discard c)); [auto|]. exfalso. eapply Hno; eauto.
    - pose proof (get_merkle_tree_leafs_sound b (m * geom b q) Hb ltac:(lia)) as HS.
      assert (0 < m * geom b q) by (pose proof (geom_pos b q); nia).
      destruct (get_merkle_tree_leafs (m * geom b q) b) as [n|e0|e0|] eqn:G.
      + destruct HS as (k & Hk & _). exfalso. eapply (geom_not_multiple m q k); eauto. lia.
      + eapply lc_newc_leafs; eauto.
      + contradiction.
      + contradiction.
  Qed.
End LcRefused.
