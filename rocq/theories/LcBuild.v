(* LevelCacheStore::build: rows are dropped from the front of the file as they are used up. *)
From Coq Require Import String List Arith Bool Lia Init.Byte ZifyBool ZifyNat.
From Verif Require Import Base Element Hash Sizing FS Sched Store VecStore DiskStore LevelCache ListFacts Spec SpecFacts SizingFacts SchedFacts StoreLaws RowFacts ChunkFacts BuildFacts BuildLoop StoreSpec FileFacts VecFacts MapLayer DiskFacts FrameFacts CompactFacts.
Import ListNotations.

Section LcBuild.
  Context {E : Type} (EO : ElementOps E) (EL : ElementLaws EO) (A : AlgOps E) (en : env).
  Local Notation bl := (e_byte_len EO).
  Variable b : nat.
  Hypothesis Hb : arity b.
  Hypothesis Hch : chunk_ok en b.

  (* reads at raw file positions *)
  Lemma lc_internal_read cap v s f lo hi l :
    DRep EO cap v (fs_data f (h_ino (lc_file s))) -> knows v lo l -> List.length l = hi - lo ->
    lo < hi -> hi <= lc_len s -> hi <= cap -> lo <= lc_data_width s ->
    lc_check EO (s, f) (lo * bl) (hi * bl) = Ok tt /\
    lc_store_read_range_internal EO (s, f) (lo * bl) (hi * bl) = Ok (encode EO l).
  Proof.
    intros HD Hk Hl H1 H2 H3 H4. pose proof (bl_pos EO EL) as Hbl.
    assert (Hin : lc_in_bounds EO s (lo * bl) = true).
    { unfold lc_in_bounds. apply orb_true_iff. left. apply Nat.leb_le, Nat.mul_le_mono_r. exact H4. }
    split.
    - unfold lc_check. cbn [fst]. assert (lo * bl < lc_len s * bl) by (apply Nat.mul_lt_mono_pos_r; lia).
      assert (hi * bl <= lc_len s * bl) by (apply Nat.mul_le_mono_r; lia).
      replace (lo * bl <? lc_len s * bl) with true by lia. replace (hi * bl <=? lc_len s * bl) with true by lia.
      cbn [ensure rbind]. rewrite Hin. reflexivity.
    - unfold lc_store_read_range_internal. cbn [fst snd]. assert (lo * bl <= hi * bl) by (apply Nat.mul_le_mono_r; lia).
      rewrite checked_sub_ok by auto. cbn [rbind]. rewrite Hin. cbn [ensure rbind].
      rewrite <- Nat.mul_sub_distr_r, <- Hl. unfold fs_read_exact_at, fs_size. rewrite (proj1 HD).
      assert (0 < List.length l * bl) by (apply Nat.mul_pos_pos; lia). replace (List.length l * bl =? 0) with false by lia.
      assert (lo * bl + List.length l * bl <= cap * bl) by (rewrite <- Nat.mul_add_distr_r; apply Nat.mul_le_mono_r; lia).
      replace (lo * bl + List.length l * bl <=? cap * bl) with true by lia. f_equal.
      apply (DRep_range EO cap v); auto. lia.
  Qed.
  Lemma lc_check_low s f lo hi : lo < hi -> hi <= lc_len s -> lo <= lc_data_width s ->
    lc_check EO (s, f) (lo * bl) (hi * bl) = Ok tt.
  Proof.
    intros H1 H2 H4. pose proof (bl_pos EO EL) as Hbl.
    assert (Hin : lc_in_bounds EO s (lo * bl) = true).
    { unfold lc_in_bounds. apply orb_true_iff. left. apply Nat.leb_le, Nat.mul_le_mono_r. exact H4. }
    unfold lc_check. cbn [fst]. assert (lo * bl < lc_len s * bl) by (apply Nat.mul_lt_mono_pos_r; lia).
    assert (hi * bl <= lc_len s * bl) by (apply Nat.mul_le_mono_r; lia).
    replace (lo * bl <? lc_len s * bl) with true by lia. replace (hi * bl <=? lc_len s * bl) with true by lia.
    cbn [ensure rbind]. rewrite Hin. reflexivity.
  Qed.
  Lemma lc_internal_range cap v s f lo hi l :
    DRep EO cap v (fs_data f (h_ino (lc_file s))) -> knows v lo l -> List.length l = hi - lo ->
    lo < hi -> hi <= lc_len s -> hi <= cap -> lo <= lc_data_width s -> lc_read_range_internal EO (s, f) lo hi = Ok l.
  Proof.
    intros HD Hk Hl H1 H2 H3 H4. destruct (lc_internal_read cap v s f lo hi l HD Hk Hl H1 H2 H3 H4) as [G1 G2].
    unfold lc_read_range_internal. rewrite G1. cbn [rbind]. rewrite G2. cbn [rbind]. apply decode_encode; auto.
  Qed.
  Lemma lc_internal_at cap v s f k x :
    DRep EO cap v (fs_data f (h_ino (lc_file s))) -> v k = Some x ->
    k < lc_len s -> k < cap -> k <= lc_data_width s -> lc_read_at_internal EO (s, f) k = Ok x.
  Proof.
    intros HD Hk H2 H3 H4.
    assert (Hx : knows v k [x]) by (intros j Hj; cbn in Hj; replace j with 0 by lia; rewrite Nat.add_0_r; exact Hk).
    destruct (lc_internal_read cap v s f k (k + 1) [x] HD Hx ltac:(cbn; lia) ltac:(lia) ltac:(lia) ltac:(lia) H4) as [G1 G2].
    unfold lc_read_at_internal. replace (k * bl + bl) with ((k + 1) * bl) by ring. rewrite G1. cbn [rbind]. rewrite G2. cbn [rbind].
    unfold encode. cbn [map concat]. rewrite app_nil_r. apply (el_round _ EL).
  Qed.

  (* ---- front_truncate ---- *)
  Lemma front_truncate_ok sizes c w cap v s f i :
    h_ino (lc_file s) = i -> fs_dir f (cfg_path c) = Some i -> i_ro (fs_ino f i) = false ->
    DRep EO cap v (fs_data f i) -> w <= cap ->
    exists f', lc_front_truncate EO sizes c w (s, f) = (Ok tt, (lc_set_file s {| h_ino := i; h_write := true |}, f')) /\
      DRep EO (cap - w) (fun k => v (w + k)) (fs_data f' i) /\ fs_frame (Some i) f f' /\
      fs_data f' i = sub (fs_data f i) (w * bl) (cap * bl - w * bl).
  Proof.
    intros Hi Hp Hro HD Hw. pose proof (bl_pos EO EL) as Hbl. pose proof HD as [HD1 HD2].
    assert (Hwb : w * bl <= cap * bl) by (apply Nat.mul_le_mono_r; lia).
    unfold lc_front_truncate. rewrite (sbind_ok _ _ (s, f) (s, f) (s, f)) by reflexivity. cbn [fst snd].
    unfold fs_size. rewrite Hi, HD1. fold bl. replace (w * bl <=? cap * bl) with true by lia.
    cbn [ensure]. rewrite (sbind_ok _ _ (s, f) tt (s, f)) by reflexivity.
    unfold fs_open_ro. rewrite Hp. rewrite (sbind_ok _ _ (s, f) {| h_ino := i; h_write := false |} (s, f)) by reflexivity.
    unfold fs_open_rw. rewrite Hp, Hro. rewrite (sbind_ok _ _ (s, f) {| h_ino := i; h_write := true |} (s, f)) by reflexivity.
    set (s1 := lc_set_file s {| h_ino := i; h_write := true |}).
    rewrite (sbind_ok _ _ (s, f) tt (s1, f)) by reflexivity.
    destruct (fs_copy_spec sizes {| h_ino := i; h_write := false |} {| h_ino := i; h_write := true |} (fs_data f i) 0 (w * bl)
                eq_refl eq_refl ltac:(lia) ltac:(lia) f eq_refl) as (f1 & Hc & Hm).
    pose proof (copy_loop_frame sizes {| h_ino := i; h_write := false |} {| h_ino := i; h_write := true |} (S (fs_size f {| h_ino := i; h_write := false |})) 0 (w * bl) 0 0 f) as HF1.
    change (copy_loop (S (fs_size f {| h_ino := i; h_write := false |})) sizes 0 {| h_ino := i; h_write := false |} {| h_ino := i; h_write := true |} (w * bl) 0 0 f)
      with (fs_copy sizes {| h_ino := i; h_write := false |} {| h_ino := i; h_write := true |} (w * bl) 0 f) in HF1.
    rewrite Hc in HF1. cbn [snd h_ino] in HF1, Hm. rewrite HD1 in Hc, Hm. fold bl in Hc, Hm.
    rewrite (sbind_ok _ _ (s1, f) (cap * bl - w * bl) (s1, f1)) by (unfold on_fs; cbn [fst snd]; rewrite Hc; reflexivity).
    rewrite Nat.eqb_refl. cbn [ensure]. rewrite (sbind_ok _ _ (s1, f1) tt (s1, f1)) by reflexivity.
    set (f2 := snd (fs_set_len {| h_ino := i; h_write := true |} (cap * bl - w * bl) f1)).
    exists f2. split; [reflexivity|].
    assert (HFr : fs_frame (Some i) f f2) by (eapply fs_frame_trans; [exact HF1|apply (set_len_frame {| h_ino := i; h_write := true |})]).
    assert (Hml : List.length (moved (fs_data f i) 0 (w * bl) (cap * bl - w * bl)) = cap * bl).
    { rewrite moved_length; [exact HD1|lia|]. rewrite HD1. fold bl. lia. }
    assert (HDt : fs_data f2 i = sub (fs_data f i) (w * bl) (cap * bl - w * bl)).
    { unfold f2, fs_set_len. cbn [h_write h_ino snd]. rewrite fs_set_data_get, Hm, resize_shrink by lia.
      unfold moved, overwrite. cbn [firstn app Nat.add].
      assert (Hsl : List.length (sub (fs_data f i) (w * bl) (cap * bl - w * bl)) = cap * bl - w * bl) by (apply sub_length_le; rewrite HD1; fold bl; lia).
      rewrite <- Hsl at 1. rewrite firstn_app, Nat.sub_diag, firstn_all. cbn [firstn]. apply app_nil_r. }
    split; [|split; [exact HFr|exact HDt]]. rewrite HDt. split.
    - rewrite sub_length_le by (rewrite HD1; fold bl; lia). fold bl. rewrite Nat.mul_sub_distr_r. reflexivity.
    - intros k e Hk. destruct (HD2 (w + k) e Hk) as [K1 K2]. split; [lia|]. fold bl.
      assert (k * bl + bl <= cap * bl - w * bl).
      { assert ((w + k + 1) * bl <= cap * bl) by (apply Nat.mul_le_mono_r; lia). lia. }
      rewrite sub_sub by lia. rewrite <- K2. f_equal. fold bl. lia.
  Qed.

  (* ---- the loop ---- *)
  Variables (leaves : list E) (d : nat) (c : StoreConfig) (i : nat).
  Local Notation R := (sc_rows_to_discard c).
  Hypothesis Hd : 1 <= d.
  Hypothesis HR : R < d.
  Hypothesis HL : List.length leaves = b ^ d.
  Let rw := row A b leaves.
  Let base (r : nat) : nat := row_off b d (Nat.min r (S R)).

  (* rows min r (S R) .. r are in the file, which starts with row min r (S R) *)
  Record LcSt (r : nat) (st : lc_t * fs) : Prop := {
    ls_ino : h_ino (lc_file (fst st)) = i;
    ls_write : h_write (lc_file (fst st)) = true;
    ls_len : lc_len (fst st) = if r =? 0 then b ^ d else row_off b d r;
    ls_width : lc_data_width (fst st) = b ^ d;
    ls_cis : lc_cache_index_start (fst st) = row_off b d (S R) * bl;
    ls_reader : lc_reader (fst st) = None;
    ls_path : fs_dir (snd st) (cfg_path c) = Some i;
    ls_ro : i_ro (fs_ino (snd st) i) = false;
    ls_data : exists v, DRep EO (geom b d - base r) v (fs_data (snd st) i) /\
      forall r', Nat.min r (S R) <= r' -> r' <= r -> knows v (row_off b d r' - base r) (rw r')
  }.

  Lemma rw_length r : r <= d -> List.length (rw r) = b ^ (d - r).
  Proof.
    intros Hr. pose proof (arity_ge b Hb). unfold rw. rewrite (row_length A b ltac:(lia) leaves 1 d) by (auto; lia). lia.
  Qed.
  Lemma row_off_le r : r <= S d -> row_off b d r <= geom b d.
  Proof.
    intros Hr. pose proof (row_off_mono b d r (S d) Hr) as M. rewrite (row_off_step b d d), row_off_last, Nat.sub_diag in M.
    pose proof (geom_pos b d). cbn [Nat.pow] in M. lia.
  Qed.
  Lemma row_off_1 : row_off b d 1 = b ^ d.
  Proof. change (row_off b d 1) with (0 + b ^ (d - 0)). rewrite Nat.sub_0_r. reflexivity. Qed.
  Lemma row_off_ge r : 1 <= r -> b ^ d <= row_off b d r.
  Proof. intros H. pose proof (row_off_mono b d 1 r H) as M. rewrite row_off_1 in M. exact M. Qed.
  Lemma base_le r : base r <= row_off b d r.
  Proof. apply row_off_mono. lia. Qed.
  (* the part still in use fits into the width of the leaf row *)
  Lemma kept_small : geom b d - row_off b d (S R) <= b ^ d.
  Proof.
    rewrite (geom_row_off b d (S R)) by lia. pose proof (arity_ge b Hb).
    pose proof (geom_lt_next b (d - S R) ltac:(lia)) as G.
    pose proof (Nat.pow_le_mono_r b (S (d - S R)) d ltac:(lia) ltac:(lia)). lia.
  Qed.
  Lemma row_end_small r : r <= d -> row_off b d (S r) - base r <= b ^ d + b ^ d /\ row_off b d r - base r <= b ^ d.
  Proof.
    intros Hr. unfold base. destruct (Nat.le_gt_cases r (S R)) as [H|H].
    - rewrite Nat.min_l by lia. rewrite row_off_step. pose proof (arity_ge b Hb).
      pose proof (Nat.pow_le_mono_r b (d - r) d ltac:(lia) ltac:(lia)). lia.
    - rewrite Nat.min_r by lia. pose proof kept_small. pose proof (row_off_le (S r) ltac:(lia)). pose proof (row_off_le r ltac:(lia)). lia.
  Qed.

  Lemma lc_step r s f : r < d -> LcSt r (s, f) ->
    exists f1 st2,
      lc_process_layer EO en A b (env_bytes en r) (b ^ (d - r)) r
        (row_off b d r - base r) (row_off b d (S r) - base r) (s, f) = (Ok tt, (s, f1)) /\
      (if row_off b d r <? row_off b d (S R) then lc_front_truncate EO (env_copy en r) c (b ^ (d - r)) else sret tt) (s, f1) = (Ok tt, st2) /\
      (forall n, n = row_off b d (S r) -> LcSt (S r) (lc_set_len (fst st2) n, snd st2)) /\
      fs_frame (Some i) f (snd st2).
  Proof.
    intros Hr [G1 G2 G3 G4 G5 G6 G7 G8 (v & HD & Hk)]. cbn [fst snd] in *.
    pose proof (arity_ge b Hb) as H2.
    assert (Hw : b ^ (d - r) = b ^ (d - S r) * b) by (replace (d - r) with (S (d - S r)) by lia; cbn [Nat.pow]; lia).
    assert (Hw1 : 1 <= b ^ (d - S r)) by (pose proof (Nat.pow_nonzero b (d - S r)); lia).
    pose proof (row_off_step b d r) as Hs1. pose proof (row_off_step b d (S r)) as Hs2.
    pose proof (base_le r) as Hbs. pose proof (row_off_le (S (S r)) ltac:(lia)) as Hle.
    pose proof (row_end_small r ltac:(lia)) as [Hsm1 Hsm2].
    destruct Hch as [Hc1 Hc2].
    assert (Hkr : knows v (row_off b d r - base r) (rw r)) by (apply Hk; lia).
    destruct (map_layer_ok EO EL lc_file (fun st s e => lc_check EO st (s * bl) (e * bl)) A b (p_chunk (env_params en)) Hb Hc1 Hc2 s f
        (geom b d - base r) v (rw r) (b ^ (d - S r)) r (row_off b d r - base r) (row_off b d (S r) - base r)) with (sched := env_bytes en r)
      as (f1 & Hrun & HD1 & HF1).
    - exact G2.
    - rewrite G1. exact HD.
    - rewrite rw_length by lia. exact Hw.
    - exact Hw1.
    - exact Hkr.
    - rewrite <- Hw. lia.
    - lia.
    - intros f0 k n Hn Hkn.
      apply lc_check_low.
      + lia.
      + rewrite G3. rewrite <- Hw in Hkn. destruct (r =? 0) eqn:Q.
        * replace r with 0 in * by lia. change (row_off b d 0) with 0. rewrite Nat.sub_0_r in Hkn. lia.
        * pose proof (row_off_ge r ltac:(lia)). unfold base in *.
          destruct (Nat.le_gt_cases r (S R)) as [Hx|Hx].
          -- rewrite Nat.min_l in * by lia. pose proof (Nat.pow_le_mono_r b (d - r) d ltac:(lia) ltac:(lia)). lia.
          -- rewrite Nat.min_r in * by lia. pose proof (row_off_ge (S R) ltac:(lia)).
             pose proof (Nat.pow_le_mono_r b (d - r) d ltac:(lia) ltac:(lia)). lia.
      + rewrite G4. rewrite <- Hw in Hkn. unfold base in *.
        destruct (Nat.le_gt_cases r (S R)) as [Hx|Hx].
        * rewrite Nat.min_l in * by lia. pose proof (Nat.pow_le_mono_r b (d - r) d ltac:(lia) ltac:(lia)). lia.
        * rewrite Nat.min_r in * by lia. pose proof kept_small. lia.
    - rewrite G1 in HD1, HF1. unfold lc_process_layer. rewrite <- Hw in Hrun.
      change (hash_row A b r (rw r)) with (rw (S r)) in HD1.
      set (v1 := upd v (row_off b d (S r) - base r) (rw (S r))) in *.
      assert (Hk1 : forall r', Nat.min r (S R) <= r' -> r' <= S r -> knows v1 (row_off b d r' - base r) (rw r')).
      { intros r' Ha Hb'. destruct (Nat.eq_dec r' (S r)) as [->|Hne]; [apply knows_upd_same|].
        apply knows_upd_other; [apply Hk; lia|]. left. rewrite rw_length by lia.
        pose proof (row_off_step b d r'). pose proof (row_off_mono b d (S r') (S r) ltac:(lia)).
        pose proof (row_off_mono b d (Nat.min r (S R)) r' ltac:(lia)). unfold base. lia. }
      pose proof HF1 as (F1 & F2 & F3 & F4).
      destruct (Nat.le_gt_cases r R) as [HrR|HrR].
      + assert (HB : base r = row_off b d r) by (unfold base; rewrite Nat.min_l by lia; reflexivity).
        assert (HB' : base (S r) = row_off b d (S r)) by (unfold base; rewrite Nat.min_l by lia; reflexivity).
        destruct (front_truncate_ok (env_copy en r) c (b ^ (d - r)) (geom b d - base r) v1 s f1 i G1) as (f2 & Ht & HD2 & HF2 & _).
        * rewrite F1. exact G7.
        * rewrite F4. exact G8.
        * exact HD1.
        * lia.
        * exists f1, (lc_set_file s {| h_ino := i; h_write := true |}, f2). split; [exact Hrun|].
          pose proof (row_off_mono b d (S r) (S R) ltac:(lia)) as Hm. pose proof (Nat.pow_nonzero b (d - r) ltac:(lia)).
          replace (row_off b d r <? row_off b d (S R)) with true by lia. split; [exact Ht|].
          split; [|eapply fs_frame_trans; eauto]. pose proof HF2 as (F1' & F2' & F3' & F4').
          intros n ->. constructor; cbn [fst snd lc_set_len lc_set_file lc_file lc_len lc_data_width lc_cache_index_start lc_reader h_ino h_write]; auto.
          -- rewrite F1', F1. exact G7.
          -- rewrite F4', F4. exact G8.
          -- exists (fun k => v1 (b ^ (d - r) + k)). split.
             ++ replace (geom b d - base (S r)) with (geom b d - base r - b ^ (d - r)) by lia. exact HD2.
             ++ intros r' Ha Hb'. assert (r' = S r) by lia. subst r'. intros k Hkk. rewrite <- (Hk1 (S r) ltac:(lia) ltac:(lia) k Hkk).
                f_equal. lia.
      + assert (HB : base r = row_off b d (S R)) by (unfold base; rewrite Nat.min_r by lia; reflexivity).
        assert (HB' : base (S r) = row_off b d (S R)) by (unfold base; rewrite Nat.min_r by lia; reflexivity).
        exists f1, (s, f1). split; [exact Hrun|]. pose proof (row_off_mono b d (S R) r ltac:(lia)).
        replace (row_off b d r <? row_off b d (S R)) with false by lia. split; [reflexivity|]. split; [|exact HF1].
        intros n ->. constructor; cbn [fst snd lc_set_len lc_file lc_len lc_data_width lc_cache_index_start lc_reader]; auto.
        -- rewrite F1. exact G7.
        -- rewrite F4. exact G8.
        -- exists v1. rewrite HB'. rewrite HB in HD1, Hk1. split; [exact HD1|].
           intros r' Ha Hb'. apply Hk1; lia.
  Qed.

  Lemma lc_loop_run : forall k r fuel st, r + k = d -> LcSt r st ->
    exists st', lc_build_loop EO en A b (k + S fuel) (log2_pow2 b) (row_off b d (S R)) c r (b ^ k) (row_off b d r) st = (Ok d, st') /\
      LcSt d st' /\ fs_frame (Some i) (snd st) (snd st').
  Proof.
    pose proof (arity_ge b Hb) as H2.
    induction k; intros r fuel [s f] Hrk HS.
    - assert (r = d) by lia. subst r. exists (s, f). cbn [Nat.add Nat.pow lc_build_loop]. cbn [Nat.ltb Nat.leb].
      split; [reflexivity|]. split; [exact HS|apply fs_frame_refl].
    - destruct (lc_step r s f ltac:(lia) HS) as (f1 & st2 & H1 & H3 & H4 & H5).
      cbn [Nat.add lc_build_loop]. assert (1 < b ^ S k).
      { cbn [Nat.pow]. pose proof (Nat.pow_nonzero b k ltac:(lia)). nia. }
      replace (1 <? b ^ S k) with true by lia.
      rewrite (sbind_ok _ _ (s, f) (s, f) (s, f)) by reflexivity. cbn [fst].
      assert (Hpair : (if r =? 0 then (0, lc_len s) else if row_off b d r <? row_off b d (S R) then (0, b ^ S k)
                else (row_off b d r - row_off b d (S R), row_off b d r + b ^ S k - row_off b d (S R))) =
               (row_off b d r - base r, row_off b d (S r) - base r)).
      { replace (S k) with (d - r) by lia. rewrite <- row_off_step. pose proof (ls_len _ _ HS) as Hl. cbn [fst] in Hl. rewrite Hl.
        unfold base. destruct (r =? 0) eqn:Q.
        - replace r with 0 by lia. cbn [Nat.min]. change (row_off b d 0) with 0. rewrite row_off_1, !Nat.sub_0_r. reflexivity.
        - destruct (row_off b d r <? row_off b d (S R)) eqn:Q2.
          + assert (r <= R). { destruct (Nat.le_gt_cases r R); [auto|]. pose proof (row_off_mono b d (S R) r ltac:(lia)). lia. }
            rewrite Nat.min_l by lia. rewrite Nat.sub_diag, row_off_step. f_equal. lia.
          + assert (S R <= r).
            { destruct (Nat.le_gt_cases (S R) r); [auto|]. pose proof (row_off_mono b d (S r) (S R) ltac:(lia)) as M. rewrite row_off_step in M.
              pose proof (Nat.pow_nonzero b (d - r) ltac:(lia)). lia. }
            rewrite Nat.min_r by lia. reflexivity. }
      rewrite Hpair. replace (b ^ S k) with (b ^ (d - r)) by (f_equal; lia).
      rewrite (sbind_ok _ _ _ _ _ H1), (sbind_ok _ _ _ _ _ H3).
      rewrite <- row_off_step.
      rewrite (sbind_ok _ _ st2 tt (lc_set_len (fst st2) (row_off b d (S r)), snd st2)) by reflexivity.
      rewrite arity_shift by auto. replace (b ^ (d - r) / b) with (b ^ k).
      2:{ replace (d - r) with (S k) by lia. cbn [Nat.pow]. rewrite Nat.mul_comm, Nat.div_mul by lia. reflexivity. }
      destruct (IHk (S r) fuel _ ltac:(lia) (H4 _ eq_refl)) as (st' & H6 & H7 & H8).
      exists st'. split; [exact H6|]. split; [exact H7|]. eapply fs_frame_trans; [exact H5|exact H8].
  Qed.

  Theorem lc_build_ok s f : LcSt 0 (s, f) ->
    exists root s' f', lc_build_fuel EO en A b (S (b ^ d)) (b ^ d) (S d) (Some c) (s, f) = (Ok root, (s', f')) /\
      nth_error (all_rows A b leaves d) (geom b d - 1) = Some root /\
      fs_data f' i = encode EO (skipn (row_off b d (S R)) (all_rows A b leaves d)) /\
      h_ino (lc_file s') = i /\ lc_len s' = geom b d /\ lc_data_width s' = b ^ d /\
      lc_cache_index_start s' = row_off b d (S R) * bl /\ lc_reader s' = None /\ fs_frame (Some i) f f'.
  Proof.
    intros HS. pose proof (arity_ge b Hb) as H2.
    pose proof (even_leafs b Hb 1 d ltac:(lia) Hd) as Hev. rewrite Nat.mul_1_l in Hev.
    pose proof (pow_fuel 1 b d ltac:(lia) H2) as Hf. rewrite Nat.mul_1_l in Hf.
    pose proof (geom_row_off b d (S R) ltac:(lia)) as HG. pose proof (geom_pos b (d - S R)) as HGp.
    unfold lc_build_fuel. rewrite (arity_next b Hb), Nat.eqb_refl.
    cbn [ensure]. rewrite (sbind_ok _ _ (s, f) tt (s, f)) by reflexivity.
    rewrite (sbind_ok _ _ (s, f) (s, f) (s, f)) by reflexivity.
    pose proof (ls_len _ _ HS) as Hlen. cbn [fst Nat.eqb] in Hlen. cbn [fst]. rewrite Hlen, Nat.eqb_refl.
    cbn [ensure]. rewrite (sbind_ok _ _ (s, f) tt (s, f)) by reflexivity.
    rewrite Hev. change (0 =? 0) with true. cbn [ensure]. rewrite (sbind_ok _ _ (s, f) tt (s, f)) by reflexivity.
    rewrite (sbind_ok _ _ (s, f) c (s, f)) by reflexivity.
    rewrite cache_size_full by auto. rewrite (sbind_ok _ _ (s, f) (geom b (d - 1 - R)) (s, f)) by reflexivity.
    rewrite get_merkle_tree_len_full by auto. rewrite (sbind_ok _ _ (s, f) (geom b d) (s, f)) by reflexivity.
    replace (d - 1 - R) with (d - S R) by lia. rewrite checked_sub_ok by lia.
    replace (geom b d - geom b (d - S R)) with (row_off b d (S R)) by lia.
    rewrite (sbind_ok _ _ (s, f) (row_off b d (S R)) (s, f)) by reflexivity.
    destruct (lc_loop_run d 0 (b ^ d - d) (s, f) ltac:(lia) HS) as ([s1 f1] & H1 & HS1 & HF1). cbn [snd] in HF1.
    replace (d + S (b ^ d - d)) with (S (b ^ d)) in H1 by lia. change (row_off b d 0) with 0 in H1.
    rewrite (sbind_ok _ _ _ _ _ H1).
    rewrite (sbind_ok _ _ (s1, f1) (s1, f1) (s1, f1)) by reflexivity. cbn [fst].
    destruct HS1 as [G1 G2 G3 G4 G5 G6 G7 G8 (v & HD & Hk)]. cbn [fst snd] in *.
    replace (d =? 0) with false in G3 by lia.
    assert (Hlast : row_off b d d + 1 = geom b d) by (rewrite row_off_last; pose proof (geom_pos b d); lia).
    rewrite G3, Hlast.
    set (s2 := lc_set_len s1 (geom b d)).
    rewrite (sbind_ok _ _ (s1, f1) tt (s2, f1)) by reflexivity.
    rewrite (sbind_ok _ _ (s2, f1) (s2, f1) (s2, f1)) by reflexivity. cbn [fst]. change (lc_len s2) with (geom b d).
    rewrite Nat.eqb_refl. cbn [ensure]. rewrite (sbind_ok _ _ (s2, f1) tt (s2, f1)) by reflexivity.
    rewrite Nat.add_1_r, Nat.eqb_refl. cbn [ensure]. rewrite (sbind_ok _ _ (s2, f1) tt (s2, f1)) by reflexivity.
    rewrite checked_sub_ok by lia. cbn [rbind]. rewrite checked_sub_ok by lia.
    replace (geom b d - row_off b d (S R) - 1) with (geom b (d - S R) - 1) by lia.
    rewrite (sbind_ok _ _ (s2, f1) (geom b (d - S R) - 1) (s2, f1)) by reflexivity.
    pose proof (all_rows_Layout A b ltac:(lia) leaves d HL) as (_ & L2 & _).
    (* the kept rows are the whole file *)
    assert (HB : base d = row_off b d (S R)) by (unfold base; rewrite Nat.min_r by lia; reflexivity).
    rewrite HB in HD, Hk. replace (geom b d - row_off b d (S R)) with (geom b (d - S R)) in HD by lia.
    set (kp := skipn (row_off b d (S R)) (all_rows A b leaves d)).
    assert (Hkl : List.length kp = geom b (d - S R)) by (unfold kp; rewrite skipn_length; lia).
    assert (Hkv : forall q, q < geom b (d - S R) -> v q = nth_error kp q).
    { intros q Hq. unfold kp. rewrite nth_error_skipn.
      destruct (row_find b d (row_off b d (S R) + q) ltac:(lia)) as (r & j & Hr & Hj & Hsp).
      assert (S R <= r).
      { destruct (Nat.le_gt_cases (S R) r); [auto|]. pose proof (row_off_mono b d (S r) (S R) ltac:(lia)) as M. rewrite row_off_step in M. lia. }
      rewrite Hsp. pose proof (all_rows_nth A b ltac:(lia) leaves 1 d d r j ltac:(lia) ltac:(lia) Hr ltac:(lia)) as N.
      rewrite Nat.mul_1_l in N. rewrite N.
      specialize (Hk r ltac:(lia) Hr j ltac:(rewrite rw_length by lia; exact Hj)). unfold rw in Hk. rewrite <- Hk. f_equal.
      pose proof (row_off_mono b d (S R) r ltac:(lia)). lia. }
    assert (HDk : DRep EO (List.length kp) (nth_error kp) (fs_data f1 i)).
    { rewrite Hkl. eapply DRep_weaken; [|exact HD]. intros q e Hq. rewrite Hkv; [exact Hq|]. apply nth_error_lt in Hq. lia. }
    destruct (nth_error_ex (all_rows A b leaves d) (geom b d - 1) ltac:(lia)) as [root Hroot].
    exists root, s2, f1. split.
    { unfold sreads. rewrite (lc_internal_at (List.length kp) (nth_error kp) s2 f1 (geom b (d - S R) - 1) root); [reflexivity| | | | |].
      - cbn [s2 lc_set_len lc_file]. rewrite G1. exact HDk.
      - unfold kp. rewrite nth_error_skipn. rewrite <- Hroot. f_equal. lia.
      - cbn [s2 lc_set_len lc_len]. lia.
      - lia.
      - cbn [s2 lc_set_len lc_data_width]. rewrite G4. pose proof kept_small. lia. }
    split; [exact Hroot|]. split; [exact (DRep_full EO kp _ HDk)|].
    cbn [s2 lc_set_len lc_file lc_len lc_data_width lc_cache_index_start lc_reader]. auto 10.
  Qed.
End LcBuild.
