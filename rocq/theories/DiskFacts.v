(* DiskStore satisfies the store laws. *)
From Coq Require Import String List Arith Bool Lia Init.Byte ZifyBool ZifyNat.
From Verif Require Import Base Element Hash Sizing FS Sched Store DiskStore ListFacts Spec SpecFacts SizingFacts SchedFacts StoreLaws RowFacts ChunkFacts BuildFacts BuildLoop StoreSpec FileFacts MapLayer.
Import ListNotations.

(* ---- creating files ---- *)
Lemma resize_nil {X} n (x : X) : resize [] n x = repeat x n.
Proof. unfold resize. rewrite firstn_nil. simpl. rewrite Nat.sub_0_r. reflexivity. Qed.

Lemma tempfile_len f n : exists h f', 
  sbind fs_tempfile (fun h => sbind (fs_set_len h n) (fun _ => sret h)) f = (Ok h, f') /\
  fs_tempfile f = (Ok h, snd (fs_tempfile f)) /\
  fs_set_len h n (snd (fs_tempfile f)) = (Ok tt, f') /\
  h_write h = true /\ fs_data f' (h_ino h) = repeat x00 n /\ Created f f' None (Some (h_ino h)).
Proof.
  eexists _, _. split; [reflexivity|]. split; [reflexivity|]. split; [reflexivity|].
  split; [reflexivity|]. split.
  - rewrite fs_set_data_data. cbn [fs_tempfile fs_alloc snd h_ino]. unfold fs_data. cbn [fs_ino].
    rewrite Nat.eqb_refl. cbn [i_data]. apply resize_nil.
  - unfold Created. cbn. repeat split; auto; try congruence; try lia.
    + intros i Hi. replace (i =? fs_next f) with false by lia. reflexivity.
    + inversion H. lia.
    + inversion H. lia.
    + intros i Hi. inversion Hi. rewrite !Nat.eqb_refl. reflexivity.
Qed.

Lemma create_new_len f p n : fs_dir f p = None -> exists h f1 f',
  fs_create_new p f = (Ok h, f1) /\ fs_set_len h n f1 = (Ok tt, f') /\
  h_write h = true /\ fs_data f' (h_ino h) = repeat x00 n /\ Created f f' (Some p) (Some (h_ino h)) /\
  fs_dir f' p = Some (h_ino h).
Proof.
  intros Hp. unfold fs_create_new, fs_exists. rewrite Hp.
  eexists _, _, _. split; [reflexivity|]. split; [reflexivity|].
  split; [reflexivity|]. split; [|split].
  - rewrite fs_set_data_data. cbn [h_ino]. unfold fs_data. cbn [fs_ino].
    rewrite Nat.eqb_refl. cbn [i_data]. apply resize_nil.
  - unfold Created. cbn. repeat split; auto; try lia.
    + intros i Hi. replace (i =? fs_next f) with false by lia. reflexivity.
    + inversion H. lia.
    + inversion H. lia.
    + intros q Hq. destruct (String.eqb_spec q p); [congruence|reflexivity].
    + intros q Hq. inversion Hq. rewrite String.eqb_refl. reflexivity.
    + intros i Hi. inversion Hi. rewrite !Nat.eqb_refl. reflexivity.
  - cbn. rewrite String.eqb_refl. reflexivity.
Qed.

Lemma write_all_in h off d f : h_write h = true -> off + List.length d <= List.length (fs_data f (h_ino h)) ->
  exists f', fs_write_all_at h off d f = (Ok tt, f') /\ fs_data f' (h_ino h) = overwrite (fs_data f (h_ino h)) off d /\
    fs_frame (Some (h_ino h)) f f'.
Proof.
  intros Hw Hl. unfold fs_write_all_at. destruct (_ =? 0) eqn:G.
  - exists f. split; [reflexivity|]. split; [|apply fs_frame_refl].
    destruct d; [|discriminate]. symmetry. apply overwrite_nil.
  - rewrite Hw. eexists. split; [reflexivity|]. split; [|apply fs_set_data_frame].
    rewrite fs_set_data_data. f_equal. rewrite Nat.max_l by lia. apply resize_same.
Qed.

Lemma write_all_any h off d f :
  (exists f', fs_write_all_at h off d f = (Ok tt, f')) \/ fs_write_all_at h off d f = (Err "bad file descriptor", f).
Proof. unfold fs_write_all_at. destruct (_ =? 0); [left; eexists; reflexivity|]. destruct (h_write h); [left; eexists|right]; reflexivity. Qed.

Lemma write_all_frame h off d f : fs_frame (Some (h_ino h)) f (snd (fs_write_all_at h off d f)).
Proof.
  unfold fs_write_all_at. destruct (_ =? 0); [apply fs_frame_refl|]. destruct (h_write h); [apply fs_set_data_frame|apply fs_frame_refl].
Qed.

Section Disk.
  Context {E : Type} (EO : ElementOps E) (EL : ElementLaws EO).
  Let bl := e_byte_len EO.
  Let St := (disk_t * fs)%type.

  Definition disk_owner (s : disk_t) : option nat := Some (h_ino (ds_file s)).
  Definition disk_W (s : disk_t) : Prop := h_write (ds_file s) = true.
  Definition disk_rep (cap n : nat) (v : nat -> option E) (st : St) : Prop :=
    ds_len (fst st) = n /\ n <= cap /\ ds_size (fst st) = cap * bl /\
    DRep EO cap v (fs_data (snd st) (h_ino (ds_file (fst st)))).

  Lemma disk_check_ok st s e n : ds_len (fst st) = n -> s < e -> e <= n ->
    disk_check EO st (s * bl) (e * bl) = Ok tt.
  Proof.
    intros H H1 H2. pose proof (bl_pos EO EL) as Hbl. unfold disk_check. fold bl in Hbl |- *. rewrite H.
    assert (s * bl < n * bl) by (apply Nat.mul_lt_mono_pos_r; lia).
    assert (e * bl <= n * bl) by (apply Nat.mul_le_mono_r; lia).
    replace (s * bl <? n * bl) with true by lia. replace (e * bl <=? n * bl) with true by lia. reflexivity.
  Qed.

  Lemma disk_range_bytes st cap v s (l : list E) :
    DRep EO cap v (fs_data (snd st) (h_ino (ds_file (fst st)))) -> knows v s l -> s + List.length l <= cap -> 0 < List.length l ->
    disk_store_read_range st (s * bl) ((s + List.length l) * bl) = Ok (encode EO l).
  Proof.
    intros HD Hk Hc Hl. pose proof (bl_pos EO EL) as Hbl. fold bl in Hbl. unfold disk_store_read_range.
    rewrite Nat.mul_add_distr_r, checked_sub_ok by lia. cbn [rbind].
    replace (s * bl + List.length l * bl - s * bl) with (List.length l * bl) by lia.
    unfold fs_read_exact_at. assert (0 < List.length l * bl) by (apply Nat.mul_pos_pos; auto).
    replace (List.length l * bl =? 0) with false by lia.
    unfold fs_size. pose proof (proj1 HD) as HDl. fold bl in HDl. rewrite HDl.
    rewrite <- Nat.mul_add_distr_r.
    replace ((s + List.length l) * bl <=? cap * bl) with true.
    - f_equal. apply (DRep_range EO _ _ _ _ _ HD); auto.
    - symmetry. apply Nat.leb_le, Nat.mul_le_mono_r. exact Hc.
  Qed.

  Lemma disk_read_range_rep cap n v st s e l : disk_rep cap n v st -> s < e -> e <= n ->
      List.length l = e - s -> knows v s l -> disk_read_range EO st s e = Ok l.
  Proof.
    intros (H1 & H2 & H3 & HD) Hs He Hl Hk. unfold disk_read_range. fold bl.
    rewrite (disk_check_ok st s e n) by auto. cbn [rbind].
    replace e with (s + List.length l) by lia.
    rewrite (disk_range_bytes st cap v s l HD Hk) by lia. cbn [rbind]. apply decode_encode. exact EL.
  Qed.

  Lemma disk_store_copy_rep cap n v st start els :
    disk_rep cap n v st -> disk_W (fst st) -> start + List.length els <= cap ->
    exists f', disk_store_copy_from_slice (start * bl) (encode EO els) st = (Ok tt, (fst st, f')) /\
      DRep EO cap (upd v start els) (fs_data f' (h_ino (ds_file (fst st)))) /\
      fs_frame (disk_owner (fst st)) (snd st) f'.
  Proof.
    intros (H1 & H2 & H3 & HD) HW Hc. pose proof (bl_pos EO EL) as Hbl. fold bl in Hbl.
    unfold disk_store_copy_from_slice. rewrite encode_length by auto. fold bl. rewrite H3.
    rewrite <- Nat.mul_add_distr_r.
    assert (Hle : (start + List.length els) * bl <= cap * bl) by (apply Nat.mul_le_mono_r; exact Hc).
    apply Nat.leb_le in Hle. rewrite Hle. unfold on_fs.
    destruct (write_all_in (ds_file (fst st)) (start * bl) (encode EO els) (snd st)) as (f' & -> & Hd' & Hfr);
      [exact HW|rewrite encode_length by auto; fold bl; rewrite <- Nat.mul_add_distr_r; rewrite (proj1 HD); apply Nat.leb_le; exact Hle|].
    eexists. split; [reflexivity|]. split; [|exact Hfr].
    rewrite Hd'. apply DRep_write; auto.
  Qed.

  Lemma disk_core : CoreLaws EO ds_len (disk_read_at EO) (disk_read_range EO) (disk_write_at EO)
                     (disk_copy_from_slice EO) disk_owner disk_W disk_rep true.
  Proof.
    pose proof (bl_pos EO EL) as Hbl. fold bl in Hbl.
    constructor.
    - intros cap n v st [H _]. exact H.
    - intros cap n v1 v2 st H (H1 & H2 & H3 & H4).
      split; [auto|split; [auto|split; [auto|]]]. eapply DRep_weaken; eauto.
    - intros cap n v s f f' (H1 & H2 & H3 & H4) Hi. cbn [fst snd] in *.
      split; [auto|split; [auto|split; [auto|]]]. cbn [fst snd]. unfold fs_data in *. rewrite Hi by reflexivity. exact H4.
    - intros cap n v st i e HR Hi He. pose proof HR as (H1 & H2 & H3 & HD).
      unfold disk_read_at. fold bl.
      replace (i * bl + bl) with ((i + 1) * bl) by lia.
      rewrite (disk_check_ok st i (i + 1) n) by (auto; lia). cbn [rbind].
      assert (Hk : knows v i [e]).
      { intros k Hk. simpl in Hk. replace k with 0 by lia. rewrite Nat.add_0_r. exact He. }
      pose proof (disk_range_bytes st cap v i [e] HD Hk ltac:(simpl; lia) ltac:(simpl; lia)) as Hr.
      simpl List.length in Hr. rewrite Hr. cbn [rbind]. unfold encode. cbn [map concat]. rewrite app_nil_r.
      apply (el_round EO EL).
    - apply disk_read_range_rep.
    - intros cap n v st e i HR HW Hi.
      destruct (disk_store_copy_rep cap n v st i [e] HR HW ltac:(simpl; lia)) as (f' & Hs & HD & HF).
      unfold encode in Hs. cbn [map concat] in Hs. rewrite app_nil_r in Hs.
      unfold disk_write_at. fold bl. rewrite (sbind_ok _ _ _ _ _ Hs).
      rewrite (sbind_ok _ _ (fst st, f') (fst st, f') (fst st, f')) by reflexivity. cbn [fst].
      destruct HR as (H1 & H2 & H3 & _).
      eexists. split; [reflexivity|]. cbn [fst snd ds_set_len]. split; [|split; [split; auto|auto]].
      split; [cbn; lia|]. split; [lia|]. split; auto.
    - intros cap n v st els start HR HW Hc.
      destruct (disk_store_copy_rep cap n v st start els HR HW Hc) as (f' & Hs & HD & HF).
      unfold disk_copy_from_slice. fold bl.
      rewrite encode_length by auto. fold bl. rewrite Nat.mod_mul, Nat.eqb_refl, Nat.div_mul by lia.
      unfold ensure. rewrite (sbind_ok _ _ st tt st) by reflexivity.
      rewrite (sbind_ok _ _ _ _ _ Hs).
      rewrite (sbind_ok _ _ (fst st, f') (fst st, f') (fst st, f')) by reflexivity. cbn [fst].
      destruct HR as (H1 & H2 & H3 & _).
      eexists. split; [reflexivity|]. cbn [fst snd ds_set_len]. split; [|split; [split; auto|auto]].
      split; [cbn; lia|]. split; [lia|]. split; auto.
    - intros e i st. unfold disk_write_at. unfold sbind at 1. unfold disk_store_copy_from_slice.
      destruct (_ <=? _); [|exact I]. unfold on_fs.
      destruct (write_all_any (ds_file (fst st)) (i * e_byte_len EO) (e_as_ref EO e) (snd st)) as [[f' ->]| ->]; [|exact I].
      reflexivity.
    - intros els start st. unfold disk_copy_from_slice.
      rewrite encode_length by auto. fold bl. rewrite Nat.mod_mul, Nat.eqb_refl, Nat.div_mul by lia.
      unfold ensure. rewrite (sbind_ok _ _ st tt st) by reflexivity.
      unfold sbind at 1. unfold disk_store_copy_from_slice.
      destruct (_ <=? _); [|exact I]. unfold on_fs.
      destruct (write_all_any (ds_file (fst st)) (start * bl) (encode EO els) (snd st)) as [[f' ->]| ->]; [|exact I].
      reflexivity.
  Qed.

  (* ---- build ---- *)
  Section Build.
    Variable en : env.
    Variable A : AlgOps E.
    Variable b : nat.
    Hypothesis Hb : arity b.
    Variable leaves : list E.
    Variables m q : nat.
    Hypothesis Hm : 0 < m < b.
    Hypothesis HL : List.length leaves = m * b ^ q.
    Let chunk := p_chunk (env_params en).
    Hypothesis Hchunk : 0 < chunk.
    Hypothesis Hdiv : chunk mod b = 0.
    Let at_lev := at_level disk_W disk_rep A b leaves m q.

    Lemma disk_layer_ok cap : m * geom b q <= cap -> forall r st, r < q -> at_lev cap r st ->
      exists f', disk_process_layer EO en A b (env_bytes en r) (m * b ^ (q - r)) r (m * row_off b q r) (m * row_off b q (S r)) st
          = (Ok tt, (fst st, f')) /\
        at_lev cap (S r) (ds_set_len (fst st) (ds_len (fst st) + m * b ^ (q - S r)), f') /\
        fs_frame (disk_owner (fst st)) (snd st) f'.
    Proof.
      intros Hcap r [s f0] Hr (HW & v & HR & Hk). cbn [fst snd] in *.
      pose proof (arity_ge b Hb) as H2. pose proof HR as (R1 & R2 & R3 & HD). cbn [fst snd] in *.
      assert (Hw : m * b ^ (q - r) = m * b ^ (q - S r) * b).
      { replace (q - r) with (S (q - S r)) by lia. apply mul_pow_S. }
      rewrite Hw.
      assert (HLr : List.length (row A b leaves r) = m * b ^ (q - S r) * b).
      { rewrite (row_length A b ltac:(lia) leaves m q) by (auto; lia). exact Hw. }
      assert (Hoff : m * row_off b q r + m * b ^ (q - S r) * b = m * row_off b q (S r)).
      { rewrite row_off_step, Nat.mul_add_distr_l, Hw. reflexivity. }
      assert (Hfit : m * row_off b q (S r) + m * b ^ (q - S r) = m * row_off b q (S (S r))).
      { rewrite (row_off_step b q (S r)), Nat.mul_add_distr_l. reflexivity. }
      assert (Hall : m * row_off b q (S (S r)) <= cap).
      { apply Nat.le_trans with (m * geom b q); [|exact Hcap]. apply Nat.mul_le_mono_l.
        pose proof (row_off_mono b q (S (S r)) (S q) ltac:(lia)) as M.
        rewrite (row_off_step b q q), row_off_last, Nat.sub_diag in M. pose proof (geom_pos b q). cbn [Nat.pow] in M. lia. }
      pose proof (mul_pow_ge1 m b (q - S r) ltac:(lia) ltac:(lia)) as Hw1.
      unfold disk_process_layer. fold chunk.
      remember (m * b ^ (q - S r)) as w eqn:Ew. remember (m * row_off b q r) as rs eqn:Ers.
      remember (m * row_off b q (S r)) as ws eqn:Ews.
      destruct (map_layer_ok EO EL ds_file (fun st s e => disk_check EO st (s * bl) (e * bl)) A b chunk Hb Hchunk Hdiv s f0 cap v
                  (row A b leaves r) w r rs ws HW HD HLr Hw1) with (sched := env_bytes en r) as (f' & Hrun & HD' & HF).
      - subst rs. apply Hk. lia.
      - lia.
      - lia.
      - intros f k n Hn Hkn. apply (disk_check_ok (s, f) _ _ ws); cbn [fst]; auto; lia.
      - exists f'. split; [exact Hrun|]. split; [|exact HF].
        split; [exact HW|]. exists (upd v ws (hash_row A b r (row A b leaves r))).
        split.
        + rewrite <- Hfit. split; [cbn; lia|]. split; [lia|]. split; [exact R3|exact HD'].
        + intros r' Hr'. destruct (Nat.eq_dec r' (S r)) as [->|Hn].
          * rewrite <- Ews. cbn [row]. apply knows_upd_same.
          * apply knows_upd_other; [apply Hk; lia|]. left.
            rewrite (row_length A b ltac:(lia) leaves m q) by (auto; lia).
            rewrite <- Nat.mul_add_distr_l, <- row_off_step. subst ws.
            apply Nat.mul_le_mono_l. apply row_off_mono. lia.
    Qed.

    Lemma disk_loop_run cap : m * geom b q <= cap ->
      forall k r fuel st, r + k = q -> at_lev cap r st ->
      exists st', disk_build_loop EO en A b (k + fuel) (log2_pow2 b) r (m * b ^ k) (m * row_off b q r) st
                  = disk_build_loop EO en A b fuel (log2_pow2 b) q m (m * row_off b q q) st' /\
                  at_lev cap q st' /\ Step disk_owner st st'.
    Proof.
      intros Hcap. pose proof (arity_ge b Hb) as H2.
      induction k; intros r fuel st Hrk Hat.
      - assert (r = q) by lia. subst r. exists st. simpl Nat.pow. rewrite Nat.mul_1_r. split; [reflexivity|].
        split; [exact Hat|apply Step_refl].
      - replace (S k + fuel) with (S (k + fuel)) by lia. cbn [disk_build_loop].
        pose proof (mul_pow_ge m b k ltac:(lia) ltac:(lia)) as Hge.
        replace (1 <? m * b ^ S k) with true by lia.
        replace (S k) with (q - r) by lia.
        rewrite (sbind_ok _ _ _ _ _ (bounds_at _ _ _ _ _ _ _ _ _ _ disk_core A b leaves m q cap r st ltac:(lia) Hat)).
        destruct (disk_layer_ok cap Hcap r st ltac:(lia) Hat) as (f' & H1 & Hat1 & HF).
        rewrite (sbind_ok _ _ _ _ _ H1).
        rewrite (sbind_ok _ _ (fst st, f') (fst st, f') (fst st, f')) by reflexivity.
        rewrite arity_shift by auto.
        replace (q - r) with (S k) by lia. rewrite div_step by lia.
        replace (q - S r) with k in Hat1 by lia. cbn [fst].
        rewrite (sbind_ok _ _ (fst st, f') tt (ds_set_len (fst st) (ds_len (fst st) + m * b ^ k), f')) by reflexivity.
        destruct (IHk (S r) fuel _ ltac:(lia) Hat1) as (st2 & H3 & Hat2 & HS2).
        exists st2. split; [|split; [exact Hat2|eapply Step_trans; [|exact HS2]; split; auto]].
        rewrite <- H3. f_equal.
        rewrite row_off_step. replace (q - r) with (S k) by lia. lia.
    Qed.
  End Build.

  Lemma disk_build_ok en A b leaves d c cap v st :
      arity b -> 1 <= d -> List.length leaves = b ^ d -> chunk_ok en b -> geom b d <= cap ->
      disk_W (fst st) -> disk_rep cap (b ^ d) v st -> knows v 0 leaves ->
      exists root st', disk_build_fuel EO en A b (S (b ^ d)) (b ^ d) (S d) c st = (Ok root, st') /\
        nth_error (all_rows A b leaves d) (geom b d - 1) = Some root /\
        disk_rep cap (geom b d) (nth_error (all_rows A b leaves d)) st' /\
        Step disk_owner st st' /\ disk_W (fst st').
  Proof.
    intros Hb Hd HL [Hc1 Hc2] Hcap HW HR Hk. pose proof (arity_ge b Hb) as H2.
    assert (HL1 : List.length leaves = 1 * b ^ d) by lia.
    pose proof (even_leafs b Hb 1 d ltac:(lia) Hd) as Hev. rewrite Nat.mul_1_l in Hev.
    pose proof (pow_fuel 1 b d ltac:(lia) H2) as Hf. rewrite Nat.mul_1_l in Hf.
    assert (Hat : at_level disk_W disk_rep A b leaves 1 d cap 0 st).
    { eapply (at_level_start disk_owner); [exact HL1|exact HW|rewrite Nat.mul_1_l; exact HR|exact Hk]. }
    unfold disk_build_fuel. rewrite (arity_next b Hb), Nat.eqb_refl.
    unfold ensure at 1. rewrite (sbind_ok _ _ st tt st) by reflexivity.
    rewrite (sbind_ok _ _ st st st) by reflexivity.
    rewrite (proj1 HR), Nat.eqb_refl.
    unfold ensure at 1. rewrite (sbind_ok _ _ st tt st) by reflexivity.
    rewrite Hev, Nat.eqb_refl.
    unfold ensure at 1. rewrite (sbind_ok _ _ st tt st) by reflexivity.
    destruct (disk_loop_run en A b Hb leaves 1 d ltac:(lia) HL1 Hc1 Hc2 cap ltac:(lia) d 0 (S (b ^ d) - d) st ltac:(lia) Hat)
      as (st1 & H1 & Hat1 & HS1).
    rewrite Nat.mul_1_l in H1. cbn [row_off] in H1. rewrite Nat.mul_0_r in H1.
    replace (d + (S (b ^ d) - d)) with (S (b ^ d)) in H1 by lia.
    replace (S (b ^ d) - d) with (S (b ^ d - d)) in H1 by lia.
    cbn [disk_build_loop] in H1. cbn [Nat.ltb Nat.leb] in H1.
    rewrite (sbind_ok _ _ st d st1) by (exact H1).
    rewrite get_merkle_tree_len_full by auto.
    rewrite (sbind_ok _ _ st1 (geom b d) st1) by reflexivity.
    rewrite (sbind_ok _ _ st1 st1 st1) by reflexivity.
    destruct (full_at_level _ _ _ _ _ _ _ _ _ _ disk_core A b Hb cap leaves d st1 HL Hat1) as (HF & root & Hroot & Hlast).
    unfold Full in HF.
    destruct (all_rows_Layout A b ltac:(lia) leaves d HL) as (_ & L2 & _). rewrite L2 in HF.
    rewrite (proj1 HF), Nat.eqb_refl.
    unfold ensure at 1. rewrite (sbind_ok _ _ st1 tt st1) by reflexivity.
    replace (S d =? d + 1) with true by lia.
    unfold ensure. rewrite (sbind_ok _ _ st1 tt st1) by reflexivity.
    exists root, st1. split; [exact Hlast|]. split; [exact Hroot|]. split; [exact HF|]. split; [exact HS1|apply Hat1].
  Qed.

  Lemma disk_build_bad en A b leaves m q c cap v st :
      arity b -> 1 <= q -> 1 < m < b -> List.length leaves = m * b ^ q -> chunk_ok en b -> m * geom b q <= cap ->
      disk_W (fst st) -> disk_rep cap (m * b ^ q) v st -> knows v 0 leaves ->
      exists e st', disk_build_fuel EO en A b (S (m * b ^ q)) (m * b ^ q) (S q) c st = (Err e, st').
  Proof.
    intros Hb Hq Hm HL [Hc1 Hc2] Hcap HW HR Hk. pose proof (arity_ge b Hb) as H2.
    pose proof (even_leafs b Hb m q ltac:(lia) Hq) as Hev.
    pose proof (pow_fuel m b q ltac:(lia) H2) as Hf.
    assert (Hat : at_level disk_W disk_rep A b leaves m q cap 0 st) by (eapply (at_level_start disk_owner); eauto).
    unfold disk_build_fuel. rewrite (arity_next b Hb), Nat.eqb_refl.
    unfold ensure at 1. rewrite (sbind_ok _ _ st tt st) by reflexivity.
    rewrite (sbind_ok _ _ st st st) by reflexivity.
    rewrite (proj1 HR), Nat.eqb_refl.
    unfold ensure at 1. rewrite (sbind_ok _ _ st tt st) by reflexivity.
    rewrite Hev, Nat.eqb_refl.
    unfold ensure at 1. rewrite (sbind_ok _ _ st tt st) by reflexivity.
    destruct (disk_loop_run en A b Hb leaves m q ltac:(lia) HL Hc1 Hc2 cap ltac:(lia) q 0 (S (m * b ^ q) - q) st ltac:(lia) Hat)
      as ([s1 f1] & H1 & Hat1 & HS1).
    cbn [row_off] in H1. rewrite Nat.mul_0_r in H1.
    replace (q + (S (m * b ^ q) - q)) with (S (m * b ^ q)) in H1 by lia.
    replace (S (m * b ^ q) - q) with (S (m * b ^ q - q)) in H1 by lia.
    unfold sbind at 1. rewrite H1. cbn [disk_build_loop].
    replace (1 <? m) with true by lia.
    assert (Hbd : level_bounds ds_len q (m * row_off b q q) m (s1, f1) = (Ok (m * row_off b q q, m * row_off b q (S q)), (s1, f1))).
    { pose proof (bounds_at _ _ _ _ _ _ _ _ _ _ disk_core A b leaves m q cap q (s1, f1) (le_n q) Hat1) as B.
      rewrite Nat.sub_diag in B. simpl Nat.pow in B. rewrite Nat.mul_1_r in B. exact B. }
    rewrite (sbind_ok _ _ _ _ _ Hbd).
    assert (Hlr : List.length (row A b leaves q) = m).
    { rewrite (row_length A b ltac:(lia) leaves m q) by auto. rewrite Nat.sub_diag. simpl. lia. }
    destruct Hat1 as (HW1 & v1 & HR1 & Hk1). pose proof HR1 as (R1 & R2 & R3 & HD1).
    assert (Hro : m * row_off b q q + m = m * row_off b q (S q)) by (rewrite row_off_step, Nat.sub_diag; simpl; lia).
    destruct (map_layer_bad EO EL ds_file (fun st s e => disk_check EO st (s * bl) (e * bl)) A b (p_chunk (env_params en)) Hb Hc1 Hc2 s1 f1
                cap v1 (row A b leaves q) m q (m * row_off b q q) (m * row_off b q (S q)) (env_bytes en q) HD1 (Hk1 q (le_n q)) ltac:(lia) Hlr ltac:(lia))
      as [e He].
    { apply (disk_check_ok (s1, f1) _ _ (m * row_off b q (S q))); cbn [fst] in *; auto; lia. }
    unfold disk_process_layer. unfold sbind at 1. unfold bl in He. rewrite He. eexists _, _. reflexivity.
  Qed.

  Lemma disk_fresh size s f' : disk_W s -> ds_len s = 0 -> ds_size s = bl * size ->
    fs_data f' (h_ino (ds_file s)) = repeat x00 (bl * size) -> disk_rep size 0 (fun _ => None) (s, f').
  Proof.
    intros HW H1 H2 H3. split; [exact H1|]. split; [lia|]. cbn [fst snd]. split; [rewrite H2; apply Nat.mul_comm|].
    rewrite H3, Nat.mul_comm. apply DRep_empty.
  Qed.

  Lemma disk_new_ok size f : exists s f', disk_new EO size f = (Ok s, f') /\ disk_rep size 0 (fun _ => None) (s, f') /\
    disk_W s /\ ds_loaded s = false /\ Created f f' None (disk_owner s).
  Proof.
    destruct (tempfile_len f (bl * size)) as (h & f' & _ & H1 & H2 & HW & HD & HC).
    unfold disk_new. fold bl. rewrite (sbind_ok _ _ _ _ _ H1), (sbind_ok _ _ _ _ _ H2).
    eexists _, _. split; [reflexivity|]. split; [apply disk_fresh; auto|]. auto.
  Qed.

  Lemma disk_newc_ok size b c f : fs_dir f (cfg_path c) = None ->
    exists s f', disk_new_with_config EO size b c f = (Ok s, f') /\ disk_rep size 0 (fun _ => None) (s, f') /\
    disk_W s /\ ds_loaded s = false /\ Created f f' (Some (cfg_path c)) (disk_owner s) /\
    fs_dir f' (cfg_path c) = disk_owner s.
  Proof.
    intros Hp. destruct (create_new_len f (cfg_path c) (bl * size) Hp) as (h & f1 & f' & H1 & H2 & HW & HD & HC & Hd).
    unfold disk_new_with_config. rewrite (sbind_ok _ _ f f f) by reflexivity.
    unfold fs_exists. rewrite Hp. fold bl. rewrite (sbind_ok _ _ _ _ _ H1), (sbind_ok _ _ _ _ _ H2).
    eexists _, _. split; [reflexivity|]. split; [apply disk_fresh; auto|]. auto.
  Qed.

  Lemma disk_fill_ok size els s f : disk_rep size 0 (fun _ => None) (s, f) -> disk_W s -> List.length els <= size ->
    exists s' f', disk_fill EO (encode EO els) s f = (Ok s', f') /\
      disk_rep size (List.length els) (nth_error els) (s', f') /\ disk_W s' /\
      disk_owner s' = disk_owner s /\ fs_frame (disk_owner s) f f' /\ ds_loaded s' = ds_loaded s.
  Proof.
    intros HR HW Hl. pose proof (bl_pos EO EL) as Hbl. fold bl in Hbl.
    destruct (disk_store_copy_rep size 0 _ (s, f) 0 els HR HW ltac:(lia)) as (f' & Hs & HD & HF).
    rewrite Nat.mul_0_l in Hs. unfold disk_fill. rewrite Hs. cbn [fst snd] in *.
    eexists _, _. split; [reflexivity|]. rewrite encode_length by auto. fold bl. rewrite Nat.div_mul by lia.
    split; [|auto]. destruct HR as (_ & _ & H3 & _). split; [reflexivity|]. split; [exact Hl|].
    split; [exact H3|]. cbn [fst snd ds_set_len ds_file]. eapply DRep_weaken; [|exact HD].
    intros i e He. pose proof (nth_error_lt _ _ _ He). rewrite upd_in by lia. rewrite Nat.sub_0_r. exact He.
  Qed.

  Lemma disk_build_len en A b fuel leafs rc c (st : disk_t * fs) : arity b -> ds_len (fst st) <> leafs ->
    exists e, disk_build_fuel EO en A b fuel leafs rc c st = (Err e, st).
  Proof.
    intros Hb H. unfold disk_build_fuel.
    rewrite (arity_next b Hb), Nat.eqb_refl.
    unfold ensure at 1. rewrite (sbind_ok _ _ st tt st) by reflexivity.
    rewrite (sbind_ok _ _ st st st) by reflexivity.
    replace (ds_len (fst st) =? leafs) with false by lia. eexists. reflexivity.
  Qed.

  Lemma disk_laws : StoreLaws EO (disk_store EO) disk_owner disk_W disk_rep true.
  Proof.
    constructor.
    - exact disk_core.
    - intros size f. destruct (disk_new_ok size f) as (s & f' & H1 & H2 & H3 & H4 & H5).
      exists s, f'. repeat (split; auto). discriminate.
    - intros size b c f Hp. destruct (disk_newc_ok size b c f Hp) as (s & f' & H1 & H2 & H3 & H4 & H5 & H6).
      exists s, f'. split; [exact H1|]. split; [exact H2|]. repeat (split; auto).
      intros q Hq i Hi. inversion Hq. rewrite H6. exact Hi.
    - intros cap n v [s f] [H _]. cbn in *. rewrite H. reflexivity.
    - reflexivity.
    - intros en A b leaves d c v st Hb Hd Hl Hc HW HR Hk. apply (disk_build_ok en A b leaves d c (geom b d) v st); auto.
    - intros en A b leaves m q c v st Hb Hq Hm Hl Hc HW HR Hk.
      destruct (disk_build_bad en A b leaves m q c _ v st Hb Hq Hm Hl Hc (le_n _) HW HR Hk) as (e & st' & He).
      exists (Err e), st'. split; [exact He|exact I].
    - intros en A b leafs rc c st Hb H. exact (disk_build_len en A b (S leafs) leafs rc c st Hb H).
    - intros els size f H. pose proof (bl_pos EO EL) as Hbl. fold bl in Hbl.
      destruct (disk_new_ok size f) as (s & f1 & H1 & H2 & H3 & H4 & H5).
      destruct (disk_fill_ok size els s f1 H2 H3 H) as (s' & f' & G1 & G2 & G3 & G4 & G5 & G6).
      cbn [st_new_from_slice disk_store]. unfold disk_new_from_slice. fold bl.
      rewrite encode_length by auto. fold bl. rewrite Nat.mod_mul, Nat.eqb_refl by lia.
      unfold ensure. rewrite (sbind_ok _ _ f tt f) by reflexivity. rewrite (sbind_ok _ _ _ _ _ H1), G1.
      exists s', f'. split; [reflexivity|]. split; [exact G2|]. split; [exact G3|].
      rewrite G4. eapply Created_frame; eauto.
    - intros els size b c f H Hp. pose proof (bl_pos EO EL) as Hbl. fold bl in Hbl.
      destruct (disk_newc_ok size b c f Hp) as (s & f1 & H1 & H2 & H3 & H4 & H5 & H6).
      destruct (disk_fill_ok size els s f1 H2 H3 H) as (s' & f' & G1 & G2 & G3 & G4 & G5 & G6).
      cbn [st_new_from_slice_with_config disk_store]. unfold disk_new_from_slice_with_config. fold bl.
      rewrite encode_length by auto. fold bl. rewrite Nat.mod_mul, Nat.eqb_refl by lia.
      unfold ensure. rewrite (sbind_ok _ _ f tt f) by reflexivity. rewrite (sbind_ok _ _ _ _ _ H1), H4, G1.
      exists s', f'. split; [reflexivity|]. split; [exact G2|]. split; [exact G3|].
      rewrite G4. eapply Created_frame; eauto.
  Qed.
End Disk.
