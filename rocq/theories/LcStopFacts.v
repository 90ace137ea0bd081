(* What a LevelCacheStore build leaves behind when its process dies (LcStop.v). *)
From Coq Require Import String List Arith Bool Lia Init.Byte ZifyBool ZifyNat.
From Verif Require Import Base Element Hash Sizing FS Sched Store VecStore DiskStore MmapStore LevelCache ProofModel Tree Faults Stop LcStop ListFacts Spec SpecFacts SizingFacts SchedFacts StoreLaws RowFacts ChunkFacts BuildFacts BuildLoop StoreSpec FileFacts ByteFacts VecFacts MapLayer DiskFacts MmapFacts PopFacts TreeFacts ProofSpec ProofFacts TreeProofs TreeObs Builders BuiltFacts FrameFacts CompactFacts CompactTrees LcBuild LcCreate ReopenFacts StopFacts.
Import ListNotations.

Lemma sbind_same {S X Y} (m m' : SM S X) (k : X -> SM S Y) s : m s = m' s -> sbind m k s = sbind m' k s.
Proof. intros H. unfold sbind. rewrite H. reflexivity. Qed.

Section LStop.
  Context {E : Type} (EO : ElementOps E) (EL : ElementLaws EO) (A : AlgOps E) (AL : AlgLaws A).
  Variables (en : env) (b : nat).
  Hypothesis Hb : arity b.
  Hypothesis Hch : chunk_ok en b.
  Variable kp : lkill.
  Local Notation DO := (lc_store EO).
  Local Notation KO := (lstop_store EO kp).
  Let bl := e_byte_len EO.
  Variables (leaves : list E) (d : nat) (c : StoreConfig).
  Local Notation R := (sc_rows_to_discard c).
  Hypothesis Hd : 1 <= d.
  Hypothesis HRd : R < d.
  Hypothesis Hl : List.length leaves = b ^ d.
  Let cap := geom b d.
  Let N := b ^ d.
  Let rows := all_rows A b leaves d.
  Let target := encode EO rows.
  Local Notation Okm := (StopFacts.Okm EO A b leaves d).
  Local Notation cis := (row_off b d (S R) * bl).
  Local Notation WW := (lc_W EO (b ^ d) cis (geom b d)).
  Local Notation RR := (lc_rep EO (b ^ d) cis (geom b d)).
  Let leaf := h_leaf A.

  Definition Alive (m : nat) (st : lc_t * fs) : Prop :=
    WW (fst st) /\ Okm m (fs_data (snd st) (h_ino (lc_file (fst st)))).
  Definition Dying (o : option nat) (f1 : fs) (m : nat) (st : lc_t * fs) : Prop :=
    (exists n v, RR N n v st) /\ Alive m st /\ lc_owner (fst st) = o /\ fs_frame o f1 (snd st).

  Lemma leaves_fit : N <= cap.
  Proof. apply StopFacts.leaves_fit. Qed.

  (* one copy of leaves: as in lc_store, or the end *)
  Lemma stop_copy o f1 st start els : Dying o f1 N st -> start + List.length els <= N ->
    knows (nth_error rows) start els ->
    (exists st', lc_copy_from_slice EO (encode EO els) start st = (Ok tt, st') /\ Dying o f1 N st' /\
       lc_len (fst st') = Nat.max (lc_len (fst st)) (start + List.length els)) /\
    (lstop_copy_from_slice EO kp (encode EO els) start st = lc_copy_from_slice EO (encode EO els) start st \/
     exists i p e st', kp = L_copy i p /\ lstop_copy_from_slice EO kp (encode EO els) start st = (Panic e, st') /\ Dying o f1 N st').
  Proof.
    intros ((n & v & HR) & (HW & HO) & Ho & HF) Hm Hk. pose proof leaves_fit as Hc. pose proof (bl_pos EO EL) as Hbl. fold bl in Hbl.
    pose proof HR as (R1 & R2 & R3 & R4 & R5 & HD). pose proof (encode_length EO EL els) as He. fold bl in He.
    pose proof (Nat.mul_le_mono_r _ _ bl Hm) as Hmb. pose proof (Nat.mul_le_mono_r _ _ bl Hc) as Hcb.
    assert (Hsz : lc_size (fst st) = cap * bl) by (apply R5).
    assert (Hlen : List.length (fs_data (snd st) (h_ino (lc_file (fst st)))) = cap * bl) by exact (proj1 HD).
    assert (Hw : forall q, exists f', fs_write_all_at (lc_file (fst st)) (start * bl) (firstn q (encode EO els)) (snd st) = (Ok tt, f') /\
       fs_data f' (h_ino (lc_file (fst st))) = overwrite (fs_data (snd st) (h_ino (lc_file (fst st)))) (start * bl) (firstn q (encode EO els)) /\
       fs_frame (Some (h_ino (lc_file (fst st)))) (snd st) f').
    { intros q. apply write_all_in; [exact (proj1 HW)|]. rewrite Hlen, firstn_length, He.
      rewrite Nat.mul_add_distr_r in Hmb. lia. }
    assert (Hok : forall q, Okm N (overwrite (fs_data (snd st) (h_ino (lc_file (fst st)))) (start * bl) (firstn q (encode EO els)))).
    { intros q. apply (ok_write EO EL A b Hb leaves d Hd Hl); auto. }
    split.
    - destruct (cl_copy _ _ _ _ _ _ _ _ _ _ (pl_core _ _ _ _ _ _ (lc_pop_laws EO EL (b ^ d) cis (geom b d) (lc_Hci EO b d c Hd))) N n v st els start HR HW ltac:(lia)) as (st' & H1 & H2 & [H3 H3'] & H4).
      exists st'. split; [exact H1|]. split; [|rewrite (proj1 H2), R1; reflexivity].
      split; [eauto|]. split; [split; [exact H4|]|split; [exact (eq_trans H3 Ho)|eapply fs_frame_trans; [exact HF|rewrite <- Ho; exact H3']]].
      destruct (Hw (List.length (encode EO els))) as (f' & W1 & W2 & W3). specialize (Hok (List.length (encode EO els))). rewrite firstn_all in *.
      cbn [st_copy_from_slice lc_store] in H1.
      unfold lc_copy_from_slice in H1. rewrite encode_length in H1 by auto. rewrite Nat.mod_mul, Nat.eqb_refl in H1 by (fold bl; lia).
      unfold ensure in H1. rewrite (sbind_ok _ _ st tt st) in H1 by reflexivity.
      unfold sbind at 1 in H1. unfold lc_store_copy_from_slice in H1. fold bl in H1.
      rewrite He, Hsz, <- Nat.mul_add_distr_r in H1.
      replace ((start + List.length els) * bl <=? cap * bl) with true in H1 by lia.
      unfold on_fs in H1. rewrite W1 in H1. inversion H1 as [H1']. cbn [fst snd lc_set_len lc_file].
      rewrite W2. exact Hok.
    - unfold lstop_copy_from_slice, lc_copy_from_slice. unfold lstop_store_copy. fold bl.
      destruct kp as [|i p| | |]; auto. destruct (start * bl =? i * bl) eqn:Q; [|left; reflexivity].
      right. rewrite He, Nat.mod_mul, Nat.eqb_refl by lia. unfold ensure. rewrite (sbind_ok _ _ st tt st) by reflexivity.
      unfold sbind at 1. rewrite Hsz, <- Nat.mul_add_distr_r.
      replace ((start + List.length els) * bl <=? cap * bl) with true by lia.
      destruct (Hw p) as (f' & W1 & W2 & W3). unfold on_fs. rewrite W1.
      eexists i, p, _, _. split; [reflexivity|]. split; [reflexivity|]. split.
      + exists n, (fun _ => None). do 5 (split; [assumption|]). cbn [fst snd]. split; [|discriminate].
        rewrite W2, overwrite_length; [exact Hlen|]. rewrite Hlen, firstn_length, He. rewrite Nat.mul_add_distr_r in Hmb. lia.
      + split; [split; [exact HW|]|split; [exact Ho|eapply fs_frame_trans; [exact HF|rewrite <- Ho; exact W3]]].
        cbn [fst snd]. rewrite W2. apply Hok.
  Qed.

  Lemma sync_or st : (kp = L_sync /\ st_sync KO st = (killed, st)) \/ (kp <> L_sync /\ st_sync KO st = (Ok tt, st)).
  Proof. cbn [lstop_store st_sync]. destruct kp; [right|right|left|right|right]; (split; [congruence|reflexivity]). Qed.

  Lemma rows_leaves : knows (nth_error rows) 0 leaves.
  Proof. exact (StopFacts.rows_leaves EO A b Hb leaves d Hd Hl). Qed.
  Lemma leaves_part pre els post : leaves = pre ++ els ++ post ->
    knows (nth_error rows) (List.length pre) els /\ List.length pre + List.length els <= N.
  Proof. exact (StopFacts.leaves_part EO A b Hb leaves d Hd Hl pre els post). Qed.

  Lemma populate_loop_or block o f1 : forall xs a done buf st,
    Dying o f1 N st -> lc_len (fst st) = List.length done -> done ++ buf ++ map leaf xs = leaves ->
    (populate_loop EO KO A block (map Ok xs) a (encode EO buf) st = populate_loop EO DO A block (map Ok xs) a (encode EO buf) st /\
     exists done' rest st', populate_loop EO DO A block (map Ok xs) a (encode EO buf) st = (Ok (encode EO rest), st') /\
       Dying o f1 N st' /\ lc_len (fst st') = List.length done' /\ done' ++ rest = leaves) \/
    exists i p e st', kp = L_copy i p /\ populate_loop EO KO A block (map Ok xs) a (encode EO buf) st = (Panic e, st') /\ Dying o f1 N st'.
  Proof.
    induction xs as [|x xs IH]; intros a done buf st HD Hn Hall.
    - left. split; [reflexivity|]. exists done, buf, st. cbn [map] in Hall. rewrite app_nil_r in Hall. auto.
    - cbn [map populate_loop]. rewrite !(sbind_ok _ _ st x st) by reflexivity.
      pose proof (leaf_reset A AL a x) as Hx. destruct (a_leaf A (a_reset A a) x) as [h a'] eqn:Ea. cbn [fst] in Hx. subst h.
      assert (He : encode EO buf ++ e_as_ref EO (h_leaf A x) = encode EO (buf ++ [h_leaf A x])).
      { rewrite encode_app. unfold encode at 3. cbn [map concat]. rewrite app_nil_r. reflexivity. }
      rewrite He. cbn [map] in Hall. destruct (_ <=? _) eqn:G.
      + rewrite !(sbind_ok _ _ st st st) by reflexivity. change (st_len KO (fst st)) with (lc_len (fst st)). change (st_len DO (fst st)) with (lc_len (fst st)). rewrite Hn.
        destruct (leaves_part done (buf ++ [h_leaf A x]) (map leaf xs)) as [P1 P2]; [rewrite <- Hall, <- !app_assoc; reflexivity|].
        destruct (stop_copy o f1 st (List.length done) (buf ++ [h_leaf A x]) HD P2 P1) as [(st1 & H1 & HD1 & Hl1) [Hs|(i & p & e & st' & Hk & Hs & HD')]].
        * assert (Hk : st_copy_from_slice KO (encode EO (buf ++ [h_leaf A x])) (List.length done) st = (Ok tt, st1)) by (etransitivity; [exact Hs|exact H1]).
          assert (Hk0 : st_copy_from_slice DO (encode EO (buf ++ [h_leaf A x])) (List.length done) st = (Ok tt, st1)) by exact H1.
          rewrite (sbind_ok _ _ _ _ _ Hk), !(sbind_ok _ _ _ _ _ Hk0).
          apply (IH a' (done ++ buf ++ [h_leaf A x]) [] st1 HD1).
          -- rewrite Hl1, Hn, !app_length. lia.
          -- rewrite <- Hall. rewrite <- !app_assoc. reflexivity.
        * right. exists i, p, e, st'. split; [exact Hk|]. split; [|exact HD'].
          assert (Hk' : st_copy_from_slice KO (encode EO (buf ++ [h_leaf A x])) (List.length done) st = (Panic e, st')) by exact Hs.
          unfold sbind at 1. rewrite Hk'. reflexivity.
      + apply (IH a' done (buf ++ [h_leaf A x]) st HD Hn). rewrite <- Hall, <- !app_assoc. reflexivity.
  Qed.

  Lemma populate_or o f1 xs st : Dying o f1 N st -> lc_len (fst st) = 0 -> map leaf xs = leaves ->
    (exists st', (kp <> L_sync /\ populate_data EO KO A en (map Ok xs) st = (Ok tt, st') \/
                  kp = L_sync /\ populate_data EO KO A en (map Ok xs) st = (killed, st')) /\
       populate_data EO DO A en (map Ok xs) st = (Ok tt, st') /\ Dying o f1 N st') \/
    exists i p e st', kp = L_copy i p /\ populate_data EO KO A en (map Ok xs) st = (Panic e, st') /\ Dying o f1 N st'.
  Proof.
    intros HD Hn Hx. unfold populate_data. rewrite !(sbind_ok _ _ st st st) by reflexivity.
    change (st_is_empty KO (fst st)) with (lc_len (fst st) =? 0). change (st_is_empty DO (fst st)) with (lc_len (fst st) =? 0).
    rewrite Hn. cbn [Nat.eqb negb].
    destruct (populate_loop_or (p_block (env_params en)) o f1 xs (a_default A) [] [] st HD Hn Hx)
      as [(H1 & done & rest & st1 & H2 & HD1 & Hn1 & Hall)|(i & p & e & st' & Hk & H1 & HD1)]; change (encode EO []) with (@nil byte) in *.
    - assert (H1' : populate_loop EO KO A (p_block (env_params en)) (map Ok xs) (a_default A) [] st = (Ok (encode EO rest), st1))
        by (etransitivity; [exact H1|exact H2]).
      rewrite (sbind_ok _ _ _ _ _ H1'), !(sbind_ok _ _ _ _ _ H2). clear H1 H1' H2.
      rewrite !(sbind_ok _ _ st1 st1 st1) by reflexivity.
      change (st_len KO (fst st1)) with (lc_len (fst st1)). change (st_len DO (fst st1)) with (lc_len (fst st1)). rewrite Hn1.
      destruct (leaves_part done rest []) as [P1 P2]; [rewrite app_nil_r; auto|].
      destruct (stop_copy o f1 st1 (List.length done) rest HD1 P2 P1) as [(st2 & G1 & HD2 & Hl2) [Hs|(i & p & e & st' & Hk & Hs & HD')]].
      + left. assert (Hk : st_copy_from_slice KO (encode EO rest) (List.length done) st1 = (Ok tt, st2)) by (etransitivity; [exact Hs|exact G1]).
        assert (Hk0 : st_copy_from_slice DO (encode EO rest) (List.length done) st1 = (Ok tt, st2)) by exact G1.
        rewrite (sbind_ok _ _ _ _ _ Hk), !(sbind_ok _ _ _ _ _ Hk0). exists st2.
        split; [|split; [reflexivity|exact HD2]]. destruct (sync_or st2) as [[Y1 Y2]|[Y1 Y2]]; rewrite Y2; auto.
      + right. exists i, p, e, st'. split; [exact Hk|]. split; [|exact HD'].
        assert (Hk' : st_copy_from_slice KO (encode EO rest) (List.length done) st1 = (Panic e, st')) by exact Hs.
        unfold sbind. rewrite Hk'. reflexivity.
    - right. exists i, p, e, st'. split; [exact Hk|]. split; [|exact HD1]. unfold sbind at 1. rewrite H1. reflexivity.
  Qed.

  Lemma populate_par_or o f1 xs st : 0 < p_block (env_params en) -> Dying o f1 N st -> lc_len (fst st) = 0 -> map leaf xs = leaves ->
    (exists st', (kp <> L_sync /\ populate_data_par EO KO A en xs st = (Ok tt, st') \/
                  kp = L_sync /\ populate_data_par EO KO A en xs st = (killed, st')) /\
       populate_data_par EO DO A en xs st = (Ok tt, st') /\ Dying o f1 N st') \/
    exists i p e st', kp = L_copy i p /\ populate_data_par EO KO A en xs st = (Panic e, st') /\ Dying o f1 N st'.
  Proof.
    intros HB HD Hn Hx. unfold populate_data_par. rewrite !(sbind_ok _ _ st st st) by reflexivity.
    change (st_is_empty KO (fst st)) with (lc_len (fst st) =? 0). change (st_is_empty DO (fst st)) with (lc_len (fst st) =? 0).
    rewrite Hn. cbn [Nat.eqb negb].
    remember (p_block (env_params en)) as B eqn:EB. clear EB.
    set (pc := fun k => sub leaves (B * k) B).
    assert (Hnb : forall k, k < List.length (chunks B xs) <-> B * k < List.length xs).
    { intros k. rewrite chunks_length by auto. rewrite (Nat.mul_comm B k). apply div_up; auto. }
    assert (Hlx : List.length xs = N) by (unfold N; rewrite <- Hl, <- Hx, map_length; reflexivity).
    set (rd := fun (k : nat) (_ : lc_t * fs) => do blk <- rnth (chunks B xs) k; Ok (block_bytes EO A blk (a_default A))).
    set (wr0 := fun (k : nat) (buf : list byte) => lc_copy_from_slice EO buf (B * k)).
    set (wr := fun (k : nat) (buf : list byte) => lstop_copy_from_slice EO kp buf (B * k)).
    assert (Hrd : forall st k, k < List.length (chunks B xs) -> rd k st = Ok (encode EO (pc k))).
    { intros st0 k Hk. apply Hnb in Hk. unfold rd, rnth. rewrite nth_error_chunks by auto.
      rewrite (Nat.mul_comm k B). replace (B * k <? List.length xs) with true by lia. cbn [rbind].
      rewrite (block_bytes_ok EO A AL). unfold pc. rewrite <- Hx. do 2 f_equal. unfold sub.
      rewrite <- firstn_map, <- skipn_map. reflexivity. }
    assert (Hpc : forall k, k < List.length (chunks B xs) -> knows (nth_error rows) (B * k) (pc k) /\ B * k + List.length (pc k) <= N).
    { intros k Hk. apply Hnb in Hk. split; [exact (knows_sub _ _ _ (B * k) B rows_leaves)|]. unfold pc. rewrite sub_length, Hl. fold N. lia. }
    assert (H0 : forall st k, Dying o f1 N st -> k < List.length (chunks B xs) -> exists st', wr0 k (encode EO (pc k)) st = (Ok tt, st') /\ Dying o f1 N st').
    { intros st0 k HD0 Hk. destruct (Hpc k Hk) as [P1 P2].
      destruct (stop_copy o f1 st0 (B * k) (pc k) HD0 P2 P1) as [(st1 & H1 & HD1 & _) _]. eauto. }
    assert (Hrun0 : exists st', run_tasks (List.length (chunks B xs)) rd wr0 (env_pop en) st = (Ok tt, st') /\ Dying o f1 N st').
    { destruct (run_tasks_ok (List.length (chunks B xs)) rd wr0 (fun _ st => Dying o f1 N st) (fun k => encode EO (pc k))
        (fun w st k _ Hk _ => Hrd st k Hk) (fun w st k HI Hk _ => H0 st k HI Hk) (env_pop en) st HD) as (w & st' & H1 & H2 & _). eauto. }
    destruct Hrun0 as (st' & R0 & HD').
    assert (Hor : run_tasks (List.length (chunks B xs)) rd wr (env_pop en) st = run_tasks (List.length (chunks B xs)) rd wr0 (env_pop en) st \/
       exists m st', run_tasks (List.length (chunks B xs)) rd wr (env_pop en) st = (Panic m, st') /\ Dying o f1 N st').
    { apply (run_tasks_or _ rd wr wr0 (Dying o f1 N) (fun k => encode EO (pc k)) Hrd H0); auto.
      intros st0 k HD0 Hk. destruct (Hpc k Hk) as [P1 P2].
      destruct (stop_copy o f1 st0 (B * k) (pc k) HD0 P2 P1) as [_ [Hs|(i & p & e & st1 & Hk' & Hs & HD1)]]; [left; exact Hs|right; eauto]. }
    change (fun (k : nat) (_ : st_t KO * fs) => do blk <- rnth (chunks B xs) k; Ok (block_bytes EO A blk (a_default A))) with rd.
    change (fun (k : nat) (_ : st_t DO * fs) => do blk <- rnth (chunks B xs) k; Ok (block_bytes EO A blk (a_default A))) with rd.
    change (fun (k : nat) (buf : list byte) => st_copy_from_slice KO buf (B * k)) with wr.
    change (fun (k : nat) (buf : list byte) => st_copy_from_slice DO buf (B * k)) with wr0.
    destruct Hor as [Hs|(m & st1 & Hs & HD1)].
    - left. exists st'. pose proof (sync_or st') as HY. unfold sbind. cbn [st_t lstop_store lc_store] in *. rewrite Hs, R0.
      split; [|split; [reflexivity|exact HD']]. destruct HY as [[Y1 Y2]|[Y1 Y2]]; auto.
    - right. destruct kp as [|i p| |k sched|k n sizes] eqn:Ek.
      + exfalso. assert (wr = wr0) as Ew by reflexivity. rewrite Ew, R0 in Hs. discriminate.
      + exists i, p, m, st1. split; [reflexivity|]. split; [|exact HD1]. unfold sbind. cbn [st_t lstop_store lc_store] in *. rewrite Hs. reflexivity.
      + exfalso. assert (wr = wr0) as Ew by reflexivity. rewrite Ew, R0 in Hs. discriminate.
      + exfalso. assert (wr = wr0) as Ew by reflexivity. rewrite Ew, R0 in Hs. discriminate.
      + exfalso. assert (wr = wr0) as Ew by reflexivity. rewrite Ew, R0 in Hs. discriminate.
  Qed.

  (* ---- hashing ---- *)
  Section Loop.
  Variable i : nat.
  Local Notation St := (LcSt EO A b leaves d c i).
  Let chunk := p_chunk (env_params en).
  Let base (r : nat) : nat := row_off b d (Nat.min r (S R)).

  (* the file starts with element bs of the tree: every byte is zero or that of the
     finished tree, zero from element m on; and finished before element m *)
  Definition Zm (bs m : nat) (data : list byte) : Prop :=
    forall p x, nth_error data p = Some x -> x = x00 \/ (bs * bl + p < m * bl /\ nth_error target (bs * bl + p) = Some x).
  Definition Ex (bs m : nat) (data : list byte) : Prop := sub data 0 ((m - bs) * bl) = sub target (bs * bl) ((m - bs) * bl).

  Lemma base_le r : base r <= row_off b d r.
  Proof. apply row_off_mono. lia. Qed.
  Lemma off_le r : r <= S d -> row_off b d r <= cap.
  Proof. exact (row_off_le A b leaves d c Hd HRd Hl r). Qed.

  Lemma lex r st : r <= d -> St r st -> Ex (base r) (row_off b d (S r)) (fs_data (snd st) i).
  Proof.
    intros Hr [_ _ _ _ _ _ _ _ (v & HD & Hk)]. pose proof (arity_ge b Hb) as H2. fold (base r) in HD, Hk. pose proof (base_le r) as Hbs.
    pose proof (off_le (S r) ltac:(lia)) as Hle. pose proof (row_off_step b d r) as Hst.
    pose proof (StopFacts.rows_length EO A b Hb leaves d Hd Hl) as HLn. fold rows in HLn. fold cap in HLn.
    set (n := row_off b d (S r) - base r). set (els := sub rows (base r) n).
    assert (Hels : List.length els = n) by (unfold els; apply sub_length_le; lia).
    assert (Hkr : knows (nth_error rows) (base r) els).
    { intros k Hkk. unfold els. rewrite nth_error_sub. replace (k <? n) with true by lia. reflexivity. }
    assert (Hkv : knows v 0 els).
    { intros k Hkk. cbn [Nat.add]. unfold els. rewrite nth_error_sub. replace (k <? n) with true by lia.
      destruct (row_find b d (base r + k) ltac:(lia)) as (r' & j & Hr' & Hj & Hsp).
      assert (r' <= r).
      { destruct (Nat.le_gt_cases r' r); [auto|]. pose proof (row_off_mono b d (S r) r' ltac:(lia)). lia. }
      assert (Nat.min r (S R) <= r').
      { destruct (Nat.le_gt_cases (Nat.min r (S R)) r'); [auto|]. pose proof (row_off_mono b d (S r') (Nat.min r (S R)) ltac:(lia)) as M.
        rewrite row_off_step in M. unfold base in Hsp. lia. }
      rewrite Hsp. pose proof (StopFacts.rows_row EO A b Hb leaves d Hd Hl r' Hr' j) as G. fold rows in G.
      pose proof (rw_length A b Hb leaves d c Hd HRd Hl r' Hr') as Hrl. rewrite G by lia.
      rewrite <- (Hk r' ltac:(lia) ltac:(lia) j ltac:(lia)). f_equal.
      pose proof (row_off_mono b d (Nat.min r (S R)) r' ltac:(lia)). unfold base in *. lia. }
    unfold Ex. fold n. pose proof (DRep_range EO _ v _ 0 els HD Hkv ltac:(rewrite Hels; unfold n; lia)) as G1.
    pose proof (target_sub EO EL A b Hb leaves d Hd Hl (base r) els Hkr ltac:(fold cap; lia)) as G2.
    fold rows target bl in G1, G2. rewrite Hels in *. cbn [Nat.mul] in G1. congruence.
  Qed.

  Lemma z_write bs m data start els : Zm bs m data -> List.length data = (cap - bs) * bl ->
    knows (nth_error rows) start els -> bs <= start -> start + List.length els <= m -> m <= cap ->
    Zm bs m (overwrite data ((start - bs) * bl) (encode EO els)).
  Proof.
    intros HO HD Hk Hbs Hm Hc p x. pose proof (target_sub EO EL A b Hb leaves d Hd Hl start els Hk ltac:(fold cap; lia)) as Ht.
    fold rows target bl in Ht. pose proof (encode_length EO EL els) as He. fold bl in He.
    pose proof (Nat.mul_le_mono_r _ _ bl Hm) as Hmb. pose proof (Nat.mul_le_mono_r _ _ bl Hc) as Hcb. rewrite Nat.mul_add_distr_r in Hmb.
    pose proof (Nat.mul_le_mono_r _ _ bl Hbs) as Hbb. rewrite Nat.mul_sub_distr_r in HD.
    pose proof (Nat.mul_sub_distr_r start bs bl) as Hsb. rewrite Hsb.
    rewrite nth_error_overwrite by lia. destruct (p <? start * bl - bs * bl) eqn:Q1; [intros Hp; exact (HO p x Hp)|].
    destruct (p <? start * bl - bs * bl + _) eqn:Q2; [|intros Hp; exact (HO p x Hp)]. intros Hp. right. rewrite He in Q2.
    rewrite <- Ht, nth_error_sub in Hp. destruct (_ <? List.length els * bl) eqn:Q3; [|discriminate].
    split; [lia|]. rewrite <- Hp. f_equal. lia.
  Qed.
  Lemma z_mono bs m m' data : m <= m' -> Zm bs m data -> Zm bs m' data.
  Proof.
    intros H HO p x Hp. destruct (HO p x Hp) as [->|[H1 H2]]; [left; reflexivity|right; split; auto].
    pose proof (Nat.mul_le_mono_r m m' bl H). lia.
  Qed.

  (* the numbers of one layer, and its range checks *)
  Lemma lnums r : r < d -> let w := b ^ (d - S r) in
    b ^ (d - r) = w * b /\ List.length (row A b leaves r) = w * b /\ 1 <= w /\
    row_off b d r + w * b = row_off b d (S r) /\ row_off b d (S r) + w = row_off b d (S (S r)) /\ row_off b d (S (S r)) <= cap.
  Proof. exact (layer_nums EO A en b Hb leaves d Hd Hl r). Qed.

  Lemma lchk r s f f0 k n : r < d -> St r (s, f) -> 1 <= n -> k + n <= b ^ (d - S r) * b ->
    lc_check EO (s, f0) ((row_off b d r - base r + k) * bl) ((row_off b d r - base r + k + n) * bl) = Ok tt.
  Proof.
    intros Hr [G1 G2 G3 G4 _ _ _ _ _] Hn Hkn. cbn [fst snd] in *. pose proof (arity_ge b Hb) as H2.
    destruct (lnums r Hr) as (Hw & _). rewrite <- Hw in Hkn.
    pose proof (row_end_small A b Hb leaves d c i Hd HRd Hl r ltac:(lia)) as [Hsm1 Hsm2].
    pose proof (row_off_step b d r) as Hs1. pose proof (off_le (S r) ltac:(lia)) as Hle.
    pose proof (kept_small A b Hb leaves d c i Hd HRd Hl) as Hks.
    pose proof (Nat.pow_le_mono_r b (d - r) d ltac:(lia) ltac:(lia)) as Hpw.
    apply lc_check_low; auto.
    - lia.
    - rewrite G3. destruct (r =? 0) eqn:Q.
      + assert (r = 0) by lia. subst r. change (row_off b d 0) with 0. rewrite Nat.sub_0_r in Hkn. lia.
      + pose proof (row_off_ge b d r ltac:(lia)). unfold base in *.
        destruct (Nat.le_gt_cases r (S R)) as [Hx|Hx].
        * rewrite Nat.min_l in * by lia. lia.
        * rewrite Nat.min_r in * by lia. pose proof (row_off_ge b d (S R) ltac:(lia)). lia.
    - rewrite G4. unfold base in *.
      destruct (Nat.le_gt_cases r (S R)) as [Hx|Hx].
      + rewrite Nat.min_l in * by lia. lia.
      + rewrite Nat.min_r in * by lia. unfold cap in Hle. lia.
  Qed.

  Lemma lfull r s f : r < d -> St r (s, f) -> Zm (base r) (row_off b d (S r)) (fs_data f i) ->
    exists f', lc_process_layer EO en A b (env_bytes en r) (b ^ (d - r)) r (row_off b d r - base r) (row_off b d (S r) - base r) (s, f) = (Ok tt, (s, f')) /\
      fs_frame (Some i) f f' /\ List.length (fs_data f' i) = (cap - base r) * bl /\ Zm (base r) (row_off b d (S (S r))) (fs_data f' i).
  Proof.
    intros Hr HS HZ. pose proof HS as [G1 G2 _ _ _ _ _ _ (v & HD & Hk)]. cbn [fst snd] in *. fold (base r) in HD, Hk.
    destruct (lnums r Hr) as (Hw & HLr & Hw1 & Hoff & Hfit & Hall). pose proof (base_le r) as Hbs. rewrite Hw.
    destruct Hch as [Hc1 Hc2]. pose proof (arity_ge b Hb) as H2.
    destruct (map_layer_data EO EL lc_file (fun st s e => lc_check EO st (s * bl) (e * bl)) A b chunk Hb Hc1 Hc2 s f (cap - base r) v
                (row A b leaves r) (b ^ (d - S r)) r (row_off b d r - base r) (row_off b d (S r) - base r)) with (sched := env_bytes en r) as (f' & Hrun & Hd' & HF); auto.
    - rewrite G1. exact HD.
    - apply Hk; lia.
    - lia.
    - lia.
    - intros f0 k n Hn Hkn. exact (lchk r s f f0 k n Hr HS Hn Hkn).
    - rewrite G1 in *. exists f'. split; [exact Hrun|]. split; [exact HF|]. rewrite Hd'.
      assert (Hlen : List.length (hash_row A b r (row A b leaves r)) = b ^ (d - S r)).
      { pose proof (row_length A b ltac:(lia) leaves 1 d (S r)) as G3. cbn [row] in G3. rewrite G3 by (auto; lia). lia. }
      split.
      + rewrite overwrite_length; [exact (proj1 HD)|]. rewrite encode_length by auto. fold bl. rewrite Hlen, (proj1 HD). fold bl.
        rewrite <- Nat.mul_add_distr_r. apply Nat.mul_le_mono_r. unfold cap in *. lia.
      + apply z_write; auto.
        * eapply z_mono; [|exact HZ]. lia.
        * exact (proj1 HD).
        * exact (StopFacts.rows_row EO A b Hb leaves d Hd Hl (S r) ltac:(lia)).
        * lia.
        * lia.
  Qed.

  Lemma luntil r sched s f : r < d -> St r (s, f) -> Zm (base r) (row_off b d (S r)) (fs_data f i) ->
    exists f', mmap_layer_by EO A b chunk (fun n start rd comp wr _ => run_bytes_until n start rd comp wr sched) lc_file
        (fun st s e => lc_check EO st (s * bl) (e * bl)) (b ^ (d - r)) r (row_off b d r - base r) (row_off b d (S r) - base r) (s, f) = (Ok tt, (s, f')) /\
      fs_frame (Some i) f f' /\ List.length (fs_data f' i) = (cap - base r) * bl /\
      Zm (base r) (row_off b d (S (S r))) (fs_data f' i) /\ Ex (base r) (row_off b d (S r)) (fs_data f' i).
  Proof.
    intros Hr HS HZ. pose proof (lex r (s, f) ltac:(lia) HS) as HE. pose proof HS as [G1 G2 _ _ _ _ _ _ (v & HD & Hk)]. cbn [fst snd] in *. fold (base r) in HD, Hk.
    destruct (lnums r Hr) as (Hw & HLr & Hw1 & Hoff & Hfit & Hall). pose proof (base_le r) as Hbs. rewrite Hw.
    destruct Hch as [Hc1 Hc2]. pose proof (arity_ge b Hb) as H2.
    destruct (map_layer_stopped EO EL lc_file (fun st s e => lc_check EO st (s * bl) (e * bl)) A b chunk Hb Hc1 Hc2 s f (cap - base r) v
                (row A b leaves r) (b ^ (d - S r)) r (row_off b d r - base r) (row_off b d (S r) - base r)) with (sched := sched) as (f' & Hrun & HF & HL' & Hout & Hin); auto.
    - rewrite G1. exact HD.
    - apply Hk; lia.
    - lia.
    - lia.
    - intros f0 k n Hn Hkn. exact (lchk r s f f0 k n Hr HS Hn Hkn).
    - rewrite G1 in *. exists f'. split; [exact Hrun|]. split; [exact HF|]. split; [exact HL'|].
      set (data := fs_data f' i) in *. fold bl in Hout, Hin.
      assert (Hlen : List.length (hash_row A b r (row A b leaves r)) = b ^ (d - S r)).
      { pose proof (row_length A b ltac:(lia) leaves 1 d (S r)) as G3. cbn [row] in G3. rewrite G3 by (auto; lia). lia. }
      pose proof (Nat.mul_sub_distr_r (row_off b d (S r)) (base r) bl) as Hsb.
      pose proof (Nat.mul_le_mono_r (base r) (row_off b d (S r)) bl ltac:(lia)) as Hbb.
      assert (Hfb : row_off b d (S r) * bl + b ^ (d - S r) * bl = row_off b d (S (S r)) * bl) by (rewrite <- Nat.mul_add_distr_r, Hfit; reflexivity).
      split.
      + intros p x Hp.
        assert (Hcase : (p < (row_off b d (S r) - base r) * bl \/ (row_off b d (S r) - base r + b ^ (d - S r)) * bl <= p) \/
                        exists q, q < b ^ (d - S r) * bl /\ p = (row_off b d (S r) - base r) * bl + q).
        { rewrite Nat.mul_add_distr_r.
          destruct (Nat.lt_ge_cases p ((row_off b d (S r) - base r) * bl)); [auto|].
          destruct (Nat.lt_ge_cases p ((row_off b d (S r) - base r) * bl + b ^ (d - S r) * bl)); [|auto].
          right. exists (p - (row_off b d (S r) - base r) * bl). lia. }
        assert (Hold : nth_error (fs_data f i) p = Some x -> x = x00 \/ (base r * bl + p < row_off b d (S (S r)) * bl /\ nth_error target (base r * bl + p) = Some x)).
        { intros Hp0. destruct (HZ p x Hp0) as [->|[Z1 Z2]]; [left; reflexivity|right]. split; [lia|exact Z2]. }
        destruct Hcase as [Ho|(q & Hq & ->)].
        * rewrite (Hout p Ho) in Hp. auto.
        * destruct (Hin q Hq) as [Hi'|Hi']; rewrite Hi' in Hp; [auto|]. right. split; [lia|].
          pose proof (target_sub EO EL A b Hb leaves d Hd Hl (row_off b d (S r)) (hash_row A b r (row A b leaves r))
                        (StopFacts.rows_row EO A b Hb leaves d Hd Hl (S r) ltac:(lia)) ltac:(fold cap; lia)) as Ht.
          fold rows target bl in Ht. rewrite <- Ht, nth_error_sub in Hp. destruct (_ <? _); [|discriminate]. rewrite <- Hp. f_equal. lia.
      + unfold Ex in *. rewrite <- HE. apply nth_error_ext. intros q. rewrite !nth_error_sub.
        destruct (q <? _) eqn:Q; [|reflexivity]. cbn [Nat.add]. apply Hout. left. lia.
  Qed.

  (* ---- one step of the loop ---- *)
  Definition dead_layer (k : nat) (data : list byte) : Prop :=
    k < d /\ List.length data = (cap - base k) * bl /\ Zm (base k) (row_off b d (S (S k))) data /\ Ex (base k) (row_off b d (S k)) data.
  (* every byte is zero, or the byte of the finished tree at its old or its new place *)
  Definition dead_trunc (k : nat) (data : list byte) : Prop :=
    k <= R /\ List.length data = (cap - row_off b d k) * bl /\
    forall p x, nth_error data p = Some x -> x = x00 \/ nth_error target (row_off b d k * bl + p) = Some x \/ nth_error target (row_off b d (S k) * bl + p) = Some x.
  Definition Dead (f1 : fs) (st : lc_t * fs) : Prop :=
    fs_frame (Some i) f1 (snd st) /\
    match kp with
    | L_layer k _ => dead_layer k (fs_data (snd st) i)
    | L_trunc k _ _ => dead_trunc k (fs_data (snd st) i)
    | _ => False
    end.

  Lemma lstep f1 r s f : r < d -> St r (s, f) -> Zm (base r) (row_off b d (S r)) (fs_data f i) -> fs_frame (Some i) f1 f ->
    (exists f2 st2,
      lstop_layer EO kp en A b (b ^ (d - r)) r (row_off b d r - base r) (row_off b d (S r) - base r) (s, f) = (Ok tt, (s, f2)) /\
      lc_process_layer EO en A b (env_bytes en r) (b ^ (d - r)) r (row_off b d r - base r) (row_off b d (S r) - base r) (s, f) = (Ok tt, (s, f2)) /\
      (if row_off b d r <? row_off b d (S R) then lc_front_truncate EO (env_copy en r) c (b ^ (d - r)) else sret tt) (s, f2) = (Ok tt, st2) /\
      St (S r) (lc_set_len (fst st2) (row_off b d (S r)), snd st2) /\ Zm (base (S r)) (row_off b d (S (S r))) (fs_data (snd st2) i) /\
      fs_frame (Some i) f1 (snd st2) /\
      ((if row_off b d r <? row_off b d (S R) then lstop_truncate EO kp en r c (b ^ (d - r)) else sret tt) (s, f2) = (Ok tt, st2) \/
       exists st', (if row_off b d r <? row_off b d (S R) then lstop_truncate EO kp en r c (b ^ (d - r)) else sret tt) (s, f2) = (killed, st') /\ Dead f1 st')) \/
    exists st', lstop_layer EO kp en A b (b ^ (d - r)) r (row_off b d r - base r) (row_off b d (S r) - base r) (s, f) = (killed, st') /\ Dead f1 st'.
  Proof.
    intros Hr HS HZ HF0. pose proof (arity_ge b Hb) as H2.
    destruct (lc_step EO EL A en b Hb Hch leaves d c i Hd HRd Hl r s f Hr HS) as (f2 & st2 & H1 & H3 & H4 & H5). fold (base r) in H1.
    destruct (lfull r s f Hr HS HZ) as (f2' & H1' & HF1 & HLn & HZ1). rewrite H1 in H1'. injection H1' as <-.
    assert (Hcase : (forall w r0 w0, lstop_layer EO kp en A b w r r0 w0 = lc_process_layer EO en A b (env_bytes en r) w r r0 w0) \/
        exists sched, kp = L_layer r sched).
    { unfold lstop_layer. destruct kp as [| | |k sched|]; auto. destruct (r =? k) eqn:Q; auto. right. exists sched. f_equal. lia. }
    destruct Hcase as [Hs|[sched Hk]].
    2:{ right. destruct (luntil r sched s f Hr HS HZ) as (f' & U1 & U2 & U3 & U4 & U5).
        exists (s, f'). split.
        - unfold lstop_layer. rewrite Hk, Nat.eqb_refl. unfold sbind. fold bl chunk. rewrite U1. reflexivity.
        - split; [eapply fs_frame_trans; eauto|]. rewrite Hk. cbn [snd]. repeat split; auto. }
    left. exists f2, st2. split; [rewrite Hs; exact H1|]. split; [exact H1|]. split; [exact H3|]. split; [exact (H4 _ eq_refl)|].
    pose proof (row_off_step b d r) as Hst.
    pose proof HS as [G1 G2 _ _ _ _ G7 G8 (v & HD & Hk)]. cbn [fst snd] in *.
    pose proof HF1 as (F1 & F2 & F3 & F4).
    assert (HDn : DRep EO (cap - base r) (fun _ => None) (fs_data f2 i)) by (split; [exact HLn|discriminate]).
    destruct (row_off b d r <? row_off b d (S R)) eqn:Q.
    - assert (HrR : r <= R). { destruct (Nat.le_gt_cases r R); [auto|]. pose proof (row_off_mono b d (S R) r ltac:(lia)). lia. }
      assert (HB : base r = row_off b d r) by (unfold base; rewrite Nat.min_l by lia; reflexivity).
      assert (HB' : base (S r) = row_off b d (S r)) by (unfold base; rewrite Nat.min_l by lia; reflexivity).
      pose proof (off_le (S r) ltac:(lia)) as Hle. rewrite HB in *. rewrite HB'.
      assert (Hbm : row_off b d r * bl + b ^ (d - r) * bl = row_off b d (S r) * bl) by (rewrite <- Nat.mul_add_distr_r, Hst; reflexivity).
      assert (Hcm : (cap - row_off b d r) * bl = cap * bl - row_off b d r * bl) by apply Nat.mul_sub_distr_r.
      pose proof (Nat.mul_le_mono_r _ _ bl Hle) as Hleb.
      split; [|split].
      + destruct (front_truncate_ok EO EL (env_copy en r) c (b ^ (d - r)) (cap - row_off b d r) (fun _ => None) s f2 i G1) as (f3 & Ht & _ & _ & HDt); auto.
        * rewrite F1. exact G7.
        * rewrite F4. exact G8.
        * lia.
        * rewrite H3 in Ht. injection Ht as ->. cbn [snd]. fold bl in HDt. rewrite HDt. intros p x Hp. rewrite nth_error_sub in Hp.
          destruct (p <? _) eqn:Qp; [|discriminate]. destruct (HZ1 _ _ Hp) as [->|[Z1 Z2]]; [left; reflexivity|right].
          split; [lia|]. rewrite <- Z2. f_equal. lia.
      + eapply fs_frame_trans; [exact HF0|exact H5].
      + assert (Hc2 : lstop_truncate EO kp en r c (b ^ (d - r)) = lc_front_truncate EO (env_copy en r) c (b ^ (d - r)) \/ exists n sizes, kp = L_trunc r n sizes).
        { unfold lstop_truncate. destruct kp as [| | | |k n sizes]; auto. destruct (r =? k) eqn:Qk; auto. right. exists n, sizes. f_equal. lia. }
        destruct Hc2 as [Ht|(n & sizes & Hkp)]; [left; rewrite Ht; exact H3|right].
        destruct (copy_stopped sizes {| h_ino := i; h_write := false |} {| h_ino := i; h_write := true |} (fs_data f2 i) 0 (b ^ (d - r) * bl)
                    eq_refl eq_refl ltac:(lia) ltac:(rewrite HLn; lia) n f2 eq_refl) as (x & m & f3 & C1 & C2 & C3 & C4).
        pose proof (copy_loop_frame sizes {| h_ino := i; h_write := false |} {| h_ino := i; h_write := true |} n 0 (b ^ (d - r) * bl) 0 0 f2) as HF2.
        rewrite C1 in HF2. cbn [snd h_ino] in HF2, C2.
        exists (lc_set_file s {| h_ino := i; h_write := true |}, f3). split.
        * unfold lstop_truncate. rewrite Hkp, Nat.eqb_refl. rewrite (sbind_ok _ _ (s, f2) (s, f2) (s, f2)) by reflexivity. cbn [fst snd]. fold bl.
          unfold fs_size. rewrite G1, HLn. replace (b ^ (d - r) * bl <=? (cap - row_off b d r) * bl) with true by lia.
          cbn [ensure]. rewrite (sbind_ok _ _ (s, f2) tt (s, f2)) by reflexivity.
          unfold fs_open_ro. rewrite F1, G7. rewrite (sbind_ok _ _ (s, f2) {| h_ino := i; h_write := false |} (s, f2)) by reflexivity.
          unfold fs_open_rw. rewrite F1, G7, F4, G8. rewrite (sbind_ok _ _ (s, f2) {| h_ino := i; h_write := true |} (s, f2)) by reflexivity.
          rewrite (sbind_ok _ _ (s, f2) tt (lc_set_file s {| h_ino := i; h_write := true |}, f2)) by reflexivity.
          unfold on_fs. cbn [fst snd]. rewrite C1. reflexivity.
        * split; [eapply fs_frame_trans; [exact HF0|eapply fs_frame_trans; [exact HF1|exact HF2]]|]. rewrite Hkp. cbn [snd]. split; [exact HrR|]. rewrite C2. split.
          -- rewrite moved_length; [exact HLn|lia|exact C3].
          -- intros p y Hp. rewrite moved_nth in Hp by (auto; lia). destruct (_ && _).
             ++ destruct (HZ1 _ _ Hp) as [->|[_ Z2]]; [auto|]. right. right. rewrite <- Z2. f_equal. lia.
             ++ destruct (HZ1 _ _ Hp) as [->|[_ Z2]]; auto.
    - assert (HrR : S R <= r).
      { destruct (Nat.le_gt_cases (S R) r); [auto|]. pose proof (row_off_mono b d (S r) (S R) ltac:(lia)) as M. rewrite row_off_step in M.
        pose proof (Nat.pow_nonzero b (d - r) ltac:(lia)). lia. }
      assert (HB : base (S r) = base r) by (unfold base; rewrite !Nat.min_r by lia; reflexivity). rewrite HB.
      injection H3 as <-. cbn [snd]. split; [exact HZ1|]. split; [eapply fs_frame_trans; eauto|]. left. reflexivity.
  Qed.

  Lemma lloop_or f1 : forall k r fuel st, r + k = d -> St r st -> Zm (base r) (row_off b d (S r)) (fs_data (snd st) i) -> fs_frame (Some i) f1 (snd st) ->
    lc_build_loop_with (lstop_layer EO kp en A b) (lstop_truncate EO kp en) (k + S fuel) (log2_pow2 b) (row_off b d (S R)) c r (b ^ k) (row_off b d r) st =
      lc_build_loop EO en A b (k + S fuel) (log2_pow2 b) (row_off b d (S R)) c r (b ^ k) (row_off b d r) st \/
    exists st', lc_build_loop_with (lstop_layer EO kp en A b) (lstop_truncate EO kp en) (k + S fuel) (log2_pow2 b) (row_off b d (S R)) c r (b ^ k) (row_off b d r) st = (killed, st') /\
      Dead f1 st'.
  Proof.
    pose proof (arity_ge b Hb) as H2.
    induction k; intros r fuel [s f] Hrk HS HZ HF; cbn [snd] in *.
    - left. cbn [Nat.pow Nat.add lc_build_loop_with lc_build_loop]. reflexivity.
    - assert (1 < b ^ S k).
      { cbn [Nat.pow]. pose proof (Nat.pow_nonzero b k ltac:(lia)). nia. }
      assert (Hpair : (if r =? 0 then (0, lc_len s) else if row_off b d r <? row_off b d (S R) then (0, b ^ S k)
                else (row_off b d r - row_off b d (S R), row_off b d r + b ^ S k - row_off b d (S R))) =
               (row_off b d r - base r, row_off b d (S r) - base r)).
      { replace (S k) with (d - r) by lia. rewrite <- row_off_step. pose proof (ls_len _ _ _ _ _ _ _ _ _ HS) as Hlen. cbn [fst] in Hlen. rewrite Hlen.
        unfold base. destruct (r =? 0) eqn:Q.
        - replace r with 0 by lia. cbn [Nat.min]. change (row_off b d 0) with 0. rewrite row_off_1, !Nat.sub_0_r. reflexivity.
        - destruct (row_off b d r <? row_off b d (S R)) eqn:Q2.
          + assert (r <= R). { destruct (Nat.le_gt_cases r R); [auto|]. pose proof (row_off_mono b d (S R) r ltac:(lia)). lia. }
            rewrite Nat.min_l by lia. rewrite Nat.sub_diag, row_off_step. f_equal. lia.
          + assert (S R <= r).
            { destruct (Nat.le_gt_cases (S R) r); [auto|]. pose proof (row_off_mono b d (S r) (S R) ltac:(lia)) as M. rewrite row_off_step in M.
              pose proof (Nat.pow_nonzero b (d - r) ltac:(lia)). lia. }
            rewrite Nat.min_r by lia. reflexivity. }
      assert (Hstep : forall pl tr, lc_build_loop_with pl tr (S k + S fuel) (log2_pow2 b) (row_off b d (S R)) c r (b ^ S k) (row_off b d r) (s, f) =
        (let! _ := pl (b ^ S k) r (row_off b d r - base r) (row_off b d (S r) - base r) in
         let! _ := (if row_off b d r <? row_off b d (S R) then tr r c (b ^ S k) else sret tt) in
         let! _ := lc_upd_len (row_off b d r + b ^ S k) in
         lc_build_loop_with pl tr (k + S fuel) (log2_pow2 b) (row_off b d (S R)) c (S r) (Nat.shiftr (b ^ S k) (log2_pow2 b)) (row_off b d r + b ^ S k)) (s, f)).
      { intros pl tr. cbn [Nat.add lc_build_loop_with]. replace (1 <? b ^ S k) with true by lia.
        rewrite (sbind_ok _ _ (s, f) (s, f) (s, f)) by reflexivity. cbn [fst]. rewrite Hpair. reflexivity. }
      assert (Hstep0 : lc_build_loop EO en A b (S k + S fuel) (log2_pow2 b) (row_off b d (S R)) c r (b ^ S k) (row_off b d r) (s, f) =
        (let! _ := lc_process_layer EO en A b (env_bytes en r) (b ^ S k) r (row_off b d r - base r) (row_off b d (S r) - base r) in
         let! _ := (if row_off b d r <? row_off b d (S R) then lc_front_truncate EO (env_copy en r) c (b ^ S k) else sret tt) in
         let! _ := lc_upd_len (row_off b d r + b ^ S k) in
         lc_build_loop EO en A b (k + S fuel) (log2_pow2 b) (row_off b d (S R)) c (S r) (Nat.shiftr (b ^ S k) (log2_pow2 b)) (row_off b d r + b ^ S k)) (s, f)).
      { cbn [Nat.add lc_build_loop]. replace (1 <? b ^ S k) with true by lia.
        rewrite (sbind_ok _ _ (s, f) (s, f) (s, f)) by reflexivity. cbn [fst]. rewrite Hpair. reflexivity. }
      rewrite Hstep, Hstep0. clear Hstep Hstep0 Hpair.
      rewrite arity_shift by auto.
      replace (b ^ S k / b) with (b ^ k) by (rewrite Nat.pow_succ_r', Nat.mul_comm, Nat.div_mul; lia).
      replace (row_off b d r + b ^ S k) with (row_off b d (S r)) by (rewrite row_off_step; do 2 f_equal; lia).
      replace (S k) with (d - r) by lia.
      destruct (lstep f1 r s f ltac:(lia) HS HZ HF) as [(f2 & st2 & P1 & P2 & P3 & P4 & P5 & P6 & [P7|(st' & P7 & P8)])|(st' & P1 & P2)].
      + rewrite (sbind_ok _ _ _ _ _ P1), (sbind_ok _ _ _ _ _ P2), (sbind_ok _ _ _ _ _ P7), (sbind_ok _ _ _ _ _ P3).
        rewrite !(sbind_ok _ _ st2 tt (lc_set_len (fst st2) (row_off b d (S r)), snd st2)) by reflexivity.
        apply IHk; auto. lia.
      + right. exists st'. split; [|exact P8]. rewrite (sbind_ok _ _ _ _ _ P1). exact (sbind_dead _ _ _ _ _ P7).
      + right. exists st'. split; [|exact P2]. exact (sbind_dead _ _ _ _ _ P1).
  Qed.

  Lemma lbuild_or f1 s f : St 0 (s, f) -> Zm 0 N (fs_data f i) -> fs_frame (Some i) f1 f ->
    lstop_build EO kp en A b N (S d) (Some c) (s, f) = lc_build_fuel EO en A b (S N) N (S d) (Some c) (s, f) \/
    exists st', lstop_build EO kp en A b N (S d) (Some c) (s, f) = (killed, st') /\ Dead f1 st'.
  Proof.
    intros HS HZ HF. pose proof (arity_ge b Hb) as H2.
    pose proof (even_leafs b Hb 1 d ltac:(lia) Hd) as Hev. rewrite Nat.mul_1_l in Hev.
    pose proof (pow_fuel 1 b d ltac:(lia) H2) as Hf. rewrite Nat.mul_1_l in Hf.
    pose proof (geom_row_off b d (S R) ltac:(lia)) as HG. pose proof (geom_pos b (d - S R)) as HGp.
    unfold lstop_build, lc_build_fuel. rewrite (arity_next b Hb), Nat.eqb_refl.
    unfold ensure at 1 6. rewrite !(sbind_ok _ _ (s, f) tt (s, f)) by reflexivity.
    rewrite !(sbind_ok _ _ (s, f) (s, f) (s, f)) by reflexivity.
    pose proof (ls_len _ _ _ _ _ _ _ _ _ HS) as Hlen. cbn [fst Nat.eqb] in Hlen. cbn [fst]. fold N in Hlen, Hev. rewrite Hlen, Nat.eqb_refl.
    unfold ensure at 1 5. rewrite !(sbind_ok _ _ (s, f) tt (s, f)) by reflexivity.
    rewrite Hev. change (0 =? 0) with true. unfold ensure at 1 4. rewrite !(sbind_ok _ _ (s, f) tt (s, f)) by reflexivity.
    rewrite !(sbind_ok _ _ (s, f) c (s, f)) by reflexivity.
    assert (Hcs : get_merkle_tree_cache_size N b R = Ok (geom b (d - 1 - R))) by (unfold N; apply cache_size_full; auto). rewrite Hcs.
    rewrite !(sbind_ok (slift (Ok (geom b (d - 1 - R)))) _ (s, f) (geom b (d - 1 - R)) (s, f)) by reflexivity.
    assert (Htl : get_merkle_tree_len N b = Ok (geom b d)) by (unfold N; apply get_merkle_tree_len_full; auto). rewrite Htl.
    rewrite !(sbind_ok (slift (Ok (geom b d))) _ (s, f) (geom b d) (s, f)) by reflexivity.
    replace (d - 1 - R) with (d - S R) by lia. rewrite checked_sub_ok by lia.
    replace (geom b d - geom b (d - S R)) with (row_off b d (S R)) by lia.
    rewrite !(sbind_ok (slift (Ok (row_off b d (S R)))) _ (s, f) (row_off b d (S R)) (s, f)) by reflexivity.
    destruct (lloop_or f1 d 0 (N - d) (s, f) ltac:(lia) HS) as [G|(st' & G & HDead)].
    - cbn [snd]. unfold base. cbn [Nat.min]. change (row_off b d 0) with 0. rewrite row_off_1. exact HZ.
    - exact HF.
    - left. replace (d + S (N - d)) with (S N) in G by (unfold N; lia). change (row_off b d 0) with 0 in G. fold N in G.
      exact (sbind_same _ _ _ _ G).
    - right. exists st'. split; [|exact HDead]. replace (d + S (N - d)) with (S N) in G by (unfold N; lia). change (row_off b d 0) with 0 in G. fold N in G.
      exact (sbind_dead _ _ _ _ _ G).
  Qed.
  End Loop.

  (* ---- the constructors ---- *)
  Lemma stop_newc f : fs_dir f (cfg_path c) = None ->
    (kp = L_create /\ exists f' i, lstop_new_with_config EO kp cap b c f = (killed, f') /\
       Created f f' (Some (cfg_path c)) (Some i) /\ fs_data f' i = []) \/
    exists s f1, lstop_new_with_config EO kp cap b c f = (Ok s, f1) /\ lc_new_with_config EO cap b c f = (Ok s, f1) /\
      Dying (lc_owner s) f1 N (s, f1) /\ RR N 0 (fun _ => None) (s, f1) /\ lc_len s = 0 /\ lc_loaded s = false /\
      Created f f1 (Some (cfg_path c)) (lc_owner s) /\ fs_dir f1 (cfg_path c) = lc_owner s.
  Proof.
    intros Hp. pose proof (bl_pos EO EL) as Hbl.
    destruct (create_new_len f (cfg_path c) (bl * cap) Hp) as (h & f1 & f' & H1 & H2 & HW & HD & HC & Hdir).
    pose proof (geom_row_off b d (S R) ltac:(lia)) as HG.
    assert (HGb : bl * cap = cis + geom b (d - S R) * bl) by (unfold cap; rewrite HG; ring).
    assert (Hcs : bl * cap - geom b (d - S R) * bl = cis) by lia.
    assert (HK : lstop_new_with_config EO kp cap b c f = (let! _ := slift (match kp with L_create => killed | _ => Ok tt end) in
       let! _ := fs_set_len h (bl * cap) in
       sret {| lc_len := 0; lc_file := h; lc_data_width := N; lc_cache_index_start := cis; lc_loaded := false; lc_size := bl * cap; lc_reader := None |}) f1).
    { unfold lstop_new_with_config. rewrite (sbind_ok _ _ f f f) by reflexivity. unfold fs_exists. rewrite Hp. fold bl.
      rewrite (sbind_ok _ _ _ _ _ H1). unfold cap at 1. rewrite get_merkle_tree_leafs_full by (auto; lia). rewrite (sbind_ok _ _ f1 (b ^ d) f1) by reflexivity.
      replace (b ^ d =? next_pow2 (b ^ d)) with true by (symmetry; apply next_pow2_eqb', pow2_pow, arity_pow2; auto).
      cbn [ensure]. rewrite (sbind_ok _ _ f1 tt f1) by reflexivity.
      rewrite cache_size_full by auto. rewrite (sbind_ok _ _ f1 (geom b (d - 1 - R)) f1) by reflexivity.
      replace (d - 1 - R) with (d - S R) by lia. rewrite checked_sub_ok by lia. rewrite Hcs.
      rewrite (sbind_ok _ _ f1 cis f1) by reflexivity. reflexivity. }
    destruct (lc_newc_ok EO EL b Hb d c Hd f HRd Hp) as (s & f2 & N1 & N2 & N3 & N4 & N5 & N6).
    rewrite HK. assert (Hcase : kp = L_create \/ (match kp with L_create => killed | _ => Ok tt end) = Ok tt) by (destruct kp; auto).
    destruct Hcase as [Hk|Hk].
    - left. split; [exact Hk|]. rewrite Hk. exists f1, (h_ino h). split; [reflexivity|].
      unfold fs_create_new, fs_exists in H1. rewrite Hp in H1. injection H1 as <- <-. split.
      + unfold Created. cbn. repeat split; auto; try lia.
        * intros i Hi. replace (i =? fs_next f) with false by lia. reflexivity.
        * inversion H. lia.
        * inversion H. lia.
        * intros q Hq. destruct (String.eqb_spec q (cfg_path c)); [congruence|reflexivity].
        * intros q Hq. inversion Hq. rewrite String.eqb_refl. reflexivity.
        * intros i Hi. inversion Hi. rewrite !Nat.eqb_refl. reflexivity.
      + unfold fs_data. cbn. rewrite Nat.eqb_refl. reflexivity.
    - right. rewrite Hk. rewrite (sbind_ok _ _ f1 tt f1) by reflexivity. rewrite (sbind_ok _ _ _ _ _ H2).
      assert (HN : lc_new_with_config EO cap b c f = (sret {| lc_len := 0; lc_file := h; lc_data_width := N; lc_cache_index_start := cis; lc_loaded := false; lc_size := bl * cap; lc_reader := None |}) f').
      { unfold lc_new_with_config. rewrite (sbind_ok _ _ f f f) by reflexivity. unfold fs_exists. rewrite Hp. fold bl.
        rewrite (sbind_ok _ _ _ _ _ H1). unfold cap at 1. rewrite get_merkle_tree_leafs_full by (auto; lia). rewrite (sbind_ok _ _ f1 (b ^ d) f1) by reflexivity.
        replace (b ^ d =? next_pow2 (b ^ d)) with true by (symmetry; apply next_pow2_eqb', pow2_pow, arity_pow2; auto).
        cbn [ensure]. rewrite (sbind_ok _ _ f1 tt f1) by reflexivity.
        rewrite cache_size_full by auto. rewrite (sbind_ok _ _ f1 (geom b (d - 1 - R)) f1) by reflexivity.
        replace (d - 1 - R) with (d - S R) by lia. rewrite checked_sub_ok by lia. rewrite Hcs.
        rewrite (sbind_ok _ _ f1 cis f1) by reflexivity. rewrite (sbind_ok _ _ _ _ _ H2). reflexivity. }
      change (geom b d) with cap in N1. rewrite HN in N1. injection N1 as <- <-.
      eexists _, f'. split; [reflexivity|]. split; [exact HN|].
      split; [|split; [exact N2|auto]].
      split; [eauto|]. split; [split; [exact N3|]|split; [reflexivity|apply fs_frame_refl]].
      cbn [fst snd lc_file]. rewrite HD. intros p x Hx. apply nth_error_In, repeat_spec in Hx. left. exact Hx.
  Qed.

  Definition left_file (data : list byte) : Prop :=
    match kp with
    | L_create => data = []
    | L_copy _ _ => List.length data = cap * bl /\ Okm N data
    | L_sync => List.length data = cap * bl /\ Okm N data /\ sub data 0 (N * bl) = sub target 0 (N * bl)
    | L_layer k _ => dead_layer k data
    | L_trunc k _ _ => dead_trunc k data
    end.
  Definition Left {X} (f : fs) (r : res X * fs) : Prop :=
    exists e f' i, r = (Panic e, f') /\ Created f f' (Some (cfg_path c)) (Some i) /\ left_file (fs_data f' i).

  Lemma left_copy {X} f f1 s i p e (st' : lc_t * fs) : Created f f1 (Some (cfg_path c)) (lc_owner s) ->
    kp = L_copy i p -> Dying (lc_owner s) f1 N st' -> Left (X := X) f (Panic e, snd st').
  Proof.
    intros HC Hk ((n & v & (_ & _ & _ & _ & _ & HD)) & (_ & HO) & Ho & HF). exists e, (snd st'), (h_ino (lc_file (fst st'))).
    split; [reflexivity|]. split; [|unfold left_file; rewrite Hk; split; [exact (proj1 HD)|exact HO]].
    change (Some (h_ino (lc_file (fst st')))) with (lc_owner (fst st')). rewrite Ho. eapply Created_frame; eauto.
  Qed.

  (* the filled store *)
  Lemma filled f f1 s v s2 f2 : Created f f1 (Some (cfg_path c)) (lc_owner s) -> fs_dir f1 (cfg_path c) = lc_owner s ->
    Dying (lc_owner s) f1 N (s2, f2) -> RR N N v (s2, f2) -> knows v 0 leaves ->
    LcSt EO A b leaves d c (h_ino (lc_file s2)) 0 (s2, f2) /\ Zm 0 N (fs_data f2 (h_ino (lc_file s2))).
  Proof.
    intros HC Hdir (_ & (HW & HO) & Ho & HF) (P1 & P2 & P3 & P4 & (P5 & P6 & P7 & P8) & HD) Hk. cbn [fst snd] in *.
    pose proof HF as (F1 & F2 & F3 & F4). split; [constructor; cbn [fst snd]; auto|].
    - exact (proj1 HW).
    - rewrite F1, Hdir. symmetry. exact Ho.
    - rewrite F4. pose proof HC as (_ & _ & _ & _ & _ & C6). apply C6. symmetry. exact Ho.
    - exists v. cbn [Nat.min]. change (row_off b d 0) with 0. rewrite !Nat.sub_0_r. split; [exact HD|].
      intros r' _ Hr'. replace r' with 0 by lia. change (row_off b d 0) with 0. rewrite Nat.sub_0_r. exact Hk.
    - intros p x Hp. cbn [Nat.mul Nat.add]. exact (HO p x Hp).
  Qed.

  Lemma left_sync {X} f f1 s e v (st' : lc_t * fs) : Created f f1 (Some (cfg_path c)) (lc_owner s) -> fs_dir f1 (cfg_path c) = lc_owner s ->
    kp = L_sync -> Dying (lc_owner s) f1 N st' -> RR N N v st' -> knows v 0 leaves -> Left (X := X) f (Panic e, snd st').
  Proof.
    intros HC Hdir Hk HDy HR Hkn. destruct st' as [s2 f2]. destruct (filled f f1 s v s2 f2 HC Hdir HDy HR Hkn) as [HS _].
    pose proof (lex (h_ino (lc_file s2)) 0 (s2, f2) ltac:(lia) HS) as G. unfold Ex in G. cbn [Nat.min] in G. change (row_off b d 0) with 0 in G.
    rewrite row_off_1, Nat.sub_0_r in G. cbn [Nat.mul snd] in G.
    destruct HDy as (_ & (HW & HO) & Ho & HF). exists e, f2, (h_ino (lc_file s2)).
    split; [reflexivity|]. split; [|unfold left_file; rewrite Hk; split; [exact (proj1 (proj2 (proj2 (proj2 (proj2 (proj2 HR))))))|split; [exact HO|exact G]]].
    change (Some (h_ino (lc_file s2))) with (lc_owner s2). cbn [fst snd] in *. rewrite Ho. eapply Created_frame; eauto.
  Qed.

  (* from the filled store on *)
  Lemma finish_or {X} f f1 s v (s2 : lc_t) (f2 : fs) (g : E * lc_t -> SM fs X) :
    Created f f1 (Some (cfg_path c)) (lc_owner s) -> fs_dir f1 (cfg_path c) = lc_owner s -> Dying (lc_owner s) f1 N (s2, f2) ->
    RR N N v (s2, f2) -> knows v 0 leaves ->
    (let! x := with_store s2 (st_build KO en A b N (S d) (Some c)) in g x) f2 =
      (let! x := with_store s2 (st_build DO en A b N (S d) (Some c)) in g x) f2 \/
    Left f ((let! x := with_store s2 (st_build KO en A b N (S d) (Some c)) in g x) f2).
  Proof.
    intros HC Hdir HDy HR Hk. destruct (filled f f1 s v s2 f2 HC Hdir HDy HR Hk) as [HS HZ].
    pose proof HDy as (_ & _ & Ho & HF). cbn [fst snd] in *. rewrite <- Ho in HF.
    destruct (lbuild_or (h_ino (lc_file s2)) f1 s2 f2 HS HZ HF) as [G|(st' & G & HDd)].
    - left. unfold sbind, with_store. change (st_build KO en A b N (S d) (Some c) (s2, f2)) with (lstop_build EO kp en A b N (S d) (Some c) (s2, f2)).
      rewrite G. reflexivity.
    - right. assert (Hr : (let! x := with_store s2 (st_build KO en A b N (S d) (Some c)) in g x) f2 = (killed, snd st')).
      { unfold sbind, with_store. change (st_build KO en A b N (S d) (Some c) (s2, f2)) with (lstop_build EO kp en A b N (S d) (Some c) (s2, f2)).
        rewrite G. destruct st'. reflexivity. }
      rewrite Hr. destruct HDd as [HF' HL']. exists "killed"%string, (snd st'), (h_ino (lc_file s2)). split; [reflexivity|]. split.
      + change (Some (h_ino (lc_file s2))) with (lc_owner s2). rewrite Ho. eapply Created_frame; [exact HC|]. rewrite <- Ho. exact HF'.
      + unfold left_file. destruct kp; try contradiction; exact HL'.
  Qed.

  Let LP := lc_pop_laws EO EL (b ^ d) cis (geom b d) (lc_Hci EO b d c Hd).

  Lemma iter_or xs f : map leaf xs = leaves -> fs_dir f (cfg_path c) = None ->
    (kp <> L_sync /\ try_from_iter_with_config EO KO A en b (Some N) (map Ok xs) c f = try_from_iter_with_config EO DO A en b (Some N) (map Ok xs) c f) \/
    Left f (try_from_iter_with_config EO KO A en b (Some N) (map Ok xs) c f).
  Proof.
    intros Hx Hp. unfold try_from_iter_with_config. rewrite !(sbind_ok _ _ f N f) by reflexivity.
    unfold N. rewrite leafs_checks_full by auto. fold cap N. rewrite !(sbind_ok _ _ f (cap, S d) f) by reflexivity.
    destruct (stop_newc f Hp) as [(Hk & f' & i & H1 & HC & He)|(s & f1 & H1 & H2 & HD & HR & Hn & Hld & HC & Hdir)].
    - right. exists "killed"%string, f', i. split; [|split; [exact HC|unfold left_file; rewrite Hk; exact He]].
      unfold sbind. change (st_new_with_config KO cap b c f) with (lstop_new_with_config EO kp cap b c f). rewrite H1. reflexivity.
    - assert (H1' : st_new_with_config KO cap b c f = (Ok s, f1)) by exact H1. rewrite (sbind_ok _ _ _ _ _ H1').
      assert (H2' : st_new_with_config DO cap b c f = (Ok s, f1)) by exact H2. rewrite (sbind_ok _ _ _ _ _ H2').
      change (st_loaded_from_disk KO s) with (lc_loaded s). change (st_loaded_from_disk DO s) with (lc_loaded s). rewrite Hld.
      destruct (populate_ok EO DO lc_owner WW RR true LP A AL en N xs _ (s, f1) (proj1 (proj1 (proj2 HD))) HR)
        as (v & [s1 f2] & P1 & P2 & P3 & P4 & P5).
      { rewrite <- (map_length leaf xs), Hx, Hl. unfold N. lia. }
      assert (Hlx : List.length xs = N) by (unfold N; rewrite <- Hl, <- Hx, map_length; reflexivity).
      change (map (h_leaf A) xs) with (map leaf xs) in P4. rewrite Hx in P4. rewrite Hlx in P3.
      destruct (populate_or (lc_owner s) f1 xs (s, f1) HD Hn Hx) as [(st' & Q1 & Q2 & HDy)|(i & p & e & st' & Hk & Q1 & HDy)].
      + assert (st' = (s1, f2)) by (pose proof (eq_trans (eq_sym Q2) P1) as Z; injection Z as ->; reflexivity). subst st'.
        destruct Q1 as [[Hns Q1]|[Hk Q1]].
        2:{ right. match goal with |- Left f ?r => assert (Hr : r = (killed, f2)) end.
            { assert (WK : with_store s (sexpect (populate_data EO KO A en (map Ok xs)) "failed to populate data") f1 = (killed, f2))
                by (unfold with_store, sexpect; rewrite Q1; reflexivity).
              exact (sbind_dead _ _ _ _ _ WK). }
            rewrite Hr. exact (left_sync f f1 s _ v (s1, f2) HC Hdir Hk HDy P3 P4). }
        assert (WK : with_store s (sexpect (populate_data EO KO A en (map Ok xs)) "failed to populate data") f1 = (Ok (tt, s1), f2))
          by (unfold with_store, sexpect; rewrite Q1; reflexivity).
        assert (WD : with_store s (sexpect (populate_data EO DO A en (map Ok xs)) "failed to populate data") f1 = (Ok (tt, s1), f2))
          by (unfold with_store, sexpect; rewrite Q2; reflexivity).
        rewrite (sbind_ok _ _ _ _ _ WK), (sbind_ok _ _ _ _ _ WD).
        match goal with |- (kp <> L_sync /\ ?x = ?y) \/ Left f _ => cut (x = y \/ Left f x) end; [intros [FO|FO]; auto|].
        exact (finish_or f f1 s v s1 f2 _ HC Hdir HDy P3 P4).
      + right. match goal with |- Left f ?r => assert (Hr : r = (Panic e, snd st')) end.
        { assert (WK : with_store s (sexpect (populate_data EO KO A en (map Ok xs)) "failed to populate data") f1 = (Panic e, snd st'))
            by (unfold with_store, sexpect; rewrite Q1; destruct st'; reflexivity).
          exact (sbind_dead _ _ _ _ _ WK). }
        rewrite Hr. eapply left_copy; eauto.
  Qed.

  Lemma par_or xs f : 0 < p_block (env_params en) -> map leaf xs = leaves -> fs_dir f (cfg_path c) = None ->
    (kp <> L_sync /\ from_par_iter_with_config EO KO A en b xs c f = from_par_iter_with_config EO DO A en b xs c f) \/
    Left f (from_par_iter_with_config EO KO A en b xs c f).
  Proof.
    intros Hblk Hx Hp. assert (Hlx : List.length xs = N) by (unfold N; rewrite <- Hl, <- Hx, map_length; reflexivity).
    unfold from_par_iter_with_config. cbv zeta. rewrite Hlx.
    unfold N. rewrite leafs_checks_full by auto. fold cap N. rewrite !(sbind_ok _ _ f (cap, S d) f) by reflexivity.
    destruct (stop_newc f Hp) as [(Hk & f' & i & H1 & HC & He)|(s & f1 & H1 & H2 & HD & HR & Hn & Hld & HC & Hdir)].
    - right. exists "killed"%string, f', i. split; [|split; [exact HC|unfold left_file; rewrite Hk; exact He]].
      unfold sbind. change (st_new_with_config KO cap b c f) with (lstop_new_with_config EO kp cap b c f). rewrite H1. reflexivity.
    - assert (H1' : st_new_with_config KO cap b c f = (Ok s, f1)) by exact H1. rewrite (sbind_ok _ _ _ _ _ H1').
      assert (H2' : st_new_with_config DO cap b c f = (Ok s, f1)) by exact H2. rewrite (sbind_ok _ _ _ _ _ H2').
      change (st_loaded_from_disk KO s) with (lc_loaded s). change (st_loaded_from_disk DO s) with (lc_loaded s). rewrite Hld.
      destruct (populate_par_ok EO DO lc_owner WW RR true LP A AL en N xs _ (s, f1) Hblk (proj1 (proj1 (proj2 HD))) HR)
        as (v & [s1 f2] & P1 & P2 & P3 & P4 & P5).
      { rewrite Hlx. lia. }
      change (map (h_leaf A) xs) with (map leaf xs) in P4. rewrite Hx in P4. rewrite Hlx in P3.
      destruct (populate_par_or (lc_owner s) f1 xs (s, f1) Hblk HD Hn Hx) as [(st' & Q1 & Q2 & HDy)|(i & p & e & st' & Hk & Q1 & HDy)].
      + assert (st' = (s1, f2)) by (pose proof (eq_trans (eq_sym Q2) P1) as Z; injection Z as ->; reflexivity). subst st'.
        destruct Q1 as [[Hns Q1]|[Hk Q1]].
        2:{ right. match goal with |- Left f ?r => assert (Hr : r = (killed, f2)) end.
            { assert (WK : with_store s (populate_data_par EO KO A en xs) f1 = (killed, f2)) by (unfold with_store; rewrite Q1; reflexivity).
              exact (sbind_dead _ _ _ _ _ WK). }
            rewrite Hr. exact (left_sync f f1 s _ v (s1, f2) HC Hdir Hk HDy P3 P4). }
        assert (WK : with_store s (populate_data_par EO KO A en xs) f1 = (Ok (tt, s1), f2)) by (unfold with_store; rewrite Q1; reflexivity).
        assert (WD : with_store s (populate_data_par EO DO A en xs) f1 = (Ok (tt, s1), f2)) by (unfold with_store; rewrite Q2; reflexivity).
        rewrite (sbind_ok _ _ _ _ _ WK), (sbind_ok _ _ _ _ _ WD).
        match goal with |- (kp <> L_sync /\ ?x = ?y) \/ Left f _ => cut (x = y \/ Left f x) end; [intros [FO|FO]; auto|].
        exact (finish_or f f1 s v s1 f2 _ HC Hdir HDy P3 P4).
      + right. match goal with |- Left f ?r => assert (Hr : r = (Panic e, snd st')) end.
        { assert (WK : with_store s (populate_data_par EO KO A en xs) f1 = (Panic e, snd st'))
            by (unfold with_store; rewrite Q1; destruct st'; reflexivity).
          exact (sbind_dead _ _ _ _ _ WK). }
        rewrite Hr. eapply left_copy; eauto.
  Qed.

  Lemma lc_fill_ok s f1 v : RR N 0 v (s, f1) -> WW s ->
    exists s' f2, lc_fill EO (encode EO leaves) s f1 = (Ok s', f2) /\ RR N N (upd v 0 leaves) (s', f2) /\ WW s' /\ lc_owner s' = lc_owner s.
  Proof.
    intros H2 H3. pose proof (bl_pos EO EL) as Hbl.
    destruct (lc_copy_rep EO EL (b ^ d) cis (geom b d) (lc_Hci EO b d c Hd) N 0 v (s, f1) 0 leaves H2 H3 ltac:(rewrite Hl; unfold N; lia)) as (f2 & Hs & HD & HF).
    rewrite Nat.mul_0_l in Hs. cbn [fst snd] in *. exists (lc_set_len s (List.length leaves)), f2.
    split; [unfold lc_fill; rewrite Hs, encode_length, Nat.div_mul by (auto; lia); reflexivity|].
    destruct H2 as (Q1 & Q2 & Q3 & Q4 & Q5 & _). cbn [fst snd] in *. split; [|split; [exact H3|reflexivity]].
    split; [exact Hl|]. do 3 (split; [lia|]). split; [exact Q5|exact HD].
  Qed.

  Lemma bytes_or f : fs_dir f (cfg_path c) = None ->
    from_byte_slice_with_config EO KO A en b (encode EO leaves) c f = from_byte_slice_with_config EO DO A en b (encode EO leaves) c f \/
    Left f (from_byte_slice_with_config EO KO A en b (encode EO leaves) c f).
  Proof.
    intros Hp. pose proof (bl_pos EO EL) as Hbl. unfold from_byte_slice_with_config.
    rewrite encode_length, Nat.mod_mul, Nat.eqb_refl, Nat.div_mul by (auto; lia).
    unfold ensure at 1 2. rewrite !(sbind_ok _ _ f tt f) by reflexivity. rewrite Hl.
    rewrite leafs_checks_full by auto. fold cap N. rewrite !(sbind_ok _ _ f (cap, S d) f) by reflexivity.
    assert (Hsl : forall nw fill, (let! _ := slift (ensure (List.length (encode EO leaves) mod bl =? 0) "data size must be a multiple of byte_len") in
       let! s := nw in if lc_loaded s then sret s else fill s) f = (let! s := nw in if lc_loaded s then sret s else fill s) f).
    { intros nw fill. rewrite encode_length, Nat.mod_mul, Nat.eqb_refl by (auto; lia). unfold ensure. rewrite (sbind_ok _ _ f tt f) by reflexivity. reflexivity. }
    assert (HK : st_new_from_slice_with_config KO cap b (encode EO leaves) c f =
      (let! s := lstop_new_with_config EO kp cap b c in if lc_loaded s then sret s else lstop_fill EO kp (encode EO leaves) s) f) by apply Hsl.
    assert (HDn : st_new_from_slice_with_config DO cap b (encode EO leaves) c f =
      (let! s := lc_new_with_config EO cap b c in if lc_loaded s then sret s else lc_fill EO (encode EO leaves) s) f) by apply Hsl.
    clear Hsl.
    destruct (stop_newc f Hp) as [(Hk & f' & i & H1 & HC & He)|(s & f1 & H1 & H2 & HD & HR & Hn & Hld & HC & Hdir)].
    - right. exists "killed"%string, f', i. split; [|split; [exact HC|unfold left_file; rewrite Hk; exact He]].
      unfold sbind at 1. rewrite HK. unfold sbind. rewrite H1. reflexivity.
    - rewrite (sbind_ok _ _ _ _ _ H1), Hld in HK. rewrite (sbind_ok _ _ _ _ _ H2), Hld in HDn.
      destruct (leaves_part [] leaves []) as [P1 P2]; [rewrite app_nil_r; reflexivity|]. cbn [List.length] in P1, P2.
      destruct (lc_fill_ok s f1 _ HR (proj1 (proj1 (proj2 HD)))) as (s' & f2 & F1 & F2 & F3 & F4).
      destruct (stop_copy (lc_owner s) f1 (s, f1) 0 leaves HD P2 P1) as [(st1 & G1 & HD1 & _) Hor].
      assert (Hcp : forall cp : nat -> list byte -> SM (lc_t * fs) unit, (let! _ := slift (ensure (List.length (encode EO leaves) mod bl =? 0) "buf size must be a multiple of byte_len") in
         let! _ := cp (0 * bl) (encode EO leaves) in let! st := sget in
         lc_upd_len (Nat.max (lc_len (fst st)) (0 + List.length (encode EO leaves) / bl))) (s, f1) =
         match cp 0 (encode EO leaves) (s, f1) with
         | (Ok _, st) => (Ok tt, (lc_set_len (fst st) (Nat.max (lc_len (fst st)) (0 + List.length (encode EO leaves) / bl)), snd st))
         | (Err m, st) => (Err m, st) | (Panic m, st) => (Panic m, st) | (Diverge, st) => (Diverge, st) end).
      { intros cp. rewrite encode_length, Nat.mod_mul, Nat.eqb_refl by (auto; lia). unfold ensure. rewrite (sbind_ok _ _ (s, f1) tt (s, f1)) by reflexivity.
        unfold sbind. rewrite Nat.mul_0_l. destruct (cp 0 (encode EO leaves) (s, f1)) as [[| | |] st]; reflexivity. }
      pose proof (Hcp (fun i => lc_store_copy_from_slice i)) as C0. pose proof (Hcp (lstop_store_copy EO kp)) as C1. clear Hcp.
      assert (D0 : lc_copy_from_slice EO (encode EO leaves) 0 (s, f1) = _) by exact C0. clear C0.
      assert (D1 : lstop_copy_from_slice EO kp (encode EO leaves) 0 (s, f1) = _) by exact C1. clear C1.
      cbv beta in D0, D1. rewrite G1 in D0.
      unfold lc_fill in F1, HDn. unfold lstop_fill in HK. fold bl in F1, HDn, HK.
      destruct (lc_store_copy_from_slice 0 (encode EO leaves) (s, f1)) as [[u|m|m|] [s0 f0]] eqn:Q0; try discriminate D0. injection D0 as D0. subst st1. destruct u.
      injection F1 as F1 F1'. cbn [fst snd] in *.
      destruct Hor as [Hs|(i & p & e & st' & Hk & Hs & HDy)].
      + rewrite Hs, G1 in D1. destruct (lstop_store_copy EO kp 0 (encode EO leaves) (s, f1)) as [[u|m|m|] [s3 f3]] eqn:Q1; try discriminate D1.
        cbn [fst snd] in D1.
        assert (E3 : (s3, f3) = (s0, f0)).
        { unfold lstop_store_copy in Q1. assert (Hc : lc_store_copy_from_slice 0 (encode EO leaves) (s, f1) = (Ok u, (s3, f3)) -> (s3, f3) = (s0, f0)).
          { rewrite Q0. intros Z. injection Z as _ <- <-. reflexivity. }
          destruct kp as [|i p| | |]; auto. destruct (_ =? _); [|auto].
          destruct (0 + _ <=? _); [|discriminate]. destruct (on_fs _ _). discriminate. }
        injection E3 as -> ->. cbn [fst snd] in HK. rewrite F1 in HK, HDn. subst f0.
        rewrite (sbind_ok _ _ _ _ _ HK), (sbind_ok _ _ _ _ _ HDn).
        apply (finish_or f f1 s (upd (fun _ => None) 0 leaves) s' f2 _ HC Hdir); [|exact F2|apply knows_upd_same].
        destruct HD1 as (_ & (W1 & O1) & Ho & HFr). cbn [fst snd] in *. split; [eauto|]. split; [split; [exact F3|]|split; [exact F4|exact HFr]].
        rewrite <- F1. cbn [lc_set_len lc_file fst snd] in *. exact O1.
      + right. rewrite Hs in D1. destruct (lstop_store_copy EO kp 0 (encode EO leaves) (s, f1)) as [[u|m|m|] [s3 f3]] eqn:Q1; try discriminate D1.
        injection D1 as D1 D1'. subst st' m. cbn [fst snd] in HK.
        match goal with |- Left f ?r => assert (Hr : r = (Panic e, f3)) end.
        { exact (sbind_dead _ _ _ _ _ HK). }
        rewrite Hr. exact (left_copy f f1 s i p e (s3, f3) HC Hk HDy).
  Qed.

  Lemma lstop_cases f r : fs_dir f (cfg_path c) = None -> cfg_builder EO KO A en b c leaves f r ->
    cfg_builder EO DO A en b c leaves f r \/ Left f r.
  Proof.
    intros Hp HB. remember leaves as lv eqn:Hlv in HB. destruct HB.
    - destruct (iter_or xs f Hlv Hp) as [[_ H]|H].
      + left. unfold mt_new_with_config. assert (Hlx : List.length xs = N) by (unfold N; rewrite <- Hl, <- Hlv, map_length; reflexivity).
        rewrite Hlx, H, <- Hlx. rewrite <- Hlv. apply (CB_new EO DO).
      + right. unfold mt_new_with_config. assert (Hlx : List.length xs = N) by (unfold N; rewrite <- Hl, <- Hlv, map_length; reflexivity).
        rewrite Hlx. exact H.
    - destruct (par_or xs f H Hlv Hp) as [[_ G]|G]; [left; rewrite G, <- Hlv; apply (CB_par EO DO); auto|right; exact G].
    - assert (Hlx : List.length xs = N) by (unfold N; rewrite <- Hl, <- Hlv, map_length; reflexivity).
      destruct (iter_or (map (hash_of A) xs) f) as [[_ G]|G]; [rewrite map_map; exact Hlv|exact Hp| |].
      + left. unfold from_data_with_config. rewrite (hash_items_ok A AL). rewrite Hlx, G, <- (hash_items_ok A AL xs (a_default A)), <- Hlx, <- Hlv. apply (CB_data EO DO).
      + right. unfold from_data_with_config. rewrite (hash_items_ok A AL), Hlx. exact G.
    - subst els. destruct (bytes_or f Hp) as [G|G]; [left; rewrite G; apply (CB_bytes EO DO)|right; exact G].
  Qed.

  (* a build from items does call sync *)
  Lemma lsync_reached f r : kp = L_sync -> fs_dir f (cfg_path c) = None -> item_builder EO KO A en b c leaves f r -> Left f r.
  Proof.
    intros Hk Hp HB. remember leaves as lv eqn:Hlv in HB. destruct HB.
    - assert (Hlx : List.length xs = N) by (unfold N; rewrite <- Hl, <- Hlv, map_length; reflexivity).
      unfold mt_new_with_config. rewrite Hlx. destruct (iter_or xs f Hlv Hp) as [[H _]|H]; [congruence|exact H].
    - destruct (par_or xs f H Hlv Hp) as [[G _]|G]; [congruence|exact G].
    - assert (Hlx : List.length xs = N) by (unfold N; rewrite <- Hl, <- Hlv, map_length; reflexivity).
      destruct (iter_or (map (hash_of A) xs) f) as [[G _]|G]; [rewrite map_map; exact Hlv|exact Hp|congruence|].
      unfold from_data_with_config. rewrite (hash_items_ok A AL), Hlx. exact G.
  Qed.
End LStop.

