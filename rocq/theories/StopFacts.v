(* What a DiskStore build leaves behind when its process dies (Stop.v). *)
From Coq Require Import String List Arith Bool Lia Init.Byte ZifyBool ZifyNat.
From Verif Require Import Base Element Hash Sizing FS Sched Store VecStore DiskStore MmapStore LevelCache ProofModel Tree Faults Stop ListFacts Spec SpecFacts SizingFacts SchedFacts StoreLaws RowFacts ChunkFacts BuildFacts BuildLoop StoreSpec FileFacts ByteFacts VecFacts MapLayer DiskFacts MmapFacts PopFacts TreeFacts ProofSpec ProofFacts TreeProofs TreeObs Builders BuiltFacts CompactTrees ReopenFacts.
Import ListNotations.

(* ---- tasks one of which dies ---- *)
Section Die.
  Context {St D : Type}.
  Variable n : nat.
  Variable rd : nat -> St -> res D.
  Variables wr wr0 : nat -> D -> SM St unit.
  Variable J : St -> Prop.
  Variable val : nat -> D.
  Hypothesis Hrd : forall st k, k < n -> rd k st = Ok (val k).
  Hypothesis H0 : forall st k, J st -> k < n -> exists st', wr0 k (val k) st = (Ok tt, st') /\ J st'.
  Hypothesis Hor : forall st k, J st -> k < n ->
    wr k (val k) st = wr0 k (val k) st \/ exists m st', wr k (val k) st = (Panic m, st') /\ J st'.

  Definition holds_val (ts : nat -> @tstate D) : Prop := forall k d, k < n -> ts k = TRead d -> d = val k.
  Lemma hv_read ts k : holds_val ts -> holds_val (tset ts k (TRead (val k))).
  Proof. intros H j d Hj. unfold tset. destruct (j =? k) eqn:Q; [|apply H; auto]. intros X. inversion X. f_equal. lia. Qed.
  Lemma hv_done ts k : holds_val ts -> holds_val (tset ts k TDone).
  Proof. intros H j d Hj. unfold tset. destruct (j =? k) eqn:Q; [discriminate|apply H; auto]. Qed.

  Lemma run_dead e sched : forall ts st, J st -> holds_val ts ->
    exists ts' st', run_sched n rd wr sched ts (Some e) st = (ts', Some e, st') /\ J st'.
  Proof.
    induction sched as [|k r IH]; intros ts st HJ Hh; [exists ts, st; auto|]. cbn [run_sched]. unfold task_step.
    destruct (k <? n) eqn:Hk; [|apply IH; auto]. assert (Hk' : k < n) by lia.
    destruct (ts k) as [|d|] eqn:Et.
    - rewrite Hrd by auto. apply IH; auto using hv_read.
    - rewrite (Hh k d Hk' Et). destruct (Hor st k HJ Hk') as [->|(m & st' & -> & HJ')].
      + destruct (H0 st k HJ Hk') as (st' & -> & HJ'). apply IH; auto using hv_done.
      + cbn [first_failure]. apply IH; auto using hv_done.
    - apply IH; auto.
  Qed.

  Lemma run_or sched : forall ts st, J st -> holds_val ts ->
    (run_sched n rd wr sched ts None st = run_sched n rd wr0 sched ts None st /\
     exists ts' st', run_sched n rd wr0 sched ts None st = (ts', None, st') /\ J st' /\ holds_val ts') \/
    exists ts' m st', run_sched n rd wr sched ts None st = (ts', Some (Panic m), st') /\ J st'.
  Proof.
    induction sched as [|k r IH]; intros ts st HJ Hh; [left; split; [reflexivity|exists ts, st; auto]|]. cbn [run_sched]. unfold task_step.
    destruct (k <? n) eqn:Hk; [|apply IH; auto]. assert (Hk' : k < n) by lia.
    destruct (ts k) as [|d|] eqn:Et.
    - rewrite Hrd by auto. apply IH; auto using hv_read.
    - rewrite (Hh k d Hk' Et). destruct (Hor st k HJ Hk') as [->|(m & st' & -> & HJ')].
      + destruct (H0 st k HJ Hk') as (st' & -> & HJ'). apply IH; auto using hv_done.
      + right. cbn [first_failure]. destruct (run_dead (Panic m) r (tset ts k TDone) st' HJ' (hv_done ts k Hh)) as (ts2 & st2 & H2 & H3). eauto.
    - apply IH; auto.
  Qed.

  Lemma run_tasks_or sched st : J st ->
    run_tasks n rd wr sched st = run_tasks n rd wr0 sched st \/
    exists m st', run_tasks n rd wr sched st = (Panic m, st') /\ J st'.
  Proof.
    intros HJ. unfold run_tasks.
    destruct (run_or sched (fun _ => TNew) st HJ) as [(-> & ts' & st' & -> & HJ' & Hh')|(ts' & m & st' & -> & HJ')].
    - intros k d _ X. discriminate.
    - destruct (run_or (completion n) ts' st' HJ' Hh') as [(-> & _)|(ts2 & m & st2 & -> & HJ2)]; [left; reflexivity|right; eauto].
    - right. eauto.
  Qed.
End Die.

Lemma sbind_dead {S X Y} (m : SM S X) (k : X -> SM S Y) s e s' : m s = (Panic e, s') -> sbind m k s = (Panic e, s').
Proof. intros H. unfold sbind. rewrite H. reflexivity. Qed.

(* the with_config constructors that take items (not bytes) *)
Inductive item_builder {E} (EO : ElementOps E) (SO : StoreOps E) (A : AlgOps E) (en : env) (b : nat) (c : StoreConfig)
  : list E -> fs -> res (mtree (st_t SO) E) * fs -> Prop :=
| IB_new xs f : item_builder EO SO A en b c (map (h_leaf A) xs) f (mt_new_with_config EO SO A en b xs c f)
| IB_par xs f : 0 < p_block (env_params en) ->
    item_builder EO SO A en b c (map (h_leaf A) xs) f (from_par_iter_with_config EO SO A en b xs c f)
| IB_data xs f :
    item_builder EO SO A en b c (map (fun x => h_leaf A (hash_of A x)) xs) f (from_data_with_config EO SO A en b xs c f).
Lemma item_cfg {E} (EO : ElementOps E) SO A en b c leaves f r : item_builder EO SO A en b c leaves f r -> cfg_builder EO SO A en b c leaves f r.
Proof. intros []; constructor; auto. Qed.

Section Stop.
  Context {E : Type} (EO : ElementOps E) (EL : ElementLaws EO) (A : AlgOps E) (AL : AlgLaws A).
  Variables (en : env) (b : nat).
  Hypothesis Hb : arity b.
  Hypothesis Hch : chunk_ok en b.
  Variable kp : kill.
  Local Notation DO := (disk_store EO).
  Local Notation KO := (stop_store EO kp).
  Let bl := e_byte_len EO.
  Variables (leaves : list E) (d : nat).
  Hypothesis Hd : 1 <= d.
  Hypothesis Hl : List.length leaves = b ^ d.
  Let cap := geom b d.
  Let rows := all_rows A b leaves d.
  Let target := encode EO rows.

  (* every byte is zero or the byte of the finished tree, and from element m on it is zero *)
  Definition Okm (m : nat) (data : list byte) : Prop :=
    forall p x, nth_error data p = Some x -> x = x00 \/ (p < m * bl /\ nth_error target p = Some x).

  Lemma rows_length : List.length rows = cap.
  Proof. destruct (all_rows_Layout A b ltac:(pose proof (arity_ge b Hb); lia) leaves d Hl) as (_ & L & _). exact L. Qed.
  Lemma target_length : List.length target = cap * bl.
  Proof. unfold target. rewrite encode_length, rows_length by auto. reflexivity. Qed.
  Lemma rows_row r : r <= d -> knows (nth_error rows) (row_off b d r) (row A b leaves r).
  Proof.
    intros Hr k Hk. pose proof (all_rows_nth A b ltac:(pose proof (arity_ge b Hb); lia) leaves 1 d d r k) as H.
    rewrite !Nat.mul_1_l in H. apply H; auto.
    rewrite (row_length A b ltac:(pose proof (arity_ge b Hb); lia) leaves 1 d) in Hk by (auto; lia). lia.
  Qed.
  Lemma rows_leaves : knows (nth_error rows) 0 leaves.
  Proof. exact (rows_row 0 ltac:(lia)). Qed.

  Lemma target_sub start els : knows (nth_error rows) start els -> start + List.length els <= cap ->
    sub target (start * bl) (List.length els * bl) = encode EO els.
  Proof.
    intros Hk Hc. apply (DRep_range EO cap (nth_error rows) target start els); auto.
    unfold target. rewrite <- rows_length. apply (DRep_encode EO EL).
  Qed.

  Lemma ok_mono m m' data : m <= m' -> Okm m data -> Okm m' data.
  Proof.
    intros H HO p x Hp. destruct (HO p x Hp) as [->|[H1 H2]]; [left; reflexivity|right; split; auto].
    pose proof (Nat.mul_le_mono_r m m' bl H). lia.
  Qed.

  Lemma ok_write m data start els q : Okm m data -> List.length data = cap * bl ->
    knows (nth_error rows) start els -> start + List.length els <= m -> m <= cap ->
    Okm m (overwrite data (start * bl) (firstn q (encode EO els))).
  Proof.
    intros HO HD Hk Hm Hc p x. pose proof (target_sub start els Hk ltac:(lia)) as Ht.
    pose proof (encode_length EO EL els) as He. fold bl in He.
    pose proof (Nat.mul_le_mono_r _ _ bl Hm) as Hmb. pose proof (Nat.mul_le_mono_r _ _ bl Hc) as Hcb. rewrite Nat.mul_add_distr_r in Hmb.
    rewrite nth_error_overwrite by lia. destruct (p <? start * bl) eqn:Q1; [intros Hp; exact (HO p x Hp)|].
    destruct (p <? start * bl + _) eqn:Q2; [|intros Hp; exact (HO p x Hp)]. intros Hp. right. rewrite firstn_length, He in Q2.
    rewrite nth_error_firstn in Hp. destruct (_ <? q); [|discriminate].
    rewrite <- Ht, nth_error_sub in Hp. destruct (_ <? List.length els * bl) eqn:Q3; [|discriminate].
    split; [lia|]. replace (start * bl + (p - start * bl)) with p in Hp by lia. exact Hp.
  Qed.

  (* a state in which the process may be dead: everything a copy of leaves needs *)
  Definition Alive (m : nat) (st : disk_t * fs) : Prop :=
    disk_W (fst st) /\ Okm m (fs_data (snd st) (h_ino (ds_file (fst st)))).
  Definition Dying (o : option nat) (f1 : fs) (m : nat) (st : disk_t * fs) : Prop :=
    (exists n v, disk_rep EO cap n v st) /\ Alive m st /\ disk_owner (fst st) = o /\ fs_frame o f1 (snd st).

  (* one copy of leaves: as in disk_store, or the end *)
  Lemma stop_copy o f1 m st start els : Dying o f1 m st -> start + List.length els <= m -> m <= cap ->
    knows (nth_error rows) start els ->
    (exists st', disk_copy_from_slice EO (encode EO els) start st = (Ok tt, st') /\ Dying o f1 m st' /\
       ds_len (fst st') = Nat.max (ds_len (fst st)) (start + List.length els)) /\
    (stop_copy_from_slice EO kp (encode EO els) start st = disk_copy_from_slice EO (encode EO els) start st \/
     exists i p e st', kp = K_copy i p /\ stop_copy_from_slice EO kp (encode EO els) start st = (Panic e, st') /\ Dying o f1 m st').
  Proof.
    intros ((n & v & HR) & (HW & HO) & Ho & HF) Hm Hc Hk. pose proof (bl_pos EO EL) as Hbl. fold bl in Hbl.
    pose proof HR as (R1 & R2 & R3 & HD). pose proof (encode_length EO EL els) as He. fold bl in He. unfold bl in R3. fold bl in R3.
    pose proof (Nat.mul_le_mono_r _ _ bl Hm) as Hmb. pose proof (Nat.mul_le_mono_r _ _ bl Hc) as Hcb.
    assert (Hlen : List.length (fs_data (snd st) (h_ino (ds_file (fst st)))) = cap * bl) by exact (proj1 HD).
    assert (Hw : forall q, exists f', fs_write_all_at (ds_file (fst st)) (start * bl) (firstn q (encode EO els)) (snd st) = (Ok tt, f') /\
       fs_data f' (h_ino (ds_file (fst st))) = overwrite (fs_data (snd st) (h_ino (ds_file (fst st)))) (start * bl) (firstn q (encode EO els)) /\
       fs_frame (Some (h_ino (ds_file (fst st)))) (snd st) f').
    { intros q. apply write_all_in; [exact HW|]. rewrite Hlen, firstn_length, He.
      rewrite Nat.mul_add_distr_r in Hmb. lia. }
    split.
    - destruct (cl_copy _ _ _ _ _ _ _ _ _ _ (disk_core EO EL) cap n v st els start HR HW ltac:(lia)) as (st' & H1 & H2 & [H3 H3'] & H4).
      exists st'. split; [exact H1|]. split; [|rewrite (proj1 H2), R1; reflexivity].
      split; [eauto|]. split; [split; [exact H4|]|split; [congruence|eapply fs_frame_trans; [exact HF|rewrite <- Ho; exact H3']]].
      destruct (Hw (List.length (encode EO els))) as (f' & W1 & W2 & W3). rewrite firstn_all in *.
      unfold disk_copy_from_slice in H1. rewrite encode_length in H1 by auto. rewrite Nat.mod_mul, Nat.eqb_refl in H1 by (fold bl; lia).
      unfold ensure in H1. rewrite (sbind_ok _ _ st tt st) in H1 by reflexivity.
      unfold sbind at 1 in H1. unfold disk_store_copy_from_slice in H1. fold bl in H1.
      rewrite He, R3, <- Nat.mul_add_distr_r in H1. fold bl in H1.
      replace ((start + List.length els) * bl <=? cap * bl) with true in H1 by lia.
      unfold on_fs in H1. rewrite W1 in H1. inversion H1 as [H1']. cbn [fst snd ds_set_len ds_file].
      rewrite W2. pose proof (ok_write m _ start els (List.length (encode EO els)) HO Hlen Hk Hm Hc) as G. rewrite firstn_all in G. exact G.
    - unfold stop_copy_from_slice, disk_copy_from_slice. unfold stop_store_copy. fold bl.
      destruct kp as [|i p| |]; auto. destruct (start * bl =? i * bl) eqn:Q; [|left; reflexivity].
      right. rewrite He, Nat.mod_mul, Nat.eqb_refl by lia. unfold ensure. rewrite (sbind_ok _ _ st tt st) by reflexivity.
      unfold sbind at 1. rewrite R3, <- Nat.mul_add_distr_r. fold bl.
      replace ((start + List.length els) * bl <=? cap * bl) with true by lia.
      destruct (Hw p) as (f' & W1 & W2 & W3). unfold on_fs. rewrite W1.
      eexists i, p, _, _. split; [reflexivity|]. split; [reflexivity|]. split.
      + exists n, (fun _ => None). split; [exact R1|]. split; [exact R2|]. split; [exact R3|]. cbn [fst snd]. split; [|discriminate].
        rewrite W2, overwrite_length; [exact Hlen|]. rewrite Hlen, firstn_length, He. rewrite Nat.mul_add_distr_r in Hmb. lia.
      + split; [split; [exact HW|]|split; [exact Ho|eapply fs_frame_trans; [exact HF|rewrite <- Ho; exact W3]]].
        cbn [fst snd]. rewrite W2. apply ok_write; auto.
  Qed.

  Lemma sync_or st : (kp = K_sync /\ st_sync KO st = (killed, st)) \/ (kp <> K_sync /\ st_sync KO st = (Ok tt, st)).
  Proof. cbn [stop_store st_sync]. destruct kp; [right|right|left|right]; (split; [congruence|reflexivity]). Qed.

  Let leaf := h_leaf A.
  Let N := b ^ d.
  Lemma leaves_fit : N <= cap.
  Proof. unfold N, cap. apply geom_gt. Qed.

  (* a piece of the leaves *)
  Lemma leaves_part pre els post : leaves = pre ++ els ++ post ->
    knows (nth_error rows) (List.length pre) els /\ List.length pre + List.length els <= N.
  Proof.
    intros H. split.
    - pose proof (knows_sub _ _ _ (List.length pre) (List.length els) rows_leaves) as G.
      replace (sub leaves (List.length pre) (List.length els)) with els in G; [exact G|].
      rewrite H. unfold sub. rewrite skipn_app, skipn_all, Nat.sub_diag. cbn [app skipn]. rewrite firstn_app, firstn_all, Nat.sub_diag. cbn. symmetry. apply app_nil_r.
    - unfold N. rewrite <- Hl, H, !app_length. lia.
  Qed.

  Lemma populate_loop_or block o f1 : forall xs a done buf st,
    Dying o f1 N st -> ds_len (fst st) = List.length done -> done ++ buf ++ map leaf xs = leaves ->
    (populate_loop EO KO A block (map Ok xs) a (encode EO buf) st = populate_loop EO DO A block (map Ok xs) a (encode EO buf) st /\
     exists done' rest st', populate_loop EO DO A block (map Ok xs) a (encode EO buf) st = (Ok (encode EO rest), st') /\
       Dying o f1 N st' /\ ds_len (fst st') = List.length done' /\ done' ++ rest = leaves) \/
    exists i p e st', kp = K_copy i p /\ populate_loop EO KO A block (map Ok xs) a (encode EO buf) st = (Panic e, st') /\ Dying o f1 N st'.
  Proof.
    induction xs as [|x xs IH]; intros a done buf st HD Hn Hall.
    - left. split; [reflexivity|]. exists done, buf, st. cbn [map] in Hall. rewrite app_nil_r in Hall. auto.
    - cbn [map populate_loop]. rewrite !(sbind_ok _ _ st x st) by reflexivity.
      pose proof (leaf_reset A AL a x) as Hx. destruct (a_leaf A (a_reset A a) x) as [h a'] eqn:Ea. cbn [fst] in Hx. subst h.
      assert (He : encode EO buf ++ e_as_ref EO (h_leaf A x) = encode EO (buf ++ [h_leaf A x])).
      { rewrite encode_app. unfold encode at 3. cbn [map concat]. rewrite app_nil_r. reflexivity. }
      rewrite He. cbn [map] in Hall. destruct (_ <=? _) eqn:G.
      + rewrite !(sbind_ok _ _ st st st) by reflexivity. change (st_len KO (fst st)) with (ds_len (fst st)). change (st_len DO (fst st)) with (ds_len (fst st)). rewrite Hn.
        destruct (leaves_part done (buf ++ [h_leaf A x]) (map leaf xs)) as [P1 P2]; [rewrite <- Hall, <- !app_assoc; reflexivity|].
        destruct (stop_copy o f1 N st (List.length done) (buf ++ [h_leaf A x]) HD P2 leaves_fit P1) as [(st1 & H1 & HD1 & Hl1) [Hs|(i & p & e & st' & Hk & Hs & HD')]].
        * assert (Hk : st_copy_from_slice KO (encode EO (buf ++ [h_leaf A x])) (List.length done) st = (Ok tt, st1)) by (etransitivity; [exact Hs|exact H1]).
          assert (Hk0 : st_copy_from_slice DO (encode EO (buf ++ [h_leaf A x])) (List.length done) st = (Ok tt, st1)) by exact H1.
          rewrite (sbind_ok _ _ _ _ _ Hk), !(sbind_ok _ _ _ _ _ Hk0).
          apply (IH a' (done ++ buf ++ [h_leaf A x]) [] st1 HD1).
          -- rewrite Hl1, Hn, !app_length. lia.
          -- rewrite <- Hall. rewrite <- !app_assoc. reflexivity.
        * right. exists i, p, e, st'. split; [exact Hk|]. split; [|exact HD'].
          assert (Hk' : st_copy_from_slice KO (encode EO (buf ++ [h_leaf A x])) (List.length done) st = (Panic e, st')) by exact Hs.
          unfold sbind at 1. rewrite Hk'. reflexivity.
      + apply (IH a' done (buf ++ [h_leaf A x]) st HD Hn). rewrite <- Hall, <- !app_assoc. reflexivity.
  Qed.

  Lemma populate_or o f1 xs st : Dying o f1 N st -> ds_len (fst st) = 0 -> map leaf xs = leaves ->
    (exists st', (kp <> K_sync /\ populate_data EO KO A en (map Ok xs) st = (Ok tt, st') \/
                  kp = K_sync /\ populate_data EO KO A en (map Ok xs) st = (killed, st')) /\
       populate_data EO DO A en (map Ok xs) st = (Ok tt, st') /\ Dying o f1 N st') \/
    exists i p e st', kp = K_copy i p /\ populate_data EO KO A en (map Ok xs) st = (Panic e, st') /\ Dying o f1 N st'.
  Proof.
    intros HD Hn Hx. unfold populate_data. rewrite !(sbind_ok _ _ st st st) by reflexivity.
    change (st_is_empty KO (fst st)) with (ds_len (fst st) =? 0). change (st_is_empty DO (fst st)) with (ds_len (fst st) =? 0).
    rewrite Hn. cbn [Nat.eqb negb].
    destruct (populate_loop_or (p_block (env_params en)) o f1 xs (a_default A) [] [] st HD Hn Hx)
      as [(H1 & done & rest & st1 & H2 & HD1 & Hn1 & Hall)|(i & p & e & st' & Hk & H1 & HD1)]; change (encode EO []) with (@nil byte) in *.
    - assert (H1' : populate_loop EO KO A (p_block (env_params en)) (map Ok xs) (a_default A) [] st = (Ok (encode EO rest), st1))
        by (etransitivity; [exact H1|exact H2]).
      rewrite (sbind_ok _ _ _ _ _ H1'), !(sbind_ok _ _ _ _ _ H2). clear H1 H1' H2.
      rewrite !(sbind_ok _ _ st1 st1 st1) by reflexivity.
      change (st_len KO (fst st1)) with (ds_len (fst st1)). change (st_len DO (fst st1)) with (ds_len (fst st1)). rewrite Hn1.
      destruct (leaves_part done rest []) as [P1 P2]; [rewrite app_nil_r; auto|].
      destruct (stop_copy o f1 N st1 (List.length done) rest HD1 P2 leaves_fit P1) as [(st2 & G1 & HD2 & Hl2) [Hs|(i & p & e & st' & Hk & Hs & HD')]].
      + left. assert (Hk : st_copy_from_slice KO (encode EO rest) (List.length done) st1 = (Ok tt, st2)) by (etransitivity; [exact Hs|exact G1]).
        assert (Hk0 : st_copy_from_slice DO (encode EO rest) (List.length done) st1 = (Ok tt, st2)) by exact G1.
        rewrite (sbind_ok _ _ _ _ _ Hk), !(sbind_ok _ _ _ _ _ Hk0). exists st2.
        split; [|split; [reflexivity|exact HD2]]. destruct (sync_or st2) as [[Y1 Y2]|[Y1 Y2]]; rewrite Y2; auto.
      + right. exists i, p, e, st'. split; [exact Hk|]. split; [|exact HD'].
        assert (Hk' : st_copy_from_slice KO (encode EO rest) (List.length done) st1 = (Panic e, st')) by exact Hs.
        unfold sbind. rewrite Hk'. reflexivity.
    - right. exists i, p, e, st'. split; [exact Hk|]. split; [|exact HD1]. unfold sbind at 1. rewrite H1. reflexivity.
  Qed.

  Lemma populate_par_or o f1 xs st : 0 < p_block (env_params en) -> Dying o f1 N st -> ds_len (fst st) = 0 -> map leaf xs = leaves ->
    (exists st', (kp <> K_sync /\ populate_data_par EO KO A en xs st = (Ok tt, st') \/
                  kp = K_sync /\ populate_data_par EO KO A en xs st = (killed, st')) /\
       populate_data_par EO DO A en xs st = (Ok tt, st') /\ Dying o f1 N st') \/
    exists i p e st', kp = K_copy i p /\ populate_data_par EO KO A en xs st = (Panic e, st') /\ Dying o f1 N st'.
  Proof.
    intros HB HD Hn Hx. unfold populate_data_par. rewrite !(sbind_ok _ _ st st st) by reflexivity.
    change (st_is_empty KO (fst st)) with (ds_len (fst st) =? 0). change (st_is_empty DO (fst st)) with (ds_len (fst st) =? 0).
    rewrite Hn. cbn [Nat.eqb negb].
    remember (p_block (env_params en)) as B eqn:EB. clear EB.
    set (pc := fun k => sub leaves (B * k) B).
    assert (Hnb : forall k, k < List.length (chunks B xs) <-> B * k < List.length xs).
    { intros k. rewrite chunks_length by auto. rewrite (Nat.mul_comm B k). apply div_up; auto. }
    assert (Hlx : List.length xs = N) by (unfold N; rewrite <- Hl, <- Hx, map_length; reflexivity).
    set (rd := fun (k : nat) (_ : disk_t * fs) => do blk <- rnth (chunks B xs) k; Ok (block_bytes EO A blk (a_default A))).
    set (wr0 := fun (k : nat) (buf : list byte) => disk_copy_from_slice EO buf (B * k)).
    set (wr := fun (k : nat) (buf : list byte) => stop_copy_from_slice EO kp buf (B * k)).
    assert (Hrd : forall st k, k < List.length (chunks B xs) -> rd k st = Ok (encode EO (pc k))).
    { intros st0 k Hk. apply Hnb in Hk. unfold rd, rnth. rewrite nth_error_chunks by auto.
      rewrite (Nat.mul_comm k B). replace (B * k <? List.length xs) with true by lia. cbn [rbind].
      rewrite (block_bytes_ok EO A AL). unfold pc. rewrite <- Hx. do 2 f_equal. unfold sub.
      rewrite <- firstn_map, <- skipn_map. reflexivity. }
    assert (Hpc : forall k, k < List.length (chunks B xs) -> knows (nth_error rows) (B * k) (pc k) /\ B * k + List.length (pc k) <= N).
    { intros k Hk. apply Hnb in Hk. split; [exact (knows_sub _ _ _ (B * k) B rows_leaves)|]. unfold pc. rewrite sub_length, Hl. fold N. lia. }
    assert (H0 : forall st k, Dying o f1 N st -> k < List.length (chunks B xs) -> exists st', wr0 k (encode EO (pc k)) st = (Ok tt, st') /\ Dying o f1 N st').
    { intros st0 k HD0 Hk. destruct (Hpc k Hk) as [P1 P2].
      destruct (stop_copy o f1 N st0 (B * k) (pc k) HD0 P2 leaves_fit P1) as [(st1 & H1 & HD1 & _) _]. eauto. }
    assert (Hrun0 : exists st', run_tasks (List.length (chunks B xs)) rd wr0 (env_pop en) st = (Ok tt, st') /\ Dying o f1 N st').
    { destruct (run_tasks_ok (List.length (chunks B xs)) rd wr0 (fun _ st => Dying o f1 N st) (fun k => encode EO (pc k))
        (fun w st k _ Hk _ => Hrd st k Hk) (fun w st k HI Hk _ => H0 st k HI Hk) (env_pop en) st HD) as (w & st' & H1 & H2 & _). eauto. }
    destruct Hrun0 as (st' & R0 & HD').
    assert (Hor : run_tasks (List.length (chunks B xs)) rd wr (env_pop en) st = run_tasks (List.length (chunks B xs)) rd wr0 (env_pop en) st \/
       exists m st', run_tasks (List.length (chunks B xs)) rd wr (env_pop en) st = (Panic m, st') /\ Dying o f1 N st').
    { apply (run_tasks_or _ rd wr wr0 (Dying o f1 N) (fun k => encode EO (pc k)) Hrd H0); auto.
      intros st0 k HD0 Hk. destruct (Hpc k Hk) as [P1 P2].
      destruct (stop_copy o f1 N st0 (B * k) (pc k) HD0 P2 leaves_fit P1) as [_ [Hs|(i & p & e & st1 & Hk' & Hs & HD1)]]; [left; exact Hs|right; eauto]. }
    change (fun (k : nat) (_ : st_t KO * fs) => do blk <- rnth (chunks B xs) k; Ok (block_bytes EO A blk (a_default A))) with rd.
    change (fun (k : nat) (_ : st_t DO * fs) => do blk <- rnth (chunks B xs) k; Ok (block_bytes EO A blk (a_default A))) with rd.
    change (fun (k : nat) (buf : list byte) => st_copy_from_slice KO buf (B * k)) with wr.
    change (fun (k : nat) (buf : list byte) => st_copy_from_slice DO buf (B * k)) with wr0.
    destruct Hor as [Hs|(m & st1 & Hs & HD1)].
    - left. exists st'. pose proof (sync_or st') as HY. unfold sbind. cbn [st_t stop_store disk_store] in *. rewrite Hs, R0.
      split; [|split; [reflexivity|exact HD']]. destruct HY as [[Y1 Y2]|[Y1 Y2]]; auto.
    - right. destruct kp as [|i p| |k sched] eqn:Ek.
      + exfalso. assert (wr = wr0) as Ew by reflexivity. rewrite Ew, R0 in Hs. discriminate.
      + exists i, p, m, st1. split; [reflexivity|]. split; [|exact HD1]. unfold sbind. cbn [st_t stop_store disk_store] in *. rewrite Hs. reflexivity.
      + exfalso. assert (wr = wr0) as Ew by reflexivity. rewrite Ew, R0 in Hs. discriminate.
      + exfalso. assert (wr = wr0) as Ew by reflexivity. rewrite Ew, R0 in Hs. discriminate.
  Qed.

  (* ---- hashing ---- *)
  Local Notation at_lev := (at_level disk_W (disk_rep EO) A b leaves 1 d cap).
  Let chunk := p_chunk (env_params en).

  (* what the finished part of the file holds *)
  Definition Exact (m : nat) (data : list byte) : Prop := sub data 0 (m * bl) = sub target 0 (m * bl).

  Lemma lev_exact r st : r <= d -> at_lev r st -> Exact (row_off b d (S r)) (fs_data (snd st) (h_ino (ds_file (fst st)))).
  Proof.
    intros Hr (HW & v & HR & Hk). pose proof (arity_ge b Hb) as H2. pose proof HR as (R1 & R2 & R3 & HD). rewrite Nat.mul_1_l in R2.
    assert (HK : knows v 0 (firstn (row_off b d (S r)) rows)).
    { intros k Hkl. rewrite firstn_length, rows_length in Hkl. cbn [Nat.add].
      assert (exists r' j, r' <= r /\ j < b ^ (d - r') /\ k = row_off b d r' + j) as (r' & j & Hr' & Hj & ->).
      { assert (Hkr : k < row_off b d (S r)) by lia. clear - Hkr. induction r as [|r IH].
        - exists 0, k. rewrite row_off_step in Hkr. cbn [row_off] in *. lia.
        - rewrite row_off_step in Hkr. destruct (lt_dec k (row_off b d (S r))) as [L|L].
          + destruct (IH L) as (r' & j & H1 & H2 & H3). exists r', j. lia.
          + exists (S r), (k - row_off b d (S r)). lia. }
      assert (Hlen : List.length (row A b leaves r') = b ^ (d - r')).
      { rewrite (row_length A b ltac:(lia) leaves 1 d) by (auto; lia). lia. }
      pose proof (Hk r' Hr' j ltac:(lia)) as G. rewrite Nat.mul_1_l in G. rewrite G.
      pose proof (rows_row r' ltac:(lia) j ltac:(lia)) as G'. rewrite nth_error_firstn.
      replace (row_off b d r' + j <? row_off b d (S r)) with true by lia. symmetry. exact G'. }
    unfold Exact. assert (Hfl : List.length (firstn (row_off b d (S r)) rows) = row_off b d (S r)).
    { rewrite firstn_length, rows_length. lia. }
    pose proof (DRep_range EO cap v _ 0 _ HD HK ltac:(rewrite Hfl; lia)) as G1.
    pose proof (target_sub 0 (firstn (row_off b d (S r)) rows)) as G2. rewrite Hfl in *. rewrite Nat.mul_0_l in *. fold bl in G1. rewrite G1, G2; [reflexivity| |lia].
    intros k Hkl. rewrite Hfl in Hkl. cbn [Nat.add]. rewrite nth_error_firstn. replace (k <? row_off b d (S r)) with true by lia. reflexivity.
  Qed.

  (* the numbers of one layer *)
  Lemma layer_nums r : r < d -> let w := b ^ (d - S r) in
    b ^ (d - r) = w * b /\ List.length (row A b leaves r) = w * b /\ 1 <= w /\
    row_off b d r + w * b = row_off b d (S r) /\ row_off b d (S r) + w = row_off b d (S (S r)) /\ row_off b d (S (S r)) <= cap.
  Proof.
    intros Hr w. pose proof (arity_ge b Hb) as H2.
    assert (Hw : b ^ (d - r) = w * b) by (unfold w; replace (d - r) with (S (d - S r)) by lia; rewrite Nat.pow_succ_r'; lia).
    split; [exact Hw|]. split; [rewrite (row_length A b ltac:(lia) leaves 1 d) by (auto; lia); lia|].
    split; [unfold w; apply pow_pos; lia|]. split; [rewrite row_off_step; lia|]. split; [rewrite (row_off_step b d (S r)); reflexivity|].
    pose proof (row_off_mono b d (S (S r)) (S d) ltac:(lia)) as M. rewrite (row_off_step b d d), row_off_last, Nat.sub_diag in M.
    pose proof (geom_pos b d). cbn [Nat.pow] in M. unfold cap. lia.
  Qed.

  Lemma stop_layer_until r sched o f1 st : r < d -> at_lev r st -> Dying o f1 (row_off b d (S r)) st ->
    exists f', mmap_layer_by EO A b chunk (fun n start rd comp wr _ => run_bytes_until n start rd comp wr sched) ds_file
        (fun st s e => disk_check EO st (s * bl) (e * bl)) (b ^ (d - r)) r (row_off b d r) (row_off b d (S r)) st = (Ok tt, (fst st, f')) /\
      Dying o f1 (row_off b d (S (S r))) (fst st, f') /\ Exact (row_off b d (S r)) (fs_data f' (h_ino (ds_file (fst st)))).
  Proof.
    intros Hr Hat (_ & (_ & HO) & Ho & HF0). pose proof Hat as (HW & v & HR & Hk). pose proof HR as (R1 & R2 & R3 & HD).
    rewrite Nat.mul_1_l in *. destruct (layer_nums r Hr) as (Hw & HLr & Hw1 & Hoff & Hfit & Hall). rewrite Hw.
    destruct st as [s f0]. cbn [fst snd] in *. destruct Hch as [Hc1 Hc2].
    destruct (map_layer_stopped EO EL ds_file (fun st s e => disk_check EO st (s * bl) (e * bl)) A b chunk Hb Hc1 Hc2 s f0 cap v
                (row A b leaves r) (b ^ (d - S r)) r (row_off b d r) (row_off b d (S r)) HW HD HLr Hw1) with (sched := sched) as (f' & Hrun & HF & HL' & Hout & Hin).
    - pose proof (Hk r (le_n r)) as G. rewrite Nat.mul_1_l in G. exact G.
    - lia.
    - lia.
    - intros f k n Hn Hkn. apply (disk_check_ok EO EL (s, f) _ _ (row_off b d (S r))); cbn [fst]; auto; lia.
    - exists f'. split; [exact Hrun|]. set (data := fs_data f' (h_ino (ds_file s))) in *.
      pose proof (Nat.mul_le_mono_r _ _ bl Hall) as Hcb. rewrite <- Hfit, Nat.mul_add_distr_r in Hcb.
      split; [split; [|split; [split; [exact HW|]|split; [exact Ho|eapply fs_frame_trans; [exact HF0|cbn [snd]; rewrite <- Ho; exact HF]]]]|].
      + exists (ds_len s), (fun _ => None). split; [reflexivity|]. split; [rewrite R1; lia|]. split; [exact R3|]. cbn [fst snd]. split; [exact HL'|discriminate].
      + intros p x Hp. cbn [fst snd] in Hp. fold data in Hp.
        assert (Hcase : (p < row_off b d (S r) * bl \/ (row_off b d (S r) + b ^ (d - S r)) * bl <= p) \/
                        exists q, q < b ^ (d - S r) * bl /\ p = row_off b d (S r) * bl + q).
        { rewrite Nat.mul_add_distr_r. destruct (lt_dec p (row_off b d (S r) * bl)); [auto|].
          destruct (le_dec (row_off b d (S r) * bl + b ^ (d - S r) * bl) p); [auto|]. right. exists (p - row_off b d (S r) * bl). lia. }
        destruct Hcase as [Hc|(q & Hq & ->)].
        * fold bl in Hout. rewrite (Hout p Hc) in Hp. apply (ok_mono (row_off b d (S r)) (row_off b d (S (S r)))) in HO; [exact (HO p x Hp)|rewrite <- Hfit; lia].
        * fold bl in Hin. destruct (Hin q Hq) as [G|G]; rewrite G in Hp.
          -- apply (ok_mono (row_off b d (S r)) (row_off b d (S (S r)))) in HO; [exact (HO _ _ Hp)|rewrite <- Hfit; lia].
          -- right. split; [rewrite <- Hfit, Nat.mul_add_distr_r; lia|].
             pose proof (rows_row (S r) ltac:(lia)) as Hrow. cbn [row] in Hrow.
             assert (Hlen : List.length (hash_row A b r (row A b leaves r)) = b ^ (d - S r)).
             { pose proof (row_length A b ltac:(pose proof (arity_ge b Hb); lia) leaves 1 d (S r)) as G2. cbn [row] in G2. rewrite G2 by (auto; lia). lia. }
             pose proof (target_sub _ _ Hrow ltac:(rewrite Hlen; lia)) as Ht. rewrite Hlen in Ht.
             rewrite <- Ht, nth_error_sub in Hp. replace (q <? b ^ (d - S r) * bl) with true in Hp by lia. exact Hp.
      + pose proof (lev_exact r (s, f0) ltac:(lia) Hat) as G. unfold Exact in *. rewrite <- G. cbn [fst snd].
        apply nth_error_ext. intros p. rewrite !nth_error_sub. destruct (p <? _) eqn:Q; [|reflexivity]. cbn [Nat.add].
        fold bl in Hout. apply Hout. left. lia.
  Qed.

  Lemma stop_layer_full r o f1 st : r < d -> at_lev r st -> Dying o f1 (row_off b d (S r)) st ->
    exists f', disk_process_layer EO en A b (env_bytes en r) (b ^ (d - r)) r (row_off b d r) (row_off b d (S r)) st = (Ok tt, (fst st, f')) /\
      at_lev (S r) (ds_set_len (fst st) (ds_len (fst st) + b ^ (d - S r)), f') /\
      Dying o f1 (row_off b d (S (S r))) (ds_set_len (fst st) (ds_len (fst st) + b ^ (d - S r)), f').
  Proof.
    intros Hr Hat (_ & (_ & HO) & Ho & HF0). destruct Hch as [Hc1 Hc2].
    assert (Hcap : 1 * geom b d <= cap) by (unfold cap; lia). assert (HL1 : List.length leaves = 1 * b ^ d) by lia.
    pose proof (arity_ge b Hb) as H2.
    destruct (disk_layer_ok EO EL en A b Hb leaves 1 d ltac:(lia) HL1 Hc1 Hc2 cap Hcap r st Hr Hat) as (f' & Hrun & Hat' & HF).
    rewrite !Nat.mul_1_l in *. exists f'. split; [exact Hrun|]. split; [exact Hat'|].
    pose proof Hat as (HW & v & HR & Hk). pose proof HR as (R1 & R2 & R3 & HD).
    rewrite Nat.mul_1_l in *. destruct (layer_nums r Hr) as (Hw & HLr & Hw1 & Hoff & Hfit & Hall). unfold disk_process_layer in Hrun. rewrite Hw in Hrun.
    destruct st as [s f0]. cbn [fst snd] in *. split; [destruct Hat' as (_ & v' & HR' & _); eauto|].
    split; [split; [exact HW|]|split; [exact Ho|eapply fs_frame_trans; [exact HF0|rewrite <- Ho; exact HF]]].
    destruct (map_layer_data EO EL ds_file (fun st s e => disk_check EO st (s * bl) (e * bl)) A b chunk Hb Hc1 Hc2 s f0 cap v
                (row A b leaves r) (b ^ (d - S r)) r (row_off b d r) (row_off b d (S r)) HW HD HLr Hw1) with (sched := env_bytes en r) as (f2 & Hrun2 & Hd2 & _).
    - pose proof (Hk r (le_n r)) as G. rewrite Nat.mul_1_l in G. exact G.
    - lia.
    - lia.
    - intros f k n Hn Hkn. apply (disk_check_ok EO EL (s, f) _ _ (row_off b d (S r))); cbn [fst]; auto; lia.
    - unfold chunk, bl in Hrun2. rewrite Hrun in Hrun2. injection Hrun2 as <-. cbn [fst snd ds_set_len ds_file]. rewrite Hd2.
      pose proof (rows_row (S r) ltac:(lia)) as Hrow. cbn [row] in Hrow.
      assert (Hlen : List.length (hash_row A b r (row A b leaves r)) = b ^ (d - S r)).
      { pose proof (row_length A b ltac:(lia) leaves 1 d (S r)) as G2. cbn [row] in G2. rewrite G2 by (auto; lia). lia. }
      rewrite <- (firstn_all (encode EO (hash_row A b r (row A b leaves r)))).
      apply ok_write; auto; [|exact (proj1 HD)|rewrite Hlen; lia]. eapply ok_mono; [|exact HO]. lia.
  Qed.

  (* the process died while hashing row k + 1 *)
  Definition DiedAt (o : option nat) (f1 : fs) (k : nat) (st : disk_t * fs) : Prop :=
    k < d /\ Dying o f1 (row_off b d (S (S k))) st /\ Exact (row_off b d (S k)) (fs_data (snd st) (h_ino (ds_file (fst st)))).

  Lemma loop_or o f1 : forall j r fuel st, r + j = d -> at_lev r st -> Dying o f1 (row_off b d (S r)) st ->
    disk_build_loop_with (stop_layer EO kp en A b) (S (j + fuel)) (log2_pow2 b) r (b ^ j) (row_off b d r) st =
      disk_build_loop EO en A b (S (j + fuel)) (log2_pow2 b) r (b ^ j) (row_off b d r) st \/
    exists k sched st', kp = K_layer k sched /\
      disk_build_loop_with (stop_layer EO kp en A b) (S (j + fuel)) (log2_pow2 b) r (b ^ j) (row_off b d r) st = (killed, st') /\ DiedAt o f1 k st'.
  Proof.
    pose proof (arity_ge b Hb) as H2.
    induction j; intros r fuel st Hrj Hat HD.
    - left. cbn [Nat.pow disk_build_loop_with disk_build_loop]. reflexivity.
    - assert (HL1 : List.length leaves = 1 * b ^ d) by lia.
      pose proof (bounds_at _ _ _ _ _ _ _ _ _ _ (disk_core EO EL) A b leaves 1 d cap r st ltac:(lia) Hat) as Hbd.
      rewrite !Nat.mul_1_l in Hbd. replace (d - r) with (S j) in Hbd by lia.
      assert (Hge : 1 < b ^ S j) by (rewrite Nat.pow_succ_r'; pose proof (pow_pos b j ltac:(lia)); nia).
      replace (S j + fuel) with (S (j + fuel)) by lia.
      assert (Hstep : forall pl, disk_build_loop_with pl (S (S (j + fuel))) (log2_pow2 b) r (b ^ S j) (row_off b d r) st =
        (let! _ := pl (b ^ S j) r (row_off b d r) (row_off b d (S r)) in
         let! st := sget in let! _ := disk_upd_len (ds_len (fst st) + Nat.shiftr (b ^ S j) (log2_pow2 b)) in
         disk_build_loop_with pl (S (j + fuel)) (log2_pow2 b) (S r) (Nat.shiftr (b ^ S j) (log2_pow2 b)) (row_off b d r + b ^ S j)) st).
      { intros pl. cbn [disk_build_loop_with]. replace (1 <? b ^ S j) with true by lia. rewrite (sbind_ok _ _ _ _ _ Hbd). reflexivity. }
      assert (Hstep0 : disk_build_loop EO en A b (S (S (j + fuel))) (log2_pow2 b) r (b ^ S j) (row_off b d r) st =
        (let! _ := disk_process_layer EO en A b (env_bytes en r) (b ^ S j) r (row_off b d r) (row_off b d (S r)) in
         let! st := sget in let! _ := disk_upd_len (ds_len (fst st) + Nat.shiftr (b ^ S j) (log2_pow2 b)) in
         disk_build_loop EO en A b (S (j + fuel)) (log2_pow2 b) (S r) (Nat.shiftr (b ^ S j) (log2_pow2 b)) (row_off b d r + b ^ S j)) st).
      { cbn [disk_build_loop]. replace (1 <? b ^ S j) with true by lia. rewrite (sbind_ok _ _ _ _ _ Hbd). reflexivity. }
      rewrite Hstep, Hstep0. clear Hstep Hstep0.
      rewrite arity_shift by auto.
      replace (b ^ S j / b) with (b ^ j) by (rewrite Nat.pow_succ_r', Nat.mul_comm, Nat.div_mul; lia).
      replace (row_off b d r + b ^ S j) with (row_off b d (S r)) by (rewrite row_off_step; do 2 f_equal; lia).
      assert (Hcase : (forall w r0 w0, stop_layer EO kp en A b w r r0 w0 = disk_process_layer EO en A b (env_bytes en r) w r r0 w0) \/
        exists sched, kp = K_layer r sched).
      { unfold stop_layer. destruct kp as [| | |k sched]; auto. destruct (r =? k) eqn:Q; auto. right. exists sched. f_equal. lia. }
      destruct Hcase as [Hs|[sched Hk]].
      + rewrite Hs. destruct (stop_layer_full r o f1 st ltac:(lia) Hat HD) as (f' & H1 & Hat1 & HD1).
        replace (d - r) with (S j) in H1 by lia. replace (d - S r) with j in * by lia.
        rewrite !(sbind_ok _ _ _ _ _ H1). rewrite !(sbind_ok _ _ (fst st, f') (fst st, f') (fst st, f')) by reflexivity. cbn [fst].
        rewrite !(sbind_ok _ _ (fst st, f') tt (ds_set_len (fst st) (ds_len (fst st) + b ^ j), f')) by reflexivity.
        apply IHj; [lia|exact Hat1|exact HD1].
      + right. exists r, sched. destruct (stop_layer_until r sched o f1 st ltac:(lia) Hat HD) as (f' & H1 & HD1 & HE).
        replace (d - r) with (S j) in H1 by lia.
        exists (fst st, f'). split; [exact Hk|]. split; [|split; [lia|split; [exact HD1|exact HE]]].
        unfold stop_layer. rewrite Hk, Nat.eqb_refl. unfold sbind at 1 2. fold bl chunk. rewrite H1. reflexivity.
  Qed.

  Lemma build_or o f1 rc c v st : disk_rep EO cap N v st -> knows v 0 leaves -> Dying o f1 N st ->
    stop_build EO kp en A b N rc c st = disk_build_fuel EO en A b (S N) N rc c st \/
    exists k sched st', kp = K_layer k sched /\ stop_build EO kp en A b N rc c st = (killed, st') /\ DiedAt o f1 k st'.
  Proof.
    intros HR Hk HD. pose proof (arity_ge b Hb) as H2. pose proof HD as (_ & (HW & _) & _).
    assert (HL1 : List.length leaves = 1 * b ^ d) by lia.
    assert (Hat : at_lev 0 st).
    { eapply (at_level_start disk_owner); [exact HL1|exact HW|rewrite Nat.mul_1_l; exact HR|exact Hk]. }
    pose proof (pow_fuel 1 b d ltac:(lia) H2) as Hf. rewrite Nat.mul_1_l in Hf. fold N in Hf.
    unfold stop_build, disk_build_fuel. rewrite (arity_next b Hb), Nat.eqb_refl.
    unfold ensure at 1 5. rewrite !(sbind_ok _ _ st tt st) by reflexivity.
    rewrite !(sbind_ok _ _ st st st) by reflexivity.
    rewrite (proj1 HR), Nat.eqb_refl.
    unfold ensure at 1 4. rewrite !(sbind_ok _ _ st tt st) by reflexivity.
    pose proof (even_leafs b Hb 1 d ltac:(lia) Hd) as Hev. rewrite Nat.mul_1_l in Hev. fold N in Hev. rewrite Hev, Nat.eqb_refl.
    unfold ensure at 1 3. rewrite !(sbind_ok _ _ st tt st) by reflexivity.
    assert (HN : row_off b d 1 = N) by (rewrite row_off_step; cbn [row_off]; rewrite Nat.sub_0_r; reflexivity).
    destruct (loop_or o f1 d 0 (N - d) st eq_refl Hat) as [G|(k & sched & st' & Hkp & G & HDied)].
    - rewrite HN. exact HD.
    - left. replace (d + (N - d)) with N in G by lia. cbn [row_off] in G. fold N in G. unfold sbind at 1 6. rewrite G. reflexivity.
    - right. exists k, sched, st'. split; [exact Hkp|]. split; [|exact HDied].
      replace (d + (N - d)) with N in G by lia. cbn [row_off] in G. fold N in G. unfold sbind at 1. rewrite G. reflexivity.
  Qed.

  (* ---- the constructors ---- *)
  Lemma stop_newc c f : fs_dir f (cfg_path c) = None ->
    (kp = K_create /\ exists f' i, stop_new_with_config EO kp cap b c f = (killed, f') /\
       Created f f' (Some (cfg_path c)) (Some i) /\ fs_data f' i = []) \/
    exists s f1, stop_new_with_config EO kp cap b c f = (Ok s, f1) /\ disk_new_with_config EO cap b c f = (Ok s, f1) /\
      Dying (disk_owner s) f1 N (s, f1) /\ disk_rep EO cap 0 (fun _ => None) (s, f1) /\ ds_len s = 0 /\ ds_loaded s = false /\
      Created f f1 (Some (cfg_path c)) (disk_owner s).
  Proof.
    intros Hp. destruct (create_new_len f (cfg_path c) (bl * cap) Hp) as (h & f1 & f' & H1 & H2 & HW & HD & HC & Hdir).
    unfold stop_new_with_config, disk_new_with_config. rewrite !(sbind_ok _ _ f f f) by reflexivity.
    unfold fs_exists. rewrite Hp. fold bl. rewrite !(sbind_ok _ _ _ _ _ H1).
    assert (Hcase : kp = K_create \/ (match kp with K_create => killed | _ => Ok tt end) = Ok tt) by (destruct kp; auto).
    destruct Hcase as [Hk|Hk].
    - left. split; [exact Hk|]. rewrite Hk. exists f1, (h_ino h). split; [reflexivity|].
      unfold fs_create_new, fs_exists in H1. rewrite Hp in H1. injection H1 as <- <-. split.
      + unfold Created. cbn. repeat split; auto; try lia.
        * intros i Hi. replace (i =? fs_next f) with false by lia. reflexivity.
        * inversion H. lia.
        * inversion H. lia.
        * intros q Hq. destruct (String.eqb_spec q (cfg_path c)); [congruence|reflexivity].
        * intros q Hq. inversion Hq. rewrite String.eqb_refl. reflexivity.
        * intros i Hi. inversion Hi. rewrite !Nat.eqb_refl. reflexivity.
      + unfold fs_data. cbn. rewrite Nat.eqb_refl. reflexivity.
    - right. rewrite Hk. rewrite (sbind_ok _ _ f1 tt f1) by reflexivity. rewrite !(sbind_ok _ _ _ _ _ H2).
      eexists _, f'. split; [reflexivity|]. split; [reflexivity|]. cbn [disk_owner ds_file].
      assert (HRep : disk_rep EO cap 0 (fun _ => None) ({| ds_len := 0; ds_file := h; ds_loaded := false; ds_size := bl * cap |}, f')) by (apply disk_fresh; auto).
      split; [|auto]. split; [eauto|]. split; [split; [exact HW|]|split; [reflexivity|apply fs_frame_refl]].
      cbn [fst snd ds_file]. rewrite HD. intros p x Hx. apply nth_error_In, repeat_spec in Hx. left. exact Hx.
  Qed.

  Definition left_file (data : list byte) : Prop :=
    match kp with
    | K_create => data = []
    | K_copy _ _ => List.length data = cap * bl /\ Okm N data
    | K_sync => List.length data = cap * bl /\ Okm N data /\ Exact N data
    | K_layer k _ => k < d /\ List.length data = cap * bl /\ Okm (row_off b d (S (S k))) data /\ Exact (row_off b d (S k)) data
    end.
  Definition Left {X} (c : StoreConfig) (f : fs) (r : res X * fs) : Prop :=
    exists e f' i, r = (Panic e, f') /\ Created f f' (Some (cfg_path c)) (Some i) /\ left_file (fs_data f' i).

  Lemma left_copy {X} c f f1 s i p e (st' : disk_t * fs) : Created f f1 (Some (cfg_path c)) (disk_owner s) ->
    kp = K_copy i p -> Dying (disk_owner s) f1 N st' -> Left (X := X) c f (Panic e, snd st').
  Proof.
    intros HC Hk ((n & v & (_ & _ & _ & HD)) & (_ & HO) & Ho & HF). exists e, (snd st'), (h_ino (ds_file (fst st'))).
    split; [reflexivity|]. split; [|unfold left_file; rewrite Hk; split; [exact (proj1 HD)|exact HO]].
    change (Some (h_ino (ds_file (fst st')))) with (disk_owner (fst st')). rewrite Ho. eapply Created_frame; eauto.
  Qed.
  Lemma left_layer {X} c f f1 s k sched e (st' : disk_t * fs) : Created f f1 (Some (cfg_path c)) (disk_owner s) ->
    kp = K_layer k sched -> DiedAt (disk_owner s) f1 k st' -> Left (X := X) c f (Panic e, snd st').
  Proof.
    intros HC Hk (Hkd & ((n & v & (_ & _ & _ & HD)) & (_ & HO) & Ho & HF) & HE). exists e, (snd st'), (h_ino (ds_file (fst st'))).
    split; [reflexivity|]. split; [|unfold left_file; rewrite Hk; split; [exact Hkd|split; [exact (proj1 HD)|split; [exact HO|exact HE]]]].
    change (Some (h_ino (ds_file (fst st')))) with (disk_owner (fst st')). rewrite Ho. eapply Created_frame; eauto.
  Qed.

  Lemma left_sync {X} c f f1 s e v (st' : disk_t * fs) : Created f f1 (Some (cfg_path c)) (disk_owner s) ->
    kp = K_sync -> Dying (disk_owner s) f1 N st' -> disk_rep EO cap N v st' -> knows v 0 leaves -> Left (X := X) c f (Panic e, snd st').
  Proof.
    intros HC Hk (_ & (HW & HO) & Ho & HF) HR Hkn. exists e, (snd st'), (h_ino (ds_file (fst st'))).
    split; [reflexivity|]. split; [|unfold left_file; rewrite Hk; split; [exact (proj1 (proj2 (proj2 (proj2 HR))))|split; [exact HO|]]].
    - change (Some (h_ino (ds_file (fst st')))) with (disk_owner (fst st')). rewrite Ho. eapply Created_frame; eauto.
    - assert (HL1 : List.length leaves = 1 * b ^ d) by lia.
      assert (Hat : at_lev 0 st') by (eapply (at_level_start disk_owner); [exact HL1|exact HW|rewrite Nat.mul_1_l; exact HR|exact Hkn]).
      pose proof (lev_exact 0 st' ltac:(lia) Hat) as G. cbn [row_off] in G. rewrite Nat.sub_0_r in G. exact G.
  Qed.

  (* from the filled store on *)
  Lemma finish_or {X} c f f1 s v (s2 : disk_t) (f2 : fs) (g : E * disk_t -> SM fs X) :
    Created f f1 (Some (cfg_path c)) (disk_owner s) -> Dying (disk_owner s) f1 N (s2, f2) ->
    disk_rep EO cap N v (s2, f2) -> knows v 0 leaves ->
    (let! x := with_store s2 (st_build KO en A b N (S d) (Some c)) in g x) f2 =
      (let! x := with_store s2 (st_build DO en A b N (S d) (Some c)) in g x) f2 \/
    Left c f ((let! x := with_store s2 (st_build KO en A b N (S d) (Some c)) in g x) f2).
  Proof.
    intros HC HDy HR Hk. destruct (build_or (disk_owner s) f1 (S d) (Some c) v (s2, f2) HR Hk HDy) as [G|(k & sched & st' & Hkp & G & HDied)].
    - left. unfold sbind, with_store. change (st_build KO en A b N (S d) (Some c) (s2, f2)) with (stop_build EO kp en A b N (S d) (Some c) (s2, f2)).
      rewrite G. reflexivity.
    - right. assert (Hr : (let! x := with_store s2 (st_build KO en A b N (S d) (Some c)) in g x) f2 = (killed, snd st')).
      { unfold sbind, with_store. change (st_build KO en A b N (S d) (Some c) (s2, f2)) with (stop_build EO kp en A b N (S d) (Some c) (s2, f2)).
        rewrite G. destruct st'. reflexivity. }
      rewrite Hr. eapply left_layer; eauto.
  Qed.

  Lemma iter_or xs c f : map leaf xs = leaves -> fs_dir f (cfg_path c) = None ->
    (kp <> K_sync /\ try_from_iter_with_config EO KO A en b (Some N) (map Ok xs) c f = try_from_iter_with_config EO DO A en b (Some N) (map Ok xs) c f) \/
    Left c f (try_from_iter_with_config EO KO A en b (Some N) (map Ok xs) c f).
  Proof.
    intros Hx Hp. unfold try_from_iter_with_config. rewrite !(sbind_ok _ _ f N f) by reflexivity.
    unfold N. rewrite leafs_checks_full by auto. fold cap N. rewrite !(sbind_ok _ _ f (cap, S d) f) by reflexivity.
    destruct (stop_newc c f Hp) as [(Hk & f' & i & H1 & HC & He)|(s & f1 & H1 & H2 & HD & HR & Hn & Hld & HC)].
    - right. exists "killed"%string, f', i. split; [|split; [exact HC|unfold left_file; rewrite Hk; exact He]].
      unfold sbind. change (st_new_with_config KO cap b c f) with (stop_new_with_config EO kp cap b c f). rewrite H1. reflexivity.
    - assert (H1' : st_new_with_config KO cap b c f = (Ok s, f1)) by exact H1. rewrite (sbind_ok _ _ _ _ _ H1').
      assert (H2' : st_new_with_config DO cap b c f = (Ok s, f1)) by exact H2. rewrite (sbind_ok _ _ _ _ _ H2').
      change (st_loaded_from_disk KO s) with (ds_loaded s). change (st_loaded_from_disk DO s) with (ds_loaded s). rewrite Hld.
      destruct (populate_ok EO DO disk_owner disk_W (disk_rep EO) true (sl_pop _ _ _ _ _ _ (disk_laws EO EL)) A AL en cap xs _ (s, f1) (proj1 (proj1 (proj2 HD))) HR)
        as (v & [s1 f2] & P1 & P2 & P3 & P4 & P5).
      { rewrite <- (map_length leaf xs), Hx, Hl. apply leaves_fit. }
      assert (Hlx : List.length xs = N) by (unfold N; rewrite <- Hl, <- Hx, map_length; reflexivity).
      change (map (h_leaf A) xs) with (map leaf xs) in P4. rewrite Hx in P4. rewrite Hlx in P3.
      destruct (populate_or (disk_owner s) f1 xs (s, f1) HD Hn Hx) as [(st' & Q1 & Q2 & HDy)|(i & p & e & st' & Hk & Q1 & HDy)].
      + assert (st' = (s1, f2)) by (pose proof (eq_trans (eq_sym Q2) P1) as Z; injection Z as ->; reflexivity). subst st'.
        destruct Q1 as [[Hns Q1]|[Hk Q1]].
        2:{ right. match goal with |- Left c f ?r => assert (Hr : r = (killed, f2)) end.
            { assert (WK : with_store s (sexpect (populate_data EO KO A en (map Ok xs)) "failed to populate data") f1 = (killed, f2))
                by (unfold with_store, sexpect; rewrite Q1; reflexivity).
              exact (sbind_dead _ _ _ _ _ WK). }
            rewrite Hr. exact (left_sync c f f1 s _ v (s1, f2) HC Hk HDy P3 P4). }
        assert (WK : with_store s (sexpect (populate_data EO KO A en (map Ok xs)) "failed to populate data") f1 = (Ok (tt, s1), f2))
          by (unfold with_store, sexpect; rewrite Q1; reflexivity).
        assert (WD : with_store s (sexpect (populate_data EO DO A en (map Ok xs)) "failed to populate data") f1 = (Ok (tt, s1), f2))
          by (unfold with_store, sexpect; rewrite Q2; reflexivity).
        rewrite (sbind_ok _ _ _ _ _ WK), (sbind_ok _ _ _ _ _ WD).
        match goal with |- (kp <> K_sync /\ ?x = ?y) \/ Left c f _ => cut (x = y \/ Left c f x) end; [intros [FO|FO]; auto|].
        exact (finish_or c f f1 s v s1 f2 _ HC HDy P3 P4).
      + right. match goal with |- Left c f ?r => assert (Hr : r = (Panic e, snd st')) end.
        { assert (WK : with_store s (sexpect (populate_data EO KO A en (map Ok xs)) "failed to populate data") f1 = (Panic e, snd st'))
            by (unfold with_store, sexpect; rewrite Q1; destruct st'; reflexivity).
          exact (sbind_dead _ _ _ _ _ WK). }
        rewrite Hr. eapply left_copy; eauto.
  Qed.

  Lemma par_or xs c f : 0 < p_block (env_params en) -> map leaf xs = leaves -> fs_dir f (cfg_path c) = None ->
    (kp <> K_sync /\ from_par_iter_with_config EO KO A en b xs c f = from_par_iter_with_config EO DO A en b xs c f) \/
    Left c f (from_par_iter_with_config EO KO A en b xs c f).
  Proof.
    intros Hblk Hx Hp. assert (Hlx : List.length xs = N) by (unfold N; rewrite <- Hl, <- Hx, map_length; reflexivity).
    unfold from_par_iter_with_config. cbv zeta. rewrite Hlx.
    unfold N. rewrite leafs_checks_full by auto. fold cap N. rewrite !(sbind_ok _ _ f (cap, S d) f) by reflexivity.
    destruct (stop_newc c f Hp) as [(Hk & f' & i & H1 & HC & He)|(s & f1 & H1 & H2 & HD & HR & Hn & Hld & HC)].
    - right. exists "killed"%string, f', i. split; [|split; [exact HC|unfold left_file; rewrite Hk; exact He]].
      unfold sbind. change (st_new_with_config KO cap b c f) with (stop_new_with_config EO kp cap b c f). rewrite H1. reflexivity.
    - assert (H1' : st_new_with_config KO cap b c f = (Ok s, f1)) by exact H1. rewrite (sbind_ok _ _ _ _ _ H1').
      assert (H2' : st_new_with_config DO cap b c f = (Ok s, f1)) by exact H2. rewrite (sbind_ok _ _ _ _ _ H2').
      change (st_loaded_from_disk KO s) with (ds_loaded s). change (st_loaded_from_disk DO s) with (ds_loaded s). rewrite Hld.
      destruct (populate_par_ok EO DO disk_owner disk_W (disk_rep EO) true (sl_pop _ _ _ _ _ _ (disk_laws EO EL)) A AL en cap xs _ (s, f1) Hblk (proj1 (proj1 (proj2 HD))) HR)
        as (v & [s1 f2] & P1 & P2 & P3 & P4 & P5).
      { rewrite Hlx. apply leaves_fit. }
      change (map (h_leaf A) xs) with (map leaf xs) in P4. rewrite Hx in P4. rewrite Hlx in P3.
      destruct (populate_par_or (disk_owner s) f1 xs (s, f1) Hblk HD Hn Hx) as [(st' & Q1 & Q2 & HDy)|(i & p & e & st' & Hk & Q1 & HDy)].
      + assert (st' = (s1, f2)) by (pose proof (eq_trans (eq_sym Q2) P1) as Z; injection Z as ->; reflexivity). subst st'.
        destruct Q1 as [[Hns Q1]|[Hk Q1]].
        2:{ right. match goal with |- Left c f ?r => assert (Hr : r = (killed, f2)) end.
            { assert (WK : with_store s (populate_data_par EO KO A en xs) f1 = (killed, f2)) by (unfold with_store; rewrite Q1; reflexivity).
              exact (sbind_dead _ _ _ _ _ WK). }
            rewrite Hr. exact (left_sync c f f1 s _ v (s1, f2) HC Hk HDy P3 P4). }
        assert (WK : with_store s (populate_data_par EO KO A en xs) f1 = (Ok (tt, s1), f2)) by (unfold with_store; rewrite Q1; reflexivity).
        assert (WD : with_store s (populate_data_par EO DO A en xs) f1 = (Ok (tt, s1), f2)) by (unfold with_store; rewrite Q2; reflexivity).
        rewrite (sbind_ok _ _ _ _ _ WK), (sbind_ok _ _ _ _ _ WD).
        match goal with |- (kp <> K_sync /\ ?x = ?y) \/ Left c f _ => cut (x = y \/ Left c f x) end; [intros [FO|FO]; auto|].
        exact (finish_or c f f1 s v s1 f2 _ HC HDy P3 P4).
      + right. match goal with |- Left c f ?r => assert (Hr : r = (Panic e, snd st')) end.
        { assert (WK : with_store s (populate_data_par EO KO A en xs) f1 = (Panic e, snd st'))
            by (unfold with_store; rewrite Q1; destruct st'; reflexivity).
          exact (sbind_dead _ _ _ _ _ WK). }
        rewrite Hr. eapply left_copy; eauto.
  Qed.

  Lemma bytes_or c f : fs_dir f (cfg_path c) = None ->
    from_byte_slice_with_config EO KO A en b (encode EO leaves) c f = from_byte_slice_with_config EO DO A en b (encode EO leaves) c f \/
    Left c f (from_byte_slice_with_config EO KO A en b (encode EO leaves) c f).
  Proof.
    intros Hp. pose proof (bl_pos EO EL) as Hbl. unfold from_byte_slice_with_config.
    rewrite encode_length, Nat.mod_mul, Nat.eqb_refl, Nat.div_mul by (auto; lia).
    unfold ensure at 1 2. rewrite !(sbind_ok _ _ f tt f) by reflexivity. rewrite Hl.
    rewrite leafs_checks_full by auto. fold cap N. rewrite !(sbind_ok _ _ f (cap, S d) f) by reflexivity.
    assert (Hsl : forall nw fill, (let! _ := slift (ensure (List.length (encode EO leaves) mod bl =? 0) "data size must be a multiple of byte_len") in
       let! s := nw in if ds_loaded s then sret s else fill s) f = (let! s := nw in if ds_loaded s then sret s else fill s) f).
    { intros nw fill. rewrite encode_length, Nat.mod_mul, Nat.eqb_refl by (auto; lia). unfold ensure. rewrite (sbind_ok _ _ f tt f) by reflexivity. reflexivity. }
    assert (HK : st_new_from_slice_with_config KO cap b (encode EO leaves) c f =
      (let! s := stop_new_with_config EO kp cap b c in if ds_loaded s then sret s else stop_fill EO kp (encode EO leaves) s) f) by apply Hsl.
    assert (HDn : st_new_from_slice_with_config DO cap b (encode EO leaves) c f =
      (let! s := disk_new_with_config EO cap b c in if ds_loaded s then sret s else disk_fill EO (encode EO leaves) s) f) by apply Hsl.
    clear Hsl.
    destruct (stop_newc c f Hp) as [(Hk & f' & i & H1 & HC & He)|(s & f1 & H1 & H2 & HD & HR & Hn & Hld & HC)].
    - right. exists "killed"%string, f', i. split; [|split; [exact HC|unfold left_file; rewrite Hk; exact He]].
      unfold sbind at 1. rewrite HK. unfold sbind. rewrite H1. reflexivity.
    - rewrite (sbind_ok _ _ _ _ _ H1), Hld in HK. rewrite (sbind_ok _ _ _ _ _ H2), Hld in HDn.
      destruct (leaves_part [] leaves []) as [P1 P2]; [rewrite app_nil_r; reflexivity|]. cbn [List.length] in P1, P2.
      destruct (disk_fill_ok EO EL cap leaves s f1 HR (proj1 (proj1 (proj2 HD))) ltac:(pose proof leaves_fit; lia)) as (s' & f2 & F1 & F2 & F3 & F4 & F5 & F6).
      destruct (stop_copy (disk_owner s) f1 N (s, f1) 0 leaves HD P2 leaves_fit P1) as [(st1 & G1 & HD1 & _) Hor].
      assert (Hcp : forall cp : nat -> list byte -> SM (disk_t * fs) unit, (let! _ := slift (ensure (List.length (encode EO leaves) mod bl =? 0) "buf size must be a multiple of byte_len") in
         let! _ := cp (0 * bl) (encode EO leaves) in let! st := sget in
         disk_upd_len (Nat.max (ds_len (fst st)) (0 + List.length (encode EO leaves) / bl))) (s, f1) =
         match cp 0 (encode EO leaves) (s, f1) with
         | (Ok _, st) => (Ok tt, (ds_set_len (fst st) (Nat.max (ds_len (fst st)) (0 + List.length (encode EO leaves) / bl)), snd st))
         | (Err m, st) => (Err m, st) | (Panic m, st) => (Panic m, st) | (Diverge, st) => (Diverge, st) end).
      { intros cp. rewrite encode_length, Nat.mod_mul, Nat.eqb_refl by (auto; lia). unfold ensure. rewrite (sbind_ok _ _ (s, f1) tt (s, f1)) by reflexivity.
        unfold sbind. rewrite Nat.mul_0_l. destruct (cp 0 (encode EO leaves) (s, f1)) as [[| | |] st]; reflexivity. }
      pose proof (Hcp (fun i => disk_store_copy_from_slice i)) as C0. pose proof (Hcp (stop_store_copy EO kp)) as C1. clear Hcp.
      assert (D0 : disk_copy_from_slice EO (encode EO leaves) 0 (s, f1) = _) by exact C0. clear C0.
      assert (D1 : stop_copy_from_slice EO kp (encode EO leaves) 0 (s, f1) = _) by exact C1. clear C1.
      cbv beta in D0, D1. rewrite G1 in D0.
      unfold disk_fill in F1, HDn. unfold stop_fill in HK. fold bl in F1, HDn, HK.
      destruct (disk_store_copy_from_slice 0 (encode EO leaves) (s, f1)) as [[u|m|m|] [s0 f0]] eqn:Q0; try discriminate D0. injection D0 as D0. subst st1. destruct u.
      injection F1 as F1 F1'. cbn [fst snd] in *.
      destruct Hor as [Hs|(i & p & e & st' & Hk & Hs & HDy)].
      + rewrite Hs, G1 in D1. destruct (stop_store_copy EO kp 0 (encode EO leaves) (s, f1)) as [[u|m|m|] [s3 f3]] eqn:Q1; try discriminate D1.
        cbn [fst snd] in D1.
        assert (E3 : (s3, f3) = (s0, f0)).
        { unfold stop_store_copy in Q1. assert (Hc : disk_store_copy_from_slice 0 (encode EO leaves) (s, f1) = (Ok u, (s3, f3)) -> (s3, f3) = (s0, f0)).
          { rewrite Q0. intros Z. injection Z as _ <- <-. reflexivity. }
          destruct kp as [|i p| |]; auto. destruct (_ =? _); [|auto].
          destruct (0 + _ <=? _); [|discriminate]. destruct (on_fs _ _). discriminate. }
        injection E3 as -> ->. cbn [fst snd] in HK. rewrite F1 in HK, HDn. subst f0.
        rewrite (sbind_ok _ _ _ _ _ HK), (sbind_ok _ _ _ _ _ HDn).
        apply (finish_or c f f1 s (nth_error leaves) s' f2 _ HC); [|rewrite Hl in F2; exact F2|intros k Hk; reflexivity].
        destruct HD1 as (_ & (W1 & O1) & Ho & HFr). cbn [fst snd] in *. split; [eauto|]. split; [split; [exact F3|]|split; [exact F4|exact HFr]].
        rewrite <- F1. cbn [ds_set_len ds_file fst snd] in *. exact O1.
      + right. rewrite Hs in D1. destruct (stop_store_copy EO kp 0 (encode EO leaves) (s, f1)) as [[u|m|m|] [s3 f3]] eqn:Q1; try discriminate D1.
        injection D1 as D1 D1'. subst st' m. cbn [fst snd] in HK.
        match goal with |- Left c f ?r => assert (Hr : r = (Panic e, f3)) end.
        { exact (sbind_dead _ _ _ _ _ HK). }
        rewrite Hr. exact (left_copy c f f1 s i p e (s3, f3) HC Hk HDy).
  Qed.

  Lemma stop_cases c f r : fs_dir f (cfg_path c) = None -> cfg_builder EO KO A en b c leaves f r ->
    cfg_builder EO DO A en b c leaves f r \/ Left c f r.
  Proof.
    intros Hp HB. remember leaves as lv eqn:Hlv in HB. destruct HB.
    - destruct (iter_or xs c f Hlv Hp) as [[_ H]|H].
      + left. unfold mt_new_with_config. assert (Hlx : List.length xs = N) by (unfold N; rewrite <- Hl, <- Hlv, map_length; reflexivity).
        rewrite Hlx, H, <- Hlx. rewrite <- Hlv. apply (CB_new EO DO).
      + right. unfold mt_new_with_config. assert (Hlx : List.length xs = N) by (unfold N; rewrite <- Hl, <- Hlv, map_length; reflexivity).
        rewrite Hlx. exact H.
    - destruct (par_or xs c f H Hlv Hp) as [[_ G]|G]; [left; rewrite G, <- Hlv; apply (CB_par EO DO); auto|right; exact G].
    - assert (Hlx : List.length xs = N) by (unfold N; rewrite <- Hl, <- Hlv, map_length; reflexivity).
      destruct (iter_or (map (hash_of A) xs) c f) as [[_ G]|G]; [rewrite map_map; exact Hlv|exact Hp| |].
      + left. unfold from_data_with_config. rewrite (hash_items_ok A AL). rewrite Hlx, G, <- (hash_items_ok A AL xs (a_default A)), <- Hlx, <- Hlv. apply (CB_data EO DO).
      + right. unfold from_data_with_config. rewrite (hash_items_ok A AL), Hlx. exact G.
    - subst els. destruct (bytes_or c f Hp) as [G|G]; [left; rewrite G; apply (CB_bytes EO DO)|right; exact G].
  Qed.

  (* a build from items does call sync *)
  Lemma sync_reached c f r : kp = K_sync -> fs_dir f (cfg_path c) = None -> item_builder EO KO A en b c leaves f r -> Left c f r.
  Proof.
    intros Hk Hp HB. remember leaves as lv eqn:Hlv in HB. destruct HB.
    - assert (Hlx : List.length xs = N) by (unfold N; rewrite <- Hl, <- Hlv, map_length; reflexivity).
      unfold mt_new_with_config. rewrite Hlx. destruct (iter_or xs c f Hlv Hp) as [[H _]|H]; [congruence|exact H].
    - destruct (par_or xs c f H Hlv Hp) as [[G _]|G]; [congruence|exact G].
    - assert (Hlx : List.length xs = N) by (unfold N; rewrite <- Hl, <- Hlv, map_length; reflexivity).
      destruct (iter_or (map (hash_of A) xs) c f) as [[G _]|G]; [rewrite map_map; exact Hlv|exact Hp|congruence|].
      unfold from_data_with_config. rewrite (hash_items_ok A AL), Hlx. exact G.
  Qed.
End Stop.

(* ---- whatever the file holds, opening it again believes it ---- *)
Section Believe.
  Context {E : Type} (EO : ElementOps E) (EL : ElementLaws EO) (A : AlgOps E).
  Variables (en : env) (b : nat).
  Hypothesis Hb : arity b.
  Local Notation DO := (disk_store EO).
  Local Notation bl := (e_byte_len EO).

  Lemma disk_read_any s f j n : ds_len s = n -> List.length (fs_data f (h_ino (ds_file s))) = n * bl -> j < n ->
    disk_read_at EO (s, f) j = e_from_slice EO (sub (fs_data f (h_ino (ds_file s))) (j * bl) bl).
  Proof.
    intros H1 H2 Hj. pose proof (bl_pos EO EL) as Hbl. pose proof (Nat.mul_le_mono_r (S j) n bl Hj) as Hm. cbn [Nat.mul] in Hm.
    unfold disk_read_at, disk_check, disk_store_read_range, fs_read_exact_at, fs_size. cbn [fst snd]. rewrite H1, H2.
    replace (j * bl <? n * bl) with true by lia. cbn [ensure rbind]. replace (j * bl + bl <=? n * bl) with true by lia. cbn [ensure rbind].
    rewrite checked_sub_ok by lia. cbn [rbind]. replace (j * bl + bl - j * bl) with bl by lia.
    replace (bl =? 0) with false by lia. replace (j * bl + bl <=? n * bl) with true by lia. reflexivity.
  Qed.

  Lemma again_any f c d data r : 1 <= d -> fs_file f (cfg_path c) = Some data -> List.length data = geom b d * bl ->
    again EO A en b c (b ^ d) f r ->
    exists t, r = (Ok t, f) /\ mt_leafs t = b ^ d /\ mt_row_count t = d + 1 /\
      e_from_slice EO (sub data ((geom b d - 1) * bl) bl) = Ok (mt_root t) /\
      forall j, j < geom b d -> mt_read_at DO 0 0 t f j = e_from_slice EO (sub data (j * bl) bl).
  Proof.
    intros Hd Hf Hn HA. pose proof (geom_pos b d) as Hg. pose proof (bl_pos EO EL) as Hbl.
    pose proof (file_inv _ _ _ Hf) as (i & Hi & Hdt). subst data.
    destruct (disk_open EO b f c i (geom b d) Hi) as [O1 _]. destruct (O1 Hn) as (s & H1 & H2 & H3 & H4 & H5).
    rewrite <- (disk_newc_existing EO b f c i (geom b d) Hi) in H1.
    destruct (el_total EO EL (sub (fs_data f i) ((geom b d - 1) * bl) bl)) as [root Hroot].
    { rewrite sub_length, Hn. pose proof (Nat.mul_sub_distr_r (geom b d) 1 bl) as M. pose proof (Nat.mul_le_mono_r 1 (geom b d) bl ltac:(lia)). lia. }
    assert (Hlt : geom b d - 1 < geom b d) by lia.
    assert (Hread : forall j, j < geom b d -> disk_read_at EO (s, f) j = e_from_slice EO (sub (fs_data f i) (j * bl) bl)).
    { intros j Hj. rewrite <- H5. apply (disk_read_any s f j (geom b d)); auto. rewrite H5. exact Hn. }
    assert (Hlast : sreads (store_last DO s) f = (Ok root, f)).
    { unfold sreads, store_last. change (st_len DO s) with (ds_len s). rewrite H3.
      rewrite checked_sub_ok by lia. cbn [rbind]. f_equal. rewrite <- Hroot. exact (Hread _ Hlt). }
    assert (HI : forall items, try_from_iter_with_config EO DO A en b (Some (b ^ d)) items c f = (Ok (mk_base DO s (b ^ d) (geom b d) (S d) root), f)).
    { intros items. unfold try_from_iter_with_config. rewrite (sbind_ok _ _ f (b ^ d) f) by reflexivity.
      rewrite leafs_checks_full by auto. rewrite (sbind_ok _ _ f (geom b d, S d) f) by reflexivity.
      etransitivity; [exact (sbind_ok _ _ _ _ _ H1)|]. cbn [st_loaded_from_disk disk_store]. rewrite H2.
      rewrite (sbind_ok _ _ _ _ _ Hlast). reflexivity. }
    exists (mk_base DO s (b ^ d) (geom b d) (S d) root). split.
    2:{ split; [reflexivity|]. split; [cbn; lia|]. split; [exact Hroot|].
        intros j Hj. exact (Hread j Hj). }
    remember (b ^ d) as n eqn:En. destruct HA as [items|xs Hx|xs Hx|xs Hx|bytes d0 Hd0 Hx].
    - apply HI.
    - unfold mt_new_with_config. rewrite Hx. apply HI.
    - unfold from_data_with_config. rewrite Hx. apply HI.
    - unfold from_par_iter_with_config. cbv zeta. rewrite Hx, En.
      rewrite leafs_checks_full by auto. rewrite (sbind_ok _ _ f (geom b d, S d) f) by reflexivity.
      etransitivity; [exact (sbind_ok _ _ _ _ _ H1)|]. cbn [st_loaded_from_disk disk_store]. rewrite H2.
      rewrite (sbind_ok _ _ _ _ _ Hlast). reflexivity.
    - assert (d0 = d) by (apply (same_leaves_pow b); [auto|congruence]). subst d0.
      unfold from_tree_slice_with_config. rewrite En. unfold tree_slice_checks. change (0 =? 0) with true. cbn [ensure rbind].
      rewrite get_merkle_tree_len_full by auto. cbn [rbind]. rewrite Hx, Nat.div_mul, Nat.eqb_refl by lia. cbn [ensure rbind].
      rewrite size_valid_full by auto. cbn [rbind ensure]. rewrite (sbind_ok _ _ f (geom b d) f) by reflexivity.
      assert (Hs : st_new_from_slice_with_config DO (geom b d) b bytes c f = (Ok s, f)).
      { cbn [st_new_from_slice_with_config disk_store]. unfold disk_new_from_slice_with_config. rewrite Hx, Nat.mod_mul, Nat.eqb_refl by lia.
        cbn [ensure]. rewrite (sbind_ok _ _ f tt f) by reflexivity. rewrite (sbind_ok _ _ _ _ _ H1), H2. reflexivity. }
      rewrite (sbind_ok _ _ _ _ _ Hs). rewrite (sbind_ok _ _ _ _ _ Hlast). rewrite row_count_full by auto. reflexivity.
  Qed.
End Believe.
