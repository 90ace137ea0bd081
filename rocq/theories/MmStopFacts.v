(* What a MmapStore build leaves behind when its process dies (MmStop.v). *)
From Coq Require Import String List Arith Bool Lia Init.Byte ZifyBool ZifyNat.
From Verif Require Import Base Element Hash Sizing FS Sched Store VecStore DiskStore MmapStore LevelCache ProofModel Tree Faults Stop MmStop ListFacts Spec SpecFacts SizingFacts SchedFacts StoreLaws RowFacts ChunkFacts BuildFacts BuildLoop StoreSpec FileFacts ByteFacts VecFacts MapLayer DiskFacts MmapFacts PopFacts TreeFacts ProofSpec ProofFacts TreeProofs TreeObs Builders BuiltFacts FrameFacts CompactFacts CompactTrees ReopenFacts StopFacts.
Import ListNotations.

Lemma sbind_same {S X Y} (m m' : SM S X) (k : X -> SM S Y) s : m s = m' s -> sbind m k s = sbind m' k s.
Proof. intros H. unfold sbind. rewrite H. reflexivity. Qed.

(* ---- tasks one of which dies; their reads depend on the state ---- *)
Section DieM.
  Context {St D : Type}.
  Variable n : nat.
  Variable rd : nat -> St -> res D.
  Variables wr wr0 : nat -> D -> SM St unit.
  Variable J : St -> Prop.
  Variable Q : Prop.
  Variable val : nat -> D.
  Hypothesis Hrd : forall st k, J st -> k < n -> rd k st = Ok (val k).
  Hypothesis H0 : forall st k, J st -> k < n -> exists st', wr0 k (val k) st = (Ok tt, st') /\ J st'.
  Hypothesis Hor : forall st k, J st -> k < n ->
    wr k (val k) st = wr0 k (val k) st \/ exists m st', wr k (val k) st = (Panic m, st') /\ J st' /\ Q.
  Local Notation hold := (holds_val n val).

  Lemma hv_put ts k : hold ts -> hold (tset ts k (TRead (val k))).
  Proof.
    intros H j dd Hj. unfold tset. destruct (j =? k) eqn:Qj; [|exact (H j dd Hj)].
    intros G. injection G as <-. apply Nat.eqb_eq in Qj. subst j. reflexivity.
  Qed.

  Lemma jrun_dead e sched : forall ts st, J st -> hold ts ->
    exists ts' st', run_sched n rd wr sched ts (Some e) st = (ts', Some e, st') /\ J st'.
  Proof.
    induction sched as [|k r IH]; intros ts st HJ Hh; [exists ts, st; auto|]. cbn [run_sched]. unfold task_step.
    destruct (k <? n) eqn:Hk; [|apply IH; auto]. assert (Hk' : k < n) by lia.
    destruct (ts k) as [|d|] eqn:Et.
    - rewrite Hrd by auto. apply IH; auto. apply hv_put; auto.
    - rewrite (Hh k d Hk' Et). destruct (Hor st k HJ Hk') as [->|(m & st' & -> & HJ' & _)].
      + destruct (H0 st k HJ Hk') as (st' & -> & HJ'). apply IH; auto using hv_done.
      + cbn [first_failure]. apply IH; auto using hv_done.
    - apply IH; auto.
  Qed.

  Lemma jrun_or sched : forall ts st, J st -> hold ts ->
    (run_sched n rd wr sched ts None st = run_sched n rd wr0 sched ts None st /\
     exists ts' st', run_sched n rd wr0 sched ts None st = (ts', None, st') /\ J st' /\ hold ts') \/
    exists ts' m st', run_sched n rd wr sched ts None st = (ts', Some (Panic m), st') /\ J st' /\ Q.
  Proof.
    induction sched as [|k r IH]; intros ts st HJ Hh; [left; split; [reflexivity|exists ts, st; auto]|]. cbn [run_sched]. unfold task_step.
    destruct (k <? n) eqn:Hk; [|apply IH; auto]. assert (Hk' : k < n) by lia.
    destruct (ts k) as [|d|] eqn:Et.
    - rewrite Hrd by auto. apply IH; auto. apply hv_put; auto.
    - rewrite (Hh k d Hk' Et). destruct (Hor st k HJ Hk') as [->|(m & st' & -> & HJ' & HQ)].
      + destruct (H0 st k HJ Hk') as (st' & -> & HJ'). apply IH; auto using hv_done.
      + right. cbn [first_failure]. destruct (jrun_dead (Panic m) r (tset ts k TDone) st' HJ' (hv_done n val ts k Hh)) as (ts2 & st2 & H2 & H3). eauto 6.
    - apply IH; auto.
  Qed.

  Lemma jrun_tasks_or sched st : J st ->
    (run_tasks n rd wr sched st = run_tasks n rd wr0 sched st /\ exists st', J st' /\ (exists x, run_tasks n rd wr0 sched st = (x, st'))) \/
    exists m st', run_tasks n rd wr sched st = (Panic m, st') /\ J st' /\ Q.
  Proof.
    intros HJ. unfold run_tasks.
    destruct (jrun_or sched (fun _ => TNew) st HJ) as [(-> & ts' & st' & -> & HJ' & Hh')|(ts' & m & st' & -> & HJ' & HQ)].
    - intros k d _ X. discriminate.
    - destruct (jrun_or (completion n) ts' st' HJ' Hh') as [(-> & ts2 & st2 & -> & HJ2 & _)|(ts2 & m & st2 & -> & HJ2 & HQ)].
      + left. split; [reflexivity|]. exists st2. eauto.
      + right. eauto.
    - right. eauto.
  Qed.
End DieM.

Lemma mstop_build_eq {E} (EO : ElementOps E) kp en A b n rc c st :
  st_build (mstop_store EO kp) en A b n rc c st =
  default_build_fuel EO mm_len (mmap_read_at EO) (mmap_read_range EO) (mstop_write_at EO kp) (mstop_copy_from_slice EO kp)
    A b (p_chunk (env_params en)) (S n) (p_small (env_params en)) (env_sched en) n rc st.
Proof. destruct kp; reflexivity. Qed.

Section MStop.
  Context {E : Type} (EO : ElementOps E) (EL : ElementLaws EO) (A : AlgOps E) (AL : AlgLaws A).
  Variables (en : env) (b : nat).
  Hypothesis Hb : arity b.
  Hypothesis Hch : chunk_ok en b.
  Variable kp : mkill.
  Local Notation DO := (mmap_store_ops EO).
  Local Notation KO := (mstop_store EO kp).
  Let bl := e_byte_len EO.
  Variables (leaves : list E) (d : nat).
  Hypothesis Hd : 1 <= d.
  Hypothesis Hl : List.length leaves = b ^ d.
  Let cap := geom b d.
  Let N := b ^ d.
  Let rows := all_rows A b leaves d.
  Let target := encode EO rows.
  Local Notation Okm := (StopFacts.Okm EO A b leaves d).
  Local Notation Exact := (StopFacts.Exact EO A b leaves d).
  Let leaf := h_leaf A.
  Let chunk := p_chunk (env_params en).

  (* the first m elements of the finished tree *)
  Definition lim (m i : nat) : option E := if i <? m then nth_error rows i else None.

  (* the first m elements are there, the bytes of the elements up to m' may be there *)
  Definition J (o : option nat) (f1 : fs) (m m' : nat) (st : mmap_t * fs) : Prop :=
    (exists n, m <= n /\ mmap_rep EO cap n (lim m) st) /\ mmap_W (fst st) /\
    Okm m' (fs_data (snd st) (h_ino (mm_file (fst st)))) /\
    mmap_owner (fst st) = o /\ fs_frame o f1 (snd st).
  Definition Dead (m m' : nat) : Prop := exists i ps, kp = M_store i ps /\ m <= i < m'.

  (* every intermediate state of a copy keeps what was there *)
  Lemma poke_ok o f1 m m' s els start ps : knows (nth_error rows) start els -> m <= start -> start + List.length els <= m' -> m' <= cap ->
    forall f, J o f1 m m' (s, f) -> J o f1 m m' (s, snd (poke (mm_file s) (start * bl) (encode EO els) ps f)).
  Proof.
    intros Hk Hm Hm' Hc. pose proof (bl_pos EO EL) as Hbl. fold bl in Hbl. pose proof (encode_length EO EL els) as He. fold bl in He.
    pose proof (Nat.mul_le_mono_r _ _ bl Hm) as Mm. pose proof (Nat.mul_le_mono_r _ _ bl Hm') as Mm'. rewrite Nat.mul_add_distr_r in Mm'.
    pose proof (Nat.mul_le_mono_r _ _ bl Hc) as Mc.
    pose proof (StopFacts.target_sub EO EL A b Hb leaves d Hd Hl start els Hk ltac:(fold cap; lia)) as Ht. fold bl in Ht.
    induction ps as [|j ps IH]; intros f HJ; [exact HJ|]. cbn [poke].
    destruct (nth_error (encode EO els) j) as [x|] eqn:Ej; [|apply IH; exact HJ].
    pose proof (nth_error_lt _ _ _ Ej) as Hj. rewrite He in Hj.
    destruct HJ as ((n & Hn & R1 & R2 & R3 & HD1 & HD2) & HW & HO & Ho & HF). cbn [fst snd] in *. fold bl in HD1, HD2.
    unfold sbind, fs_map_write at 1. rewrite HD1. cbn [List.length orb Nat.eqb].
    replace (start * bl + j + 1 <=? cap * bl) with true by lia.
    apply IH. clear IH. set (data := fs_data f (h_ino (mm_file s))) in *.
    assert (HL' : start * bl + j <= List.length data) by lia.
    split; [exists n; split; [exact Hn|]|split; [exact HW|split; [|split; [exact Ho|]]]]; cbn [fst snd].
    - split; [exact R1|]. split; [exact R2|]. split; [exact R3|]. cbn [fst snd]. rewrite fs_set_data_data. fold bl. split.
      + rewrite overwrite_length; [exact HD1|]. cbn [List.length]. lia.
      + intros i e Hi. destruct (HD2 i e Hi) as [X1 X2]. split; [exact X1|].
        unfold lim in Hi. destruct (i <? m) eqn:Qi; [|discriminate]. pose proof (Nat.mul_le_mono_r (S i) m bl ltac:(lia)) as Mi. cbn [Nat.mul] in Mi.
        rewrite sub_overwrite_out; [exact X2|exact HL'|left; fold bl; lia].
    - rewrite fs_set_data_data. intros p y Hp. rewrite nth_error_overwrite in Hp by exact HL'. cbn [List.length] in Hp.
      destruct (p <? start * bl + j) eqn:Q1; [exact (HO p y Hp)|]. destruct (p <? start * bl + j + 1) eqn:Q2; [|exact (HO p y Hp)].
      assert (p = start * bl + j) by lia. subst p. rewrite Nat.sub_diag in Hp. cbn in Hp. injection Hp as <-.
      right. fold bl. split; [lia|]. rewrite <- Ht, nth_error_sub in Ej. replace (j <? List.length els * bl) with true in Ej by lia. exact Ej.
    - eapply fs_frame_trans; [exact HF|]. rewrite <- Ho. apply fs_set_data_frame.
  Qed.

  Lemma put_or o f1 m m' st els start : knows (nth_error rows) start els -> m <= start -> start + List.length els <= m' -> m' <= cap ->
    J o f1 m m' st ->
    mmap_ensure_map st = (Ok tt, st) /\
    (exists f', mmap_store (start * bl) (encode EO els) st = (Ok tt, (fst st, f')) /\ J o f1 m m' (fst st, f')) /\
    (mstop_put EO kp (start * bl) (encode EO els) st = mmap_store (start * bl) (encode EO els) st \/
     exists st', mstop_put EO kp (start * bl) (encode EO els) st = (killed, st') /\ J o f1 m m' st' /\ Dead m m').
  Proof.
    intros Hk Hm Hm' Hc HJ. pose proof (bl_pos EO EL) as Hbl. fold bl in Hbl. pose proof (encode_length EO EL els) as He. fold bl in He.
    pose proof HJ as ((n & Hn & HR) & HW & HO & Ho & HF).
    destruct (mmap_store_rep EO EL cap n (lim m) st start els HR ltac:(lia)) as (f' & _ & S1 & S2 & S3 & S4). fold bl in S2.
    pose proof HR as (R1 & R2 & R3 & HD). pose proof (proj1 HD) as HD1. fold bl in HD1, R3.
    pose proof (Nat.mul_le_mono_r _ _ bl Hm') as Mm'. rewrite Nat.mul_add_distr_r in Mm'. pose proof (Nat.mul_le_mono_r _ _ bl Hc) as Mc.
    split; [exact S1|]. split.
    - exists f'. split; [exact S2|]. split; [exists n; split; [exact Hn|]|split; [exact HW|split; [|split; [exact Ho|eapply fs_frame_trans; [exact HF|rewrite <- Ho; exact S4]]]]].
      + split; [exact R1|]. split; [exact R2|]. split; [exact R3|]. cbn [fst snd]. eapply DRep_weaken; [|exact S3].
        intros i e Hi. rewrite upd_out; [exact Hi|]. left. unfold lim in Hi. destruct (i <? m) eqn:Qi; [lia|discriminate].
      + cbn [fst snd]. assert (Hd' : fs_data f' (h_ino (mm_file (fst st))) = overwrite (fs_data (snd st) (h_ino (mm_file (fst st)))) (start * bl) (firstn (List.length (encode EO els)) (encode EO els))).
        { unfold mmap_store in S2. rewrite R3, He in S2. replace (start * bl + List.length els * bl <=? cap * bl) with true in S2 by lia.
          unfold on_fs, fs_map_write in S2. rewrite HD1, He in S2. replace (start * bl + List.length els * bl <=? cap * bl) with true in S2 by lia.
          rewrite orb_true_r in S2. injection S2 as S2. subst f'. rewrite fs_set_data_data, firstn_all. reflexivity. }
        rewrite Hd'. apply (ok_write EO EL A b Hb leaves d Hd Hl); auto.
    - unfold mstop_put. destruct kp as [|i ps] eqn:Ek; [left; reflexivity|]. fold bl. destruct (_ && _) eqn:Q; [|left; reflexivity]. right.
      apply andb_true_iff in Q. destruct Q as [Q1 Q2]. apply Nat.eqb_eq, Nat.mul_cancel_r in Q1; [|lia]. subst i.
      rewrite R3, He. replace (start * bl + List.length els * bl <=? cap * bl) with true by lia.
      eexists. split; [reflexivity|]. split.
      + destruct st as [s f]. apply poke_ok; auto.
      + exists start, ps. split; [exact Ek|]. destruct els as [|x els]; [discriminate Q2|]. cbn [List.length] in Hm'. lia.
  Qed.

  Definition up_len (st : mmap_t * fs) (k : nat) : mmap_t * fs := (mm_set_len (fst st) (Nat.max (mm_len (fst st)) k), snd st).
  Lemma j_len o f1 m m' st k : k <= cap -> J o f1 m m' st -> J o f1 m m' (up_len st k).
  Proof.
    intros Hk ((n & Hn & R1 & R2 & R3 & HD) & HW & HO & Ho & HF). split; [exists (Nat.max n k); split; [lia|]|split; [exact HW|split; [exact HO|split; [exact Ho|exact HF]]]].
    split; [cbn; lia|]. split; [lia|]. split; [exact R3|exact HD].
  Qed.

  Lemma copy_or o f1 m m' st els start : knows (nth_error rows) start els -> m <= start -> start + List.length els <= m' -> m' <= cap ->
    J o f1 m m' st ->
    (exists st', mmap_copy_from_slice EO (encode EO els) start st = (Ok tt, st') /\ J o f1 m m' st' /\
       mm_len (fst st') = Nat.max (mm_len (fst st)) (start + List.length els)) /\
    (mstop_copy_from_slice EO kp (encode EO els) start st = mmap_copy_from_slice EO (encode EO els) start st \/
     exists st', mstop_copy_from_slice EO kp (encode EO els) start st = (killed, st') /\ J o f1 m m' st' /\ Dead m m').
  Proof.
    intros Hk Hm Hm' Hc HJ. pose proof (bl_pos EO EL) as Hbl. fold bl in Hbl. pose proof (encode_length EO EL els) as He. fold bl in He.
    destruct (put_or o f1 m m' st els start Hk Hm Hm' Hc HJ) as (S1 & (f' & S2 & HJ2) & Hor).
    assert (Hs : forall put : nat -> list byte -> SM (mmap_t * fs) unit,
      (let! _ := slift (ensure (List.length (encode EO els) mod bl =? 0) "buf size must be a multiple of byte_len") in
       let! _ := mmap_ensure_map in let! _ := put (start * bl) (encode EO els) in let! st := sget in
       mmap_upd_len (Nat.max (mm_len (fst st)) (start + List.length (encode EO els) / bl))) st =
      (let! _ := put (start * bl) (encode EO els) in fun st => (Ok tt, up_len st (start + List.length els))) st).
    { intros put. rewrite He, Nat.mod_mul, Nat.eqb_refl, Nat.div_mul by lia. unfold ensure. rewrite (sbind_ok _ _ st tt st) by reflexivity.
      rewrite (sbind_ok _ _ _ _ _ S1). reflexivity. }
    assert (H1 : mmap_copy_from_slice EO (encode EO els) start st = (Ok tt, up_len (fst st, f') (start + List.length els))).
    { etransitivity; [exact (Hs (@mmap_store))|]. rewrite (sbind_ok _ _ _ _ _ S2). reflexivity. }
    split.
    - exists (up_len (fst st, f') (start + List.length els)). split; [exact H1|]. split; [apply j_len; [lia|exact HJ2]|reflexivity].
    - destruct Hor as [G|(st' & G & HJ' & HD)].
      + left. rewrite H1. etransitivity; [exact (Hs (mstop_put EO kp))|]. rewrite S2 in G. rewrite (sbind_ok _ _ _ _ _ G). reflexivity.
      + right. exists st'. split; [|auto]. etransitivity; [exact (Hs (mstop_put EO kp))|]. exact (sbind_dead _ _ _ _ _ G).
  Qed.

  Lemma write_or o f1 m m' st x start : nth_error rows start = Some x -> m <= start -> start < m' -> m' <= cap ->
    J o f1 m m' st ->
    (exists st', mmap_write_at EO x start st = (Ok tt, st') /\ J o f1 m m' st') /\
    (mstop_write_at EO kp x start st = mmap_write_at EO x start st \/
     exists st', mstop_write_at EO kp x start st = (killed, st') /\ J o f1 m m' st' /\ Dead m m').
  Proof.
    intros Hx Hm Hm' Hc HJ.
    assert (Hk : knows (nth_error rows) start [x]) by (intros k Hk; cbn in Hk; replace k with 0 by lia; rewrite Nat.add_0_r; exact Hx).
    destruct (put_or o f1 m m' st [x] start Hk Hm ltac:(cbn; lia) Hc HJ) as (S1 & (f' & S2 & HJ2) & Hor).
    assert (He : encode EO [x] = e_as_ref EO x) by (unfold encode; cbn [map concat]; apply app_nil_r). rewrite He in *.
    assert (H1 : mmap_write_at EO x start st = (Ok tt, up_len (fst st, f') (start + 1))).
    { unfold mmap_write_at. fold bl. rewrite (sbind_ok _ _ _ _ _ S1), (sbind_ok _ _ _ _ _ S2). reflexivity. }
    split.
    - eexists. split; [exact H1|]. apply j_len; [lia|exact HJ2].
    - unfold mstop_write_at. fold bl. rewrite (sbind_ok _ _ _ _ _ S1). destruct Hor as [G|(st' & G & HJ' & HD)].
      + left. rewrite H1. rewrite S2 in G. rewrite (sbind_ok _ _ _ _ _ G). reflexivity.
      + right. exists st'. split; [exact (sbind_dead _ _ _ _ _ G)|auto].
  Qed.

  Lemma nodes_or o f1 m m' : m' <= cap -> forall nodes at_ st, knows (nth_error rows) at_ nodes -> m <= at_ -> at_ + List.length nodes <= m' ->
    J o f1 m m' st ->
    (write_nodes (mstop_write_at EO kp) nodes at_ st = write_nodes (mmap_write_at EO) nodes at_ st /\
     exists st', write_nodes (mmap_write_at EO) nodes at_ st = (Ok tt, st') /\ J o f1 m m' st') \/
    exists st', write_nodes (mstop_write_at EO kp) nodes at_ st = (killed, st') /\ J o f1 m m' st' /\ Dead m m'.
  Proof.
    intros Hc. induction nodes as [|x r IH]; intros at_ st Hk Hm Hm' HJ.
    - left. split; [reflexivity|]. exists st. split; [reflexivity|exact HJ].
    - cbn [write_nodes]. cbn [List.length] in Hm'.
      assert (Hx : nth_error rows at_ = Some x) by (pose proof (Hk 0 ltac:(cbn; lia)) as G; rewrite Nat.add_0_r in G; exact G).
      destruct (write_or o f1 m m' st x at_ Hx Hm ltac:(lia) Hc HJ) as ((st1 & H1 & HJ1) & [G|(st' & G & HJ' & HD)]).
      + rewrite H1 in G. rewrite (sbind_ok _ _ _ _ _ G), !(sbind_ok _ _ _ _ _ H1).
        apply IH; auto; try lia. intros k Hkl. replace (S at_ + k) with (at_ + S k) by lia. exact (Hk (S k) ltac:(cbn; lia)).
      + right. exists st'. split; [exact (sbind_dead _ _ _ _ _ G)|auto].
  Qed.

  Lemma leaves_in : N <= cap.
  Proof. unfold N, cap. apply geom_gt. Qed.
  Local Notation Jl o f1 := (J o f1 0 N).

  Lemma mpopulate_loop_or block o f1 : forall xs a done buf st,
    Jl o f1 st -> mm_len (fst st) = List.length done -> done ++ buf ++ map leaf xs = leaves ->
    (populate_loop EO KO A block (map Ok xs) a (encode EO buf) st = populate_loop EO DO A block (map Ok xs) a (encode EO buf) st /\
     exists done' rest st', populate_loop EO DO A block (map Ok xs) a (encode EO buf) st = (Ok (encode EO rest), st') /\
       Jl o f1 st' /\ mm_len (fst st') = List.length done' /\ done' ++ rest = leaves) \/
    exists st', populate_loop EO KO A block (map Ok xs) a (encode EO buf) st = (killed, st') /\ Jl o f1 st' /\ Dead 0 N.
  Proof.
    induction xs as [|x xs IH]; intros a done buf st HD Hn Hall.
    - left. split; [reflexivity|]. exists done, buf, st. cbn [map] in Hall. rewrite app_nil_r in Hall. auto.
    - cbn [map populate_loop]. rewrite !(sbind_ok _ _ st x st) by reflexivity.
      pose proof (leaf_reset A AL a x) as Hx. destruct (a_leaf A (a_reset A a) x) as [h a'] eqn:Ea. cbn [fst] in Hx. subst h.
      assert (He : encode EO buf ++ e_as_ref EO (h_leaf A x) = encode EO (buf ++ [h_leaf A x])).
      { rewrite encode_app. unfold encode at 3. cbn [map concat]. rewrite app_nil_r. reflexivity. }
      rewrite He. cbn [map] in Hall. destruct (_ <=? _) eqn:G.
      + rewrite !(sbind_ok _ _ st st st) by reflexivity. change (st_len KO (fst st)) with (mm_len (fst st)). change (st_len DO (fst st)) with (mm_len (fst st)). rewrite Hn.
        destruct (StopFacts.leaves_part EO A b Hb leaves d Hd Hl done (buf ++ [h_leaf A x]) (map leaf xs)) as [P1 P2]; [rewrite <- Hall, <- !app_assoc; reflexivity|].
        destruct (copy_or o f1 0 N st (buf ++ [h_leaf A x]) (List.length done) P1 ltac:(lia) P2 leaves_in HD) as [(st1 & H1 & HD1 & Hl1) [Hs|(st' & Hs & HD' & HQ)]].
        * assert (Hk : st_copy_from_slice KO (encode EO (buf ++ [h_leaf A x])) (List.length done) st = (Ok tt, st1)) by (etransitivity; [exact Hs|exact H1]).
          assert (Hk0 : st_copy_from_slice DO (encode EO (buf ++ [h_leaf A x])) (List.length done) st = (Ok tt, st1)) by exact H1.
          rewrite (sbind_ok _ _ _ _ _ Hk), !(sbind_ok _ _ _ _ _ Hk0).
          apply (IH a' (done ++ buf ++ [h_leaf A x]) [] st1 HD1).
          -- rewrite Hl1, Hn, !app_length. lia.
          -- rewrite <- Hall. rewrite <- !app_assoc. reflexivity.
        * right. exists st'. split; [|auto].
          assert (Hk' : st_copy_from_slice KO (encode EO (buf ++ [h_leaf A x])) (List.length done) st = (killed, st')) by exact Hs.
          exact (sbind_dead _ _ _ _ _ Hk').
      + apply (IH a' done (buf ++ [h_leaf A x]) st HD Hn). rewrite <- Hall, <- !app_assoc. reflexivity.
  Qed.

  Lemma mpopulate_or o f1 xs st : Jl o f1 st -> mm_len (fst st) = 0 -> map leaf xs = leaves ->
    (exists st', populate_data EO KO A en (map Ok xs) st = (Ok tt, st') /\
       populate_data EO DO A en (map Ok xs) st = (Ok tt, st') /\ Jl o f1 st') \/
    exists st', populate_data EO KO A en (map Ok xs) st = (killed, st') /\ Jl o f1 st' /\ Dead 0 N.
  Proof.
    intros HD Hn Hx. unfold populate_data. rewrite !(sbind_ok _ _ st st st) by reflexivity.
    change (st_is_empty KO (fst st)) with (mm_len (fst st) =? 0). change (st_is_empty DO (fst st)) with (mm_len (fst st) =? 0).
    rewrite Hn. cbn [Nat.eqb negb].
    destruct (mpopulate_loop_or (p_block (env_params en)) o f1 xs (a_default A) [] [] st HD Hn Hx)
      as [(H1 & done & rest & st1 & H2 & HD1 & Hn1 & Hall)|(st' & H1 & HD1 & HQ)]; change (encode EO []) with (@nil byte) in *.
    - assert (H1' : populate_loop EO KO A (p_block (env_params en)) (map Ok xs) (a_default A) [] st = (Ok (encode EO rest), st1))
        by (etransitivity; [exact H1|exact H2]).
      rewrite (sbind_ok _ _ _ _ _ H1'), !(sbind_ok _ _ _ _ _ H2). clear H1 H1' H2.
      rewrite !(sbind_ok _ _ st1 st1 st1) by reflexivity.
      change (st_len KO (fst st1)) with (mm_len (fst st1)). change (st_len DO (fst st1)) with (mm_len (fst st1)). rewrite Hn1.
      destruct (StopFacts.leaves_part EO A b Hb leaves d Hd Hl done rest []) as [P1 P2]; [rewrite app_nil_r; auto|].
      destruct (copy_or o f1 0 N st1 rest (List.length done) P1 ltac:(lia) P2 leaves_in HD1) as [(st2 & G1 & HD2 & Hl2) [Hs|(st' & Hs & HD' & HQ)]].
      + left. assert (Hk : st_copy_from_slice KO (encode EO rest) (List.length done) st1 = (Ok tt, st2)) by (etransitivity; [exact Hs|exact G1]).
        assert (Hk0 : st_copy_from_slice DO (encode EO rest) (List.length done) st1 = (Ok tt, st2)) by exact G1.
        rewrite (sbind_ok _ _ _ _ _ Hk), !(sbind_ok _ _ _ _ _ Hk0). exists st2. split; [reflexivity|]. split; [reflexivity|exact HD2].
      + right. exists st'. split; [|auto].
        assert (Hk' : st_copy_from_slice KO (encode EO rest) (List.length done) st1 = (killed, st')) by exact Hs.
        exact (sbind_dead _ _ _ _ _ Hk').
    - right. exists st'. split; [|auto]. exact (sbind_dead _ _ _ _ _ H1).
  Qed.

  Lemma mpopulate_par_or o f1 xs st : 0 < p_block (env_params en) -> Jl o f1 st -> mm_len (fst st) = 0 -> map leaf xs = leaves ->
    (exists st', populate_data_par EO KO A en xs st = (Ok tt, st') /\
       populate_data_par EO DO A en xs st = (Ok tt, st') /\ Jl o f1 st') \/
    exists e st', populate_data_par EO KO A en xs st = (Panic e, st') /\ Jl o f1 st' /\ Dead 0 N.
  Proof.
    intros HB HD Hn Hx. unfold populate_data_par. rewrite !(sbind_ok _ _ st st st) by reflexivity.
    change (st_is_empty KO (fst st)) with (mm_len (fst st) =? 0). change (st_is_empty DO (fst st)) with (mm_len (fst st) =? 0).
    rewrite Hn. cbn [Nat.eqb negb].
    remember (p_block (env_params en)) as B eqn:EB. clear EB.
    set (pc := fun k => sub leaves (B * k) B).
    assert (Hnb : forall k, k < List.length (chunks B xs) <-> B * k < List.length xs).
    { intros k. rewrite chunks_length by auto. rewrite (Nat.mul_comm B k). apply div_up; auto. }
    set (rd := fun (k : nat) (_ : mmap_t * fs) => do blk <- rnth (chunks B xs) k; Ok (block_bytes EO A blk (a_default A))).
    set (wr0 := fun (k : nat) (buf : list byte) => mmap_copy_from_slice EO buf (B * k)).
    set (wr := fun (k : nat) (buf : list byte) => mstop_copy_from_slice EO kp buf (B * k)).
    assert (Hrd : forall st k, k < List.length (chunks B xs) -> rd k st = Ok (encode EO (pc k))).
    { intros st0 k Hk. apply Hnb in Hk. unfold rd, rnth. rewrite nth_error_chunks by auto.
      rewrite (Nat.mul_comm k B). replace (B * k <? List.length xs) with true by lia. cbn [rbind].
      rewrite (block_bytes_ok EO A AL). unfold pc. rewrite <- Hx. do 2 f_equal. unfold sub.
      rewrite <- firstn_map, <- skipn_map. reflexivity. }
    assert (Hlx : List.length xs = N) by (unfold N; rewrite <- Hl, <- Hx, map_length; reflexivity).
    assert (Hpc : forall k, k < List.length (chunks B xs) -> knows (nth_error rows) (B * k) (pc k) /\ B * k + List.length (pc k) <= N).
    { intros k Hk. apply Hnb in Hk. split; [exact (knows_sub _ _ _ (B * k) B (StopFacts.rows_leaves EO A b Hb leaves d Hd Hl))|]. unfold pc. rewrite sub_length, Hl. fold N. lia. }
    assert (H0 : forall st k, Jl o f1 st -> k < List.length (chunks B xs) -> exists st', wr0 k (encode EO (pc k)) st = (Ok tt, st') /\ Jl o f1 st').
    { intros st0 k HD0 Hk. destruct (Hpc k Hk) as [P1 P2].
      destruct (copy_or o f1 0 N st0 (pc k) (B * k) P1 ltac:(lia) P2 leaves_in HD0) as [(st1 & H1 & HD1 & _) _]. eauto. }
    assert (Hrun0 : exists st', run_tasks (List.length (chunks B xs)) rd wr0 (env_pop en) st = (Ok tt, st') /\ Jl o f1 st').
    { destruct (run_tasks_ok (List.length (chunks B xs)) rd wr0 (fun _ st => Jl o f1 st) (fun k => encode EO (pc k))
        (fun w st k _ Hk _ => Hrd st k Hk) (fun w st k HI Hk _ => H0 st k HI Hk) (env_pop en) st HD) as (w & st' & H1 & H2 & _). eauto. }
    destruct Hrun0 as (st' & R0 & HD').
    destruct (jrun_tasks_or _ rd wr wr0 (Jl o f1) (Dead 0 N) (fun k => encode EO (pc k)) (fun st k _ Hk => Hrd st k Hk) H0) with (sched := env_pop en) (st := st)
      as [[Hs _]|(m & st1 & Hs & HD1 & HQ)].
    { intros st0 k HD0 Hk. destruct (Hpc k Hk) as [P1 P2].
      destruct (copy_or o f1 0 N st0 (pc k) (B * k) P1 ltac:(lia) P2 leaves_in HD0) as [_ [Hs|(st1 & Hs & HD1 & HQ)]]; [left; exact Hs|right; eexists _, st1; eauto]. }
    { exact HD. }
    - left. exists st'.
      assert (Hk : run_tasks (List.length (chunks B xs)) rd (fun (k : nat) (buf : list byte) => st_copy_from_slice KO buf (B * k)) (env_pop en) st = (Ok tt, st')) by (etransitivity; [exact Hs|exact R0]).
      assert (Hk0 : run_tasks (List.length (chunks B xs)) rd (fun (k : nat) (buf : list byte) => st_copy_from_slice DO buf (B * k)) (env_pop en) st = (Ok tt, st')) by exact R0.
      split; [exact (sbind_ok _ _ _ _ _ Hk)|]. split; [exact (sbind_ok _ _ _ _ _ Hk0)|exact HD'].
    - right. exists m, st1. split; [|auto].
      assert (Hk : run_tasks (List.length (chunks B xs)) rd (fun (k : nat) (buf : list byte) => st_copy_from_slice KO buf (B * k)) (env_pop en) st = (Panic m, st1)) by exact Hs.
      exact (sbind_dead _ _ _ _ _ Hk).
  Qed.

  (* ---- hashing ---- *)
  Local Notation at_lev := (at_level mmap_W (mmap_rep EO) A b leaves 1 d cap).

  Lemma lev_j r o f1 st : r < d -> at_lev r st -> Okm (row_off b d (S r)) (fs_data (snd st) (h_ino (mm_file (fst st)))) ->
    mmap_owner (fst st) = o -> fs_frame o f1 (snd st) -> J o f1 (row_off b d (S r)) (row_off b d (S (S r))) st.
  Proof.
    intros Hr (HW & v & HR & Hk) HO Ho HF. pose proof (arity_ge b Hb) as H2. rewrite Nat.mul_1_l in HR.
    split; [exists (row_off b d (S r)); split; [lia|]|split; [exact HW|split; [|auto]]].
    - destruct HR as (R1 & R2 & R3 & HD). split; [exact R1|]. split; [exact R2|]. split; [exact R3|]. eapply DRep_weaken; [|exact HD].
      intros k e Hke. unfold lim in Hke. destruct (k <? row_off b d (S r)) eqn:Qk; [|discriminate].
      assert (exists r' j, r' <= r /\ j < b ^ (d - r') /\ k = row_off b d r' + j) as (r' & j & Hr' & Hj & ->).
      { assert (Hkr : k < row_off b d (S r)) by lia. clear - Hkr. induction r as [|r IH].
        - exists 0, k. rewrite row_off_step in Hkr. cbn [row_off] in *. lia.
        - rewrite row_off_step in Hkr. destruct (lt_dec k (row_off b d (S r))) as [L|L].
          + destruct (IH L) as (r' & j & H1 & H2 & H3). exists r', j. lia.
          + exists (S r), (k - row_off b d (S r)). lia. }
      assert (Hlen : List.length (row A b leaves r') = b ^ (d - r')).
      { rewrite (row_length A b ltac:(lia) leaves 1 d) by (auto; lia). lia. }
      pose proof (Hk r' Hr' j ltac:(lia)) as G. rewrite Nat.mul_1_l in G. rewrite G.
      pose proof (StopFacts.rows_row EO A b Hb leaves d Hd Hl r' ltac:(lia) j ltac:(lia)) as G'. fold rows in G'. rewrite <- G'. exact Hke.
    - eapply StopFacts.ok_mono; [exact Hd|exact Hl| |exact HO]. apply row_off_mono. lia.
  Qed.

  Definition DiedIn (o : option nat) (f1 : fs) (r : nat) (st : mmap_t * fs) : Prop :=
    r <= d /\ J o f1 (row_off b d r) (row_off b d (S r)) st /\ Dead (row_off b d r) (row_off b d (S r)).

  (* what the finished part holds *)
  Lemma j_exact o f1 m m' st : m <= cap -> J o f1 m m' st -> Exact m (fs_data (snd st) (h_ino (mm_file (fst st)))).
  Proof.
    intros Hm ((n & Hn & R1 & R2 & R3 & HD) & _). unfold StopFacts.Exact.
    assert (Hrl : List.length rows = cap) by exact (StopFacts.rows_length EO A b Hb leaves d Hd Hl).
    assert (Hfl : List.length (firstn m rows) = m) by (rewrite firstn_length; lia).
    assert (HK : knows (lim m) 0 (firstn m rows)).
    { intros k Hk. rewrite Hfl in Hk. cbn [Nat.add]. unfold lim. replace (k <? m) with true by lia. rewrite nth_error_firstn. replace (k <? m) with true by lia. reflexivity. }
    pose proof (DRep_range EO cap (lim m) _ 0 _ HD HK ltac:(rewrite Hfl; lia)) as G1.
    pose proof (StopFacts.target_sub EO EL A b Hb leaves d Hd Hl 0 (firstn m rows)) as G2. rewrite Hfl in *. rewrite Nat.mul_0_l in *. rewrite G1, G2; [reflexivity| |fold cap; lia].
    intros k Hk. rewrite Hfl in Hk. cbn [Nat.add]. rewrite nth_error_firstn. replace (k <? m) with true by lia. reflexivity.
  Qed.

  Lemma next_j o f1 r st : r < d -> at_lev (S r) st -> J o f1 (row_off b d (S r)) (row_off b d (S (S r))) st ->
    Okm (row_off b d (S (S r))) (fs_data (snd st) (h_ino (mm_file (fst st)))) /\ mmap_owner (fst st) = o /\ fs_frame o f1 (snd st).
  Proof. intros Hr Hat (_ & _ & HO & Ho & HF). auto. Qed.

  Lemma small_or r o f1 st : r < d -> at_lev r st -> J o f1 (row_off b d (S r)) (row_off b d (S (S r))) st ->
    (exists st', small_layer (mmap_read_range EO) (mstop_write_at EO kp) A b (b ^ (d - r)) r (row_off b d r) (row_off b d (S r)) st = (Ok tt, st') /\
       small_layer (mmap_read_range EO) (mmap_write_at EO) A b (b ^ (d - r)) r (row_off b d r) (row_off b d (S r)) st = (Ok tt, st') /\
       at_lev (S r) st' /\ J o f1 (row_off b d (S r)) (row_off b d (S (S r))) st') \/
    exists st', small_layer (mmap_read_range EO) (mstop_write_at EO kp) A b (b ^ (d - r)) r (row_off b d r) (row_off b d (S r)) st = (killed, st') /\ DiedIn o f1 (S r) st'.
  Proof.
    intros Hr Hat HJ. assert (HL1 : List.length leaves = 1 * b ^ d) by lia. pose proof (arity_ge b Hb) as H2.
    destruct (small_layer_ok EO mm_len (mmap_read_at EO) (mmap_read_range EO) (mmap_write_at EO) (mmap_copy_from_slice EO) mmap_owner mmap_W (mmap_rep EO) false (mmap_core EO EL)
      A b leaves 1 d Hb ltac:(lia) HL1 cap ltac:(unfold cap; lia) r st Hr Hat) as (st1 & H1 & Hat1 & _).
    rewrite !Nat.mul_1_l in H1.
    destruct (StopFacts.layer_nums EO A en b Hb leaves d Hd Hl r Hr) as (L1 & L2 & L3 & L4 & L5 & L6). cbv zeta in *. fold cap in L6.
    assert (Hrd : mmap_read_range EO st (row_off b d r) (row_off b d r + b ^ (d - r)) = Ok (row A b leaves r)).
    { destruct Hat as (_ & v & HR & Hk). pose proof (Hk r (le_n _)) as Hkr. rewrite Nat.mul_1_l in *. rewrite L1.
      eapply (cl_read_range _ _ _ _ _ _ _ _ _ _ (mmap_core EO EL)); [exact HR| | | |exact Hkr]; lia. }
    unfold small_layer in *. unfold sbind, sreads in *. rewrite Hrd in *.
    change (hash_row A b r (row A b leaves r)) with (row A b leaves (S r)) in *.
    pose proof (StopFacts.rows_row EO A b Hb leaves d Hd Hl (S r) ltac:(lia)) as Hk.
    assert (Hlen : List.length (row A b leaves (S r)) = b ^ (d - S r)) by (rewrite (row_length A b ltac:(lia) leaves 1 d) by (auto; lia); lia).
    destruct (nodes_or o f1 (row_off b d (S r)) (row_off b d (S (S r))) L6 (row A b leaves (S r)) (row_off b d (S r)) st Hk (le_n _) ltac:(lia) HJ)
      as [(G1 & st2 & G2 & HJ2)|(st2 & G1 & HJ2 & HQ)].
    - left. exists st1. rewrite G1. split; [exact H1|]. split; [exact H1|]. split; [exact Hat1|].
      rewrite H1 in G2. injection G2 as <-. exact HJ2.
    - right. exists st2. split; [exact G1|]. split; [lia|auto].
  Qed.

  Lemma layer_or r sched o f1 st : r < d -> at_lev r st -> J o f1 (row_off b d (S r)) (row_off b d (S (S r))) st ->
    (exists st', process_layer EO (mmap_read_range EO) (mstop_copy_from_slice EO kp) A b chunk sched (b ^ (d - r)) r (row_off b d r) (row_off b d (S r)) st = (Ok tt, st') /\
       process_layer EO (mmap_read_range EO) (mmap_copy_from_slice EO) A b chunk sched (b ^ (d - r)) r (row_off b d r) (row_off b d (S r)) st = (Ok tt, st') /\
       at_lev (S r) st' /\ J o f1 (row_off b d (S r)) (row_off b d (S (S r))) st') \/
    exists e st', process_layer EO (mmap_read_range EO) (mstop_copy_from_slice EO kp) A b chunk sched (b ^ (d - r)) r (row_off b d r) (row_off b d (S r)) st = (Panic e, st') /\ DiedIn o f1 (S r) st'.
  Proof.
    intros Hr Hat HJ. assert (HL1 : List.length leaves = 1 * b ^ d) by lia. pose proof (arity_ge b Hb) as H2. destruct Hch as [Hc1 Hc2]. fold chunk in Hc1, Hc2.
    destruct (process_layer_ok EO EL mm_len (mmap_read_at EO) (mmap_read_range EO) (mmap_write_at EO) (mmap_copy_from_slice EO) mmap_owner mmap_W (mmap_rep EO) false (mmap_core EO EL)
      A b leaves 1 d Hb ltac:(lia) HL1 chunk Hc1 Hc2 cap sched ltac:(unfold cap; lia) r st Hr Hat) as (st1 & H1 & Hat1 & _).
    rewrite !Nat.mul_1_l in H1. rewrite !H1.
    destruct (StopFacts.layer_nums EO A en b Hb leaves d Hd Hl r Hr) as (L1 & L2 & L3 & L4 & L5 & L6). cbv zeta in *. fold cap in L6.
    set (w := b ^ (d - S r)) in *. rewrite L1 in *. set (rs := row_off b d r) in *. set (ws := row_off b d (S r)) in *. set (we := row_off b d (S (S r))) in *.
    assert (Hsl : forall (ls : list nat -> nat -> nat -> nat -> nat -> SM (mmap_t * fs) unit) X, (forall st, X st = (let! _ := slift (ensure (chunk mod b =? 0) "Invalid chunk size") in ls sched (w * b) r rs ws) st) -> X st = ls sched (w * b) r rs ws st).
    { intros ls X HX. rewrite HX, Hc2. reflexivity. }
    set (n := num_chunks chunk (w * b)).
    assert (Hn : forall k, k < n <-> k * chunk < w * b) by (apply div_up; auto).
    set (rd := chunk_task EO A b chunk (mmap_read_range EO) (w * b) r rs).
    set (wr0 := fun k bytes => mmap_copy_from_slice EO bytes (ws + (rs + k * chunk - rs) / b)).
    set (wr := fun k bytes => mstop_copy_from_slice EO kp bytes (ws + (rs + k * chunk - rs) / b)).
    assert (E0 : process_layer EO (mmap_read_range EO) (mmap_copy_from_slice EO) A b chunk sched (w * b) r rs ws st = run_tasks n rd wr0 sched st).
    { unfold process_layer. rewrite Hc2. reflexivity. }
    assert (E1 : process_layer EO (mmap_read_range EO) (mstop_copy_from_slice EO kp) A b chunk sched (w * b) r rs ws st = run_tasks n rd wr sched st).
    { unfold process_layer. rewrite Hc2. reflexivity. }
    rewrite E1. rewrite E0 in H1. clear E0 E1 Hsl.
    assert (Hlen : List.length (row A b leaves (S r)) = w) by (rewrite (row_length A b ltac:(lia) leaves 1 d) by (auto; lia); unfold w; lia).
    pose proof (StopFacts.rows_row EO A b Hb leaves d Hd Hl (S r) ltac:(lia)) as HkS. fold ws in HkS.
    pose proof (StopFacts.rows_row EO A b Hb leaves d Hd Hl r ltac:(lia)) as Hk0. fold rs in Hk0.
    pose proof (chunk_eq b chunk Hb Hc1 Hc2) as C.
    set (val := fun k => sub (row A b leaves (S r)) (k * (chunk / b)) (piece b chunk w k)).
    assert (Hvl : forall k, k < n -> k * (chunk / b) + piece b chunk w k <= w /\ 0 < piece b chunk w k /\ List.length (val k) = piece b chunk w k /\
      ws + (rs + k * chunk - rs) / b = ws + k * (chunk / b)).
    { intros k Hk. apply Hn in Hk. destruct (piece_le b chunk Hb Hc1 Hc2 w k Hk) as [P1 P2]. split; [exact P1|]. split; [exact P2|]. split; [apply sub_length_le; lia|].
      f_equal. replace (rs + k * chunk - rs) with (k * chunk) by lia. rewrite C at 1. rewrite Nat.mul_assoc. apply Nat.div_mul. lia. }
    assert (Hrd : forall st0 k, J o f1 ws we st0 -> k < n -> rd k st0 = Ok (encode EO (val k))).
    { intros st0 k ((nn & Hnn & HR) & _) Hk. destruct (Hvl k Hk) as (P1 & P2 & _). apply Hn in Hk. unfold rd, val. change (row A b leaves (S r)) with (hash_row A b r (row A b leaves r)).
      apply chunk_task_ok; auto. set (c := chunk / b) in *.
      assert (Hkc : k * chunk = k * c * b) by (rewrite C; ring).
      assert (Hin : k * c * b + piece b chunk w k * b <= w * b) by (rewrite <- Nat.mul_add_distr_r; apply Nat.mul_le_mono_r; exact P1).
      assert (Hp1 : 1 <= piece b chunk w k * b) by (apply Nat.le_trans with (1 * b); [lia|]; apply Nat.mul_le_mono_r; exact P2).
      eapply (cl_read_range _ _ _ _ _ _ _ _ _ _ (mmap_core EO EL)); [exact HR| | | |].
      - lia.
      - rewrite Hkc. lia.
      - rewrite sub_length_le; lia.
      - rewrite Hkc. apply knows_sub. eapply knows_ext; [|exact Hk0].
        intros i Hi1 Hi2. unfold lim. replace (i <? ws) with true by lia. reflexivity. }
    assert (Hpc : forall k, k < n -> knows (nth_error rows) (ws + k * (chunk / b)) (val k)) by (intros k _; apply knows_sub; exact HkS).
    assert (H0 : forall st k, J o f1 ws we st -> k < n -> exists st', wr0 k (encode EO (val k)) st = (Ok tt, st') /\ J o f1 ws we st').
    { intros st0 k HD0 Hk. destruct (Hvl k Hk) as (P1 & P2 & P3 & P4). unfold wr0. rewrite P4.
      destruct (copy_or o f1 ws we st0 (val k) (ws + k * (chunk / b)) (Hpc k Hk) ltac:(lia) ltac:(lia) L6 HD0) as [(st2 & G1 & HD1 & _) _]. eauto. }
    destruct (jrun_tasks_or n rd wr wr0 (J o f1 ws we) (Dead ws we) (fun k => encode EO (val k)) Hrd H0) with (sched := sched) (st := st)
      as [[Hs (st2 & HJ2 & x & R0)]|(m & st2 & Hs & HD1 & HQ)].
    { intros st0 k HD0 Hk. destruct (Hvl k Hk) as (P1 & P2 & P3 & P4). unfold wr, wr0. rewrite P4.
      destruct (copy_or o f1 ws we st0 (val k) (ws + k * (chunk / b)) (Hpc k Hk) ltac:(lia) ltac:(lia) L6 HD0) as [_ [Hs|(st2 & Hs & HD1 & HQ)]]; [left; exact Hs|right; eexists _, st2; eauto]. }
    { exact HJ. }
    - left. exists st1. rewrite Hs. split; [exact H1|]. split; [reflexivity|]. split; [exact Hat1|].
      rewrite H1 in R0. injection R0 as _ <-. exact HJ2.
    - right. exists m, st2. split; [exact Hs|]. split; [lia|auto].
  Qed.

  Lemma small_loop_or o f1 : forall j r fuel st, r + j = d -> at_lev r st ->
    Okm (row_off b d (S r)) (fs_data (snd st) (h_ino (mm_file (fst st)))) -> mmap_owner (fst st) = o -> fs_frame o f1 (snd st) ->
    small_tree_loop mm_len (mmap_read_range EO) (mstop_write_at EO kp) A b (S (j + fuel)) (log2_pow2 b) r (b ^ j) (row_off b d r) st =
      small_tree_loop mm_len (mmap_read_range EO) (mmap_write_at EO) A b (S (j + fuel)) (log2_pow2 b) r (b ^ j) (row_off b d r) st \/
    exists e k st', small_tree_loop mm_len (mmap_read_range EO) (mstop_write_at EO kp) A b (S (j + fuel)) (log2_pow2 b) r (b ^ j) (row_off b d r) st = (Panic e, st') /\ DiedIn o f1 k st'.
  Proof.
    pose proof (arity_ge b Hb) as H2.
    induction j; intros r fuel st Hrj Hat HO Ho HF; [left; reflexivity|].
    pose proof (lev_j r o f1 st ltac:(lia) Hat HO Ho HF) as HJ.
    assert (HL1 : List.length leaves = 1 * b ^ d) by lia.
    pose proof (bounds_at _ _ _ _ _ _ _ _ _ _ (mmap_core EO EL) A b leaves 1 d cap r st ltac:(lia) Hat) as Hbd.
    rewrite !Nat.mul_1_l in Hbd. replace (d - r) with (S j) in Hbd by lia.
    assert (Hge : 1 < b ^ S j) by (rewrite Nat.pow_succ_r'; pose proof (pow_pos b j ltac:(lia)); nia).
    replace (S j + fuel) with (S (j + fuel)) by lia.
    assert (Hstep : forall wa, small_tree_loop mm_len (mmap_read_range EO) wa A b (S (S (j + fuel))) (log2_pow2 b) r (b ^ S j) (row_off b d r) st =
      (let! _ := small_layer (mmap_read_range EO) wa A b (b ^ S j) r (row_off b d r) (row_off b d (S r)) in
       small_tree_loop mm_len (mmap_read_range EO) wa A b (S (j + fuel)) (log2_pow2 b) (S r) (Nat.shiftr (b ^ S j) (log2_pow2 b)) (row_off b d r + b ^ S j)) st).
    { intros wa. set (fu := S (j + fuel)). cbn [small_tree_loop]. replace (1 <? b ^ S j) with true by lia. rewrite (sbind_ok _ _ _ _ _ Hbd).
      unfold small_layer, sbind, sreads. destruct (mmap_read_range EO st _ _) as [x|m|m|]; try reflexivity. }
    rewrite !Hstep. clear Hstep. rewrite arity_shift by auto.
    replace (b ^ S j / b) with (b ^ j) by (rewrite Nat.pow_succ_r', Nat.mul_comm, Nat.div_mul; lia).
    replace (row_off b d r + b ^ S j) with (row_off b d (S r)) by (rewrite row_off_step; do 2 f_equal; lia).
    destruct (small_or r o f1 st ltac:(lia) Hat HJ) as [(st1 & G1 & G2 & Hat1 & HJ1)|(st1 & G1 & HD1)]; replace (d - r) with (S j) in * by lia.
    - rewrite (sbind_ok _ _ _ _ _ G1), !(sbind_ok _ _ _ _ _ G2). destruct (next_j o f1 r st1 ltac:(lia) Hat1 HJ1) as (X1 & X2 & X3). apply IHj; auto. lia.
    - right. exists "killed"%string, (S r), st1. split; [exact (sbind_dead _ _ _ _ _ G1)|exact HD1].
  Qed.

  Lemma build_loop_or sched o f1 : forall j r fuel st, r + j = d -> at_lev r st ->
    Okm (row_off b d (S r)) (fs_data (snd st) (h_ino (mm_file (fst st)))) -> mmap_owner (fst st) = o -> fs_frame o f1 (snd st) ->
    build_loop EO mm_len (mmap_read_range EO) (mstop_copy_from_slice EO kp) A b chunk sched (S (j + fuel)) (log2_pow2 b) r (b ^ j) (row_off b d r) st =
      build_loop EO mm_len (mmap_read_range EO) (mmap_copy_from_slice EO) A b chunk sched (S (j + fuel)) (log2_pow2 b) r (b ^ j) (row_off b d r) st \/
    exists e k st', build_loop EO mm_len (mmap_read_range EO) (mstop_copy_from_slice EO kp) A b chunk sched (S (j + fuel)) (log2_pow2 b) r (b ^ j) (row_off b d r) st = (Panic e, st') /\ DiedIn o f1 k st'.
  Proof.
    pose proof (arity_ge b Hb) as H2.
    induction j; intros r fuel st Hrj Hat HO Ho HF; [left; reflexivity|].
    pose proof (lev_j r o f1 st ltac:(lia) Hat HO Ho HF) as HJ.
    assert (HL1 : List.length leaves = 1 * b ^ d) by lia.
    pose proof (bounds_at _ _ _ _ _ _ _ _ _ _ (mmap_core EO EL) A b leaves 1 d cap r st ltac:(lia) Hat) as Hbd.
    rewrite !Nat.mul_1_l in Hbd. replace (d - r) with (S j) in Hbd by lia.
    assert (Hge : 1 < b ^ S j) by (rewrite Nat.pow_succ_r'; pose proof (pow_pos b j ltac:(lia)); nia).
    replace (S j + fuel) with (S (j + fuel)) by lia.
    assert (Hstep : forall cp, build_loop EO mm_len (mmap_read_range EO) cp A b chunk sched (S (S (j + fuel))) (log2_pow2 b) r (b ^ S j) (row_off b d r) st =
      (let! _ := process_layer EO (mmap_read_range EO) cp A b chunk (sched r) (b ^ S j) r (row_off b d r) (row_off b d (S r)) in
       build_loop EO mm_len (mmap_read_range EO) cp A b chunk sched (S (j + fuel)) (log2_pow2 b) (S r) (Nat.shiftr (b ^ S j) (log2_pow2 b)) (row_off b d r + b ^ S j)) st).
    { intros cp. set (fu := S (j + fuel)). cbn [build_loop]. replace (1 <? b ^ S j) with true by lia. rewrite (sbind_ok _ _ _ _ _ Hbd). reflexivity. }
    rewrite !Hstep. clear Hstep. rewrite arity_shift by auto.
    replace (b ^ S j / b) with (b ^ j) by (rewrite Nat.pow_succ_r', Nat.mul_comm, Nat.div_mul; lia).
    replace (row_off b d r + b ^ S j) with (row_off b d (S r)) by (rewrite row_off_step; do 2 f_equal; lia).
    destruct (layer_or r (sched r) o f1 st ltac:(lia) Hat HJ) as [(st1 & G1 & G2 & Hat1 & HJ1)|(e & st1 & G1 & HD1)]; replace (d - r) with (S j) in * by lia.
    - rewrite (sbind_ok _ _ _ _ _ G1), !(sbind_ok _ _ _ _ _ G2). destruct (next_j o f1 r st1 ltac:(lia) Hat1 HJ1) as (X1 & X2 & X3). apply IHj; auto. lia.
    - right. exists e, (S r), st1. split; [exact (sbind_dead _ _ _ _ _ G1)|exact HD1].
  Qed.

  Lemma mbuild_or o f1 rc c v st : mmap_rep EO cap N v st -> knows v 0 leaves -> mmap_W (fst st) ->
    Okm N (fs_data (snd st) (h_ino (mm_file (fst st)))) -> mmap_owner (fst st) = o -> fs_frame o f1 (snd st) ->
    st_build KO en A b N rc c st = st_build DO en A b N rc c st \/
    exists e k st', st_build KO en A b N rc c st = (Panic e, st') /\ DiedIn o f1 k st'.
  Proof.
    intros HR Hk HW HO Ho HF. pose proof (arity_ge b Hb) as H2.
    assert (HL1 : List.length leaves = 1 * b ^ d) by lia.
    assert (Hat : at_lev 0 st).
    { eapply (at_level_start mmap_owner); [exact HL1|exact HW|rewrite Nat.mul_1_l; exact HR|exact Hk]. }
    pose proof (pow_fuel 1 b d ltac:(lia) H2) as Hf. rewrite Nat.mul_1_l in Hf. fold N in Hf.
    assert (HN : row_off b d 1 = N) by (rewrite row_off_step; cbn [row_off]; rewrite Nat.sub_0_r; reflexivity).
    pose proof (even_leafs b Hb 1 d ltac:(lia) Hd) as Hev. rewrite Nat.mul_1_l in Hev. fold N in Hev.
    assert (HB : forall wa cp, default_build_fuel EO mm_len (mmap_read_at EO) (mmap_read_range EO) wa cp A b chunk (S N) (p_small (env_params en)) (env_sched en) N rc st =
      (if N <=? p_small (env_params en) then build_small_tree_fuel mm_len (mmap_read_at EO) (mmap_read_range EO) wa A b (S N) N rc st
       else (let! level := build_loop EO mm_len (mmap_read_range EO) cp A b chunk (env_sched en) (S N) (log2_pow2 b) 0 N 0 in
             let! _ := slift (ensure (rc =? level + 1) "Invalid tree row_count") in default_last mm_len (mmap_read_at EO)) st)).
    { intros wa cp. unfold default_build_fuel. rewrite (arity_next b Hb), Nat.eqb_refl.
      unfold ensure at 1. rewrite (sbind_ok _ _ st tt st) by reflexivity. rewrite (sbind_ok _ _ st st st) by reflexivity.
      rewrite (proj1 HR), Nat.eqb_refl. unfold ensure at 1. rewrite (sbind_ok _ _ st tt st) by reflexivity.
      rewrite Hev, Nat.eqb_refl. unfold ensure at 1. rewrite (sbind_ok _ _ st tt st) by reflexivity.
      destruct (_ <=? _); reflexivity. }
    assert (BK : st_build KO en A b N rc c st = _) by (etransitivity; [apply mstop_build_eq|exact (HB (mstop_write_at EO kp) (mstop_copy_from_slice EO kp))]).
    assert (BD : st_build DO en A b N rc c st = _) by exact (HB (mmap_write_at EO) (mmap_copy_from_slice EO)).
    rewrite BK, BD. clear BK BD HB. destruct (N <=? _) eqn:Es.
    - unfold build_small_tree_fuel. rewrite Hev, Nat.eqb_refl. unfold ensure at 1 3. rewrite !(sbind_ok _ _ st tt st) by reflexivity.
      pose proof (small_loop_or o f1 d 0 (N - d) st eq_refl Hat) as G. rewrite HN in G. replace (d + (N - d)) with N in G by lia. cbn [row_off] in G. fold N in G.
      destruct (G HO Ho HF) as [G'|(e & k & st' & G' & HD)].
      + left. unfold sbind at 1 3. rewrite G'. reflexivity.
      + right. exists e, k, st'. split; [exact (sbind_dead _ _ _ _ _ G')|exact HD].
    - pose proof (build_loop_or (env_sched en) o f1 d 0 (N - d) st eq_refl Hat) as G. rewrite HN in G. replace (d + (N - d)) with N in G by lia. cbn [row_off] in G. fold N in G.
      destruct (G HO Ho HF) as [G'|(e & k & st' & G' & HD)].
      + left. unfold sbind at 1 3. rewrite G'. reflexivity.
      + right. exists e, k, st'. split; [exact (sbind_dead _ _ _ _ _ G')|exact HD].
  Qed.

  (* ---- the constructors ---- *)
  Lemma mstop_newc c f : fs_dir f (cfg_path c) = None ->
    (kp = M_create /\ exists f' i, mstop_new_with_config EO kp cap b c f = (killed, f') /\
       Created f f' (Some (cfg_path c)) (Some i) /\ fs_data f' i = []) \/
    exists s f1, mstop_new_with_config EO kp cap b c f = (Ok s, f1) /\ mmap_new_with_config EO cap b c f = (Ok s, f1) /\
      Jl (mmap_owner s) f1 (s, f1) /\ mmap_rep EO cap 0 (fun _ => None) (s, f1) /\
      Created f f1 (Some (cfg_path c)) (mmap_owner s).
  Proof.
    intros Hp. destruct (create_new_len f (cfg_path c) (bl * cap) Hp) as (h & f1 & f' & H1 & H2 & HW & HD & HC & Hdir).
    unfold mstop_new_with_config, mmap_new_with_config. rewrite !(sbind_ok _ _ f f f) by reflexivity.
    unfold fs_exists. rewrite Hp. fold bl. rewrite !(sbind_ok _ _ _ _ _ H1).
    assert (Hcase : kp = M_create \/ (match kp with M_create => killed | _ => Ok tt end) = Ok tt) by (destruct kp; auto).
    destruct Hcase as [Hk|Hk].
    - left. split; [exact Hk|]. rewrite Hk. exists f1, (h_ino h). split; [reflexivity|].
      unfold fs_create_new, fs_exists in H1. rewrite Hp in H1. injection H1 as <- <-. split.
      + unfold Created. cbn. repeat split; auto; try lia.
        * intros i Hi. replace (i =? fs_next f) with false by lia. reflexivity.
        * inversion H. lia.
        * inversion H. lia.
        * intros q Hq. destruct (String.eqb_spec q (cfg_path c)); [congruence|reflexivity].
        * intros q Hq. inversion Hq. rewrite String.eqb_refl. reflexivity.
        * intros i Hi. inversion Hi. rewrite !Nat.eqb_refl. reflexivity.
      + unfold fs_data. cbn. rewrite Nat.eqb_refl. reflexivity.
    - right. rewrite Hk. rewrite (sbind_ok _ _ f1 tt f1) by reflexivity. rewrite !(sbind_ok _ _ _ _ _ H2).
      assert (Hm : mm_map_mut h f' = (Ok (bl * cap), f')).
      { unfold mm_map_mut, fs_map_mut, fs_size. rewrite HW, HD, repeat_length. reflexivity. }
      rewrite !(sbind_ok _ _ _ _ _ Hm).
      eexists _, f'. split; [reflexivity|]. split; [reflexivity|]. cbn [mmap_owner mm_file].
      assert (HRep : mmap_rep EO cap 0 (fun _ => None) ({| mm_map := Some (bl * cap); mm_file := h; mm_len := 0 |}, f')) by (apply mmap_fresh; auto).
      split; [|auto]. split; [|split; [exact HW|split; [|split; [reflexivity|apply fs_frame_refl]]]].
      + exists 0. split; [lia|]. destruct HRep as (R1 & R2 & R3 & R4). split; [exact R1|]. split; [exact R2|]. split; [exact R3|].
        eapply DRep_weaken; [|exact R4]. intros i e He. unfold lim in He. replace (i <? 0) with false in He by lia. discriminate.
      + cbn [fst snd mm_file]. rewrite HD. intros p x Hx. apply nth_error_In, repeat_spec in Hx. left. exact Hx.
  Qed.

  Definition mleft_file (data : list byte) : Prop :=
    match kp with
    | M_create => data = []
    | M_store i _ => exists r, r <= d /\ row_off b d r <= i < row_off b d (S r) /\ List.length data = cap * bl /\
        Okm (row_off b d (S r)) data /\ Exact (row_off b d r) data
    end.
  Definition MLeft {X} (c : StoreConfig) (f : fs) (r : res X * fs) : Prop :=
    exists e f' i, r = (Panic e, f') /\ Created f f' (Some (cfg_path c)) (Some i) /\ mleft_file (fs_data f' i).

  Lemma row_cap r : r <= d -> row_off b d r <= cap.
  Proof. intros H. unfold cap. rewrite (geom_row_off b d r H). lia. Qed.

  Lemma left_in {X} c f f1 s k e (st' : mmap_t * fs) : Created f f1 (Some (cfg_path c)) (mmap_owner s) ->
    DiedIn (mmap_owner s) f1 k st' -> MLeft (X := X) c f (Panic e, snd st').
  Proof.
    intros HC (Hk & HJ & (i & ps & Hkp & Hi)). pose proof (j_exact _ _ _ _ _ (row_cap k Hk) HJ) as HE.
    destruct HJ as ((n & Hn & R1 & R2 & R3 & HD) & _ & HO & Ho & HF). exists e, (snd st'), (h_ino (mm_file (fst st'))).
    split; [reflexivity|]. split.
    - change (Some (h_ino (mm_file (fst st')))) with (mmap_owner (fst st')). rewrite Ho. eapply Created_frame; eauto.
    - unfold mleft_file. rewrite Hkp. exists k. split; [exact Hk|]. split; [exact Hi|]. split; [exact (proj1 HD)|auto].
  Qed.
  Lemma left_pop {X} c f f1 s e (st' : mmap_t * fs) : Created f f1 (Some (cfg_path c)) (mmap_owner s) ->
    Jl (mmap_owner s) f1 st' -> Dead 0 N -> MLeft (X := X) c f (Panic e, snd st').
  Proof.
    intros HC HJ HQ. eapply (left_in c f f1 s 0); [exact HC|]. split; [lia|].
    replace (row_off b d 1) with N; [split; [exact HJ|exact HQ]|]. rewrite row_off_step. cbn [row_off]. rewrite Nat.sub_0_r. reflexivity.
  Qed.

  Lemma mfinish_or {X} c f f1 s v (s2 : mmap_t) (f2 : fs) (g : E * mmap_t -> SM fs X) :
    Created f f1 (Some (cfg_path c)) (mmap_owner s) -> Jl (mmap_owner s) f1 (s2, f2) ->
    mmap_rep EO cap N v (s2, f2) -> knows v 0 leaves ->
    (let! x := with_store s2 (st_build KO en A b N (S d) (Some c)) in g x) f2 =
      (let! x := with_store s2 (st_build DO en A b N (S d) (Some c)) in g x) f2 \/
    MLeft c f ((let! x := with_store s2 (st_build KO en A b N (S d) (Some c)) in g x) f2).
  Proof.
    intros HC (_ & HW & HO & Ho & HF) HR Hk.
    destruct (mbuild_or (mmap_owner s) f1 (S d) (Some c) v (s2, f2) HR Hk HW HO Ho HF) as [G|(e & k & st' & G & HD)].
    - left. unfold sbind, with_store. cbn [st_t mstop_store mmap_store_ops] in *. rewrite G. reflexivity.
    - right. assert (Hr : (let! x := with_store s2 (st_build KO en A b N (S d) (Some c)) in g x) f2 = (Panic e, snd st')).
      { unfold sbind, with_store. cbn [st_t mstop_store mmap_store_ops] in *. rewrite G. destruct st'. reflexivity. }
      rewrite Hr. eapply left_in; eauto.
  Qed.

  Lemma miter_or xs c f : map leaf xs = leaves -> fs_dir f (cfg_path c) = None ->
    try_from_iter_with_config EO KO A en b (Some N) (map Ok xs) c f = try_from_iter_with_config EO DO A en b (Some N) (map Ok xs) c f \/
    MLeft c f (try_from_iter_with_config EO KO A en b (Some N) (map Ok xs) c f).
  Proof.
    intros Hx Hp. unfold try_from_iter_with_config. rewrite !(sbind_ok _ _ f N f) by reflexivity.
    unfold N. rewrite leafs_checks_full by auto. fold cap N. rewrite !(sbind_ok _ _ f (cap, S d) f) by reflexivity.
    destruct (mstop_newc c f Hp) as [(Hk & f' & i & H1 & HC & He)|(s & f1 & H1 & H2 & HD & HR & HC)].
    - right. exists "killed"%string, f', i. split; [|split; [exact HC|unfold mleft_file; rewrite Hk; exact He]].
      assert (H1' : st_new_with_config KO cap b c f = (killed, f')) by exact H1. exact (sbind_dead _ _ _ _ _ H1').
    - assert (H1' : st_new_with_config KO cap b c f = (Ok s, f1)) by exact H1. rewrite (sbind_ok _ _ _ _ _ H1').
      assert (H2' : st_new_with_config DO cap b c f = (Ok s, f1)) by exact H2. rewrite (sbind_ok _ _ _ _ _ H2').
      change (st_loaded_from_disk KO s) with false. change (st_loaded_from_disk DO s) with false.
      destruct (populate_ok EO DO mmap_owner mmap_W (mmap_rep EO) false (sl_pop _ _ _ _ _ _ (mmap_laws EO EL)) A AL en cap xs _ (s, f1) (proj1 (proj2 HD)) HR)
        as (v & [s1 f2] & P1 & P2 & P3 & P4 & P5).
      { rewrite <- (map_length leaf xs), Hx, Hl. apply leaves_in. }
      assert (Hlx : List.length xs = N) by (unfold N; rewrite <- Hl, <- Hx, map_length; reflexivity).
      change (map (h_leaf A) xs) with (map leaf xs) in P4. rewrite Hx in P4. rewrite Hlx in P3.
      destruct (mpopulate_or (mmap_owner s) f1 xs (s, f1) HD (proj1 HR) Hx) as [(st' & Q1 & Q2 & HDy)|(st' & Q1 & HDy & HQ)].
      + assert (st' = (s1, f2)) by (pose proof (eq_trans (eq_sym Q2) P1) as Z; injection Z as ->; reflexivity). subst st'.
        assert (WK : with_store s (sexpect (populate_data EO KO A en (map Ok xs)) "failed to populate data") f1 = (Ok (tt, s1), f2))
          by (unfold with_store, sexpect; rewrite Q1; reflexivity).
        assert (WD : with_store s (sexpect (populate_data EO DO A en (map Ok xs)) "failed to populate data") f1 = (Ok (tt, s1), f2))
          by (unfold with_store, sexpect; rewrite Q2; reflexivity).
        rewrite (sbind_ok _ _ _ _ _ WK), (sbind_ok _ _ _ _ _ WD).
        exact (mfinish_or c f f1 s v s1 f2 _ HC HDy P3 P4).
      + right. match goal with |- MLeft c f ?r => assert (Hr : r = (killed, snd st')) end.
        { assert (WK : with_store s (sexpect (populate_data EO KO A en (map Ok xs)) "failed to populate data") f1 = (killed, snd st'))
            by (unfold with_store, sexpect; rewrite Q1; destruct st'; reflexivity).
          exact (sbind_dead _ _ _ _ _ WK). }
        rewrite Hr. eapply left_pop; eauto.
  Qed.

  Lemma mpar_or xs c f : 0 < p_block (env_params en) -> map leaf xs = leaves -> fs_dir f (cfg_path c) = None ->
    from_par_iter_with_config EO KO A en b xs c f = from_par_iter_with_config EO DO A en b xs c f \/
    MLeft c f (from_par_iter_with_config EO KO A en b xs c f).
  Proof.
    intros Hblk Hx Hp. assert (Hlx : List.length xs = N) by (unfold N; rewrite <- Hl, <- Hx, map_length; reflexivity).
    unfold from_par_iter_with_config. cbv zeta. rewrite Hlx.
    unfold N. rewrite leafs_checks_full by auto. fold cap N. rewrite !(sbind_ok _ _ f (cap, S d) f) by reflexivity.
    destruct (mstop_newc c f Hp) as [(Hk & f' & i & H1 & HC & He)|(s & f1 & H1 & H2 & HD & HR & HC)].
    - right. exists "killed"%string, f', i. split; [|split; [exact HC|unfold mleft_file; rewrite Hk; exact He]].
      assert (H1' : st_new_with_config KO cap b c f = (killed, f')) by exact H1. exact (sbind_dead _ _ _ _ _ H1').
    - assert (H1' : st_new_with_config KO cap b c f = (Ok s, f1)) by exact H1. rewrite (sbind_ok _ _ _ _ _ H1').
      assert (H2' : st_new_with_config DO cap b c f = (Ok s, f1)) by exact H2. rewrite (sbind_ok _ _ _ _ _ H2').
      change (st_loaded_from_disk KO s) with false. change (st_loaded_from_disk DO s) with false.
      destruct (populate_par_ok EO DO mmap_owner mmap_W (mmap_rep EO) false (sl_pop _ _ _ _ _ _ (mmap_laws EO EL)) A AL en cap xs _ (s, f1) Hblk (proj1 (proj2 HD)) HR)
        as (v & [s1 f2] & P1 & P2 & P3 & P4 & P5).
      { rewrite Hlx. apply leaves_in. }
      change (map (h_leaf A) xs) with (map leaf xs) in P4. rewrite Hx in P4. rewrite Hlx in P3.
      destruct (mpopulate_par_or (mmap_owner s) f1 xs (s, f1) Hblk HD (proj1 HR) Hx) as [(st' & Q1 & Q2 & HDy)|(e & st' & Q1 & HDy & HQ)].
      + assert (st' = (s1, f2)) by (pose proof (eq_trans (eq_sym Q2) P1) as Z; injection Z as ->; reflexivity). subst st'.
        assert (WK : with_store s (populate_data_par EO KO A en xs) f1 = (Ok (tt, s1), f2)) by (unfold with_store; rewrite Q1; reflexivity).
        assert (WD : with_store s (populate_data_par EO DO A en xs) f1 = (Ok (tt, s1), f2)) by (unfold with_store; rewrite Q2; reflexivity).
        rewrite (sbind_ok _ _ _ _ _ WK), (sbind_ok _ _ _ _ _ WD).
        exact (mfinish_or c f f1 s v s1 f2 _ HC HDy P3 P4).
      + right. match goal with |- MLeft c f ?r => assert (Hr : r = (Panic e, snd st')) end.
        { assert (WK : with_store s (populate_data_par EO KO A en xs) f1 = (Panic e, snd st'))
            by (unfold with_store; rewrite Q1; destruct st'; reflexivity).
          exact (sbind_dead _ _ _ _ _ WK). }
        rewrite Hr. eapply left_pop; eauto.
  Qed.

  Lemma mbytes_or c f : fs_dir f (cfg_path c) = None ->
    from_byte_slice_with_config EO KO A en b (encode EO leaves) c f = from_byte_slice_with_config EO DO A en b (encode EO leaves) c f \/
    MLeft c f (from_byte_slice_with_config EO KO A en b (encode EO leaves) c f).
  Proof.
    intros Hp. pose proof (bl_pos EO EL) as Hbl. fold bl in Hbl. unfold from_byte_slice_with_config.
    rewrite encode_length, Nat.mod_mul, Nat.eqb_refl, Nat.div_mul by (auto; fold bl; lia).
    unfold ensure at 1 2. rewrite !(sbind_ok _ _ f tt f) by reflexivity. rewrite Hl.
    rewrite leafs_checks_full by auto. fold cap N. rewrite !(sbind_ok _ _ f (cap, S d) f) by reflexivity.
    assert (Hsl : forall (nw : SM fs mmap_t) (fill : mmap_t -> SM fs mmap_t), (let! _ := slift (ensure (List.length (encode EO leaves) mod bl =? 0) "data size must be a multiple of byte_len") in
       let! s := nw in fill s) f = (let! s := nw in fill s) f :> res mmap_t * fs).
    { intros nw fill. rewrite encode_length by auto. fold bl. rewrite Nat.mod_mul, Nat.eqb_refl by lia. unfold ensure. rewrite (sbind_ok _ _ f tt f) by reflexivity. reflexivity. }
    assert (HK : st_new_from_slice_with_config KO cap b (encode EO leaves) c f =
      (let! s := mstop_new_with_config EO kp cap b c in mstop_fill EO kp (encode EO leaves) s) f) by apply Hsl.
    assert (HDn : st_new_from_slice_with_config DO cap b (encode EO leaves) c f =
      (let! s := mmap_new_with_config EO cap b c in mmap_fill EO (encode EO leaves) s) f) by apply Hsl.
    clear Hsl.
    destruct (mstop_newc c f Hp) as [(Hk & f' & i & H1 & HC & He)|(s & f1 & H1 & H2 & HD & HR & HC)].
    - right. exists "killed"%string, f', i. split; [|split; [exact HC|unfold mleft_file; rewrite Hk; exact He]].
      rewrite (sbind_dead _ _ _ _ _ H1) in HK. exact (sbind_dead _ _ _ _ _ HK).
    - rewrite (sbind_ok _ _ _ _ _ H1) in HK. rewrite (sbind_ok _ _ _ _ _ H2) in HDn.
      destruct (StopFacts.leaves_part EO A b Hb leaves d Hd Hl [] leaves []) as [P1 P2]; [rewrite app_nil_r; reflexivity|]. cbn [List.length] in P1, P2.
      destruct (put_or (mmap_owner s) f1 0 N (s, f1) leaves 0 P1 (le_n _) P2 leaves_in HD) as (S1 & (f2 & S2 & HJ2) & Hor). rewrite Nat.mul_0_l in *.
      destruct (mmap_fill_ok EO EL cap leaves s f1 0 HR ltac:(pose proof leaves_in as Z; unfold N in Z; lia)) as (s' & f2' & F1 & F2 & [F3 F3'] & F4).
      assert (Hs' : f2' = f2 /\ s' = mm_set_len s (List.length (encode EO leaves) / bl)).
      { unfold mmap_fill in F1. unfold sbind in F1. rewrite S1 in F1. cbn [fst] in S2. rewrite S2 in F1. injection F1 as <- <-. auto. }
      destruct Hs' as [-> Hs']. rewrite F1 in HDn.
      destruct Hor as [Hs|(st' & Hs & HDy & HQ)].
      + assert (HK2 : mstop_fill EO kp (encode EO leaves) s f1 = (Ok s', f2)).
        { unfold mstop_fill. unfold sbind. rewrite S1, Hs, S2. cbn [fst]. fold bl. rewrite Hs'. reflexivity. }
        rewrite HK2 in HK. rewrite (sbind_ok _ _ _ _ _ HK), (sbind_ok _ _ _ _ _ HDn).
        apply (mfinish_or c f f1 s (nth_error leaves) s' f2 _ HC); [|rewrite Hl in F2; exact F2|intros k Hk; reflexivity].
        destruct HJ2 as ((n & Hn & R1 & R2 & R3 & R4) & HW & HO & Ho & HFr). cbn [fst snd] in *. rewrite Hl in F2.
        split; [exists N; split; [lia|]|split; [unfold mmap_W; cbn [fst]; rewrite F3'; exact HW|split; [|split; [rewrite Hs'; exact Ho|exact HFr]]]].
        * destruct F2 as (X1 & X2 & X3 & X4). split; [exact X1|]. split; [exact X2|]. split; [exact X3|]. eapply DRep_weaken; [|exact X4].
          intros i e He. unfold lim in He. replace (i <? 0) with false in He by lia. discriminate.
        * cbn [fst snd]. rewrite F3'. exact HO.
      + right. assert (HK2 : mstop_fill EO kp (encode EO leaves) s f1 = (killed, snd st')).
        { unfold mstop_fill. unfold sbind. rewrite S1, Hs. destruct st'. reflexivity. }
        rewrite HK2 in HK. rewrite (sbind_dead _ _ _ _ _ HK). exact (left_pop c f f1 s _ st' HC HDy HQ).
  Qed.

  Lemma mstop_cases c f r : fs_dir f (cfg_path c) = None -> cfg_builder EO KO A en b c leaves f r ->
    cfg_builder EO DO A en b c leaves f r \/ MLeft c f r.
  Proof.
    intros Hp HB. remember leaves as lv eqn:Hlv in HB. destruct HB.
    - assert (Hlx : List.length xs = N) by (unfold N; rewrite <- Hl, <- Hlv, map_length; reflexivity).
      destruct (miter_or xs c f Hlv Hp) as [H|H]; unfold mt_new_with_config; rewrite Hlx.
      + left. rewrite H, <- Hlx, <- Hlv. apply (CB_new EO DO).
      + right. exact H.
    - destruct (mpar_or xs c f H Hlv Hp) as [G|G]; [left; rewrite G, <- Hlv; apply (CB_par EO DO); auto|right; exact G].
    - assert (Hlx : List.length xs = N) by (unfold N; rewrite <- Hl, <- Hlv, map_length; reflexivity).
      destruct (miter_or (map (hash_of A) xs) c f) as [G|G]; [rewrite map_map; exact Hlv|exact Hp| |].
      + left. unfold from_data_with_config. rewrite (hash_items_ok A AL). rewrite Hlx, G, <- (hash_items_ok A AL xs (a_default A)), <- Hlx, <- Hlv. apply (CB_data EO DO).
      + right. unfold from_data_with_config. rewrite (hash_items_ok A AL), Hlx. exact G.
    - subst els. destruct (mbytes_or c f Hp) as [G|G]; [left; rewrite G; apply (CB_bytes EO DO)|right; exact G].
  Qed.
End MStop.

(* ---- opening whatever file is there ---- *)
Section MBelieve.
  Context {E : Type} (EO : ElementOps E) (EL : ElementLaws EO) (A : AlgOps E).
  Variables (en : env) (b : nat).
  Hypothesis Hb : arity b.
  Hypothesis Hch : chunk_ok en b.
  Local Notation MO := (mmap_store_ops EO).
  Local Notation bl := (e_byte_len EO).

  Lemma mmap_open_len f c data n : fs_file f (cfg_path c) = Some data -> writable f (cfg_path c) -> List.length data = n * bl ->
    exists s, mmap_new_from_disk EO n b c f = (Ok s, f) /\ mmap_rep EO n n (fun _ => None) (s, f) /\ mmap_W s /\
      fs_data f (h_ino (mm_file s)) = data.
  Proof.
    intros Hf Hw Hn. apply file_inv in Hf. destruct Hf as (i & Hi & Hdt).
    destruct (mmap_open EO b f c i n Hi) as [(s & S1 & S2 & S3 & S4 & S5)|(r & _ & _ & [X|X])].
    - exists s. rewrite S4. auto.
    - rewrite (Hw i Hi) in X. discriminate.
    - congruence.
  Qed.

  Lemma mmap_read_any s f n j : mmap_rep EO n n (fun _ => None) (s, f) -> j < n ->
    mmap_read_at EO (s, f) j = e_from_slice EO (sub (fs_data f (h_ino (mm_file s))) (j * bl) bl).
  Proof.
    intros (R1 & R2 & R3 & HD1 & _) Hj. cbn [fst snd] in *. pose proof (bl_pos EO EL) as Hbl. pose proof (Nat.mul_le_mono_r (S j) n bl Hj) as Hm. cbn [Nat.mul] in Hm.
    unfold mmap_read_at, mmap_check, mmap_slice, fs_map_read, fs_size. cbn [fst snd]. rewrite R1, R3, HD1.
    replace (j * bl <? n * bl) with true by lia. cbn [ensure rbind]. replace (j * bl + bl <=? n * bl) with true by lia. cbn [ensure rbind].
    replace (j * bl <=? j * bl + bl) with true by lia. cbn [andb]. replace (j * bl + bl - j * bl) with bl by lia.
    replace (j * bl + bl <=? n * bl) with true by lia. rewrite orb_true_r. reflexivity.
  Qed.

  Lemma open_any f c d data : 1 <= d -> fs_file f (cfg_path c) = Some data -> writable f (cfg_path c) -> List.length data = geom b d * bl ->
    exists s t, mmap_new_from_disk EO (geom b d) b c f = (Ok s, f) /\ from_data_store MO b 0 0 s (b ^ d) f = (Ok t, f) /\
      mt_leafs t = b ^ d /\ e_from_slice EO (sub data ((geom b d - 1) * bl) bl) = Ok (mt_root t) /\
      forall j, j < geom b d -> mt_read_at MO 0 0 t f j = e_from_slice EO (sub data (j * bl) bl).
  Proof.
    intros Hd Hf Hw Hn. pose proof (geom_pos b d) as Hg. pose proof (bl_pos EO EL) as Hbl.
    destruct (mmap_open_len f c data (geom b d) Hf Hw Hn) as (s & S1 & S2 & S3 & S4).
    destruct (el_total EO EL (sub data ((geom b d - 1) * bl) bl)) as [root Hroot].
    { rewrite sub_length, Hn. pose proof (Nat.mul_sub_distr_r (geom b d) 1 bl) as M. pose proof (Nat.mul_le_mono_r 1 (geom b d) bl ltac:(lia)). lia. }
    assert (Hread : forall j, j < geom b d -> mmap_read_at EO (s, f) j = e_from_slice EO (sub data (j * bl) bl)).
    { intros j Hj. rewrite (mmap_read_any s f (geom b d) j S2 Hj), S4. reflexivity. }
    assert (Hlen : st_len MO s = geom b d) by exact (proj1 S2).
    assert (Hlast : sreads (store_last MO s) f = (Ok root, f)).
    { unfold sreads, store_last. rewrite Hlen. rewrite checked_sub_ok by lia. cbn [rbind]. f_equal. rewrite <- Hroot. apply (Hread (geom b d - 1)). lia. }
    exists s, (mk_base MO s (b ^ d) (geom b d) (get_merkle_tree_row_count (b ^ d) b) root). split; [exact S1|]. split.
    - unfold from_data_store. cbn [Nat.eqb ensure].
      rewrite (sbind_ok _ _ f tt f) by reflexivity. rewrite (sbind_ok _ _ f tt f) by reflexivity.
      replace (next_pow2 (b ^ d) =? b ^ d) with true by (symmetry; apply next_pow2_eqb, pow2_pow, arity_pow2; auto).
      rewrite (arity_next b Hb), Nat.eqb_refl. cbn [ensure].
      rewrite (sbind_ok _ _ f tt f) by reflexivity. rewrite (sbind_ok _ _ f tt f) by reflexivity.
      rewrite get_merkle_tree_len_full by auto. rewrite (sbind_ok _ _ f (geom b d) f) by reflexivity.
      rewrite Hlen, Nat.eqb_refl. cbn [ensure]. rewrite (sbind_ok _ _ f tt f) by reflexivity.
      rewrite size_valid_full by auto. rewrite (sbind_ok _ _ f true f) by reflexivity. cbn [ensure].
      rewrite (sbind_ok _ _ f tt f) by reflexivity. rewrite (sbind_ok _ _ _ _ _ Hlast). reflexivity.
    - split; [reflexivity|]. split; [exact Hroot|]. intros j Hj. exact (Hread j Hj).
  Qed.

  (* from_byte_slice_with_config overwrites a file of the right length *)
  Lemma refill f c d data els : 1 <= d -> fs_file f (cfg_path c) = Some data -> writable f (cfg_path c) -> List.length data = geom b d * bl ->
    List.length els = b ^ d ->
    exists t f', from_byte_slice_with_config EO MO A en b (encode EO els) c f = (Ok t, f').
  Proof.
    intros Hd Hf Hw Hn Hl. pose proof (bl_pos EO EL) as Hbl.
    destruct (mmap_open_len f c data (geom b d) Hf Hw Hn) as (s & S1 & S2 & S3 & S4).
    apply file_inv in Hf. destruct Hf as (i & Hi & Hdt).
    unfold from_byte_slice_with_config.
    rewrite encode_length, Nat.mod_mul, Nat.eqb_refl, Nat.div_mul by (auto; lia).
    unfold ensure at 1. rewrite (sbind_ok _ _ f tt f) by reflexivity. rewrite Hl.
    rewrite leafs_checks_full by auto. rewrite (sbind_ok _ _ f (geom b d, S d) f) by reflexivity.
    destruct (mmap_fill_ok EO EL (geom b d) els s f _ S2) as (s' & f1 & F1 & F2 & (F3 & F5) & F4); [rewrite Hl; apply geom_gt|].
    assert (Hs : st_new_from_slice_with_config MO (geom b d) b (encode EO els) c f = (Ok s', f1)).
    { cbn [st_new_from_slice_with_config mmap_store_ops]. unfold mmap_new_from_slice_with_config.
      rewrite encode_length, Nat.mod_mul, Nat.eqb_refl by (auto; lia). cbn [ensure]. rewrite (sbind_ok _ _ f tt f) by reflexivity.
      unfold sbind. rewrite (mmap_newc_existing EO b f c i _ Hi), S1. exact F1. }
    rewrite (sbind_ok _ _ _ _ _ Hs). rewrite Hl in F2.
    destruct (finish_ok EO MO mmap_owner mmap_W (mmap_rep EO) false (mmap_laws EO EL) A b Hb en Hch d els (nth_error els) s' f1 (Some c) Hd Hl ltac:(unfold mmap_W; rewrite F5; exact S3) F2 ltac:(intros k Hk; reflexivity))
      as (root & s2 & f2 & B1 & B2 & _).
    rewrite (sbind_ok _ _ _ _ _ B1). eexists _, f2. reflexivity.
  Qed.
End MBelieve.
