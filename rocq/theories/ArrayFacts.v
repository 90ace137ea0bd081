(* The stores behave like arrays: simulation lemmas. *)
From Coq Require Import String List Arith Bool Lia Init.Byte ZifyBool ZifyNat.
From Verif Require Import Base Element Hash Sizing FS Sched Store VecStore DiskStore MmapStore LevelCache ListFacts Spec SpecFacts SizingFacts SchedFacts StoreLaws RowFacts ChunkFacts BuildFacts BuildLoop StoreSpec FileFacts MapLayer DiskFacts ArraySpec.
Import ListNotations.

Lemma nth_nth_error {X} (l : list X) i d : i < List.length l -> nth_error l i = Some (nth i l d).
Proof. revert i; induction l; intros [|i] H; simpl in *; try lia; auto. apply IHl. lia. Qed.

Lemma nth_error_map_seq {X} (f : nat -> X) n i : i < n -> nth_error (map f (seq 0 n)) i = Some (f i).
Proof.
  intros H. rewrite nth_error_map, nth_error_nth' with (d := 0) by (rewrite seq_length; auto).
  rewrite seq_nth by auto. reflexivity.
Qed.

Lemma nth_error_past {X} (l : list X) i : List.length l <= i -> nth_error l i = None.
Proof. apply nth_error_None. Qed.

Section Put.
  Context {E : Type} (z : E).
  Lemma arr_put_length arr start els :
    List.length (arr_put z arr start els) = Nat.max (List.length arr) (start + List.length els).
  Proof. unfold arr_put. rewrite map_length, seq_length. reflexivity. Qed.
  Lemma arr_put_nth arr start els i :
    nth i (arr_put z arr start els) z =
    if (start <=? i) && (i <? start + List.length els) then nth (i - start) els z else nth i arr z.
  Proof.
    destruct (le_lt_dec (Nat.max (List.length arr) (start + List.length els)) i) as [L|L].
    - rewrite nth_overflow by (rewrite arr_put_length; auto).
      replace ((start <=? i) && (i <? start + List.length els)) with false by lia.
      rewrite nth_overflow by lia. reflexivity.
    - apply nth_error_nth. unfold arr_put. rewrite nth_error_map_seq by auto. reflexivity.
  Qed.
  Lemma arr_put_error arr start els i :
    i < Nat.max (List.length arr) (start + List.length els) ->
    nth_error (arr_put z arr start els) i =
    Some (if (start <=? i) && (i <? start + List.length els) then nth (i - start) els z else nth i arr z).
  Proof. intros H. unfold arr_put. apply nth_error_map_seq. exact H. Qed.
End Put.

Section FRep.
  Context {E : Type} (EO : ElementOps E) (EL : ElementLaws EO).
  Local Notation bl := (e_byte_len EO).
  Variable z : E.

  Definition FRep (cap : nat) (arr : list E) (data : list byte) : Prop :=
    List.length data = cap * bl /\ List.length arr <= cap /\
    forall i, i < cap -> e_from_slice EO (sub data (i * bl) bl) = Ok (nth i arr z).

  Lemma mul_bl a b : a <= b <-> a * bl <= b * bl.
  Proof. pose proof (el_pos EO EL). fold bl in H. nia. Qed.

  (* decoding element by element *)
  Lemma decode_nth bs k els : List.length bs = k * bl ->
    (decode EO bs = Ok els <->
     List.length els = k /\ forall i, i < k -> e_from_slice EO (sub bs (i * bl) bl) = Ok (nth i els z)).
  Proof.
    intros Hl. pose proof (el_pos EO EL) as Hbl. fold bl in Hbl.
    unfold decode. fold bl. rewrite (chunks_full bl k) by auto. rewrite rmap_ok_Forall2.
    split.
    - intros H. pose proof (Forall2_length _ _ _ H) as HL. rewrite map_length, seq_length in HL.
      split; [auto|]. intros i Hi.
      assert (G : forall l1 l2, Forall2 (fun x y => e_from_slice EO x = Ok y) l1 l2 ->
                forall j x, nth_error l1 j = Some x -> e_from_slice EO x = Ok (nth j l2 z)).
      { induction 1 as [|x y l1 l2 Hxy HF IH]; intros [|j] w Hw; simpl in *; try discriminate.
        - inversion Hw. subst. exact Hxy.
        - apply IH. exact Hw. }
      apply (G _ _ H). rewrite nth_error_map_seq by auto. reflexivity.
    - intros [HL H]. subst k.
      assert (G : forall n s l, List.length l = n ->
                (forall i, i < n -> e_from_slice EO (sub bs ((s + i) * bl) bl) = Ok (nth i l z)) ->
                Forall2 (fun x y => e_from_slice EO x = Ok y) (map (fun i => sub bs (i * bl) bl) (seq s n)) l).
      { induction n; intros s l Hn Hx; destruct l; simpl in *; try lia; constructor.
        - specialize (Hx 0 ltac:(lia)). rewrite Nat.add_0_r in Hx. exact Hx.
        - apply IHn; [lia|]. intros i Hi. specialize (Hx (S i) ltac:(lia)).
          replace (S s + i) with (s + S i) by lia. exact Hx. }
      apply G; auto.
  Qed.

  Lemma sub_sub {X} (l : list X) a n c m : c + m <= n -> sub (sub l a n) c m = sub l (a + c) m.
  Proof.
    intros H. apply nth_error_ext. intros i. rewrite !nth_error_sub.
    destruct (i <? m) eqn:G; [|reflexivity].
    replace (c + i <? n) with true by lia. f_equal. lia.
  Qed.

  Lemma FRep_length cap arr data : FRep cap arr data -> List.length data = cap * bl.
  Proof. intros [H _]. exact H. Qed.

  Lemma FRep_put cap arr data start bs els :
    FRep cap arr data -> List.length bs mod bl = 0 -> decode EO bs = Ok els -> start + List.length els <= cap ->
    FRep cap (arr_put z arr start els) (overwrite data (start * bl) bs).
  Proof.
    intros (F1 & F2 & F3) Hm Hd Hc. pose proof (el_pos EO EL) as Hbl. fold bl in Hbl.
    assert (Hk : List.length bs = (List.length bs / bl) * bl).
    { pose proof (Nat.div_mod_eq (List.length bs) bl). rewrite Hm in H. rewrite Nat.mul_comm. lia. }
    apply (proj1 (decode_nth bs _ els Hk)) in Hd. destruct Hd as [Hn Hx]. rewrite <- Hn in Hk, Hx.
    split; [|split].
    - rewrite overwrite_length; [exact F1|]. rewrite F1, Hk. nia.
    - rewrite arr_put_length. lia.
    - intros i Hi. rewrite arr_put_nth.
      destruct ((start <=? i) && (i <? start + List.length els)) eqn:G.
      + replace (i * bl) with (start * bl + (i - start) * bl) by nia.
        rewrite sub_overwrite_in; [apply Hx; lia|nia|nia].
      + rewrite sub_overwrite_out; [apply F3; exact Hi|nia|].
        apply andb_false_iff in G. destruct G; [left|right]; nia.
  Qed.

  Lemma decode_one x : decode EO (e_as_ref EO x) = Ok [x] /\ List.length (e_as_ref EO x) mod bl = 0.
  Proof.
    pose proof (decode_encode EO EL [x]) as H. unfold encode in H. cbn [map concat] in H. rewrite app_nil_r in H.
    split; [exact H|]. pose proof (el_pos EO EL). rewrite (el_len EO EL). apply Nat.mod_same. lia.
  Qed.

  Lemma FRep_range cap arr data s e : FRep cap arr data -> s <= e -> e <= List.length arr ->
    decode EO (sub data (s * bl) ((e - s) * bl)) = Ok (sub arr s (e - s)).
  Proof.
    intros (F1 & F2 & F3) H1 H2.
    assert (HB : s * bl + (e - s) * bl <= List.length data) by (rewrite F1; nia).
    apply (decode_nth _ (e - s)).
    - apply sub_length_le. exact HB.
    - split; [apply sub_length_le; lia|]. intros i Hi.
      rewrite sub_sub by nia. replace (s * bl + i * bl) with ((s + i) * bl) by lia.
      rewrite F3 by lia. f_equal. symmetry. apply nth_error_nth.
      rewrite nth_error_sub. replace (i <? e - s) with true by lia. apply nth_nth_error. lia.
  Qed.

  Lemma FRep_at cap arr data i x : FRep cap arr data -> nth_error arr i = Some x ->
    e_from_slice EO (sub data (i * bl) bl) = Ok x.
  Proof.
    intros (F1 & F2 & F3) H. pose proof (nth_error_lt _ _ _ H). rewrite F3 by lia.
    f_equal. apply nth_error_nth. exact H.
  Qed.

  Lemma FRep_zero cap : e_from_slice EO (repeat x00 bl) = Ok z -> FRep cap [] (repeat x00 (cap * bl)).
  Proof.
    intros Hz. split; [apply repeat_length|]. split; [simpl; lia|]. intros i Hi.
    replace (sub (repeat x00 (cap * bl)) (i * bl) bl) with (repeat x00 bl).
    - rewrite Hz. destruct i; reflexivity.
    - unfold sub. apply nth_error_ext. intros j.
      assert (R : forall n k, nth_error (repeat x00 n) k = if k <? n then Some x00 else None).
      { induction n; intros [|k]; simpl; auto. apply IHn. }
      rewrite nth_error_firstn. rewrite nth_error_skipn. rewrite !R.
      destruct (j <? bl) eqn:G; [|reflexivity].
      replace (i * bl + j <? cap * bl) with true by nia. reflexivity.
  Qed.

  (* a whole file *)
  Lemma FRep_file arr data : decode EO data = Ok arr -> List.length data mod bl = 0 ->
    FRep (List.length arr) arr data.
  Proof.
    intros H Hm. pose proof (el_pos EO EL) as Hbl. fold bl in Hbl.
    assert (Hk : List.length data = (List.length data / bl) * bl).
    { pose proof (Nat.div_mod_eq (List.length data) bl). rewrite Hm in H0. rewrite Nat.mul_comm. lia. }
    apply (proj1 (decode_nth data _ arr Hk)) in H. destruct H as [Hn Hx]. rewrite <- Hn in Hk, Hx.
    split; [exact Hk|]. split; auto.
  Qed.

  Lemma els_len bs els : List.length bs mod bl = 0 -> decode EO bs = Ok els ->
    List.length bs = List.length els * bl /\ List.length bs / bl = List.length els.
  Proof.
    intros Hm Hd. pose proof (el_pos EO EL) as Hbl. fold bl in Hbl.
    assert (Hk : List.length bs = (List.length bs / bl) * bl).
    { pose proof (Nat.div_mod_eq (List.length bs) bl). rewrite Hm in H. rewrite Nat.mul_comm. lia. }
    apply (proj1 (decode_nth bs _ els Hk)) in Hd. destruct Hd as [Hn _]. rewrite Hn. auto.
  Qed.

  Lemma decode_ok_mod bs : List.length bs mod bl = 0 -> exists els, decode EO bs = Ok els.
  Proof.
    intros Hm. pose proof (el_pos EO EL) as Hbl. fold bl in Hbl.
    destruct (decode_total EO EL bs (List.length bs / bl)) as (l & H & _); [|eauto].
    pose proof (Nat.div_mod_eq (List.length bs) bl). rewrite Hm in H. fold bl. rewrite Nat.mul_comm. lia.
  Qed.
End FRep.

(* ---- simulation ---- *)
Section Sim.
  Context {E : Type} (EO : ElementOps E) (EL : ElementLaws EO) (SO : StoreOps E).
  Local Notation bl := (e_byte_len EO).
  Variable z : E.
  Variable cap : option nat.
  Variable Rep : list E -> st_t SO * fs -> Prop.

  (* the state after a refused update is the old one *)
  Definition sim : Prop := forall arr st o, Rep arr st ->
    match op_effect EO arr o with
    | Some (start, els) =>
        if fits cap start els
        then exists st', run_op SO o st = (Ok tt, st') /\ Rep (arr_put z arr start els) st'
        else exists r, run_op SO o st = (r, st) /\ is_ok r = false
    | None => exists r, run_op SO o st = (r, st) /\ is_ok r = false
    end.

  Variable ra : st_t SO * fs -> nat -> res E.
  Variable rr : st_t SO * fs -> nat -> nat -> res (list E).
  Variable vis : nat -> Prop.

  Lemma sim_behaves : sim -> (forall arr st, Rep arr st -> shows (st_len SO) ra rr vis arr st) ->
    forall arr st, Rep arr st -> behaves EO SO z cap ra rr vis arr st.
  Proof.
    intros HS HV arr st HR ops. revert arr st HR.
    induction ops as [|o ops IH]; intros arr st HR.
    - cbn. auto.
    - cbn [run_ops arr_ops]. specialize (HS arr st o HR). unfold arr_op.
      assert (G : exists r st', run_op SO o st = (r, st') /\
          exists k a, match op_effect EO arr o with
            | Some (start, els) => if fits cap start els then (true, arr_put z arr start els) else (false, arr)
            | None => (false, arr) end = (k, a) /\ is_ok r = k /\ Rep a st').
      { destruct (op_effect EO arr o) as [[start els]|].
        - destruct (fits cap start els).
          + destruct HS as (st' & H1 & H2). eexists _, _. split; [exact H1|]. eexists _, _. split; [reflexivity|]. auto.
          + destruct HS as (r & H1 & H2). eexists _, _. split; [exact H1|]. eexists _, _. split; [reflexivity|]. auto.
        - destruct HS as (r & H1 & H2). eexists _, _. split; [exact H1|]. eexists _, _. split; [reflexivity|]. auto. }
      destruct G as (r & st' & G1 & k & a & G2 & G3 & G4). rewrite G1, G2.
      specialize (IH a st' G4).
      destruct (run_ops SO ops st') as [rs st2]. destruct (arr_ops EO z cap ops a) as [ks a2].
      destruct IH as [IH1 IH2]. split; [|exact IH2]. cbn [map]. rewrite G3, IH1. reflexivity.
  Qed.
End Sim.

(* ---- DiskStore ---- *)
Section Disk.
  Context {E : Type} (EO : ElementOps E) (EL : ElementLaws EO).
  Local Notation bl := (e_byte_len EO).
  Variable z : E.

  Definition disk_arr (cap : nat) (arr : list E) (st : disk_t * fs) : Prop :=
    ds_len (fst st) = List.length arr /\ ds_size (fst st) = cap * bl /\ h_write (ds_file (fst st)) = true /\
    FRep EO z cap arr (fs_data (snd st) (h_ino (ds_file (fst st)))).

  Lemma disk_put cap arr st start bs els : disk_arr cap arr st -> List.length bs mod bl = 0 -> decode EO bs = Ok els ->
    start + List.length els <= cap ->
    exists f', disk_store_copy_from_slice (start * bl) bs st = (Ok tt, (fst st, f')) /\
      FRep EO z cap (arr_put z arr start els) (fs_data f' (h_ino (ds_file (fst st)))) /\
      fs_frame (disk_owner (fst st)) (snd st) f'.
  Proof.
    intros (H1 & H2 & H3 & HD) Hm Hd Hc. destruct (els_len EO EL z bs els Hm Hd) as [Hl _]. fold bl in Hl.
    unfold disk_store_copy_from_slice.
    assert (Hle : start * bl + List.length bs <= cap * bl) by (rewrite Hl; nia).
    rewrite H2. replace (_ <=? _) with true by lia. unfold on_fs.
    destruct (write_all_in (ds_file (fst st)) (start * bl) bs (snd st)) as (f' & -> & Hd' & Hfr);
      [exact H3|rewrite (FRep_length EO z _ _ _ HD); exact Hle|].
    eexists. split; [reflexivity|]. split; [|exact Hfr].
    rewrite Hd'. apply FRep_put; auto.
  Qed.

  Lemma disk_refuse start bs st : ds_size (fst st) < start + List.length bs ->
    disk_store_copy_from_slice start bs st = (Err "Requested slice too large", st).
  Proof. intros H. unfold disk_store_copy_from_slice. replace (_ <=? _) with false by lia. reflexivity. Qed.

  Lemma disk_write_at_sim cap arr st x i : disk_arr cap arr st ->
    if i + 1 <=? cap then exists st', disk_write_at EO x i st = (Ok tt, st') /\ disk_arr cap (arr_put z arr i [x]) st'
    else exists r, disk_write_at EO x i st = (r, st) /\ is_ok r = false.
  Proof.
    intros HR. destruct (decode_one EO EL x) as [Hd Hm]. pose proof HR as (H1 & H2 & H3 & HD).
    pose proof (el_pos EO EL) as Hbl. fold bl in Hbl.
    unfold disk_write_at. fold bl. destruct (i + 1 <=? cap) eqn:G.
    - destruct (disk_put cap arr st i _ [x] HR Hm Hd ltac:(simpl; lia)) as (f' & G1 & G2 & _).
      rewrite (sbind_ok _ _ _ _ _ G1). rewrite (sbind_ok _ _ (fst st, f') (fst st, f') (fst st, f')) by reflexivity.
      eexists. split; [reflexivity|]. split; [cbn; rewrite arr_put_length, H1; reflexivity|]. auto.
    - unfold sbind at 1. rewrite disk_refuse; [eexists; split; reflexivity|].
      rewrite H2, (el_len EO EL). fold bl. nia.
  Qed.

  Lemma disk_sim cap : sim EO (disk_store EO) z (Some cap) (disk_arr cap).
  Proof.
    intros arr st o HR. pose proof HR as (H1 & H2 & H3 & HD).
    pose proof (el_pos EO EL) as Hbl. fold bl in Hbl.
    destruct o as [x i|bs start|x]; cbn [op_effect run_op disk_store st_write_at st_copy_from_slice st_push fits List.length].
    - apply disk_write_at_sim. exact HR.
    - unfold disk_copy_from_slice. fold bl. destruct (List.length bs mod bl =? 0) eqn:Hm.
      + apply Nat.eqb_eq in Hm. destruct (decode_ok_mod EO EL bs Hm) as [els Hd]. rewrite Hd.
        destruct (els_len EO EL z bs els Hm Hd) as [Hl Hq]. fold bl in Hl, Hq.
        unfold ensure. rewrite (sbind_ok _ _ st tt st) by reflexivity.
        destruct (start + List.length els <=? cap) eqn:G.
        * destruct (disk_put cap arr st start bs els HR Hm Hd ltac:(lia)) as (f' & G1 & G2 & _).
          rewrite (sbind_ok _ _ _ _ _ G1). rewrite (sbind_ok _ _ (fst st, f') (fst st, f') (fst st, f')) by reflexivity.
          eexists. split; [reflexivity|]. split; [cbn; rewrite arr_put_length, H1, Hq; reflexivity|]. auto.
        * unfold sbind at 1. rewrite disk_refuse; [eexists; split; reflexivity|].
          rewrite H2, Hl. nia.
      + eexists. split; [reflexivity|reflexivity].
    - unfold disk_push. fold bl. rewrite (sbind_ok _ _ st st st) by reflexivity. rewrite H1, H2.
      pose proof (disk_write_at_sim cap arr st x (List.length arr) HR) as HW.
      destruct (List.length arr + 1 <=? cap) eqn:G.
      + replace ((List.length arr + 1) * bl <=? cap * bl) with true by nia.
        unfold ensure. rewrite (sbind_ok _ _ st tt st) by reflexivity. exact HW.
      + replace ((List.length arr + 1) * bl <=? cap * bl) with false by nia.
        eexists. split; reflexivity.
  Qed.

  Lemma disk_range cap arr st s e : FRep EO z cap arr (fs_data (snd st) (h_ino (ds_file (fst st)))) ->
    s <= e -> e <= List.length arr ->
    disk_store_read_range st (s * bl) (e * bl) = Ok (sub (fs_data (snd st) (h_ino (ds_file (fst st)))) (s * bl) ((e - s) * bl)).
  Proof.
    intros HD Hs He. unfold disk_store_read_range. rewrite checked_sub_ok by nia. cbn [rbind].
    replace (e * bl - s * bl) with ((e - s) * bl) by nia.
    unfold fs_read_exact_at. destruct ((e - s) * bl =? 0) eqn:G.
    - apply Nat.eqb_eq in G. rewrite G, sub_zero. reflexivity.
    - unfold fs_size. rewrite (FRep_length EO z _ _ _ HD). destruct HD as (_ & HC & _). fold bl.
      replace (s * bl + (e - s) * bl <=? cap * bl) with true by nia. reflexivity.
  Qed.

  Lemma disk_shows cap arr st : ds_len (fst st) = List.length arr ->
    FRep EO z cap arr (fs_data (snd st) (h_ino (ds_file (fst st)))) ->
    shows ds_len (disk_read_at EO) (disk_read_range EO) (fun _ => True) arr st.
  Proof.
    intros H1 HD. pose proof (el_pos EO EL) as Hbl. fold bl in Hbl.
    split; [exact H1|]. split; [|split; [|split]].
    - intros i x Hx _. pose proof (nth_error_lt _ _ _ Hx) as Hi.
      unfold disk_read_at. fold bl. replace (i * bl + bl) with ((i + 1) * bl) by lia.
      rewrite (disk_check_ok EO EL st i (i + 1) (List.length arr)) by (auto; lia). cbn [rbind].
      rewrite (disk_range cap arr) by (auto; lia). cbn [rbind].
      replace ((i + 1 - i) * bl) with bl by nia. exact (FRep_at EO z cap arr _ i x HD Hx).
    - intros s e Hs He _. unfold disk_read_range. fold bl.
      rewrite (disk_check_ok EO EL st s e (List.length arr)) by (auto; lia). cbn [rbind].
      rewrite (disk_range cap arr) by (auto; lia). cbn [rbind]. apply (FRep_range EO EL z cap); auto. lia.
    - intros i Hi. unfold disk_read_at, disk_check. fold bl. rewrite H1.
      replace (i * bl <? List.length arr * bl) with false by nia. reflexivity.
    - intros s e He. unfold disk_read_range, disk_check. fold bl. rewrite H1.
      destruct (s * bl <? List.length arr * bl); [|reflexivity].
      replace (e * bl <=? List.length arr * bl) with false by nia. reflexivity.
  Qed.

  Lemma disk_behaves cap arr st : disk_arr cap arr st ->
    behaves EO (disk_store EO) z (Some cap) (disk_read_at EO) (disk_read_range EO) (fun _ => True) arr st.
  Proof.
    apply (sim_behaves EO (disk_store EO) z (Some cap) (disk_arr cap)); [apply disk_sim|].
    intros a s (H1 & _ & _ & H4). eapply disk_shows; eauto.
  Qed.
End Disk.

(* ---- LevelCacheStore, freshly created ---- *)
Section LC.
  Context {E : Type} (EO : ElementOps E) (EL : ElementLaws EO).
  Local Notation bl := (e_byte_len EO).
  Variable z : E.

  Definition lc_arr (cap : nat) (arr : list E) (dw cis : nat) (st : lc_t * fs) : Prop :=
    lc_len (fst st) = List.length arr /\ lc_size (fst st) = cap * bl /\ h_write (lc_file (fst st)) = true /\
    lc_data_width (fst st) = dw /\ lc_cache_index_start (fst st) = cis /\
    FRep EO z cap arr (fs_data (snd st) (h_ino (lc_file (fst st)))).

  Lemma lc_put cap arr dw cis st start bs els : lc_arr cap arr dw cis st -> List.length bs mod bl = 0 -> decode EO bs = Ok els ->
    start + List.length els <= cap ->
    exists f', lc_store_copy_from_slice (start * bl) bs st = (Ok tt, (fst st, f')) /\
      FRep EO z cap (arr_put z arr start els) (fs_data f' (h_ino (lc_file (fst st)))) /\
      fs_frame (Some (h_ino (lc_file (fst st)))) (snd st) f'.
  Proof.
    intros (H1 & H2 & H3 & _ & _ & HD) Hm Hd Hc. destruct (els_len EO EL z bs els Hm Hd) as [Hl _]. fold bl in Hl.
    unfold lc_store_copy_from_slice.
    assert (Hle : start * bl + List.length bs <= cap * bl) by (rewrite Hl; nia).
    rewrite H2. replace (_ <=? _) with true by lia. unfold on_fs.
    destruct (write_all_in (lc_file (fst st)) (start * bl) bs (snd st)) as (f' & -> & Hd' & Hfr);
      [exact H3|rewrite (FRep_length EO z _ _ _ HD); exact Hle|].
    eexists. split; [reflexivity|]. split; [|exact Hfr].
    rewrite Hd'. apply FRep_put; auto.
  Qed.

  Lemma lc_refuse start bs st : lc_size (fst st) < start + List.length bs ->
    lc_store_copy_from_slice start bs st = (Err "Requested slice too large", st).
  Proof. intros H. unfold lc_store_copy_from_slice. replace (_ <=? _) with false by lia. reflexivity. Qed.

  Lemma lc_write_at_sim cap arr dw cis st x i : lc_arr cap arr dw cis st ->
    if i + 1 <=? cap then exists st', lc_write_at EO x i st = (Ok tt, st') /\ lc_arr cap (arr_put z arr i [x]) dw cis st'
    else exists r, lc_write_at EO x i st = (r, st) /\ is_ok r = false.
  Proof.
    intros HR. destruct (decode_one EO EL x) as [Hd Hm]. pose proof HR as (H1 & H2 & H3 & H4 & H5 & HD).
    pose proof (el_pos EO EL) as Hbl. fold bl in Hbl.
    unfold lc_write_at. fold bl. destruct (i + 1 <=? cap) eqn:G.
    - destruct (lc_put cap arr dw cis st i _ [x] HR Hm Hd ltac:(simpl; lia)) as (f' & G1 & G2 & _).
      rewrite (sbind_ok _ _ _ _ _ G1). rewrite (sbind_ok _ _ (fst st, f') (fst st, f') (fst st, f')) by reflexivity.
      eexists. split; [reflexivity|]. split; [cbn; rewrite arr_put_length, H1; reflexivity|]. auto 6.
    - unfold sbind at 1. rewrite lc_refuse; [eexists; split; reflexivity|].
      rewrite H2, (el_len EO EL). fold bl. nia.
  Qed.

  Lemma lc_sim cap dw cis : sim EO (lc_store EO) z (Some cap) (fun arr => lc_arr cap arr dw cis).
  Proof.
    intros arr st o HR. pose proof HR as (H1 & H2 & H3 & H4 & H5 & HD).
    pose proof (el_pos EO EL) as Hbl. fold bl in Hbl.
    destruct o as [x i|bs start|x]; cbn [op_effect run_op lc_store st_write_at st_copy_from_slice st_push fits List.length].
    - apply lc_write_at_sim. exact HR.
    - unfold lc_copy_from_slice. fold bl. destruct (List.length bs mod bl =? 0) eqn:Hm.
      + apply Nat.eqb_eq in Hm. destruct (decode_ok_mod EO EL bs Hm) as [els Hd]. rewrite Hd.
        destruct (els_len EO EL z bs els Hm Hd) as [Hl Hq]. fold bl in Hl, Hq.
        unfold ensure. rewrite (sbind_ok _ _ st tt st) by reflexivity.
        destruct (start + List.length els <=? cap) eqn:G.
        * destruct (lc_put cap arr dw cis st start bs els HR Hm Hd ltac:(lia)) as (f' & G1 & G2 & _).
          rewrite (sbind_ok _ _ _ _ _ G1). rewrite (sbind_ok _ _ (fst st, f') (fst st, f') (fst st, f')) by reflexivity.
          eexists. split; [reflexivity|]. split; [cbn; rewrite arr_put_length, H1, Hq; reflexivity|]. auto 6.
        * unfold sbind at 1. rewrite lc_refuse; [eexists; split; reflexivity|].
          rewrite H2, Hl. nia.
      + eexists. split; [reflexivity|reflexivity].
    - unfold lc_push. fold bl. rewrite (sbind_ok _ _ st st st) by reflexivity. rewrite H1, H2.
      pose proof (lc_write_at_sim cap arr dw cis st x (List.length arr) HR) as HW.
      destruct (List.length arr + 1 <=? cap) eqn:G.
      + replace ((List.length arr + 1) * bl <=? cap * bl) with true by nia.
        unfold ensure. rewrite (sbind_ok _ _ st tt st) by reflexivity. exact HW.
      + replace ((List.length arr + 1) * bl <=? cap * bl) with false by nia.
        eexists. split; reflexivity.
  Qed.

  Lemma lc_check_ok st s e n : lc_len (fst st) = n -> s < e -> e <= n -> lc_in_bounds EO (fst st) (s * bl) = true ->
    lc_check EO st (s * bl) (e * bl) = Ok tt.
  Proof.
    intros H H1 H2 Hb. pose proof (el_pos EO EL) as Hbl. unfold lc_check. fold bl in Hbl |- *. rewrite H, Hb.
    replace (s * bl <? n * bl) with true by nia. replace (e * bl <=? n * bl) with true by nia. reflexivity.
  Qed.

  Lemma lc_int_range cap arr st s e : FRep EO z cap arr (fs_data (snd st) (h_ino (lc_file (fst st)))) ->
    s <= e -> e <= List.length arr -> lc_in_bounds EO (fst st) (s * bl) = true ->
    lc_store_read_range_internal EO st (s * bl) (e * bl) = Ok (sub (fs_data (snd st) (h_ino (lc_file (fst st)))) (s * bl) ((e - s) * bl)).
  Proof.
    intros HD Hs He Hb. unfold lc_store_read_range_internal. rewrite checked_sub_ok by nia. cbn [rbind].
    rewrite Hb. cbn [ensure rbind].
    replace (e * bl - s * bl) with ((e - s) * bl) by nia.
    unfold fs_read_exact_at. destruct ((e - s) * bl =? 0) eqn:G.
    - apply Nat.eqb_eq in G. rewrite G, sub_zero. reflexivity.
    - unfold fs_size. rewrite (FRep_length EO z _ _ _ HD). destruct HD as (_ & HC & _). fold bl.
      replace (s * bl + (e - s) * bl <=? cap * bl) with true by nia. reflexivity.
  Qed.

  Lemma lc_shows cap arr dw cis st : lc_arr cap arr dw cis st ->
    shows lc_len (lc_read_at_internal EO) (lc_read_range_internal EO)
      (fun i => i <= dw \/ cis <= i * bl) arr st.
  Proof.
    intros (H1 & H2 & H3 & H4 & H5 & HD). pose proof (el_pos EO EL) as Hbl. fold bl in Hbl.
    assert (HB : forall i, i <= dw \/ cis <= i * bl -> lc_in_bounds EO (fst st) (i * bl) = true).
    { intros i Hi. unfold lc_in_bounds. fold bl. rewrite H4, H5. apply orb_true_iff. rewrite !Nat.leb_le.
      destruct Hi; [left; nia|right; lia]. }
    split; [exact H1|]. split; [|split; [|split]].
    - intros i x Hx Hv. apply HB in Hv. pose proof (nth_error_lt _ _ _ Hx) as Hi.
      unfold lc_read_at_internal. fold bl. replace (i * bl + bl) with ((i + 1) * bl) by lia.
      rewrite (lc_check_ok st i (i + 1) (List.length arr)) by (auto; lia). cbn [rbind].
      rewrite (lc_int_range cap arr) by (auto; lia). cbn [rbind].
      replace ((i + 1 - i) * bl) with bl by nia. exact (FRep_at EO z cap arr _ i x HD Hx).
    - intros s e Hs He Hv. apply HB in Hv. unfold lc_read_range_internal. fold bl.
      rewrite (lc_check_ok st s e (List.length arr)) by (auto; lia). cbn [rbind].
      rewrite (lc_int_range cap arr) by (auto; lia). cbn [rbind]. apply (FRep_range EO EL z cap); auto. lia.
    - intros i Hi. unfold lc_read_at_internal, lc_check. fold bl. rewrite H1.
      replace (i * bl <? List.length arr * bl) with false by nia. reflexivity.
    - intros s e He. unfold lc_read_range_internal, lc_check. fold bl. rewrite H1.
      destruct (s * bl <? List.length arr * bl); [|reflexivity].
      replace (e * bl <=? List.length arr * bl) with false by nia. reflexivity.
  Qed.

  Lemma lc_behaves cap arr dw cis st : lc_arr cap arr dw cis st ->
    behaves EO (lc_store EO) z (Some cap) (lc_read_at_internal EO) (lc_read_range_internal EO)
      (fun i => i <= dw \/ cis <= i * bl) arr st.
  Proof.
    apply (sim_behaves EO (lc_store EO) z (Some cap) (fun arr => lc_arr cap arr dw cis)); [apply lc_sim|].
    intros a s. apply lc_shows.
  Qed.
End LC.

(* ---- VecStore ---- *)
Section Vec.
  Context {E : Type} (EO : ElementOps E) (EL : ElementLaws EO).
  Local Notation bl := (e_byte_len EO).
  Let z := e_default EO.

  Lemma overwrite_arr_put (v : list E) start els :
    overwrite (if List.length v <? start + List.length els then resize v (start + List.length els) z else v) start els
    = arr_put z v start els.
  Proof.
    apply nth_error_ext. intros i.
    set (v' := if List.length v <? start + List.length els then resize v (start + List.length els) z else v).
    assert (Hl : List.length v' = Nat.max (List.length v) (start + List.length els)).
    { unfold v'. destruct (_ <? _) eqn:G; [rewrite resize_length; lia|lia]. }
    destruct (le_lt_dec (List.length v') i) as [L|L].
    - rewrite !(proj2 (nth_error_None _ _)); auto; [rewrite arr_put_length; lia|].
      rewrite overwrite_length; lia.
    - rewrite nth_error_overwrite by lia. rewrite arr_put_error by lia.
      destruct (i <? start) eqn:G1; [|destruct (i <? start + List.length els) eqn:G2].
      + replace ((start <=? i) && (i <? start + List.length els)) with false by lia.
        rewrite (nth_nth_error v' i z) by auto. f_equal. unfold v'. destruct (_ <? _) eqn:G.
        * unfold resize. rewrite firstn_all2 by lia. destruct (le_lt_dec (List.length v) i).
          -- rewrite app_nth2 by lia. rewrite nth_repeat. symmetry. apply nth_overflow. auto.
          -- rewrite app_nth1 by lia. reflexivity.
        * reflexivity.
      + replace ((start <=? i) && true) with true by lia. apply nth_nth_error. lia.
      + replace ((start <=? i) && false) with false by lia.
        rewrite (nth_nth_error v' i z) by auto. f_equal. unfold v'. destruct (_ <? _) eqn:G.
        * rewrite Hl in L. lia.
        * reflexivity.
  Qed.

  Lemma vec_sim : sim EO (vec_store EO) z None (fun arr st => fst st = arr).
  Proof.
    intros arr [v f] o HR. cbn [fst] in HR. subst v.
    pose proof (el_pos EO EL) as Hbl. fold bl in Hbl.
    destruct o as [x i|bs start|x]; cbn [op_effect run_op vec_store st_write_at st_copy_from_slice st_push fits List.length].
    - eexists. split; [reflexivity|]. cbn [fst]. rewrite <- overwrite_arr_put. cbn [List.length].
      replace (List.length arr <? i + 1) with (List.length arr <=? i) by lia. reflexivity.
    - unfold vec_copy_from_slice. fold bl. destruct (List.length bs mod bl =? 0) eqn:Hm.
      + apply Nat.eqb_eq in Hm. destruct (decode_ok_mod EO EL bs Hm) as [els Hd]. rewrite Hd.
        destruct (els_len EO EL z bs els Hm Hd) as [Hl Hq]. fold bl in Hl, Hq.
        assert (Hde : decode_exact EO bs = Ok els).
        { rewrite <- Hd. unfold decode_exact, decode. f_equal. unfold chunks_exact. fold bl.
          rewrite Hq, <- Hl, firstn_all. reflexivity. }
        rewrite Hde, Hq. cbn [fst snd]. eexists. split; [reflexivity|]. cbn [fst]. apply overwrite_arr_put.
      + eexists. split; reflexivity.
    - eexists. split; [reflexivity|]. cbn [fst snd]. rewrite <- overwrite_arr_put. cbn [List.length].
      replace (List.length arr <? List.length arr + 1) with true by lia.
      apply nth_error_ext. intros j. rewrite nth_error_overwrite by (rewrite resize_length; lia).
      destruct (j <? List.length arr) eqn:G.
      + unfold resize. rewrite firstn_all2 by lia. rewrite !nth_error_app1 by lia. reflexivity.
      + rewrite nth_error_app2 by lia. destruct (j <? List.length arr + List.length [x]) eqn:G2; [reflexivity|].
        cbn [List.length] in G2. rewrite !(proj2 (nth_error_None _ _)); auto; [rewrite resize_length; lia|simpl; lia].
  Qed.

  Lemma vec_shows arr (st : list E * fs) : fst st = arr ->
    shows (@List.length E) (vec_read_at) (vec_read_range) (fun _ => True) arr st.
  Proof.
    destruct st as [v f]. cbn [fst]. intros ->. split; [reflexivity|]. split; [|split; [|split]].
    - intros i x Hx _. unfold vec_read_at, rnth. cbn [fst]. rewrite Hx. reflexivity.
    - intros s e Hs He _. unfold vec_read_range. cbn [fst]. replace (_ && _) with true by lia. reflexivity.
    - intros i Hi. unfold vec_read_at, rnth. cbn [fst]. rewrite nth_error_past by auto. reflexivity.
    - intros s e He. unfold vec_read_range. cbn [fst]. replace (_ && _) with false by lia. reflexivity.
  Qed.

  Lemma vec_behaves st : behaves EO (vec_store EO) z None vec_read_at vec_read_range (fun _ => True) (fst st) st.
  Proof.
    apply (sim_behaves EO (vec_store EO) z None (fun arr st => fst st = arr)); [apply vec_sim| |reflexivity].
    intros a s. apply vec_shows.
  Qed.
End Vec.

(* ---- MmapStore ---- *)
Section Mmap.
  Context {E : Type} (EO : ElementOps E) (EL : ElementLaws EO).
  Local Notation bl := (e_byte_len EO).
  Variable z : E.

  Definition mm_arr (cap : nat) (arr : list E) (mapped : bool) (st : mmap_t * fs) : Prop :=
    mm_len (fst st) = List.length arr /\ h_write (mm_file (fst st)) = true /\
    mm_map (fst st) = (if mapped then Some (cap * bl) else None) /\
    FRep EO z cap arr (fs_data (snd st) (h_ino (mm_file (fst st)))).

  Lemma mm_reinit cap arr m st : mm_arr cap arr m st ->
    mmap_reinit st = (Ok tt, (mm_set_map (fst st) (Some (cap * bl)), snd st)) /\
    mm_arr cap arr true (mm_set_map (fst st) (Some (cap * bl)), snd st).
  Proof.
    intros (H1 & H2 & H3 & HD). unfold mmap_reinit, mm_map_mut, fs_map_mut. rewrite H2. cbn [rbind].
    unfold fs_size. rewrite (FRep_length EO z _ _ _ HD). split; [reflexivity|]. repeat split; auto; apply HD.
  Qed.

  Lemma mm_ensure cap arr m st : mm_arr cap arr m st ->
    exists st', mmap_ensure_map st = (Ok tt, st') /\ mm_arr cap arr true st' /\ (m = true -> st' = st).
  Proof.
    intros HR. pose proof HR as (H1 & H2 & H3 & HD). unfold mmap_ensure_map. rewrite H3. destruct m.
    - exists st. auto.
    - destruct (mm_reinit cap arr false st HR) as [G1 G2]. eexists. split; [exact G1|]. split; [exact G2|discriminate].
  Qed.

  Lemma mm_put cap arr st start bs els : mm_arr cap arr true st -> List.length bs mod bl = 0 -> decode EO bs = Ok els ->
    if start + List.length els <=? cap then
      exists f', mmap_store (start * bl) bs st = (Ok tt, (fst st, f')) /\
        FRep EO z cap (arr_put z arr start els) (fs_data f' (h_ino (mm_file (fst st)))) /\
        fs_frame (Some (h_ino (mm_file (fst st)))) (snd st) f'
    else exists e, mmap_store (start * bl) bs st = (Panic e, st).
  Proof.
    intros (H1 & H2 & H3 & HD) Hm Hd. destruct (els_len EO EL z bs els Hm Hd) as [Hl _].
    pose proof (el_pos EO EL) as Hbl.
    unfold mmap_store. rewrite H3. cbn [fst snd]. destruct (start + List.length els <=? cap) eqn:G.
    - assert (Hle : start * bl + List.length bs <= cap * bl) by (rewrite Hl; nia).
      replace (_ <=? _) with true by lia. unfold on_fs, fs_map_write.
      rewrite (FRep_length EO z _ _ _ HD). replace (_ || _) with true by lia.
      eexists. split; [reflexivity|]. split; [|apply fs_set_data_frame].
      rewrite fs_set_data_data. apply FRep_put; auto. lia.
    - replace (_ <=? _) with false by nia. eexists. reflexivity.
  Qed.

  Lemma mm_write_at_sim cap arr m st x i : mm_arr cap arr m st ->
    if i + 1 <=? cap then exists st', mmap_write_at EO x i st = (Ok tt, st') /\ mm_arr cap (arr_put z arr i [x]) true st'
    else exists r st', mmap_write_at EO x i st = (r, st') /\ is_ok r = false /\ mm_arr cap arr true st' /\ (m = true -> st' = st).
  Proof.
    intros HR. destruct (mm_ensure cap arr m st HR) as (st1 & E1 & HR1 & Hid).
    destruct (decode_one EO EL x) as [Hd Hm]. pose proof HR1 as (H1 & H2 & H3 & HD).
    unfold mmap_write_at. rewrite (sbind_ok _ _ _ _ _ E1).
    pose proof (mm_put cap arr st1 i _ [x] HR1 Hm Hd) as HP. cbn [List.length] in HP.
    destruct (i + 1 <=? cap) eqn:G.
    - destruct HP as (f' & G1 & G2 & _).
      rewrite (sbind_ok _ _ _ _ _ G1). rewrite (sbind_ok _ _ (fst st1, f') (fst st1, f') (fst st1, f')) by reflexivity.
      eexists. split; [reflexivity|]. split; [cbn; rewrite arr_put_length, H1; reflexivity|]. auto.
    - destruct HP as [e He]. unfold sbind at 1. rewrite He. eexists _, _. split; [reflexivity|]. auto.
  Qed.

  Lemma mm_op_sim cap arr m st o : mm_arr cap arr m st ->
    match op_effect EO arr o with
    | Some (start, els) =>
        if fits (Some cap) start els
        then exists st', run_op (mmap_store_ops EO) o st = (Ok tt, st') /\ mm_arr cap (arr_put z arr start els) true st'
        else exists r st', run_op (mmap_store_ops EO) o st = (r, st') /\ is_ok r = false /\ mm_arr cap arr true st' /\ (m = true -> st' = st)
    | None => exists r, run_op (mmap_store_ops EO) o st = (r, st) /\ is_ok r = false
    end.
  Proof.
    intros HR. pose proof (el_pos EO EL) as Hbl.
    destruct o as [x i|bs start|x]; cbn [op_effect run_op mmap_store_ops st_write_at st_copy_from_slice st_push fits List.length].
    - apply mm_write_at_sim. exact HR.
    - unfold mmap_copy_from_slice. destruct (List.length bs mod bl =? 0) eqn:Hm.
      + apply Nat.eqb_eq in Hm. destruct (decode_ok_mod EO EL bs Hm) as [els Hd]. rewrite Hd.
        destruct (els_len EO EL z bs els Hm Hd) as [Hl Hq].
        unfold ensure. rewrite (sbind_ok _ _ st tt st) by reflexivity.
        destruct (mm_ensure cap arr m st HR) as (st1 & E1 & HR1 & Hid).
        rewrite (sbind_ok _ _ _ _ _ E1). pose proof HR1 as (H1 & H2 & H3 & HD).
        pose proof (mm_put cap arr st1 start bs els HR1 Hm Hd) as HP.
        destruct (start + List.length els <=? cap) eqn:G.
        * destruct HP as (f' & G1 & G2 & _).
          rewrite (sbind_ok _ _ _ _ _ G1). rewrite (sbind_ok _ _ (fst st1, f') (fst st1, f') (fst st1, f')) by reflexivity.
          eexists. split; [reflexivity|]. split; [cbn; rewrite arr_put_length, H1, Hq; reflexivity|]. auto.
        * destruct HP as [e He]. unfold sbind at 1. rewrite He. eexists _, _. split; [reflexivity|]. auto.
      + eexists. split; [reflexivity|reflexivity].
    - unfold mmap_push. destruct (mm_ensure cap arr m st HR) as (st1 & E1 & HR1 & Hid).
      rewrite (sbind_ok _ _ _ _ _ E1). pose proof HR1 as (H1 & H2 & H3 & HD).
      rewrite (sbind_ok _ _ st1 st1 st1) by reflexivity. rewrite H1, H3.
      pose proof (mm_write_at_sim cap arr true st1 x (List.length arr) HR1) as HW.
      destruct (List.length arr + 1 <=? cap) eqn:G.
      + replace ((List.length arr + 1) * bl <=? cap * bl) with true by nia.
        unfold ensure. rewrite (sbind_ok _ _ st1 tt st1) by reflexivity. exact HW.
      + replace ((List.length arr + 1) * bl <=? cap * bl) with false by nia.
        eexists _, _. split; [reflexivity|]. split; [reflexivity|]. auto.
  Qed.

  Lemma mm_sim cap : sim EO (mmap_store_ops EO) z (Some cap) (fun arr => mm_arr cap arr true).
  Proof.
    intros arr st o HR. pose proof (mm_op_sim cap arr true st o HR) as H.
    destruct (op_effect EO arr o) as [[start els]|]; [|exact H].
    destruct (fits (Some cap) start els); [exact H|].
    destruct H as (r & st' & H1 & H2 & _ & H4). rewrite H4 in H1 by reflexivity. eauto.
  Qed.

  Lemma mm_check_ok st s e n : mm_len (fst st) = n -> s < e -> e <= n ->
    mmap_check EO st (s * bl) (e * bl) = Ok tt.
  Proof.
    intros H H1 H2. pose proof (el_pos EO EL) as Hbl. unfold mmap_check. rewrite H.
    replace (s * bl <? n * bl) with true by nia. replace (e * bl <=? n * bl) with true by nia. reflexivity.
  Qed.

  Lemma mm_range cap arr st s e : mm_arr cap arr true st -> s <= e -> e <= List.length arr ->
    mmap_slice st (s * bl) (e * bl) = Ok (sub (fs_data (snd st) (h_ino (mm_file (fst st)))) (s * bl) ((e - s) * bl)).
  Proof.
    intros (H1 & H2 & H3 & HD) Hs He. pose proof (proj1 (proj2 HD)) as HC. unfold mmap_slice. rewrite H3.
    replace (s * bl <=? e * bl) with true by nia. replace (e * bl <=? cap * bl) with true by nia. cbn [andb].
    unfold fs_map_read, fs_size. rewrite (FRep_length EO z _ _ _ HD).
    replace (e * bl - s * bl) with ((e - s) * bl) by nia.
    replace (s * bl + (e - s) * bl <=? cap * bl) with true by nia. rewrite orb_true_r. reflexivity.
  Qed.

  Lemma mm_shows cap arr st : mm_arr cap arr true st ->
    shows mm_len (mmap_read_at EO) (mmap_read_range EO) (fun _ => True) arr st.
  Proof.
    intros HR. pose proof HR as (H1 & H2 & H3 & HD). pose proof (el_pos EO EL) as Hbl.
    split; [exact H1|]. split; [|split; [|split]].
    - intros i x Hx _. pose proof (nth_error_lt _ _ _ Hx) as Hi.
      unfold mmap_read_at. replace (i * bl + bl) with ((i + 1) * bl) by lia.
      rewrite (mm_check_ok st i (i + 1) (List.length arr)) by (auto; lia). cbn [rbind].
      rewrite (mm_range cap arr) by (auto; lia). cbn [rbind].
      replace ((i + 1 - i) * bl) with bl by nia. exact (FRep_at EO z cap arr _ i x HD Hx).
    - intros s e Hs He _. unfold mmap_read_range.
      rewrite (mm_check_ok st s e (List.length arr)) by (auto; lia). cbn [rbind].
      rewrite (mm_range cap arr) by (auto; lia). cbn [rbind]. apply (FRep_range EO EL z cap); auto. lia.
    - intros i Hi. unfold mmap_read_at, mmap_check. rewrite H1.
      replace (i * bl <? List.length arr * bl) with false by nia. reflexivity.
    - intros s e He. unfold mmap_read_range, mmap_check. rewrite H1.
      destruct (s * bl <? List.length arr * bl); [|reflexivity].
      replace (e * bl <=? List.length arr * bl) with false by nia. reflexivity.
  Qed.

  Lemma mm_behaves cap arr st : mm_arr cap arr true st ->
    behaves EO (mmap_store_ops EO) z (Some cap) (mmap_read_at EO) (mmap_read_range EO) (fun _ => True) arr st.
  Proof.
    apply (sim_behaves EO (mmap_store_ops EO) z (Some cap) (fun arr => mm_arr cap arr true)); [apply mm_sim|].
    intros a s. apply mm_shows.
  Qed.

  (* with compact and reinit *)
  Lemma mm_unmapped cap arr st : mm_arr cap arr false st ->
    (forall i, exists e, mmap_read_at EO st i = Err e) /\
    (forall s e, exists m, mmap_read_range EO st s e = Err m) /\
    (forall i buf, exists e, mmap_read_into EO st i buf = Err e).
  Proof.
    intros (H1 & H2 & H3 & HD). unfold mmap_read_at, mmap_read_range, mmap_read_into, mmap_check, mmap_slice. rewrite H3.
    repeat split; intros; destruct (_ <? _); cbn [ensure rbind]; try (eexists; reflexivity);
      destruct (_ <=? _); cbn [ensure rbind]; eexists; reflexivity.
  Qed.

  Lemma mm_mop_sim cap sizes b c v arr m st o : mm_arr cap arr m st ->
    let '(k, st') := run_mop (mmap_store_ops EO) sizes b c v o st in
    let '(k', s') := mspec_op EO z cap o (arr, m) in
    k = k' /\ mm_arr cap (fst s') (snd s') st'.
  Proof.
    intros HR. destruct o as [u| |]; cbn [run_mop mspec_op fst snd].
    - pose proof (mm_op_sim cap arr m st u HR) as H. unfold arr_op.
      assert (Hu : op_effect EO arr u <> None -> match u with OCopy bs _ => if List.length bs mod bl =? 0 then true else m | _ => true end = true).
      { destruct u; cbn; auto. destruct (_ =? 0); auto. }
      assert (Hn : op_effect EO arr u = None -> match u with OCopy bs _ => if List.length bs mod bl =? 0 then true else m | _ => true end = m).
      { destruct u; cbn; try congruence. destruct (_ =? 0) eqn:G; auto. apply Nat.eqb_eq in G.
        destruct (decode_ok_mod EO EL bs G) as [els ->]. congruence. }
      destruct (op_effect EO arr u) as [[start els]|].
      + rewrite Hu by congruence. destruct (fits (Some cap) start els).
        * destruct H as (st' & -> & H2). cbn. auto.
        * destruct H as (r & st' & -> & H2 & H3 & _). cbn. auto.
      + destruct H as (r & -> & H2). cbn. rewrite Hn by reflexivity. auto.
    - cbn. destruct HR as (H1 & H2 & H3 & HD). split; [reflexivity|]. repeat split; auto; apply HD.
    - cbn [mmap_store_ops st_reinit]. destruct (mm_reinit cap arr m st HR) as [-> H2]. cbn. auto.
  Qed.

  Lemma mm_mops_sim cap sizes b c v ops : forall arr m st, mm_arr cap arr m st ->
    let '(ks, st') := run_mops (mmap_store_ops EO) sizes b c v ops st in
    let '(ks', s') := mspec_ops EO z cap ops (arr, m) in
    ks = ks' /\ mm_arr cap (fst s') (snd s') st'.
  Proof.
    induction ops as [|o ops IH]; intros arr m st HR; cbn [run_mops mspec_ops].
    - auto.
    - pose proof (mm_mop_sim cap sizes b c v arr m st o HR) as H.
      destruct (run_mop _ _ _ _ _ _ _) as [k st1]. destruct (mspec_op _ _ _ _ _) as [k' [a1 m1]].
      destruct H as [-> H]. cbn [fst snd] in H. specialize (IH a1 m1 st1 H).
      destruct (run_mops _ _ _ _ _ _ _) as [ks st2]. destruct (mspec_ops _ _ _ _ _) as [ks' s2].
      destruct IH as [-> IH]. auto.
  Qed.
End Mmap.
