(* C36, C37, C49: stores as arrays. *)
From Coq Require Import String List Arith Bool Lia Init.Byte ZifyBool ZifyNat.
From Verif Require Import Base Element Hash Sizing FS Sched Store VecStore DiskStore MmapStore LevelCache ListFacts Spec SpecFacts SizingFacts SchedFacts StoreLaws RowFacts ChunkFacts BuildFacts BuildLoop StoreSpec FileFacts MapLayer DiskFacts ArraySpec ArrayFacts ArrayStart Cases.
Import ListNotations.

(* ---- C36 ---- *)
(* what arr_put means, position by position *)
Theorem C36_spec_put : forall E (z : E) arr start els i,
  nth_error (arr_put z arr start els) i =
    if (start <=? i) && (i <? start + List.length els) then nth_error els (i - start)
    else if i <? List.length arr then nth_error arr i
    else if i <? start + List.length els then Some z else None.
Proof.
  intros E z arr start els i. destruct (le_lt_dec (Nat.max (List.length arr) (start + List.length els)) i) as [L|L].
  - rewrite nth_error_past by (rewrite arr_put_length; exact L).
    replace ((start <=? i) && (i <? start + List.length els)) with false by lia.
    replace (i <? List.length arr) with false by lia. replace (i <? start + List.length els) with false by lia. reflexivity.
  - rewrite arr_put_error by exact L. destruct (_ && _) eqn:G.
    + symmetry. apply nth_nth_error. lia.
    + destruct (i <? List.length arr) eqn:G2.
      * symmetry. apply nth_nth_error. lia.
      * rewrite nth_overflow by lia. replace (i <? start + List.length els) with true by lia. reflexivity.
Qed.

Theorem C36_vec : forall E (EO : ElementOps E), ElementLaws EO ->
  forall cap arr st, created EO (vec_store EO) cap arr st ->
  behaves EO (vec_store EO) (e_default EO) None vec_read_at vec_read_range (fun _ => True) arr st.
Proof. intros E EO EL cap arr st H. apply (vec_created EO EL) in H. subst arr. apply vec_behaves. exact EL. Qed.

Theorem C36_disk : forall E (EO : ElementOps E), ElementLaws EO ->
  forall z, e_from_slice EO (repeat x00 (e_byte_len EO)) = Ok z ->
  forall cap arr st, created EO (disk_store EO) cap arr st \/ reopened EO (disk_store EO) cap arr st ->
  behaves EO (disk_store EO) z (Some cap) (disk_read_at EO) (disk_read_range EO) (fun _ => True) arr st.
Proof.
  intros E EO EL z Hz cap arr st [H|H]; apply (disk_behaves EO EL).
  - apply disk_created; auto.
  - apply disk_reopened; auto.
Qed.

Theorem C36_mmap : forall E (EO : ElementOps E), ElementLaws EO ->
  forall z, e_from_slice EO (repeat x00 (e_byte_len EO)) = Ok z ->
  forall cap arr st, created EO (mmap_store_ops EO) cap arr st \/ reopened EO (mmap_store_ops EO) cap arr st ->
  behaves EO (mmap_store_ops EO) z (Some cap) (mmap_read_at EO) (mmap_read_range EO) (fun _ => True) arr st.
Proof.
  intros E EO EL z Hz cap arr st [H|H]; apply (mm_behaves EO EL).
  - apply mmap_created; auto.
  - apply mmap_reopened; auto.
Qed.

(* LevelCacheStore, read with the internal readers; a store made with a config refuses
   to read the rows between the leaves and the cached region *)
Theorem C36_level_cache : forall E (EO : ElementOps E), ElementLaws EO ->
  forall z, e_from_slice EO (repeat x00 (e_byte_len EO)) = Ok z ->
  forall cap arr st, created EO (lc_store EO) cap arr st ->
  behaves EO (lc_store EO) z (Some cap) (lc_read_at_internal EO) (lc_read_range_internal EO)
    (fun i => i <= lc_data_width (fst st) \/ lc_cache_index_start (fst st) <= i * e_byte_len EO) arr st.
Proof. intros E EO EL z Hz cap arr st H. apply (lc_behaves EO EL). apply lc_created; auto. Qed.

(* ... which is no restriction for LevelCacheStore::new *)
Theorem C36_level_cache_new : forall E (EO : ElementOps E), ElementLaws EO ->
  forall z, e_from_slice EO (repeat x00 (e_byte_len EO)) = Ok z ->
  forall cap f s f', st_new (lc_store EO) cap f = (Ok s, f') ->
  behaves EO (lc_store EO) z (Some cap) (lc_read_at_internal EO) (lc_read_range_internal EO) (fun _ => True) [] (s, f').
Proof.
  intros E EO EL z Hz cap f s f' H ops. cbn [lc_store st_new] in H.
  pose proof (lc_behaves EO EL z cap [] cap 0 (s, f') (lc_new_arr EO z Hz _ _ _ _ H) ops) as HB.
  destruct (run_ops _ _ _) as [rs st']. destruct (arr_ops _ _ _ _ _) as [ks arr'].
  destruct HB as (B1 & B2 & B3 & B4 & B5). split; [exact B1|]. split; [exact B2|].
  split; [intros i x Hx _; apply B3; auto; right; lia|].
  split; [intros s0 e0 H1 H2 _; apply B4; auto; right; lia|auto].
Qed.

Definition ops1 : list (sop B1) :=
  [OWrite (el 5) 3; OPush (el 6); OCopy [x01; x02] 1; OWrite (el 9) 9; OPush (el 7); OWrite (el 8) 2; OPush (el 1); OPush (el 2); OCopy [x03; x04] 7].
(* non-trivial: gaps, overwriting, refused updates *)
Example C36_case : 
  match st_new (disk_store BO) 8 fs_empty with
  | (Ok s, f) =>
      let '(rs, st) := run_ops (disk_store BO) ops1 (s, f) in
      map is_ok rs = [true; true; true; false; true; true; true; true; false] /\
      rbind (disk_read_range BO st 0 8) (fun l => Ok (map val l)) = Ok [0; 1; 8; 5; 6; 7; 1; 2]
  | _ => False
  end.
Proof. vm_compute. split; reflexivity. Qed.
Example C36_case_hyp : e_from_slice BO (repeat x00 (e_byte_len BO)) = Ok (el 0).
Proof. reflexivity. Qed.

(* ---- C37 ---- *)
(* any state at all, whatever its history *)
Theorem C37_disk_write : forall E (EO : ElementOps E), ElementLaws EO -> forall st o,
  ds_size (fst st) < op_end EO (ds_len (fst st)) o ->
  exists r, run_op (disk_store EO) o st = (r, st) /\ is_ok r = false.
Proof.
  intros E EO EL st o H. pose proof (el_pos EO EL) as Hbl.
  destruct o as [x i|bs start|x]; cbn [op_end run_op disk_store st_write_at st_copy_from_slice st_push] in *.
  - unfold disk_write_at, sbind at 1. rewrite disk_refuse; [eexists; split; reflexivity|]. rewrite (el_len EO EL). lia.
  - unfold disk_copy_from_slice. destruct (_ =? 0); [|eexists; split; reflexivity].
    unfold ensure. rewrite (sbind_ok _ _ st tt st) by reflexivity. unfold sbind at 1.
    rewrite disk_refuse by lia. eexists; split; reflexivity.
  - unfold disk_push. rewrite (sbind_ok _ _ st st st) by reflexivity. replace (_ <=? _) with false by lia.
    eexists; split; reflexivity.
Qed.

Theorem C37_level_cache_write : forall E (EO : ElementOps E), ElementLaws EO -> forall st o,
  lc_size (fst st) < op_end EO (lc_len (fst st)) o ->
  exists r, run_op (lc_store EO) o st = (r, st) /\ is_ok r = false.
Proof.
  intros E EO EL st o H. pose proof (el_pos EO EL) as Hbl.
  destruct o as [x i|bs start|x]; cbn [op_end run_op lc_store st_write_at st_copy_from_slice st_push] in *.
  - unfold lc_write_at, sbind at 1. rewrite lc_refuse; [eexists; split; reflexivity|]. rewrite (el_len EO EL). lia.
  - unfold lc_copy_from_slice. destruct (_ =? 0); [|eexists; split; reflexivity].
    unfold ensure. rewrite (sbind_ok _ _ st tt st) by reflexivity. unfold sbind at 1.
    rewrite lc_refuse by lia. eexists; split; reflexivity.
  - unfold lc_push. rewrite (sbind_ok _ _ st st st) by reflexivity. replace (_ <=? _) with false by lia.
    eexists; split; reflexivity.
Qed.

(* capacity of an MmapStore: the mapped length, or the file that would be mapped *)
Definition mm_capacity (st : mmap_t * fs) : nat :=
  match mm_map (fst st) with Some m => m | None => fs_size (snd st) (mm_file (fst st)) end.
Theorem C37_mmap_write : forall E (EO : ElementOps E), ElementLaws EO -> forall st o,
  mm_capacity st < op_end EO (mm_len (fst st)) o ->
  exists r st', run_op (mmap_store_ops EO) o st = (r, st') /\ is_ok r = false /\
    snd st' = snd st /\ mm_len (fst st') = mm_len (fst st) /\ mm_file (fst st') = mm_file (fst st) /\
    (mm_map (fst st) <> None -> st' = st).
Proof.
  intros E EO EL st o H. pose proof (el_pos EO EL) as Hbl.
  assert (HE : (exists e, mmap_ensure_map st = (Err e, st) /\ mm_map (fst st) = None) \/
    exists st1, mmap_ensure_map st = (Ok tt, st1) /\ snd st1 = snd st /\ mm_len (fst st1) = mm_len (fst st) /\
      mm_file (fst st1) = mm_file (fst st) /\ mm_map (fst st1) = Some (mm_capacity st) /\ (mm_map (fst st) <> None -> st1 = st)).
  { unfold mmap_ensure_map, mm_capacity. destruct (mm_map (fst st)) eqn:G.
    - right. exists st. auto 10.
    - unfold mmap_reinit, mm_map_mut, fs_map_mut. destruct (h_write _); cbn [rbind].
      + right. eexists. split; [reflexivity|]. cbn. repeat (split; auto). congruence.
      + left. eexists. split; [|reflexivity]. destruct st; reflexivity. }
  assert (HS : forall st1 off d, mm_map (fst st1) = Some (mm_capacity st) -> mm_capacity st < off + List.length d ->
    mmap_store off d st1 = (Panic "range end index out of range for slice", st1)).
  { intros st1 off d G1 G2. unfold mmap_store. rewrite G1. replace (_ <=? _) with false by lia. reflexivity. }
  destruct o as [x i|bs start|x]; cbn [op_end run_op mmap_store_ops st_write_at st_copy_from_slice st_push] in *.
  - unfold mmap_write_at. destruct HE as [(e & HE & HN)|(st1 & HE & H1 & H2 & H3 & H4 & H5)].
    + unfold sbind at 1. rewrite HE. eexists _, _. split; [reflexivity|]. cbn; repeat (split; auto).
    + rewrite (sbind_ok _ _ _ _ _ HE). unfold sbind at 1. rewrite HS; [|exact H4|rewrite (el_len EO EL); lia].
      eexists _, _. split; [reflexivity|]. auto 10.
  - unfold mmap_copy_from_slice. destruct (_ =? 0); [|eexists _, _; split; [reflexivity|]; cbn; repeat (split; auto)].
    unfold ensure. rewrite (sbind_ok _ _ st tt st) by reflexivity.
    destruct HE as [(e & HE & HN)|(st1 & HE & H1 & H2 & H3 & H4 & H5)].
    + unfold sbind at 1. rewrite HE. eexists _, _. split; [reflexivity|]. cbn; repeat (split; auto).
    + rewrite (sbind_ok _ _ _ _ _ HE). unfold sbind at 1. rewrite HS; [|exact H4|lia].
      eexists _, _. split; [reflexivity|]. auto 10.
  - unfold mmap_push. destruct HE as [(e & HE & HN)|(st1 & HE & H1 & H2 & H3 & H4 & H5)].
    + unfold sbind at 1. rewrite HE. eexists _, _. split; [reflexivity|]. cbn; repeat (split; auto).
    + rewrite (sbind_ok _ _ _ _ _ HE). rewrite (sbind_ok _ _ st1 st1 st1) by reflexivity. rewrite H2, H4.
      replace (_ <=? _) with false by lia. eexists _, _. split; [reflexivity|]. auto 10.
Qed.

(* reads at or behind len(): no data, in any state *)
Definition reads_bounded {E} (SO : StoreOps E) : Prop := forall st,
  (forall i, st_len SO (fst st) <= i -> is_ok (st_read_at SO st i) = false) /\
  (forall i buf, st_len SO (fst st) <= i -> is_ok (st_read_into SO st i buf) = false) /\
  (forall s e, st_len SO (fst st) < e -> is_ok (st_read_range SO st s e) = false) /\
  (forall s e buf, st_len SO (fst st) < e -> is_ok (st_read_range_into SO st s e buf) = false) /\
  (forall s e l, st_len SO (fst st) <= s -> st_read_range SO st s e = Ok l -> l = []) /\
  (forall s e buf, st_len SO (fst st) <= s -> is_ok (st_read_range_into SO st s e buf) = false).

Lemma check_out (bl n s e : nat) (m1 m2 : string) (k : res unit) : 0 < bl -> n <= s \/ n < e ->
  exists m, (do _ <- ensure (s * bl <? n * bl) m1; do _ <- ensure (e * bl <=? n * bl) m2; k) = Err m.
Proof.
  intros Hb H. destruct (s * bl <? n * bl) eqn:G; cbn [ensure rbind]; [|eauto].
  destruct (e * bl <=? n * bl) eqn:G2; cbn [ensure rbind]; [|eauto]. exfalso. destruct H; nia.
Qed.
Lemma disk_check_out {E} (EO : ElementOps E) st s e : 0 < e_byte_len EO -> ds_len (fst st) <= s \/ ds_len (fst st) < e ->
  exists m, disk_check EO st (s * e_byte_len EO) (e * e_byte_len EO) = Err m.
Proof.
  intros Hb H. destruct (check_out (e_byte_len EO) (ds_len (fst st)) s e "start out of range" "end out of range" (Ok tt) Hb H) as [m G].
  exists m. unfold disk_check. destruct (s * _ <? _); [|exact G]. cbn [ensure rbind] in *. destruct (_ <=? _); [discriminate|exact G].
Qed.
Lemma mmap_check_out {E} (EO : ElementOps E) st s e : 0 < e_byte_len EO -> mm_len (fst st) <= s \/ mm_len (fst st) < e ->
  exists m, mmap_check EO st (s * e_byte_len EO) (e * e_byte_len EO) = Err m.
Proof.
  intros Hb H. destruct (check_out (e_byte_len EO) (mm_len (fst st)) s e "start out of range" "end out of range" (Ok tt) Hb H) as [m G].
  exists m. unfold mmap_check. destruct (s * _ <? _); [|exact G]. cbn [ensure rbind] in *. destruct (_ <=? _); [discriminate|exact G].
Qed.
Lemma lc_check_out {E} (EO : ElementOps E) st s e : 0 < e_byte_len EO -> lc_len (fst st) <= s \/ lc_len (fst st) < e ->
  exists m, lc_check EO st (s * e_byte_len EO) (e * e_byte_len EO) = Err m.
Proof. intros Hb H. apply check_out; auto. Qed.

Theorem C37_disk_read : forall E (EO : ElementOps E), ElementLaws EO -> reads_bounded (disk_store EO).
Proof.
  intros E EO EL st. pose proof (el_pos EO EL) as Hbl. cbn [disk_store st_len st_read_at st_read_into st_read_range st_read_range_into].
  unfold disk_read_at, disk_read_into, disk_read_range, disk_read_range_into.
  assert (A1 : forall i, i * e_byte_len EO + e_byte_len EO = (i + 1) * e_byte_len EO) by lia.
  split; [intros i Hi; rewrite A1; destruct (disk_check_out EO st i (i + 1) Hbl (or_introl Hi)) as [m ->]; reflexivity|].
  split; [intros i buf Hi; rewrite A1; destruct (disk_check_out EO st i (i + 1) Hbl (or_introl Hi)) as [m ->]; reflexivity|].
  split; [intros s e He; destruct (disk_check_out EO st s e Hbl (or_intror He)) as [m ->]; reflexivity|].
  split; [intros s e buf He; destruct (disk_check_out EO st s e Hbl (or_intror He)) as [m ->]; reflexivity|].
  split; [intros s e l Hs; destruct (disk_check_out EO st s e Hbl (or_introl Hs)) as [m ->]; discriminate|].
  intros s e buf Hs; destruct (disk_check_out EO st s e Hbl (or_introl Hs)) as [m ->]; reflexivity.
Qed.
Theorem C37_mmap_read : forall E (EO : ElementOps E), ElementLaws EO -> reads_bounded (mmap_store_ops EO).
Proof.
  intros E EO EL st. pose proof (el_pos EO EL) as Hbl. cbn [mmap_store_ops st_len st_read_at st_read_into st_read_range st_read_range_into].
  unfold mmap_read_at, mmap_read_into, mmap_read_range, mmap_read_range_into.
  assert (A1 : forall i, i * e_byte_len EO + e_byte_len EO = (i + 1) * e_byte_len EO) by lia.
  split; [intros i Hi; rewrite A1; destruct (mmap_check_out EO st i (i + 1) Hbl (or_introl Hi)) as [m ->]; reflexivity|].
  split; [intros i buf Hi; rewrite A1; destruct (mmap_check_out EO st i (i + 1) Hbl (or_introl Hi)) as [m ->]; reflexivity|].
  split; [intros s e He; destruct (mmap_check_out EO st s e Hbl (or_intror He)) as [m ->]; reflexivity|].
  split; [reflexivity|].
  split; [intros s e l Hs; destruct (mmap_check_out EO st s e Hbl (or_introl Hs)) as [m ->]; discriminate|].
  reflexivity.
Qed.
Theorem C37_level_cache_read : forall E (EO : ElementOps E), ElementLaws EO -> reads_bounded (lc_store EO).
Proof.
  intros E EO EL st. pose proof (el_pos EO EL) as Hbl. cbn [lc_store st_len st_read_at st_read_into st_read_range st_read_range_into].
  unfold lc_read_at, lc_read_into, lc_read_range, lc_read_range_into.
  assert (A1 : forall i, i * e_byte_len EO + e_byte_len EO = (i + 1) * e_byte_len EO) by lia.
  split; [intros i Hi; rewrite A1; destruct (lc_check_out EO st i (i + 1) Hbl (or_introl Hi)) as [m ->]; reflexivity|].
  split; [intros i buf Hi; rewrite A1; destruct (lc_check_out EO st i (i + 1) Hbl (or_introl Hi)) as [m ->]; reflexivity|].
  split; [intros s e He; destruct (lc_check_out EO st s e Hbl (or_intror He)) as [m ->]; reflexivity|].
  split; [intros s e buf He; destruct (lc_check_out EO st s e Hbl (or_intror He)) as [m ->]; reflexivity|].
  split; [intros s e l Hs; destruct (lc_check_out EO st s e Hbl (or_introl Hs)) as [m ->]; discriminate|].
  intros s e buf Hs; destruct (lc_check_out EO st s e Hbl (or_introl Hs)) as [m ->]; reflexivity.
Qed.
Theorem C37_vec_read : forall E (EO : ElementOps E), reads_bounded (vec_store EO).
Proof.
  intros E EO [v f]. cbn [vec_store st_len st_read_at st_read_into st_read_range st_read_range_into fst].
  repeat split; intros; unfold vec_read_at, vec_read_into, vec_read_range, vec_read_range_into, rnth in *; cbn [fst] in *; try reflexivity.
  - rewrite nth_error_past by auto. reflexivity.
  - rewrite nth_error_past by auto. reflexivity.
  - replace (_ && _) with false by lia. reflexivity.
  - destruct (_ && _) eqn:G; [|discriminate]. inversion H0. replace (e - s) with 0 by lia. apply sub_zero.
Qed.

(* the _into readers of DiskStore (and LevelCacheStore) fill the whole buffer whatever the
   range is: with a buffer longer than the range they return bytes of positions behind len *)
Theorem C37_oversized_buffer_refuted :
  ~ (forall st s e buf r, disk_read_range_into BO st s e buf = Ok r -> List.length r <= ds_len (fst st) - s).
Proof.
  intros H.
  pose (st := ({| ds_len := 2; ds_file := {| h_ino := 0; h_write := true |}; ds_loaded := false; ds_size := 4 |},
               fs_set_data fs_empty 0 [x01; x02; x03; x04])).
  specialize (H st 0 2 [x00; x00; x00; x00] [x01; x02; x03; x04] eq_refl). cbn in H. lia.
Qed.

Example C37_case :
  match st_new (mmap_store_ops BO) 3 fs_empty with
  | (Ok s, f) => run_op (mmap_store_ops BO) (OCopy [x01; x02] 2) (s, f)
                 = (Panic "range end index out of range for slice"%string, (s, f)) /\
                 is_ok (fst (run_op (mmap_store_ops BO) (OCopy [x01; x02] 1) (s, f))) = true
  | _ => False
  end.
Proof. vm_compute. split; reflexivity. Qed.

(* ---- C49 ---- *)
Theorem C49_sequences : forall E (EO : ElementOps E), ElementLaws EO ->
  forall z, e_from_slice EO (repeat x00 (e_byte_len EO)) = Ok z ->
  forall cap arr st sizes b c v ops,
  created EO (mmap_store_ops EO) cap arr st \/ reopened EO (mmap_store_ops EO) cap arr st ->
  let '(ks, st') := run_mops (mmap_store_ops EO) sizes b c v ops st in
  let '(ks', (arr', mapped)) := mspec_ops EO z cap ops (arr, true) in
  ks = ks' /\ mm_len (fst st') = List.length arr' /\
  (mapped = true -> shows mm_len (mmap_read_at EO) (mmap_read_range EO) (fun _ => True) arr' st') /\
  (mapped = false -> (forall i, exists e, mmap_read_at EO st' i = Err e) /\
                     (forall s e, exists m, mmap_read_range EO st' s e = Err m) /\
                     (forall i buf, exists e, mmap_read_into EO st' i buf = Err e)).
Proof.
  intros E EO EL z Hz cap arr st sizes b c v ops H.
  assert (HR : mm_arr EO z cap arr true st) by (destruct H; [apply mmap_created|apply mmap_reopened]; auto).
  pose proof (mm_mops_sim EO EL z cap sizes b c v ops arr true st HR) as HS.
  destruct (run_mops _ _ _ _ _ _ _) as [ks st']. destruct (mspec_ops _ _ _ _ _) as [ks' [arr' m]].
  destruct HS as [-> HR']. cbn [fst snd] in HR'. split; [reflexivity|]. split; [apply HR'|].
  split; intros ->; [eapply mm_shows|eapply mm_unmapped]; eauto.
Qed.

(* compact followed by reinit restores every read *)
Theorem C49_round_trip : forall E (EO : ElementOps E), ElementLaws EO ->
  forall z, e_from_slice EO (repeat x00 (e_byte_len EO)) = Ok z ->
  forall cap arr st sizes b c v ops,
  created EO (mmap_store_ops EO) cap arr st \/ reopened EO (mmap_store_ops EO) cap arr st ->
  let '(_, st1) := run_mops (mmap_store_ops EO) sizes b c v ops st in
  mm_map (fst st1) <> None ->
  let '(ks, st2) := run_mops (mmap_store_ops EO) sizes b c v [MCompact; MReinit] st1 in
  ks = [true; true] /\ st2 = st1.
Proof.
  intros E EO EL z Hz cap arr st sizes b c v ops H.
  assert (HR : mm_arr EO z cap arr true st) by (destruct H; [apply mmap_created|apply mmap_reopened]; auto).
  pose proof (mm_mops_sim EO EL z cap sizes b c v ops arr true st HR) as HS.
  destruct (run_mops _ _ _ _ _ ops st) as [ks st1]. destruct (mspec_ops _ _ _ _ _) as [ks' [arr' m]].
  destruct HS as [_ HR1]. cbn [fst snd] in HR1. pose proof HR1 as (H1 & H2 & H3 & HD).
  intros Hm. destruct m; [|cbn in H3; contradiction]. clear Hm.
  cbn [run_mops run_mop mmap_store_ops st_compact st_reinit mmap_compact is_ok].
  unfold mmap_reinit, mm_map_mut, fs_map_mut. cbn [fst snd mm_set_map mm_file]. rewrite H2. cbn [rbind is_ok].
  split; [reflexivity|]. unfold fs_size. rewrite (FRep_length EO z _ _ _ HD).
  destruct st1 as [[mm fl ln] f1]. cbn in *. rewrite H3. reflexivity.
Qed.

Example C49_case :
  match st_new (mmap_store_ops BO) 4 fs_empty with
  | (Ok s, f) =>
      let '(ks, st) := run_mops (mmap_store_ops BO) (fun _ => 0) 2 cfg0 1
          [MUpdate (OPush (el 5)); MCompact; MUpdate (OPush (el 6)); MCompact; MReinit; MCompact; MCompact; MUpdate (OWrite (el 9) 7)] (s, f) in
      ks = [true; true; true; true; true; true; true; false] /\
      rbind (mmap_read_range BO st 0 2) (fun l => Ok (map val l)) = Ok [5; 6]
  | _ => False
  end.
Proof. vm_compute. split; reflexivity. Qed.

Print Assumptions C36_spec_put.
Print Assumptions C36_vec.
Print Assumptions C36_disk.
Print Assumptions C36_mmap.
Print Assumptions C36_level_cache.
Print Assumptions C36_level_cache_new.
Print Assumptions C37_disk_write.
Print Assumptions C37_level_cache_write.
Print Assumptions C37_mmap_write.
Print Assumptions C37_disk_read.
Print Assumptions C37_mmap_read.
Print Assumptions C37_level_cache_read.
Print Assumptions C37_vec_read.
Print Assumptions C37_oversized_buffer_refuted.
Print Assumptions C49_sequences.
Print Assumptions C49_round_trip.
