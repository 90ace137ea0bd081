(* io::copy inside one file, and DiskStore::compact, completed or stopped halfway. *)
From Coq Require Import String List Arith Bool Lia Init.Byte ZifyBool ZifyNat.
From Verif Require Import Base Element Hash Sizing FS Sched Store VecStore DiskStore ListFacts Spec SpecFacts SizingFacts SchedFacts StoreLaws RowFacts ChunkFacts BuildFacts BuildLoop StoreSpec FileFacts VecFacts DiskFacts FrameFacts.
Import ListNotations.

(* [m] bytes moved from [r0] down to [w0] *)
Definition moved {X} (D : list X) (w0 r0 m : nat) : list X := overwrite D w0 (sub D r0 m).

Lemma moved_0 {X} (D : list X) w0 r0 : moved D w0 r0 0 = D.
Proof. unfold moved. rewrite sub_zero. apply overwrite_nil. Qed.
Lemma moved_length {X} (D : list X) w0 r0 m : w0 <= r0 -> r0 + m <= List.length D -> List.length (moved D w0 r0 m) = List.length D.
Proof. intros. unfold moved. apply overwrite_length. rewrite sub_length_le by lia. lia. Qed.
Lemma moved_nth {X} (D : list X) w0 r0 m i : w0 <= r0 -> r0 + m <= List.length D ->
  nth_error (moved D w0 r0 m) i = if (w0 <=? i) && (i <? w0 + m) then nth_error D (r0 + (i - w0)) else nth_error D i.
Proof.
  intros. unfold moved. rewrite nth_error_overwrite by lia.
  rewrite sub_length_le by lia. destruct (i <? w0) eqn:Q1; [replace (w0 <=? i) with false by lia; reflexivity|].
  replace (w0 <=? i) with true by lia. cbn [andb]. destruct (i <? w0 + m) eqn:Q; [|reflexivity].
  rewrite nth_error_sub. replace (i - w0 <? m) with true by lia. reflexivity.
Qed.
(* what is still to be read has not been touched *)
Lemma moved_tail {X} (D : list X) w0 r0 m n : w0 <= r0 -> r0 + m <= List.length D ->
  sub (moved D w0 r0 m) (r0 + m) n = sub D (r0 + m) n.
Proof.
  intros. apply nth_error_ext. intros i. rewrite !nth_error_sub. destruct (i <? n); [|reflexivity].
  rewrite moved_nth by lia. replace ((w0 <=? r0 + m + i) && (r0 + m + i <? w0 + m)) with false by lia. reflexivity.
Qed.
Lemma moved_more {X} (D : list X) w0 r0 m n : w0 <= r0 -> r0 + m + n <= List.length D ->
  overwrite (moved D w0 r0 m) (w0 + m) (sub D (r0 + m) n) = moved D w0 r0 (m + n).
Proof.
  intros. apply nth_error_ext. intros i. rewrite nth_error_overwrite by (rewrite moved_length by lia; lia).
  rewrite sub_length_le by lia. rewrite !moved_nth by lia.
  destruct (i <? w0 + m) eqn:Q1.
  - rewrite andb_true_r. replace (i <? w0 + (m + n)) with true by lia. rewrite andb_true_r. reflexivity.
  - rewrite andb_false_r. replace (w0 <=? i) with true by lia. cbn [andb].
    replace (i <? w0 + (m + n)) with (i <? w0 + m + n) by (f_equal; lia).
    destruct (i <? w0 + m + n) eqn:Q2; [|reflexivity].
    rewrite nth_error_sub. replace (i - (w0 + m) <? n) with true by lia. f_equal. lia.
Qed.

Lemma fs_set_data_get f i d : fs_data (fs_set_data f i d) i = d.
Proof. unfold fs_data, fs_set_data. cbn [fs_ino]. rewrite Nat.eqb_refl. reflexivity. Qed.
Lemma copy_loop_S fl sizes k r w rpos wpos n f :
  copy_loop (S fl) sizes k r w rpos wpos n f =
  (let d := sub (fs_data f (h_ino r)) rpos (S (sizes k)) in
   if List.length d =? 0 then (Ok n, f)
   else sbind (fs_write_all_at w wpos d)
     (fun _ => copy_loop fl sizes (S k) r w (rpos + List.length d) (wpos + List.length d) (n + List.length d)) f).
Proof. reflexivity. Qed.
Lemma sub_min {X} (l : list X) s n : sub l s n = sub l s (Nat.min n (List.length l - s)).
Proof.
  apply nth_error_ext. intros i. rewrite !nth_error_sub. destruct (i <? n) eqn:Q1; destruct (i <? Nat.min n (List.length l - s)) eqn:Q2; try reflexivity; [|lia].
  apply nth_error_None. lia.
Qed.

Section Copy.
  Variables (sizes : nat -> nat) (r w : handle) (D : list byte) (w0 r0 : nat).
  Hypothesis Hrw : h_ino r = h_ino w.
  Hypothesis Hw : h_write w = true.
  Hypothesis Hle : w0 <= r0.
  Hypothesis Hr0 : r0 <= List.length D.

  Lemma copy_loop_spec : forall fuel k m f, fs_data f (h_ino w) = moved D w0 r0 m -> r0 + m <= List.length D ->
    exists x m' f', copy_loop fuel sizes k r w (r0 + m) (w0 + m) m f = (x, f') /\
      fs_data f' (h_ino w) = moved D w0 r0 m' /\ m <= m' /\ r0 + m' <= List.length D /\
      (x = Ok m' /\ r0 + m' = List.length D \/ x = Diverge /\ fuel <= List.length D - (r0 + m)).
  Proof.
    induction fuel; intros k m f Hd Hm.
    { exists Diverge, m, f. repeat split; auto. right. split; [reflexivity|lia]. }
    rewrite copy_loop_S. cbv zeta. rewrite Hrw, Hd. rewrite moved_tail by lia. rewrite sub_length.
    destruct (Nat.min (S (sizes k)) (List.length D - (r0 + m)) =? 0) eqn:Q.
    { exists (Ok m), m, f. repeat split; auto. left. split; [reflexivity|lia]. }
    set (n := Nat.min (S (sizes k)) (List.length D - (r0 + m))) in *.
    set (f1 := fs_set_data f (h_ino w) (moved D w0 r0 (m + n))).
    rewrite (sbind_ok _ _ f tt f1).
    2:{ unfold fs_write_all_at. rewrite sub_length. fold n. rewrite Q, Hw. unfold f1. repeat f_equal. rewrite Hd.
        rewrite (sub_min D). fold n. rewrite moved_length by lia.
        replace (Nat.max (List.length D) (w0 + m + n)) with (List.length (moved D w0 r0 m)) by (rewrite moved_length by lia; lia).
        rewrite resize_same. apply moved_more; lia. }
    rewrite <- !Nat.add_assoc.
    destruct (IHfuel (S k) (m + n) f1) as (x & m' & f' & H1 & H2 & H3 & H4 & H5).
    { unfold f1. apply fs_set_data_get. }
    { lia. }
    exists x, m', f'. split; [exact H1|]. split; [exact H2|]. split; [lia|]. split; [exact H4|].
    destruct H5 as [H5|[H5 H6]]; [auto|]. right. split; [exact H5|lia].
  Qed.

  (* run to the end *)
  Lemma fs_copy_spec f : fs_data f (h_ino w) = D ->
    exists f', fs_copy sizes r w r0 w0 f = (Ok (List.length D - r0), f') /\
      fs_data f' (h_ino w) = moved D w0 r0 (List.length D - r0).
  Proof.
    intros Hd. unfold fs_copy, fs_size. rewrite Hrw, Hd.
    destruct (copy_loop_spec (S (List.length D)) 0 0 f) as (x & m' & f' & H1 & H2 & H3 & H4 & H5);
      [rewrite moved_0; exact Hd|lia|]. rewrite !Nat.add_0_r in *.
    destruct H5 as [[-> H5]|[_ H5]]; [|lia]. exists f'. replace (List.length D - r0) with m' by lia. auto.
  Qed.

  (* stopped after any number of pieces *)
  Lemma copy_stopped n f : fs_data f (h_ino w) = D ->
    exists x m f', copy_loop n sizes 0 r w r0 w0 0 f = (x, f') /\
      fs_data f' (h_ino w) = moved D w0 r0 m /\ r0 + m <= List.length D /\
      (x = Ok m /\ r0 + m = List.length D \/ x = Diverge).
  Proof.
    intros Hd. destruct (copy_loop_spec n 0 0 f) as (x & m' & f' & H1 & H2 & H3 & H4 & H5);
      [rewrite moved_0; exact Hd|lia|]. rewrite !Nat.add_0_r in *.
    exists x, m', f'. split; [exact H1|]. split; [exact H2|]. split; [exact H4|]. tauto.
  Qed.
End Copy.

Section Compact.
  Context {E : Type} (EO : ElementOps E) (EL : ElementLaws EO).
  Local Notation bl := (e_byte_len EO).
  Variables (b : nat).
  Hypothesis Hb : arity b.
  Variables (c : StoreConfig) (d : nat) (leaves els : list E) (s : disk_t) (f : fs) (i : nat).
  Local Notation R := (sc_rows_to_discard c).
  Hypothesis Hls : List.length leaves = b ^ d.
  Hypothesis Hel : List.length els = geom b d.
  Hypothesis Hfirst : forall k, k < b ^ d -> nth_error els k = nth_error leaves k.
  Hypothesis Hrep : disk_rep EO (geom b d) (geom b d) (nth_error els) (s, f).
  Hypothesis Hfile : h_ino (ds_file s) = i.
  Hypothesis Hpath : fs_dir f (cfg_path c) = Some i.
  Hypothesis Hro : i_ro (fs_ino f i) = false.

  (* the rows above the discarded ones *)
  Definition cached : list E := skipn (row_off b d (S R)) els.
  (* what the file must hold afterwards *)
  Definition compacted (v : nat) : list E := if v =? 1 then leaves ++ cached else cached.

  Lemma full_data : fs_data f i = encode EO els.
  Proof.
    destruct Hrep as (_ & _ & _ & HD). cbn [snd fst] in HD. rewrite Hfile in HD. rewrite <- Hel in HD. apply DRep_full; auto.
  Qed.

  Lemma leaves_prefix : leaves = firstn (b ^ d) els.
  Proof.
    apply nth_error_ext. intros k. rewrite nth_error_firstn. destruct (k <? b ^ d) eqn:Q.
    - symmetry. apply Hfirst. lia.
    - apply nth_error_None. lia.
  Qed.

  Lemma cached_length : R < d -> List.length cached = geom b (d - 1 - R).
  Proof.
    intros HR. unfold cached. rewrite skipn_length, Hel. pose proof (geom_row_off b d (S R) ltac:(lia)).
    replace (d - 1 - R) with (d - S R) by lia. lia.
  Qed.

  Definition start (v : nat) : nat := if v =? 1 then b ^ d else 0.
  Lemma start_le v : R < d -> start v <= row_off b d (S R).
  Proof.
    intros HR. unfold start. destruct (v =? 1); [|lia]. pose proof (row_off_mono b d 1 (S R) ltac:(lia)) as M.
    change (row_off b d 1) with (0 + b ^ (d - 0)) in M. rewrite Nat.sub_0_r in M. lia.
  Qed.

  (* the code up to the copy *)
  Lemma compact_prefix copy v : 1 <= d -> R < d ->
    disk_compact_with EO copy b c v (s, f) =
    (let! written := on_fs (copy {| h_ino := i; h_write := false |} {| h_ino := i; h_write := true |}
                              (row_off b d (S R) * bl) (start v * bl)) in
     let! _ := slift (ensure (written =? geom b (d - 1 - R) * bl) "Failed to copy all data") in
     let new_bytes := List.length (compacted v) * bl in
     let! _ := on_fs (fs_set_len {| h_ino := i; h_write := true |} new_bytes) in
     let! _ := disk_upd_len (new_bytes / bl) in
     let! st := sget in
     let! _ := slift (ensure (ds_len (fst st) * bl =? fs_size (snd st) (ds_file (fst st))) "Inconsistent metadata detected") in
     sret true) (ds_set_file s {| h_ino := i; h_write := true |}, f).
  Proof.
    intros Hd HR. pose proof (bl_pos EO EL) as Hbl. pose proof (arity_ge b Hb) as H2.
    destruct Hrep as (R1 & _ & R3 & _). cbn [fst snd] in *.
    unfold disk_compact_with. rewrite (sbind_ok _ _ (s, f) (s, f) (s, f)) by reflexivity. cbn [fst snd].
    rewrite R1. rewrite get_merkle_tree_leafs_full by auto. rewrite (sbind_ok _ _ (s, f) (b ^ d) (s, f)) by reflexivity.
    rewrite cache_size_full by auto. rewrite (sbind_ok _ _ (s, f) (geom b (d - 1 - R)) (s, f)) by reflexivity.
    pose proof (geom_row_off b d (S R) ltac:(lia)) as G. pose proof (geom_pos b (d - S R)) as G0.
    assert (G1 : 0 < row_off b d (S R)) by (rewrite row_off_step; pose proof (Nat.pow_nonzero b (d - R) ltac:(lia)); lia).
    replace (d - 1 - R) with (d - S R) in * by lia.
    replace ((geom b (d - S R) * bl <? geom b d * bl) && negb (geom b (d - S R) * bl =? 0)) with true.
    2:{ symmetry. apply andb_true_iff. split.
        - apply Nat.ltb_lt. apply Nat.mul_lt_mono_pos_r; lia.
        - apply negb_true_iff, Nat.eqb_neq. pose proof (Nat.mul_pos_pos (geom b (d - S R)) bl). lia. }
    cbn [ensure]. rewrite (sbind_ok _ _ (s, f) tt (s, f)) by reflexivity.
    rewrite R3. assert (geom b (d - S R) * bl <= geom b d * bl) by (apply Nat.mul_le_mono_r; lia).
    rewrite checked_sub_ok by auto.
    replace (geom b d * bl - geom b (d - S R) * bl) with (row_off b d (S R) * bl) by (rewrite <- Nat.mul_sub_distr_r; f_equal; lia).
    rewrite (sbind_ok _ _ (s, f) (row_off b d (S R) * bl) (s, f)) by reflexivity.
    unfold fs_open_ro. rewrite Hpath. rewrite (sbind_ok _ _ (s, f) {| h_ino := i; h_write := false |} (s, f)) by reflexivity.
    unfold fs_open_rw. rewrite Hpath, Hro. rewrite (sbind_ok _ _ (s, f) {| h_ino := i; h_write := true |} (s, f)) by reflexivity.
    set (s1 := ds_set_file s {| h_ino := i; h_write := true |}).
    rewrite (sbind_ok _ _ (s, f) tt (s1, f)) by reflexivity.
    assert (HLn : (if v =? 1 then b ^ d * bl + geom b (d - S R) * bl else geom b (d - S R) * bl) = List.length (compacted v) * bl).
    { unfold compacted. pose proof (cached_length HR) as CL. replace (d - 1 - R) with (d - S R) in CL by lia.
      destruct (v =? 1); rewrite ?app_length, CL, ?Hls; lia. }
    rewrite HLn. replace (if v =? 1 then b ^ d * bl else 0) with (start v * bl) by (unfold start; destruct (v =? 1); reflexivity).
    reflexivity.
  Qed.

  Lemma sub_rest p : p <= List.length els -> sub (encode EO els) (p * bl) (List.length els * bl - p * bl) = encode EO (skipn p els).
  Proof.
    intros Hp. rewrite <- Nat.mul_sub_distr_r, encode_sub by auto. f_equal. unfold sub. apply firstn_all2. rewrite skipn_length. lia.
  Qed.

  Lemma compacted_bytes v : R < d ->
    firstn (List.length (compacted v) * bl) (moved (encode EO els) (start v * bl) (row_off b d (S R) * bl) (geom b (d - 1 - R) * bl)) =
    encode EO (compacted v).
  Proof.
    intros HR. pose proof (bl_pos EO EL) as Hbl. pose proof (cached_length HR) as CL. pose proof (start_le v HR) as SL.
    assert (HG : geom b (d - 1 - R) * bl = List.length els * bl - row_off b d (S R) * bl).
    { rewrite <- Nat.mul_sub_distr_r, <- CL. unfold cached. rewrite skipn_length. reflexivity. }
    assert (HB : row_off b d (S R) <= List.length els) by (rewrite Hel; pose proof (geom_row_off b d (S R) ltac:(lia)); lia).
    unfold moved. rewrite HG, sub_rest by auto. fold cached. unfold overwrite.
    assert (HSl : start v * bl <= List.length (encode EO els)).
    { rewrite encode_length by auto. apply Nat.mul_le_mono_r. lia. }
    assert (HF : firstn (start v * bl) (encode EO els) = encode EO (firstn (start v) els)).
    { rewrite <- !sub_0. change 0 with (0 * bl) at 1. apply encode_sub. auto. }
    rewrite app_assoc, HF, <- encode_app.
    assert (HC : firstn (start v) els ++ cached = compacted v).
    { unfold start, compacted. destruct (v =? 1); [rewrite <- leaves_prefix|]; reflexivity. }
    rewrite HC. rewrite <- (encode_length EO EL (compacted v)).
    rewrite firstn_app, Nat.sub_diag. cbn [firstn]. rewrite app_nil_r. apply firstn_all.
  Qed.

  (* after the copy *)
  Lemma compact_suffix v s1 f1 : R < d -> ds_file s1 = {| h_ino := i; h_write := true |} ->
    fs_data f1 i = moved (encode EO els) (start v * bl) (row_off b d (S R) * bl) (geom b (d - 1 - R) * bl) ->
    exists f2,
    (let new_bytes := List.length (compacted v) * bl in
     let! _ := on_fs (fs_set_len {| h_ino := i; h_write := true |} new_bytes) in
     let! _ := disk_upd_len (new_bytes / bl) in
     let! st := sget in
     let! _ := slift (ensure (ds_len (fst st) * bl =? fs_size (snd st) (ds_file (fst st))) "Inconsistent metadata detected") in
     sret true) (s1, f1) = (Ok true, (ds_set_len s1 (List.length (compacted v)), f2)) /\
    fs_data f2 i = encode EO (compacted v) /\ fs_frame (Some i) f1 f2.
  Proof.
    intros HR Hf Hd. pose proof (bl_pos EO EL) as Hbl. cbv zeta.
    set (f2 := snd (fs_set_len {| h_ino := i; h_write := true |} (List.length (compacted v) * bl) f1)).
    exists f2. pose proof (cached_length HR) as CL. pose proof (start_le v HR) as SL.
    assert (HB : geom b d = row_off b d (S R) + geom b (d - 1 - R)).
    { replace (d - 1 - R) with (d - S R) by lia. apply geom_row_off. lia. }
    assert (HSL : List.length (compacted v) = start v + geom b (d - 1 - R)).
    { unfold compacted, start. destruct (v =? 1); rewrite ?app_length, CL, ?Hls; lia. }
    assert (HD : fs_data f2 i = encode EO (compacted v)).
    { unfold f2, fs_set_len. cbn [h_write h_ino snd]. rewrite fs_set_data_get, Hd, resize_shrink.
      - apply compacted_bytes. exact HR.
      - rewrite moved_length, encode_length by (rewrite ?encode_length, <- ?Nat.mul_add_distr_r, ?Hel, ?HB; auto; apply Nat.mul_le_mono_r; lia).
        apply Nat.mul_le_mono_r. lia. }
    split; [|split; [exact HD|apply (set_len_frame {| h_ino := i; h_write := true |})]].
    rewrite (sbind_ok _ _ (s1, f1) tt (s1, f2)) by reflexivity.
    rewrite (sbind_ok _ _ (s1, f2) tt (ds_set_len s1 (List.length (compacted v)), f2)).
    2:{ unfold disk_upd_len. cbn [fst snd]. rewrite Nat.div_mul by lia. reflexivity. }
    rewrite (sbind_ok _ _ _ (ds_set_len s1 (List.length (compacted v)), f2) (ds_set_len s1 (List.length (compacted v)), f2)) by reflexivity.
    cbn [fst snd ds_len ds_set_len ds_file]. rewrite Hf. unfold fs_size. cbn [h_ino]. rewrite HD, encode_length, Nat.eqb_refl by auto.
    reflexivity.
  Qed.

  (* a completed compaction *)
  Lemma disk_compact_ok sizes v : 1 <= d -> R < d ->
    exists s' f', disk_compact EO sizes b c v (s, f) = (Ok true, (s', f')) /\
      fs_data f' i = encode EO (compacted v) /\ fs_frame (Some i) f f' /\
      ds_len s' = List.length (compacted v) /\ ds_file s' = {| h_ino := i; h_write := true |} /\ ds_size s' = ds_size s.
  Proof.
    intros Hd HR. pose proof (start_le v HR) as SL. unfold disk_compact. rewrite compact_prefix by auto.
    pose proof (geom_row_off b d (S R) ltac:(lia)) as G. replace (d - S R) with (d - 1 - R) in G by lia.
    destruct (fs_copy_spec sizes {| h_ino := i; h_write := false |} {| h_ino := i; h_write := true |}
                (encode EO els) (start v * bl) (row_off b d (S R) * bl) eq_refl eq_refl
                ltac:(apply Nat.mul_le_mono_r; lia) ltac:(rewrite encode_length by auto; apply Nat.mul_le_mono_r; lia) f full_data)
      as (f1 & C1 & C2).
    rewrite encode_length, <- Nat.mul_sub_distr_r in C1, C2 by auto.
    replace (List.length els - row_off b d (S R)) with (geom b (d - 1 - R)) in C1, C2 by lia.
    set (s1 := ds_set_file s {| h_ino := i; h_write := true |}).
    rewrite (sbind_ok _ _ (s1, f) (geom b (d - 1 - R) * bl) (s1, f1)) by (unfold on_fs; cbn [fst snd]; rewrite C1; reflexivity).
    rewrite Nat.eqb_refl. cbn [ensure]. rewrite (sbind_ok _ _ (s1, f1) tt (s1, f1)) by reflexivity.
    destruct (compact_suffix v s1 f1 HR eq_refl C2) as (f2 & H1 & H2 & H3). cbv zeta in H1.
    exists (ds_set_len s1 (List.length (compacted v))), f2. split; [exact H1|]. split; [exact H2|]. split; [|auto].
    eapply fs_frame_trans; [|exact H3].
    pose proof (copy_loop_frame sizes {| h_ino := i; h_write := false |} {| h_ino := i; h_write := true |}) as F.
    unfold fs_copy in C1. match type of C1 with copy_loop ?n _ ?k _ _ ?a ?b0 ?m _ = _ => specialize (F n k a b0 m f) end.
    rewrite C1 in F. exact F.
  Qed.

  (* nothing happens if no row would be left *)
  Lemma disk_compact_bad copy v : 1 <= d -> d <= R -> exists e, disk_compact_with EO copy b c v (s, f) = (Err e, (s, f)).
  Proof.
    intros Hd HR. destruct Hrep as (R1 & _). cbn [fst snd] in *.
    unfold disk_compact_with. rewrite (sbind_ok _ _ (s, f) (s, f) (s, f)) by reflexivity. cbn [fst snd].
    rewrite R1. rewrite get_merkle_tree_leafs_full by auto. rewrite (sbind_ok _ _ (s, f) (b ^ d) (s, f)) by reflexivity.
    destruct (cache_size_bad b d R) as [e He]; [auto|lia|lia|]. rewrite He. eexists. reflexivity.
  Qed.

  (* stopped after any number of pieces: what is on disk *)
  Lemma disk_compact_stopped_spec k sizes v : 1 <= d -> R < d ->
    let f' := snd (snd (disk_compact_stopped EO k sizes b c v (s, f))) in
    fs_frame (Some i) f f' /\
    (fs_data f' i = encode EO (compacted v) \/
     exists m, m <= geom b (d - 1 - R) * bl /\
       fs_data f' i = moved (encode EO els) (start v * bl) (row_off b d (S R) * bl) m).
  Proof.
    intros Hd HR f'. pose proof (start_le v HR) as SL. unfold f', disk_compact_stopped. clear f'. rewrite compact_prefix by auto.
    pose proof (geom_row_off b d (S R) ltac:(lia)) as G. replace (d - S R) with (d - 1 - R) in G by lia.
    destruct (copy_stopped sizes {| h_ino := i; h_write := false |} {| h_ino := i; h_write := true |}
                (encode EO els) (start v * bl) (row_off b d (S R) * bl) eq_refl eq_refl
                ltac:(apply Nat.mul_le_mono_r; lia) ltac:(rewrite encode_length by auto; apply Nat.mul_le_mono_r; lia) k f full_data)
      as (x & m & f1 & C1 & C2 & C3 & C4).
    pose proof (copy_loop_frame sizes {| h_ino := i; h_write := false |} {| h_ino := i; h_write := true |} k 0 (row_off b d (S R) * bl) (start v * bl) 0 f) as F.
    rewrite C1 in F. cbn [snd h_ino] in F.
    set (s1 := ds_set_file s {| h_ino := i; h_write := true |}). rewrite encode_length in C3 by auto.
    assert (HX : List.length els * bl = row_off b d (S R) * bl + geom b (d - 1 - R) * bl).
    { rewrite <- Nat.mul_add_distr_r. f_equal. lia. }
    destruct C4 as [[-> Hm]| ->].
    - assert (m = geom b (d - 1 - R) * bl) as -> by (rewrite encode_length in Hm by auto; lia).
      rewrite (sbind_ok _ _ (s1, f) (geom b (d - 1 - R) * bl) (s1, f1)) by (unfold on_fs; cbn [fst snd]; rewrite C1; reflexivity).
      rewrite Nat.eqb_refl. cbn [ensure]. rewrite (sbind_ok _ _ (s1, f1) tt (s1, f1)) by reflexivity.
      destruct (compact_suffix v s1 f1 HR eq_refl C2) as (f2 & H1 & H2 & H3). cbv zeta in H1.
      rewrite H1. cbn [snd]. split; [eapply fs_frame_trans; eauto|]. auto.
    - match goal with |- context [sbind ?x ?k (s1, f)] => assert (HS : sbind x k (s1, f) = (Diverge, (s1, f1))) end.
      { unfold sbind at 1. unfold on_fs at 1. cbn [fst snd]. rewrite C1. reflexivity. }
      rewrite HS. cbn [snd]. split; [exact F|]. right. exists m. split; [lia|exact C2].
  Qed.
End Compact.
