(* A compaction of any file of the right length, finished or killed, seen as bytes
   only; and what it leaves of the bytes a later compaction needs. *)
From Coq Require Import String List Arith Bool Lia Init.Byte ZifyBool ZifyNat.
From Verif Require Import Base Element Hash Sizing FS Sched Store VecStore DiskStore ListFacts Spec SpecFacts SizingFacts SchedFacts StoreLaws RowFacts ChunkFacts BuildFacts BuildLoop StoreSpec FileFacts VecFacts DiskFacts FrameFacts CompactFacts CompactTrees ReopenFacts.
Import ListNotations.

(* reopen the file at c's path as a DiskStore of [size] elements and start to compact
   it; the process is killed after k pieces of the copy (or finishes).  The file
   system left behind. *)
Definition attempt {E} (EO : ElementOps E) (size b : nat) (c : StoreConfig) (v k : nat) (sizes : nat -> nat) (f : fs) : fs :=
  match disk_new_from_disk EO size b c f with
  | (Ok s, f1) => snd (snd (disk_compact_stopped EO k sizes b c v (s, f1)))
  | (_, f1) => f1
  end.

Section Bytes.
  Context {E : Type} (EO : ElementOps E) (EL : ElementLaws EO).
  Local Notation bl := (e_byte_len EO).
  Variables (b : nat).
  Hypothesis Hb : arity b.
  Variables (c : StoreConfig) (d v : nat).
  Local Notation R := (sc_rows_to_discard c).
  Hypothesis Hd : 1 <= d.
  Hypothesis HR : R < d.
  Local Notation src := (row_off b d (S R) * bl).
  Local Notation dst := (CompactFacts.start b d v * bl).
  Local Notation cnt := (geom b (d - 1 - R) * bl).

  Lemma total : geom b d * bl = src + cnt.
  Proof.
    pose proof (geom_row_off b d (S R) ltac:(lia)) as G. replace (d - S R) with (d - 1 - R) in G by lia.
    rewrite G. apply Nat.mul_add_distr_r.
  Qed.
  Lemma dst_le : dst <= src.
  Proof.
    apply Nat.mul_le_mono_r. unfold CompactFacts.start. destruct (v =? 1); [|lia]. pose proof (row_off_mono b d 1 (S R) ltac:(lia)) as M.
    change (row_off b d 1) with (0 + b ^ (d - 0)) in M. rewrite Nat.sub_0_r in M. lia.
  Qed.
  (* the copy never writes where it still has to read, or it copies every byte onto itself *)
  Lemma apart : dst = src \/ dst + cnt <= src.
  Proof.
    pose proof (arity_ge b Hb) as H2.
    assert (H : CompactFacts.start b d v = row_off b d (S R) \/ CompactFacts.start b d v + geom b (d - 1 - R) <= row_off b d (S R)).
    { unfold CompactFacts.start. destruct (v =? 1).
      - destruct (Nat.eq_dec R 0) as [HR0|HR0].
        + left. rewrite HR0. change (row_off b d 1) with (0 + b ^ (d - 0)). rewrite Nat.sub_0_r. reflexivity.
        + right. pose proof (row_off_mono b d 2 (S R) ltac:(lia)) as M. rewrite (row_off_step b d 1) in M.
          change (row_off b d 1) with (0 + b ^ (d - 0)) in M. rewrite Nat.sub_0_r in M.
          pose proof (geom_lt_next b (d - 1 - R) H2) as GL.
          pose proof (Nat.pow_le_mono_r b (S (d - 1 - R)) (d - 1) ltac:(lia) ltac:(lia)). lia.
      - right. pose proof (row_off_mono b d 1 (S R) ltac:(lia)) as M.
        change (row_off b d 1) with (0 + b ^ (d - 0)) in M. rewrite Nat.sub_0_r in M.
        pose proof (geom_lt_next b (d - 1 - R) H2) as GL.
        pose proof (Nat.pow_le_mono_r b (S (d - 1 - R)) d ltac:(lia) ltac:(lia)). lia. }
    destruct H as [H|H]; [left; rewrite H; reflexivity|right]. rewrite <- Nat.mul_add_distr_r. apply Nat.mul_le_mono_r. exact H.
  Qed.

  (* the bytes of a finished compaction *)
  Definition packed (B : list byte) : list byte := firstn dst B ++ skipn src B.

  (* what a later compaction needs is still there *)
  Lemma moved_keeps (D : list byte) m : List.length D = geom b d * bl -> m <= cnt ->
    firstn dst (moved D dst src m) = firstn dst D /\ skipn src (moved D dst src m) = skipn src D.
  Proof.
    intros HD Hm. pose proof dst_le as L. pose proof total as T. pose proof apart as AP. split; apply nth_error_ext; intros q.
    - rewrite !nth_error_firstn. destruct (q <? dst) eqn:Q; [|reflexivity]. rewrite moved_nth by lia.
      replace (dst <=? q) with false by lia. reflexivity.
    - rewrite !nth_error_skipn, moved_nth by lia. destruct ((dst <=? src + q) && (src + q <? dst + m)) eqn:Q; [|reflexivity].
      f_equal. destruct AP; lia.
  Qed.
  Lemma moved_packed (D : list byte) m : List.length D = geom b d * bl -> m <= cnt -> packed (moved D dst src m) = packed D.
  Proof. intros HD Hm. unfold packed. destruct (moved_keeps D m HD Hm) as [-> ->]. reflexivity. Qed.

  Variables (s : disk_t) (f : fs) (i : nat).
  Hypothesis Hlen : ds_len s = geom b d.
  Hypothesis Hsize : ds_size s = geom b d * bl.
  Hypothesis Hpath : fs_dir f (cfg_path c) = Some i.
  Hypothesis Hro : i_ro (fs_ino f i) = false.
  Hypothesis HD : List.length (fs_data f i) = geom b d * bl.
  Local Notation D := (fs_data f i).
  Local Notation hr := {| h_ino := i; h_write := false |}.
  Local Notation hw := {| h_ino := i; h_write := true |}.

  Definition rest_of (copy : handle -> handle -> nat -> nat -> SM fs nat) : SM (disk_t * fs) bool :=
    let! written := on_fs (copy hr hw src dst) in
    let! _ := slift (ensure (written =? cnt) "Failed to copy all data") in
    let new_bytes := dst + cnt in
    let! _ := on_fs (fs_set_len hw new_bytes) in
    let! _ := disk_upd_len (new_bytes / bl) in
    let! st := sget in
    let! _ := slift (ensure (ds_len (fst st) * bl =? fs_size (snd st) (ds_file (fst st))) "Inconsistent metadata detected") in
    sret true.

  Lemma any_prefix copy : disk_compact_with EO copy b c v (s, f) = rest_of copy (ds_set_file s hw, f).
  Proof.
    pose proof (bl_pos EO EL) as Hbl. pose proof (arity_ge b Hb) as H2. unfold rest_of.
    unfold disk_compact_with. rewrite (sbind_ok _ _ (s, f) (s, f) (s, f)) by reflexivity. cbn [fst snd].
    rewrite Hlen. rewrite get_merkle_tree_leafs_full by auto. rewrite (sbind_ok _ _ (s, f) (b ^ d) (s, f)) by reflexivity.
    rewrite cache_size_full by auto. rewrite (sbind_ok _ _ (s, f) (geom b (d - 1 - R)) (s, f)) by reflexivity.
    pose proof (geom_row_off b d (S R) ltac:(lia)) as G. pose proof (geom_pos b (d - S R)) as G0.
    assert (G1 : 0 < row_off b d (S R)) by (rewrite row_off_step; pose proof (Nat.pow_nonzero b (d - R) ltac:(lia)); lia).
    replace (d - 1 - R) with (d - S R) in * by lia.
    replace ((geom b (d - S R) * bl <? geom b d * bl) && negb (geom b (d - S R) * bl =? 0)) with true.
    2:{ symmetry. apply andb_true_iff. split.
        - apply Nat.ltb_lt. apply Nat.mul_lt_mono_pos_r; lia.
        - apply negb_true_iff, Nat.eqb_neq. pose proof (Nat.mul_pos_pos (geom b (d - S R)) bl). lia. }
    cbn [ensure]. rewrite (sbind_ok _ _ (s, f) tt (s, f)) by reflexivity.
    rewrite Hsize. assert (geom b (d - S R) * bl <= geom b d * bl) by (apply Nat.mul_le_mono_r; lia).
    rewrite checked_sub_ok by auto.
    replace (geom b d * bl - geom b (d - S R) * bl) with src by (rewrite <- Nat.mul_sub_distr_r; f_equal; lia).
    rewrite (sbind_ok _ _ (s, f) src (s, f)) by reflexivity.
    unfold fs_open_ro. rewrite Hpath. rewrite (sbind_ok _ _ (s, f) hr (s, f)) by reflexivity.
    unfold fs_open_rw. rewrite Hpath, Hro. rewrite (sbind_ok _ _ (s, f) hw (s, f)) by reflexivity.
    set (s1 := ds_set_file s hw).
    rewrite (sbind_ok _ _ (s, f) tt (s1, f)) by reflexivity.
    replace (if v =? 1 then b ^ d * bl + geom b (d - S R) * bl else geom b (d - S R) * bl) with (dst + geom b (d - S R) * bl)
      by (unfold CompactFacts.start; destruct (v =? 1); lia).
    replace (if v =? 1 then b ^ d * bl else 0) with dst by (unfold CompactFacts.start; destruct (v =? 1); reflexivity).
    reflexivity.
  Qed.

  Lemma moved_all : firstn (dst + cnt) (moved D dst src cnt) = packed D.
  Proof.
    pose proof dst_le as L. pose proof total as T. unfold moved, packed, overwrite.
    assert (HS : sub D src cnt = skipn src D) by (unfold sub; apply firstn_all2; rewrite skipn_length; lia).
    rewrite HS, app_assoc. rewrite firstn_app.
    replace (dst + cnt) with (List.length (firstn dst D ++ skipn src D)) by (rewrite app_length, firstn_length, skipn_length; lia).
    rewrite Nat.sub_diag, firstn_all. apply app_nil_r.
  Qed.

  Lemma any_suffix s1 f1 : ds_file s1 = hw -> fs_data f1 i = moved D dst src cnt ->
    exists f2,
    (let new_bytes := dst + cnt in
     let! _ := on_fs (fs_set_len hw new_bytes) in
     let! _ := disk_upd_len (new_bytes / bl) in
     let! st := sget in
     let! _ := slift (ensure (ds_len (fst st) * bl =? fs_size (snd st) (ds_file (fst st))) "Inconsistent metadata detected") in
     sret true) (s1, f1) = (Ok true, (ds_set_len s1 (CompactFacts.start b d v + geom b (d - 1 - R)), f2)) /\
    fs_data f2 i = packed D /\ fs_frame (Some i) f1 f2.
  Proof.
    intros Hf Hd1. pose proof (bl_pos EO EL) as Hbl. pose proof dst_le as L. pose proof total as T. cbv zeta.
    set (f2 := snd (fs_set_len hw (dst + cnt) f1)). exists f2.
    assert (HDt : fs_data f2 i = packed D).
    { unfold f2, fs_set_len. cbn [h_write h_ino snd]. rewrite fs_set_data_get, Hd1, resize_shrink; [apply moved_all|].
      rewrite moved_length; lia. }
    split; [|split; [exact HDt|apply (set_len_frame hw)]].
    rewrite (sbind_ok _ _ (s1, f1) tt (s1, f2)) by reflexivity.
    assert (HQ : (dst + cnt) / bl = CompactFacts.start b d v + geom b (d - 1 - R)) by (rewrite <- Nat.mul_add_distr_r; apply Nat.div_mul; lia).
    rewrite (sbind_ok _ _ (s1, f2) tt (ds_set_len s1 (CompactFacts.start b d v + geom b (d - 1 - R)), f2)).
    2:{ unfold disk_upd_len. cbn [fst snd]. rewrite HQ. reflexivity. }
    rewrite (sbind_ok _ _ _ (ds_set_len s1 (CompactFacts.start b d v + geom b (d - 1 - R)), f2)
                            (ds_set_len s1 (CompactFacts.start b d v + geom b (d - 1 - R)), f2)) by reflexivity.
    cbn [fst snd ds_len ds_set_len ds_file]. rewrite Hf. unfold fs_size. cbn [h_ino]. rewrite HDt.
    replace (List.length (packed D)) with (dst + cnt).
    2:{ rewrite <- moved_all, firstn_length, moved_length; lia. }
    rewrite <- Nat.mul_add_distr_r, Nat.eqb_refl. reflexivity.
  Qed.

  (* run to its end *)
  Lemma any_compact sizes : exists s' f', disk_compact EO sizes b c v (s, f) = (Ok true, (s', f')) /\
    fs_data f' i = packed D /\ fs_frame (Some i) f f'.
  Proof.
    pose proof dst_le as L. pose proof total as T. unfold disk_compact. rewrite any_prefix. unfold rest_of.
    destruct (fs_copy_spec sizes hr hw D dst src eq_refl eq_refl L ltac:(lia) f eq_refl) as (f1 & C1 & C2).
    replace (List.length D - src) with cnt in C1, C2 by lia.
    set (s1 := ds_set_file s hw).
    rewrite (sbind_ok _ _ (s1, f) cnt (s1, f1)) by (unfold on_fs; cbn [fst snd]; rewrite C1; reflexivity).
    rewrite Nat.eqb_refl. cbn [ensure]. rewrite (sbind_ok _ _ (s1, f1) tt (s1, f1)) by reflexivity.
    destruct (any_suffix s1 f1 eq_refl C2) as (f2 & H1 & H2 & H3). cbv zeta in H1 |- *.
    eexists _, f2. split; [exact H1|]. split; [exact H2|].
    eapply fs_frame_trans; [|exact H3].
    pose proof (copy_loop_frame sizes hr hw) as F.
    unfold fs_copy in C1. match type of C1 with copy_loop ?n _ ?k _ _ ?a ?b0 ?m _ = _ => specialize (F n k a b0 m f) end.
    rewrite C1 in F. exact F.
  Qed.

  (* killed *)
  Lemma any_stopped k sizes : let f' := snd (snd (disk_compact_stopped EO k sizes b c v (s, f))) in
    fs_frame (Some i) f f' /\ (fs_data f' i = packed D \/ exists m, m <= cnt /\ fs_data f' i = moved D dst src m).
  Proof.
    intros f'. pose proof dst_le as L. pose proof total as T. unfold f', disk_compact_stopped. clear f'. rewrite any_prefix. unfold rest_of.
    destruct (copy_stopped sizes hr hw D dst src eq_refl eq_refl L ltac:(lia) k f eq_refl) as (x & m & f1 & C1 & C2 & C3 & C4).
    pose proof (copy_loop_frame sizes hr hw k 0 src dst 0 f) as F. rewrite C1 in F. cbn [snd h_ino] in F.
    set (s1 := ds_set_file s hw).
    destruct C4 as [[-> Hm]| ->].
    - assert (m = cnt) as -> by lia.
      rewrite (sbind_ok _ _ (s1, f) cnt (s1, f1)) by (unfold on_fs; cbn [fst snd]; rewrite C1; reflexivity).
      rewrite Nat.eqb_refl. cbn [ensure]. rewrite (sbind_ok _ _ (s1, f1) tt (s1, f1)) by reflexivity.
      destruct (any_suffix s1 f1 eq_refl C2) as (f2 & H1 & H2 & H3). cbv zeta in H1 |- *.
      rewrite H1. cbn [snd]. split; [eapply fs_frame_trans; eauto|]. auto.
    - match goal with |- context [sbind ?x ?k (s1, f)] => assert (HS : sbind x k (s1, f) = (Diverge, (s1, f1))) end.
      { unfold sbind at 1. unfold on_fs at 1. cbn [fst snd]. rewrite C1. reflexivity. }
      rewrite HS. cbn [snd]. split; [exact F|]. right. exists m. split; [lia|exact C2].
  Qed.

End Bytes.

Section Tries.
  Context {E : Type} (EO : ElementOps E) (EL : ElementLaws EO).
  Local Notation bl := (e_byte_len EO).
  Variables (b : nat).
  Hypothesis Hb : arity b.
  Variables (c : StoreConfig) (d v i : nat).
  Local Notation R := (sc_rows_to_discard c).
  Hypothesis Hd : 1 <= d.
  Hypothesis HR : R < d.
  Variables (P : list byte) (f0 : fs).

  (* either a file from which the compaction can still be carried out, or a finished one *)
  Definition good (f : fs) : Prop :=
    fs_frame (Some i) f0 f /\ fs_dir f (cfg_path c) = Some i /\ i_ro (fs_ino f i) = false /\
    (List.length (fs_data f i) = geom b d * bl /\ packed EO b c d v (fs_data f i) = P \/
     List.length (fs_data f i) <> geom b d * bl /\ fs_data f i = P).

  Lemma good_intro f : fs_frame (Some i) f0 f -> fs_dir f (cfg_path c) = Some i -> i_ro (fs_ino f i) = false ->
    (fs_data f i = P /\ (List.length P = geom b d * bl -> packed EO b c d v P = P) \/
     List.length (fs_data f i) = geom b d * bl /\ packed EO b c d v (fs_data f i) = P) -> good f.
  Proof.
    intros H0 H1 H2 H3. split; [exact H0|]. split; [exact H1|]. split; [exact H2|].
    destruct H3 as [[H3 H4]|H3]; [|left; exact H3]. rewrite H3.
    destruct (Nat.eq_dec (List.length P) (geom b d * bl)) as [Q|Q]; [left|right]; auto.
  Qed.

  (* the only finished file of full length is the one that was copied onto itself *)
  Lemma packed_full D : List.length D = geom b d * bl -> List.length (packed EO b c d v D) = geom b d * bl -> packed EO b c d v D = D.
  Proof.
    intros HD HP. pose proof (dst_le EO b c d v Hd HR) as L. pose proof (total EO b c d Hd HR) as T.
    unfold packed in *. rewrite app_length, firstn_length, skipn_length in HP.
    assert (HE : CompactFacts.start b d v * bl = row_off b d (S R) * bl) by lia. rewrite HE. apply firstn_skipn.
  Qed.

  Lemma good_attempt k sizes f : good f -> good (attempt EO (geom b d) b c v k sizes f).
  Proof.
    intros (H0 & H1 & H2 & H3). unfold attempt. destruct (disk_open EO b f c i (geom b d) H1) as [O1 O2].
    destruct H3 as [[HD HP]|[HD HP]].
    - destruct (O1 HD) as (s & Ho & _ & Hl & Hs & _). rewrite Ho.
      pose proof (any_stopped EO EL b Hb c d v Hd HR s f i Hl Hs H1 H2 HD k sizes) as HS. cbv zeta in HS.
      destruct HS as [HF HS]. pose proof HF as (F1 & _ & _ & F4).
      apply good_intro; [eapply fs_frame_trans; eauto|rewrite F1; exact H1|rewrite F4; exact H2|].
      destruct HS as [HS|(m & Hm & HS)].
      + left. split; [rewrite HS; exact HP|]. intros HL. rewrite <- HP. rewrite (packed_full (fs_data f i) HD); [|rewrite HP; exact HL].
        rewrite (packed_full (fs_data f i) HD); [reflexivity|rewrite HP; exact HL].
      + right. rewrite HS. split.
        * pose proof (dst_le EO b c d v Hd HR) as L. pose proof (total EO b c d Hd HR) as T. rewrite moved_length; lia.
        * rewrite (moved_packed EO b Hb c d v Hd HR _ m HD Hm). exact HP.
    - destruct (O2 HD) as (e & He). rewrite He. split; [exact H0|]. split; [exact H1|]. split; [exact H2|]. right. auto.
  Qed.

  Lemma good_finish sizes f : good f ->
    (exists s s' f', disk_new_from_disk EO (geom b d) b c f = (Ok s, f) /\
       disk_compact EO sizes b c v (s, f) = (Ok true, (s', f')) /\ fs_file f' (cfg_path c) = Some P /\ fs_frame (Some i) f f') \/
    (exists e, disk_new_from_disk EO (geom b d) b c f = (Err e, f) /\ fs_file f (cfg_path c) = Some P).
  Proof.
    intros (H0 & H1 & H2 & H3). destruct (disk_open EO b f c i (geom b d) H1) as [O1 O2].
    destruct H3 as [[HD HP]|[HD HP]].
    - left. destruct (O1 HD) as (s & Ho & _ & Hl & Hs & _).
      destruct (any_compact EO EL b Hb c d v Hd HR s f i Hl Hs H1 H2 HD sizes) as (s' & f' & C1 & C2 & C3).
      exists s, s', f'. split; [exact Ho|]. split; [exact C1|]. split; [|exact C3].
      unfold fs_file. destruct C3 as (F1 & _). rewrite F1, H1, C2, HP. reflexivity.
    - right. destruct (O2 HD) as (e & He). exists e. split; [exact He|]. unfold fs_file. rewrite H1, HP. reflexivity.
  Qed.
End Tries.
