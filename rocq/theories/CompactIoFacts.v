(* What a compaction with a failing operation leaves: a file from which the compaction
   can still be carried out, or the finished one, and a store object that fits it. *)
From Coq Require Import String List Arith Bool Lia Init.Byte ZifyBool ZifyNat.
From Verif Require Import Base Element Hash Sizing FS Sched Store VecStore DiskStore ListFacts Spec SpecFacts SizingFacts SchedFacts StoreLaws RowFacts ChunkFacts BuildFacts BuildLoop StoreSpec FileFacts VecFacts DiskFacts FrameFacts CompactFacts CompactTrees ReopenFacts Recompact AgainFacts CompactIo.
Import ListNotations.

Section Io.
  Context {E : Type} (EO : ElementOps E) (EL : ElementLaws EO).
  Local Notation bl := (e_byte_len EO).

  (* without a failure it is compact *)
  Lemma io_none sizes b c v : disk_compact_io EO None sizes b c v = disk_compact EO sizes b c v.
  Proof. reflexivity. Qed.

  Variables (b : nat).
  Hypothesis Hb : arity b.
  Variables (c : StoreConfig) (d v : nat).
  Local Notation R := (sc_rows_to_discard c).
  Hypothesis Hd : 1 <= d.
  Hypothesis HR : R < d.
  Local Notation src := (row_off b d (S R) * bl).
  Local Notation dst := (CompactFacts.start b d v * bl).
  Local Notation cnt := (geom b (d - 1 - R) * bl).

  Section One.
  Variables (s : disk_t) (f : fs) (i : nat).
  Hypothesis Hlen : ds_len s = geom b d.
  Hypothesis Hsize : ds_size s = geom b d * bl.
  Hypothesis Hpath : fs_dir f (cfg_path c) = Some i.
  Hypothesis Hro : i_ro (fs_ino f i) = false.
  Hypothesis HD : List.length (fs_data f i) = geom b d * bl.
  Local Notation D := (fs_data f i).
  Local Notation hr := {| h_ino := i; h_write := false |}.
  Local Notation hw := {| h_ino := i; h_write := true |}.

  Definition io_rest (p : option io_point) (sizes : nat -> nat) : SM (disk_t * fs) bool :=
    let! _ := io_ok p 3 in
    let! written := on_fs (io_copy p sizes hr hw src dst) in
    let! _ := slift (ensure (written =? cnt) "Failed to copy all data") in
    let new_bytes := dst + cnt in
    let! _ := io_ok p 5 in
    let! _ := on_fs (fs_set_len hw new_bytes) in
    let! _ := disk_upd_len (new_bytes / bl) in
    let! _ := io_ok p 6 in
    let! _ := io_ok p 7 in
    let! st := sget in
    let! _ := slift (ensure (ds_len (fst st) * bl =? fs_size (snd st) (ds_file (fst st))) "Inconsistent metadata detected") in
    sret true.

  Lemma io_prefix p sizes : disk_compact_io EO p sizes b c v (s, f) =
    match p with
    | Some IO_open_reader | Some IO_seek_reader | Some IO_open_writer => (Err "input/output error", (s, f))
    | _ => io_rest p sizes (ds_set_file s hw, f)
    end.
  Proof.
    pose proof (bl_pos EO EL) as Hbl. pose proof (arity_ge b Hb) as H2. unfold io_rest.
    unfold disk_compact_io. rewrite (sbind_ok _ _ (s, f) (s, f) (s, f)) by reflexivity. cbn [fst snd].
    rewrite Hlen. rewrite get_merkle_tree_leafs_full by auto. rewrite (sbind_ok _ _ (s, f) (b ^ d) (s, f)) by reflexivity.
    rewrite cache_size_full by auto. rewrite (sbind_ok _ _ (s, f) (geom b (d - 1 - R)) (s, f)) by reflexivity.
    pose proof (geom_row_off b d (S R) ltac:(lia)) as G. pose proof (geom_pos b (d - S R)) as G0.
    assert (G1 : 0 < row_off b d (S R)) by (rewrite row_off_step; pose proof (Nat.pow_nonzero b (d - R) ltac:(lia)); lia).
    replace (d - 1 - R) with (d - S R) in * by lia.
    replace ((geom b (d - S R) * bl <? geom b d * bl) && negb (geom b (d - S R) * bl =? 0)) with true.
    2:{ symmetry. apply andb_true_iff. split.
        - apply Nat.ltb_lt. apply Nat.mul_lt_mono_pos_r; lia.
        - apply negb_true_iff, Nat.eqb_neq. pose proof (Nat.mul_pos_pos (geom b (d - S R)) bl). lia. }
    cbn [ensure]. rewrite (sbind_ok _ _ (s, f) tt (s, f)) by reflexivity.
    rewrite Hsize. assert (geom b (d - S R) * bl <= geom b d * bl) by (apply Nat.mul_le_mono_r; lia).
    rewrite checked_sub_ok by auto.
    replace (geom b d * bl - geom b (d - S R) * bl) with src by (rewrite <- Nat.mul_sub_distr_r; f_equal; lia).
    rewrite (sbind_ok _ _ (s, f) src (s, f)) by reflexivity.
    unfold fs_open_ro, fs_open_rw. rewrite Hpath, Hro.
    replace (if v =? 1 then b ^ d * bl + geom b (d - S R) * bl else geom b (d - S R) * bl) with (dst + geom b (d - S R) * bl)
      by (unfold CompactFacts.start; destruct (v =? 1); lia).
    replace (if v =? 1 then b ^ d * bl else 0) with dst by (unfold CompactFacts.start; destruct (v =? 1); reflexivity).
    destruct p as [[]|]; reflexivity.
  Qed.

  (* the state of the object and the file: as before the call up to moved bytes, or finished *)
  Definition half (s' : disk_t) (f' : fs) : Prop :=
    ds_len s' = geom b d /\ ds_size s' = geom b d * bl /\ h_ino (ds_file s') = h_ino (ds_file s) /\
    exists m, m <= cnt /\ fs_data f' i = moved D dst src m.
  Definition done (s' : disk_t) (f' : fs) : Prop :=
    ds_len s' = CompactFacts.start b d v + geom b (d - 1 - R) /\ ds_size s' = geom b d * bl /\ ds_file s' = hw /\
    fs_data f' i = packed EO b c d v D.

  Lemma io_one p sizes : h_ino (ds_file s) = i ->
    exists r s' f', disk_compact_io EO p sizes b c v (s, f) = (r, (s', f')) /\ fs_frame (Some i) f f' /\
      (r = Ok true /\ done s' f' /\ (p = None \/ exists k, p = Some (IO_copy k)) \/
       (exists e, r = Err e) /\ p <> None /\ (half s' f' \/ done s' f')).
  Proof.
    intros Hf. pose proof (bl_pos EO EL) as Hbl. pose proof (dst_le EO b c d v Hd HR) as L. pose proof (total EO b c d Hd HR) as T.
    assert (H0 : forall s', ds_len s' = geom b d -> ds_size s' = geom b d * bl -> h_ino (ds_file s') = i -> half s' f).
    { intros s' A1 A2 A3. split; [exact A1|]. split; [exact A2|]. split; [congruence|]. exists 0. rewrite moved_0. auto with arith. }
    set (s1 := ds_set_file s hw).
    destruct (fs_copy_spec sizes hr hw D dst src eq_refl eq_refl L ltac:(lia) f eq_refl) as (f1 & C1 & C2).
    replace (List.length D - src) with cnt in C1, C2 by lia.
    assert (F1 : fs_frame (Some i) f f1).
    { pose proof (copy_loop_frame sizes hr hw) as F. pose proof C1 as C1'. unfold fs_copy in C1'.
      match type of C1' with copy_loop ?n _ ?k _ _ ?a ?b0 ?m _ = _ => specialize (F n k a b0 m f) end. rewrite C1' in F. exact F. }
    assert (H1 : forall f1, fs_data f1 i = moved D dst src cnt -> half s1 f1).
    { intros g Hg. split; [exact Hlen|]. split; [exact Hsize|]. split; [cbn; congruence|]. exists cnt. auto. }
    (* after the copy *)
    assert (HE : forall g, fs_data g i = moved D dst src cnt -> exists f2,
      fs_set_len hw (dst + cnt) g = (Ok tt, f2) /\ fs_frame (Some i) g f2 /\
      (forall l, fs_size f2 (ds_file (ds_set_len s1 l)) = dst + cnt) /\ done (ds_set_len s1 ((dst + cnt) / bl)) f2).
    { intros g Hg. exists (snd (fs_set_len hw (dst + cnt) g)).
      assert (HDt : fs_data (snd (fs_set_len hw (dst + cnt) g)) i = packed EO b c d v D).
      { unfold fs_set_len. cbn [h_write h_ino snd]. rewrite fs_set_data_get, Hg, resize_shrink; [apply (moved_all EO b c d v Hd HR s f i Hlen Hsize Hro HD)|].
        rewrite moved_length; lia. }
      split; [reflexivity|]. split; [apply (set_len_frame hw)|].
      split; [intros l; unfold fs_size; change (ds_file (ds_set_len s1 l)) with hw; cbn [h_ino]; rewrite HDt;
              rewrite <- (moved_all EO b c d v Hd HR s f i Hlen Hsize Hro HD), firstn_length, moved_length; lia|].
      split; [cbn [ds_len ds_set_len]; rewrite <- Nat.mul_add_distr_r; apply Nat.div_mul; lia|].
      split; [exact Hsize|]. split; [reflexivity|exact HDt]. }
    assert (HQ : ((dst + cnt) / bl) * bl = dst + cnt) by (rewrite <- Nat.mul_add_distr_r, Nat.div_mul by lia; reflexivity).
    (* the end of the method, for every point that reaches it *)
    assert (HG : forall p g, fs_data g i = moved D dst src cnt -> fs_frame (Some i) f g ->
      exists r s' f', (let new_bytes := dst + cnt in
        let! _ := io_ok p 5 in
        let! _ := on_fs (fs_set_len hw new_bytes) in
        let! _ := disk_upd_len (new_bytes / bl) in
        let! _ := io_ok p 6 in
        let! _ := io_ok p 7 in
        let! st := sget in
        let! _ := slift (ensure (ds_len (fst st) * bl =? fs_size (snd st) (ds_file (fst st))) "Inconsistent metadata detected") in
        sret true) (s1, g) = (r, (s', f')) /\ fs_frame (Some i) f f' /\
      match p with
      | Some IO_set_len => (exists e, r = Err e) /\ half s' f'
      | Some IO_sync | Some IO_metadata => (exists e, r = Err e) /\ done s' f'
      | _ => r = Ok true /\ done s' f'
      end).
    { intros q g Hg Fg. cbv zeta. destruct (HE g Hg) as (f2 & E1 & E2 & E3 & E4).
      assert (FF : fs_frame (Some i) f f2) by (eapply fs_frame_trans; eauto).
      assert (HX : (let! st := sget in
        let! _ := slift (ensure (ds_len (fst st) * bl =? fs_size (snd st) (ds_file (fst st))) "Inconsistent metadata detected") in
        sret true) (ds_set_len s1 ((dst + cnt) / bl), f2) = (Ok true, (ds_set_len s1 ((dst + cnt) / bl), f2))).
      { rewrite (sbind_ok _ _ _ (ds_set_len s1 ((dst + cnt) / bl), f2) (ds_set_len s1 ((dst + cnt) / bl), f2)) by reflexivity.
        cbn [fst snd]. rewrite E3. cbn [ds_len ds_set_len]. rewrite HQ, Nat.eqb_refl. reflexivity. }
      assert (HM : forall q : option io_point, match q with Some IO_set_len => False | _ => True end ->
        (let! _ := io_ok q 5 in
        let! _ := on_fs (fs_set_len hw (dst + cnt)) in
        let! _ := disk_upd_len ((dst + cnt) / bl) in
        let! _ := io_ok q 6 in
        let! _ := io_ok q 7 in
        let! st := sget in
        let! _ := slift (ensure (ds_len (fst st) * bl =? fs_size (snd st) (ds_file (fst st))) "Inconsistent metadata detected") in
        sret true) (s1, g) =
        (match q with
         | Some IO_sync | Some IO_metadata => Err "input/output error"
         | _ => Ok true end, (ds_set_len s1 ((dst + cnt) / bl), f2))).
      { intros q0 Hq0. rewrite (sbind_ok _ _ (s1, g) tt (s1, g)) by (destruct q0 as [[]|]; try contradiction; reflexivity).
        rewrite (sbind_ok _ _ (s1, g) tt (s1, f2)) by (unfold on_fs; cbn [fst snd]; rewrite E1; reflexivity).
        rewrite (sbind_ok _ _ (s1, f2) tt (ds_set_len s1 ((dst + cnt) / bl), f2)) by reflexivity.
        destruct q0 as [[]|]; try contradiction; try exact HX; reflexivity. }
      destruct q as [[]|].
      all: try (eexists _, _, f2; split; [apply HM; exact I|]; split; [exact FF|]; split; [first [reflexivity|eexists; reflexivity]|exact E4]).
      eexists _, s1, g. split; [reflexivity|]. split; [exact Fg|]. split; [eexists; reflexivity|apply H1; exact Hg]. }
    rewrite io_prefix.
    assert (HC : forall p : option io_point, match p with Some (IO_copy _) | Some IO_seek_writer => False | _ => True end ->
      exists r s' f', io_rest p sizes (s1, f) = (r, (s', f')) /\ fs_frame (Some i) f f' /\
      match p with
      | Some IO_set_len => (exists e, r = Err e) /\ half s' f'
      | Some IO_sync | Some IO_metadata => (exists e, r = Err e) /\ done s' f'
      | _ => r = Ok true /\ done s' f'
      end).
    { intros q Hq. unfold io_rest. rewrite (sbind_ok _ _ (s1, f) tt (s1, f)) by (destruct q as [[]|]; try contradiction; reflexivity).
      rewrite (sbind_ok _ _ (s1, f) cnt (s1, f1)).
      2:{ unfold on_fs. cbn [fst snd]. replace (io_copy q sizes) with (fs_copy sizes) by (destruct q as [[]|]; try contradiction; reflexivity).
          rewrite C1. reflexivity. }
      rewrite Nat.eqb_refl. cbn [ensure]. rewrite (sbind_ok _ _ (s1, f1) tt (s1, f1)) by reflexivity.
      exact (HG q f1 C2 F1). }
    assert (HN : forall q : io_point, Some q <> None) by (intros q Q; discriminate Q).
    destruct p as [[]|].
    1-3: eexists _, s, f; split; [reflexivity|]; split; [apply fs_frame_refl|]; right; split; [eexists; reflexivity|]; split; [apply HN|]; left; apply H0; auto.
    - eexists _, s1, f; split; [reflexivity|]; split; [apply fs_frame_refl|]; right; split; [eexists; reflexivity|]; split; [apply HN|]; left; apply H0; auto.
    - unfold io_rest. rewrite (sbind_ok _ _ (s1, f) tt (s1, f)) by reflexivity.
      destruct (copy_stopped sizes hr hw D dst src eq_refl eq_refl L ltac:(lia) k f eq_refl) as (x & m & g & K1 & K2 & K3 & K4).
      pose proof (copy_loop_frame sizes hr hw k 0 src dst 0 f) as F. rewrite K1 in F. cbn [snd h_ino] in F.
      destruct K4 as [[-> Hm]| ->].
      + assert (m = cnt) as -> by lia.
        rewrite (sbind_ok _ _ (s1, f) cnt (s1, g)).
        2:{ unfold on_fs, io_copy, copy_failing. cbn [fst snd]. rewrite K1. reflexivity. }
        rewrite Nat.eqb_refl. cbn [ensure]. rewrite (sbind_ok _ _ (s1, g) tt (s1, g)) by reflexivity.
        destruct (HG (Some (IO_copy k)) g K2 F) as (r & s' & f' & G1 & G2 & G3 & G4). exists r, s', f'.
        split; [exact G1|]. split; [exact G2|]. left. split; [exact G3|]. split; [exact G4|]. right. eauto.
      + eexists _, s1, g. split.
        { rewrite (sbind_err _ _ (s1, f) "input/output error" (s1, g)); [reflexivity|].
          unfold on_fs, io_copy, copy_failing. cbn [fst snd]. rewrite K1. reflexivity. }
        split; [exact F|]. right. split; [eexists; reflexivity|]. split; [apply HN|]. left.
        split; [exact Hlen|]. split; [exact Hsize|]. split; [cbn; congruence|]. exists m. split; [lia|exact K2].
    - destruct (HC (Some IO_set_len) I) as (r & s' & f' & G1 & G2 & G3 & G4). exists r, s', f'. split; [exact G1|]. split; [exact G2|]. auto.
    - destruct (HC (Some IO_sync) I) as (r & s' & f' & G1 & G2 & G3 & G4). exists r, s', f'. split; [exact G1|]. split; [exact G2|]. auto.
    - destruct (HC (Some IO_metadata) I) as (r & s' & f' & G1 & G2 & G3 & G4). exists r, s', f'. split; [exact G1|]. split; [exact G2|]. auto.
    - destruct (HC None I) as (r & s' & f' & G1 & G2 & G3 & G4). exists r, s', f'. split; [exact G1|]. split; [exact G2|]. auto.
  Qed.
  End One.

  Lemma copy_failing_nothing k sizes r w rpos wpos f : fs_size f r <= rpos ->
    copy_failing k sizes r w rpos wpos f = (match k with 0 => Err "input/output error" | S _ => Ok 0 end, f).
  Proof.
    intros H. unfold copy_failing. destruct k as [|k]; [reflexivity|]. rewrite copy_loop_S. cbv zeta. rewrite sub_length. unfold fs_size in H.
    replace (Nat.min (S (sizes 0)) (List.length (fs_data f (h_ino r)) - rpos)) with 0 by lia. reflexivity.
  Qed.

  (* what is left are the rows of a smaller tree, the recorded size is the old one (compact_stale_size) *)
  Lemma io_stale_size p sizes s f i q : q < d ->
    ds_len s = geom b q -> ds_size s = geom b d * bl -> ds_file s = {| h_ino := i; h_write := true |} ->
    fs_dir f (cfg_path c) = Some i -> i_ro (fs_ino f i) = false -> List.length (fs_data f i) = geom b q * bl ->
    exists e, disk_compact_io EO p sizes b c v (s, f) = (Err e, (s, f)).
  Proof.
    intros Hq S1 S2 S3 Hp Hro Hl. pose proof (bl_pos EO EL) as Hbl. pose proof (arity_ge b Hb) as H2.
    unfold disk_compact_io. rewrite (sbind_ok _ _ (s, f) (s, f) (s, f)) by reflexivity. cbn [fst snd].
    rewrite S1, get_merkle_tree_leafs_full by auto. rewrite (sbind_ok _ _ (s, f) (b ^ q) (s, f)) by reflexivity.
    set (r := R).
    destruct (Nat.eq_dec q 0) as [->|Hq0].
    { destruct (cache_size_1 b Hb r) as [e He]. cbn [Nat.pow]. rewrite He. eexists. reflexivity. }
    destruct (le_lt_dec q r) as [L|L].
    { destruct (cache_size_bad b q r) as [e He]; [auto|lia|lia|]. rewrite He. eexists. reflexivity. }
    rewrite cache_size_full by auto. set (g := geom b (q - 1 - r)). rewrite (sbind_ok _ _ (s, f) g (s, f)) by reflexivity.
    assert (G1 : g < geom b q) by (apply geom_strict; lia). assert (G2 : 0 < g) by (apply geom_pos).
    assert (G3 : geom b q + g <= geom b d).
    { assert (geom b q + geom b q <= geom b d); [|lia].
      pose proof (geom_mono b (S q) d ltac:(lia)) as M. change (geom b (S q)) with (b ^ S q + geom b q) in M.
      pose proof (geom_lt_next b q H2). lia. }
    replace ((g * bl <? geom b q * bl) && negb (g * bl =? 0)) with true.
    2:{ symmetry. apply andb_true_iff. split.
        - apply Nat.ltb_lt. apply Nat.mul_lt_mono_pos_r; lia.
        - apply negb_true_iff, Nat.eqb_neq. pose proof (Nat.mul_pos_pos g bl). lia. }
    cbn [ensure]. rewrite (sbind_ok _ _ (s, f) tt (s, f)) by reflexivity. rewrite S2.
    assert (G4 : geom b q * bl + g * bl <= geom b d * bl) by (rewrite <- Nat.mul_add_distr_r; apply Nat.mul_le_mono_r; lia).
    rewrite checked_sub_ok by lia. rewrite (sbind_ok _ _ (s, f) (geom b d * bl - g * bl) (s, f)) by reflexivity.
    unfold fs_open_ro, fs_open_rw. rewrite Hp, Hro.
    assert (HSF : ds_set_file s {| h_ino := i; h_write := true |} = s) by (destruct s; cbn in S3 |- *; rewrite <- S3; reflexivity).
    assert (HC : forall w, fs_copy sizes {| h_ino := i; h_write := false |} w (geom b d * bl - g * bl) (if v =? 1 then b ^ q * bl else 0) f = (Ok 0, f)).
    { intros w. apply copy_nothing. unfold fs_size. cbn [h_ino]. rewrite Hl. lia. }
    assert (HK : forall k w, copy_failing k sizes {| h_ino := i; h_write := false |} w (geom b d * bl - g * bl) (if v =? 1 then b ^ q * bl else 0) f =
       (match k with 0 => Err "input/output error" | S _ => Ok 0 end, f)).
    { intros k w. apply copy_failing_nothing. unfold fs_size. cbn [h_ino]. rewrite Hl. lia. }
    assert (HZ : 0 =? g * bl = false) by (apply Nat.eqb_neq; pose proof (Nat.mul_pos_pos g bl); lia).
    destruct p as [[]|]; try (eexists; reflexivity).
    1:{ eexists. etransitivity; [|rewrite <- HSF at 1; reflexivity]. reflexivity. }
    all: rewrite (sbind_ok _ _ (s, f) tt (s, f)) by reflexivity; rewrite (sbind_ok _ _ (s, f) {| h_ino := i; h_write := false |} (s, f)) by reflexivity;
      do 2 rewrite (sbind_ok _ _ (s, f) tt (s, f)) by reflexivity; rewrite (sbind_ok _ _ (s, f) {| h_ino := i; h_write := true |} (s, f)) by reflexivity;
      rewrite (sbind_ok _ _ (s, f) tt (ds_set_file s {| h_ino := i; h_write := true |}, f)) by reflexivity; rewrite HSF;
      rewrite (sbind_ok _ _ (s, f) tt (s, f)) by reflexivity.
    1:{ destruct k as [|k].
        - eexists. rewrite (sbind_err _ _ (s, f) "input/output error" (s, f)); [reflexivity|]. unfold on_fs, io_copy. cbn [fst snd]. rewrite HK. reflexivity.
        - rewrite (sbind_ok _ _ (s, f) 0 (s, f)); [rewrite HZ; eexists; reflexivity|]. unfold on_fs, io_copy. cbn [fst snd]. rewrite HK. reflexivity. }
    all: rewrite (sbind_ok _ _ (s, f) 0 (s, f)); [rewrite HZ; eexists; reflexivity|]; unfold on_fs, io_copy; cbn [fst snd]; rewrite HC; reflexivity.
  Qed.

  Lemma io_gap p sizes s f : 1 <= R -> ds_len s = b ^ d + geom b (d - 1 - R) ->
    exists e, disk_compact_io EO p sizes b c v (s, f) = (Err e, (s, f)).
  Proof.
    intros H1 HL. unfold disk_compact_io. rewrite (sbind_ok _ _ (s, f) (s, f) (s, f)) by reflexivity. cbn [fst snd].
    rewrite HL. destruct (gap_leafs b Hb d R H1 HR) as [e He]. rewrite He. eexists. reflexivity.
  Qed.

  Variables (P : list byte) (f0 : fs) (i : nat).

  (* the object and the file belong together: still to be compacted, or finished *)
  Definition io_inv (st : disk_t * fs) : Prop :=
    let '(s, f) := st in
    fs_frame (Some i) f0 f /\ fs_dir f (cfg_path c) = Some i /\ i_ro (fs_ino f i) = false /\
    ds_size s = geom b d * bl /\ h_ino (ds_file s) = i /\
    (ds_len s = geom b d /\ List.length (fs_data f i) = geom b d * bl /\ packed EO b c d v (fs_data f i) = P \/
     List.length P <> geom b d * bl /\ fs_data f i = P /\ List.length P = dst + cnt /\
     ds_len s = CompactFacts.start b d v + geom b (d - 1 - R) /\ ds_file s = {| h_ino := i; h_write := true |}).

  Lemma packed_length D : List.length D = geom b d * bl -> List.length (packed EO b c d v D) = dst + cnt.
  Proof.
    intros HD. pose proof (dst_le EO b c d v Hd HR) as L. pose proof (total EO b c d Hd HR) as T.
    unfold packed. rewrite app_length, firstn_length, skipn_length. lia.
  Qed.

  Lemma io_step p sizes st : io_inv st ->
    exists r st', disk_compact_io EO p sizes b c v st = (r, st') /\ io_inv st' /\
      (r = Ok true /\ fs_data (snd st') i = P /\ (p = None \/ exists k, p = Some (IO_copy k)) \/
       (exists e, r = Err e) /\ (p = None -> fs_data (snd st') i = P)).
  Proof.
    destruct st as [s f]. intros (I1 & I2 & I3 & I4 & I5 & I6). pose proof (bl_pos EO EL) as Hbl.
    destruct I6 as [(I6 & I7 & I8)|(I6 & I7 & I8 & I9 & I10)].
    - destruct (io_one s f i I6 I4 I2 I3 I7 p sizes I5) as (r & s' & f' & H1 & H2 & H3).
      exists r, (s', f'). split; [exact H1|]. pose proof H2 as (F1 & _ & _ & F4).
      assert (HX : half s f i s' f' -> io_inv (s', f')).
      { intros (A1 & A2 & A3 & m & A4 & A5).
        split; [eapply fs_frame_trans; eauto|]. split; [rewrite F1; exact I2|]. split; [rewrite F4; exact I3|]. split; [exact A2|].
        split; [congruence|]. left. split; [exact A1|]. rewrite A5. split.
        - pose proof (dst_le EO b c d v Hd HR) as L. pose proof (total EO b c d Hd HR) as T. rewrite moved_length; lia.
        - rewrite (moved_packed EO b Hb c d v Hd HR _ m I7 A4). exact I8. }
      assert (HY : done f i s' f' -> io_inv (s', f') /\ fs_data f' i = P).
      { intros (A1 & A2 & A3 & A4). rewrite I8 in A4. split; [|exact A4].
        split; [eapply fs_frame_trans; eauto|]. split; [rewrite F1; exact I2|]. split; [rewrite F4; exact I3|]. split; [exact A2|].
        split; [rewrite A3; reflexivity|].
        pose proof (packed_length _ I7) as PL. rewrite I8 in PL.
        destruct (Nat.eq_dec (List.length P) (geom b d * bl)) as [Q|Q].
        - left. rewrite A4. split; [|split; [exact Q|]].
          + rewrite A1. apply (Nat.mul_cancel_r _ _ bl); [lia|]. rewrite Nat.mul_add_distr_r. lia.
          + rewrite <- I8. rewrite !(packed_full EO b c d v Hd HR _ I7); auto; rewrite I8; exact Q.
        - right. auto. }
      destruct H3 as [(-> & H3 & H4)|(H3 & H4 & [H5|H5])].
      + destruct (HY H3) as [Y1 Y2]. auto.
      + split; [auto|]. right. split; [exact H3|]. intros ->. contradiction.
      + destruct (HY H5) as [Y1 Y2]. auto.
    - assert (HE : exists e, disk_compact_io EO p sizes b c v (s, f) = (Err e, (s, f))).
      { unfold CompactFacts.start in I9, I8. destruct (v =? 1) eqn:Hv.
        - destruct (Nat.eq_dec R 0) as [Q|Q]; [|apply io_gap; [lia|exact I9]].
          exfalso. apply I6. rewrite I8, Q. replace (d - 1 - 0) with (d - 1) by lia. destruct d as [|d']; [lia|].
          change (geom b (S d')) with (b ^ S d' + geom b d'). replace (S d' - 1) with d' by lia. lia.
        - apply (io_stale_size p sizes s f i (d - 1 - R)); auto; [lia|rewrite I7, I8; lia]. }
      destruct HE as [e HE]. exists (Err e), (s, f). split; [exact HE|]. split.
      + split; [exact I1|]. split; [exact I2|]. split; [exact I3|]. split; [exact I4|]. split; [exact I5|]. right. auto.
      + right. split; [eauto|]. intros _. exact I7.
  Qed.

  Lemma io_open f : (exists s, io_inv (s, f)) ->
    (exists s, disk_new_from_disk EO (geom b d) b c f = (Ok s, f) /\ io_inv (s, f)) \/
    (exists e, disk_new_from_disk EO (geom b d) b c f = (Err e, f) /\ fs_data f i = P).
  Proof.
    intros (s & I1 & I2 & I3 & I4 & I5 & I6). destruct (disk_open EO b f c i (geom b d) I2) as [O1 O2].
    destruct I6 as [(I6 & I7 & I8)|(I6 & I7 & I8 & I9 & I10)].
    - destruct (O1 I7) as (s' & Ho & _ & Hl & Hs & Hf). left. exists s'. split; [exact Ho|].
      split; [exact I1|]. split; [exact I2|]. split; [exact I3|]. split; [exact Hs|]. split; [exact Hf|]. left. auto.
    - destruct O2 as (e & He); [rewrite I7; exact I6|]. right. eauto.
  Qed.

  Lemma io_try_inv x st : io_inv st -> io_inv (io_try EO (geom b d) b c v x st).
  Proof.
    intros H. destruct x as [[reopen p] sizes]. destruct st as [s f]. unfold io_try. cbn [fst snd]. destruct reopen.
    - destruct (io_open f (ex_intro _ s H)) as [(s1 & Ho & H1)|(e & He & _)].
      + rewrite Ho. destruct (io_step (Some p) sizes (s1, f) H1) as (r & st' & Hr & Hi & _). rewrite Hr. exact Hi.
      + rewrite He. exact H.
    - destruct (io_step (Some p) sizes (s, f) H) as (r & st' & Hr & Hi & _). rewrite Hr. exact Hi.
  Qed.

  Lemma io_tries_inv l st : io_inv st -> io_inv (io_tries EO (geom b d) b c v l st).
  Proof.
    revert st. unfold io_tries. induction l as [|x l IH]; intros st H; [exact H|]. cbn [fold_left]. apply IH, io_try_inv, H.
  Qed.

  (* the bytes in front of the moved rows are those of the finished file *)
  Lemma io_front s f : io_inv (s, f) -> firstn dst (fs_data f i) = firstn dst P /\ CompactFacts.start b d v <= ds_len s /\ List.length (fs_data f i) = ds_len s * bl.
  Proof.
    intros (_ & _ & _ & _ & _ & I6). pose proof (dst_le EO b c d v Hd HR) as L. pose proof (total EO b c d Hd HR) as T.
    pose proof (bl_pos EO EL) as Hbl.
    destruct I6 as [(I6 & I7 & I8)|(I6 & I7 & I8 & I9 & I10)].
    - split.
      + rewrite <- I8. unfold packed. rewrite firstn_app, firstn_firstn, firstn_length.
        replace (Nat.min dst dst) with dst by lia. replace (dst - Nat.min dst (List.length (fs_data f i))) with 0 by lia.
        cbn [firstn]. symmetry. apply app_nil_r.
      + rewrite I6. split; [apply (Nat.mul_le_mono_pos_r _ _ bl); lia|exact I7].
    - rewrite I7, I9. split; [reflexivity|]. split; [lia|]. rewrite Nat.mul_add_distr_r. exact I8.
  Qed.
End Io.
