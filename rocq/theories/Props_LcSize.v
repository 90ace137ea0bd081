(* C99, trees built with a level cache: the cached size is that of the whole tree. *)
From Coq Require Import String List Arith NArith Bool Lia Init.Byte ZifyBool ZifyNat.
From Verif Require Import Base Element Hash Sizing FS Sched Store VecStore DiskStore MmapStore LevelCache ProofModel Tree ListFacts Spec SpecFacts SizingFacts SchedFacts StoreLaws RowFacts ChunkFacts BuildFacts BuildLoop StoreSpec FileFacts ByteFacts VecFacts MapLayer DiskFacts MmapFacts PopFacts TreeFacts ProofSpec ProofFacts TreeProofs TreeObs Builders BuiltFacts CompactFacts CompactTrees LcReads LcTrees LcBuild LcCreate Cases Props_Build Props_Compact Props_LC Props_Check.
Import ListNotations.

Section Keeps.
  Context {E : Type} (EO : ElementOps E).
  (* no step of a build assigns store_size, and the handle stays writable *)
  Definition same (s s' : lc_t) : Prop := lc_size s' = lc_size s /\ (h_write (lc_file s) = true -> h_write (lc_file s') = true).
  Lemma same_refl s : same s s.
  Proof. split; auto. Qed.
  Lemma same_trans s1 s2 s3 : same s1 s2 -> same s2 s3 -> same s1 s3.
  Proof. intros [H1 H2] [H3 H4]. split; [congruence|auto]. Qed.
  Definition keeps {X} (m : SM (lc_t * fs) X) : Prop := forall st, same (fst st) (fst (snd (m st))).
  Lemma keeps_bind {X Y} (m : SM (lc_t * fs) X) (k : X -> SM (lc_t * fs) Y) : keeps m -> (forall x, keeps (k x)) -> keeps (sbind m k).
  Proof.
    intros Hm Hk st. unfold sbind. specialize (Hm st). destruct (m st) as [[x|e|e|] st']; cbn [fst snd] in *; try exact Hm.
    exact (same_trans _ _ _ Hm (Hk x st')).
  Qed.
  Lemma keeps_lift {X} (r : res X) : keeps (slift r).
  Proof. intros st. apply same_refl. Qed.
  Lemma keeps_ret {X} (x : X) : keeps (sret x).
  Proof. intros st. apply same_refl. Qed.
  Lemma keeps_get : keeps sget.
  Proof. intros st. apply same_refl. Qed.
  Lemma keeps_reads {X} (r : lc_t * fs -> res X) : keeps (sreads r).
  Proof. intros st. apply same_refl. Qed.
  Lemma keeps_len n : keeps (lc_upd_len n).
  Proof. intros st. split; auto. Qed.
  Lemma keeps_fs {X} (m : SM fs X) : keeps (on_fs m).
  Proof. intros [s f]. unfold on_fs. cbn [fst snd]. destruct (m f). apply same_refl. Qed.
  Lemma open_rw_writes f p h : fs_open_rw f p = Ok h -> h_write h = true.
  Proof. unfold fs_open_rw. destruct (fs_dir f p) as [i|]; [|discriminate]. destruct (i_ro _); [discriminate|]. intros H. injection H as <-. reflexivity. Qed.

  Lemma keeps_truncate sizes c n : keeps (lc_front_truncate EO sizes c n).
  Proof.
    intros st. unfold lc_front_truncate. unfold sbind at 1, sget. cbn [fst snd].
    unfold sbind at 1, slift at 1. destruct (ensure _ _); try apply same_refl.
    unfold sbind at 1, slift at 1. destruct (fs_open_ro _ _) as [rd|e|e|]; try apply same_refl.
    unfold sbind at 1, slift at 1. destruct (fs_open_rw _ _) as [fh|e|e|] eqn:HW; try apply same_refl.
    unfold sbind at 1, sput.
    match goal with |- same _ (fst (snd (?m ?st'))) => assert (K : keeps m);
      [apply keeps_bind; [apply keeps_fs|]; intros w; apply keeps_bind; [apply keeps_lift|]; intros _; apply keeps_fs|refine (same_trans _ _ _ _ (K st'))] end.
    split; [reflexivity|]. intros _. exact (open_rw_writes _ _ _ HW).
  Qed.
  Lemma go_on_state {St X} k ts fl (st : St) (r : res X) g : snd (go_on k ts fl st r g) = st.
  Proof. destruct r; reflexivity. Qed.
  Section Bytes.
    Variables (n : nat) (start : nat -> lc_t * fs -> res nat) (rd : nat -> nat -> lc_t * fs -> res byte)
      (comp : nat -> list byte -> res (list byte)) (wr : nat -> nat -> byte -> SM (lc_t * fs) unit).
    Hypothesis Hwr : forall k j x, keeps (wr k j x).
    Lemma keeps_step k j ts fl st : same (fst st) (fst (snd (byte_step n start rd comp wr k j ts fl st))).
    Proof.
      unfold byte_step. destruct (k <? n); [|apply same_refl]. destruct (ts k) as [|got|out|]; try apply same_refl.
      - rewrite go_on_state. apply same_refl.
      - destruct (collect got); [rewrite go_on_state; apply same_refl|]. destruct (nth_error got j) as [[x|]|]; try apply same_refl. rewrite go_on_state. apply same_refl.
      - destruct (nth_error out j) as [[x []]|]; try apply same_refl. pose proof (Hwr k j x st) as H. destruct (wr k j x st) as [r st']. rewrite go_on_state. exact H.
    Qed.
    Lemma keeps_sched sched : forall ts fl st, same (fst st) (fst (snd (run_byte_sched n start rd comp wr sched ts fl st))).
    Proof.
      induction sched as [|[k j] r IH]; intros ts fl st; [apply same_refl|]. cbn [run_byte_sched].
      pose proof (keeps_step k j ts fl st) as H. destruct (byte_step n start rd comp wr k j ts fl st) as [[ts' fl'] st'].
      exact (same_trans _ _ _ H (IH ts' fl' st')).
    Qed.
    Lemma keeps_bytes most sched : keeps (run_bytes n start rd comp wr most sched).
    Proof.
      intros st. unfold run_bytes. pose proof (keeps_sched sched (fun _ => BNew) None st) as H1.
      destruct (run_byte_sched n start rd comp wr sched (fun _ => BNew) None st) as [[ts fl] st1]. cbn [snd] in H1. destruct fl; [exact H1|].
      pose proof (keeps_sched (byte_completion n most) ts None st1) as H2.
      destruct (run_byte_sched n start rd comp wr (byte_completion n most) ts None st1) as [[ts2 fl2] st2]. cbn [snd] in H2.
      destruct fl2; exact (same_trans _ _ _ H1 H2).
    Qed.
  End Bytes.

  Lemma keeps_layer en A b sched w l rs ws : keeps (lc_process_layer EO en A b sched w l rs ws).
  Proof.
    unfold lc_process_layer, mmap_process_layer, mmap_layer_by.
    apply keeps_bind; [apply keeps_get|intros st0]. apply keeps_bind; [apply keeps_lift|intros _]. apply keeps_bind; [apply keeps_lift|intros _].
    apply keeps_bytes. intros k j x st. unfold map_write. destruct (fs_map_write _ _ _ _). apply same_refl.
  Qed.
  Lemma keeps_loop en A b shift cis c : forall fuel l w i, keeps (lc_build_loop EO en A b fuel shift cis c l w i).
  Proof.
    induction fuel as [|fuel IH]; intros l w i; [apply keeps_lift|]. cbn [lc_build_loop]. destruct (1 <? w); [|apply keeps_ret].
    apply keeps_bind; [apply keeps_get|intros st0].
    destruct (if l =? 0 then _ else _) as [rs ws]. apply keeps_bind; [apply keeps_layer|intros _].
    apply keeps_bind; [destruct (i <? cis); [apply keeps_truncate|apply keeps_ret]|intros _].
    apply keeps_bind; [apply keeps_len|intros _]. apply IH.
  Qed.
  Lemma keeps_build fuel en A b n rows c : keeps (lc_build_fuel EO en A b fuel n rows c).
  Proof.
    unfold lc_build_fuel.
    repeat first [apply keeps_bind; [first [apply keeps_lift|apply keeps_get|apply keeps_len|apply keeps_loop]|intros ?]|apply keeps_reads].
  Qed.

  Lemma built_size s1 f2 en A b n m rows rows' c t f' s :
    (let! (root, data) := with_store s1 (st_build (lc_store EO) en A b n rows c) in sret (mk_base (lc_store EO) data n m rows' root)) f2 = (Ok t, f') ->
    mt_data t = BaseTree s -> same s1 s.
  Proof.
    intros H HT. unfold sbind, with_store in H. cbn [st_build lc_store] in H.
    match type of H with context [lc_build_fuel EO en A b ?fu n rows c (s1, f2)] =>
      pose proof (keeps_build fu en A b n rows c (s1, f2)) as K; destruct (lc_build_fuel EO en A b fu n rows c (s1, f2)) as [[root|e|e|] [s' f'']] end;
      cbn [fst snd] in K; try discriminate H.
    injection H as H1 H2. subst t. cbn [mk_base mt_data] in HT. injection HT as HT. subst s'. exact K.
  Qed.
End Keeps.

Section Create.
  Context {E : Type} (EO : ElementOps E) (EL : ElementLaws EO) (A : AlgOps E) (AL : AlgLaws A) (en : env).
  Local Notation bl := (e_byte_len EO).
  Local Notation LO := (lc_store EO).
  Variables (b d : nat) (c : StoreConfig).
  Hypothesis Hb : arity b.
  Hypothesis Hd : 1 <= d.
  Local Notation R := (sc_rows_to_discard c).
  Hypothesis HR : R < d.
  Local Notation cis := (row_off b d (S R) * bl).
  Local Notation WW := (lc_W EO (b ^ d) cis (geom b d)).
  Local Notation RR := (lc_rep EO (b ^ d) cis (geom b d)).
  Let LP := lc_pop_laws EO EL (b ^ d) cis (geom b d) (lc_Hci EO b d c Hd).

  Lemma iter_size xs f t f' s : List.length xs = b ^ d -> fs_dir f (cfg_path c) = None ->
    try_from_iter_with_config EO LO A en b (Some (List.length xs)) (map Ok xs) c f = (Ok t, f') ->
    mt_data t = BaseTree (s : st_t LO) -> lc_size s = geom b d * bl /\ h_write (lc_file s) = true.
  Proof.
    intros Hl Hp. unfold try_from_iter_with_config. rewrite (sbind_ok _ _ f (List.length xs) f) by reflexivity. rewrite Hl.
    rewrite (leafs_checks_full b Hb) by auto. rewrite (sbind_ok _ _ f (geom b d, S d) f) by reflexivity.
    destruct (lc_newc_ok EO EL b Hb d c Hd f HR Hp) as (s0 & f1 & H1 & H2 & H3 & HL & H4 & H5).
    rewrite (sbind_ok _ _ _ _ _ H1). cbn [st_loaded_from_disk lc_store]. rewrite HL.
    destruct (populate_ok EO LO lc_owner WW RR true LP A AL en (b ^ d) xs _ (s0, f1) H3 H2 ltac:(lia)) as (v & [s1 f2] & P1 & P2 & _).
    rewrite (sbind_ok _ _ f1 (tt, s1) f2) by (apply with_store_ok, sexpect_ok; exact P1).
    intros H HT. destruct (built_size EO _ _ _ _ _ _ _ _ _ _ _ _ _ H HT) as [G1 G2]. split; [rewrite G1; apply P2|apply G2, P2].
  Qed.
  Lemma par_size xs f t f' s : 0 < p_block (env_params en) -> List.length xs = b ^ d -> fs_dir f (cfg_path c) = None ->
    from_par_iter_with_config EO LO A en b xs c f = (Ok t, f') ->
    mt_data t = BaseTree (s : st_t LO) -> lc_size s = geom b d * bl /\ h_write (lc_file s) = true.
  Proof.
    intros Hbl Hl Hp. unfold from_par_iter_with_config. cbv zeta. rewrite Hl.
    rewrite (leafs_checks_full b Hb) by auto. rewrite (sbind_ok _ _ f (geom b d, S d) f) by reflexivity.
    destruct (lc_newc_ok EO EL b Hb d c Hd f HR Hp) as (s0 & f1 & H1 & H2 & H3 & HL & H4 & H5).
    rewrite (sbind_ok _ _ _ _ _ H1). cbn [st_loaded_from_disk lc_store]. rewrite HL.
    destruct (populate_par_ok EO LO lc_owner WW RR true LP A AL en (b ^ d) xs _ (s0, f1) Hbl H3 H2 ltac:(lia)) as (v & [s1 f2] & P1 & P2 & _).
    rewrite (sbind_ok _ _ f1 (tt, s1) f2) by (apply with_store_ok; exact P1).
    intros H HT. destruct (built_size EO _ _ _ _ _ _ _ _ _ _ _ _ _ H HT) as [G1 G2]. split; [rewrite G1; apply P2|apply G2, P2].
  Qed.
  Lemma bytes_size els f t f' s : List.length els = b ^ d -> fs_dir f (cfg_path c) = None ->
    from_byte_slice_with_config EO LO A en b (encode EO els) c f = (Ok t, f') ->
    mt_data t = BaseTree (s : st_t LO) -> lc_size s = geom b d * bl /\ h_write (lc_file s) = true.
  Proof.
    intros Hl Hp. pose proof (bl_pos EO EL) as Hbl. unfold from_byte_slice_with_config.
    rewrite encode_length, Nat.mod_mul, Nat.eqb_refl, Nat.div_mul by (auto; lia).
    unfold ensure at 1. rewrite (sbind_ok _ _ f tt f) by reflexivity.
    rewrite Hl, (leafs_checks_full b Hb) by auto. rewrite (sbind_ok _ _ f (geom b d, S d) f) by reflexivity.
    destruct (lc_newc_ok EO EL b Hb d c Hd f HR Hp) as (s0 & f1 & H1 & H2 & H3 & HL & H4 & H5).
    destruct (lc_copy_rep EO EL (b ^ d) cis (geom b d) (lc_Hci EO b d c Hd) (b ^ d) 0 _ (s0, f1) 0 els H2 H3 ltac:(lia)) as (f2 & Hs & HD & HF).
    rewrite Nat.mul_0_l in Hs. cbn [fst snd] in *.
    set (s1 := lc_set_len s0 (List.length els)).
    assert (Hn : lc_new_from_slice_with_config EO (geom b d) b (encode EO els) c f = (Ok s1, f2)).
    { unfold lc_new_from_slice_with_config. rewrite encode_length, Nat.mod_mul, Nat.eqb_refl by (auto; lia).
      cbn [ensure]. rewrite (sbind_ok _ _ f tt f) by reflexivity. rewrite (sbind_ok _ _ _ _ _ H1), HL.
      unfold lc_fill. rewrite Hs, encode_length, Nat.div_mul by (auto; lia). reflexivity. }
    cbn [st_new_from_slice_with_config lc_store]. rewrite (sbind_ok _ _ _ _ _ Hn).
    intros H HT. destruct (built_size EO _ _ _ _ _ _ _ _ _ _ _ _ _ H HT) as [G1 G2]. split; [rewrite G1; apply H3|apply G2, H3].
  Qed.
  Lemma cfg_size leaves f t f' s : List.length leaves = b ^ d -> fs_dir f (cfg_path c) = None ->
    cfg_builder EO LO A en b c leaves f (Ok t, f') -> mt_data t = BaseTree (s : st_t LO) -> lc_size s = geom b d * bl /\ h_write (lc_file s) = true.
  Proof.
    intros Hl Hp HB. remember (Ok t, f') as r eqn:Hr. destruct HB; rewrite ?map_length in Hl.
    - exact (iter_size xs f t f' s Hl Hp Hr).
    - exact (par_size xs f t f' s H Hl Hp Hr).
    - unfold from_data_with_config in Hr. rewrite (hash_items_ok A AL) in Hr. intros HT.
      apply (iter_size (map (hash_of A) xs) f t f' s); [rewrite map_length; exact Hl|exact Hp|rewrite map_length; exact Hr|exact HT].
    - exact (bytes_size els f t f' s Hl Hp Hr).
  Qed.
End Create.

(* every tree built with a level cache: the cached size is that of the whole tree, the file
   holds the cached rows only *)
Theorem C99_lc_build : forall E (EO : ElementOps E) A en b c leaves t f',
  lc_call EO A en b c leaves (Ok t, f') ->
  exists s, mt_data t = BaseTree (s : st_t (lc_store EO)) /\ lc_size s = mt_len (lc_store EO) t * e_byte_len EO /\
    fs_size f' (lc_file s) + List.length leaves * e_byte_len EO <= lc_size s.
Proof.
  intros E EO A en b c leaves t f' HC.
  destruct (C27_build E EO A en b c leaves _ HC) as (d & top & Hl & HR & _ & _ & HLen & _).
  pose proof HC as (EL & AL & Hb & Hch & _).
  destruct (lc_call_ok EO A en b c leaves _ d HC Hl HR) as (f0 & t0 & f0' & HE & HB). injection HE as <- <-.
  destruct (lb_s _ _ _ _ _ _ _ _ _ HB) as (s & T1 & _ & _ & _ & _ & S1 & _).
  destruct HC as (_ & _ & _ & _ & f & Hp & HC).
  exists s. split; [exact T1|]. rewrite HLen.
  pose proof (cfg_size EO EL A AL en b d c Hb ltac:(lia) HR leaves f t f' s Hl Hp HC T1) as [HS _]. split; [exact HS|].
  rewrite HS. unfold fs_size. rewrite S1, (encode_length EO EL), skipn_length, <- Nat.mul_add_distr_r. apply Nat.mul_le_mono_r.
  pose proof (arity_ge b Hb) as H2. pose proof (all_rows_length A b ltac:(lia) leaves 1 d d ltac:(lia) ltac:(lia)) as HA. rewrite Nat.mul_1_l in HA. rewrite HA.
  pose proof (geom_row_off b d d ltac:(lia)) as G1. rewrite Nat.sub_diag in G1. change (geom b 0) with 1 in G1.
  change (row_off b d (S d)) with (row_off b d d + b ^ (d - d)). rewrite Nat.sub_diag, Nat.pow_0_r, <- G1.
  pose proof (row_off_mono b d 1 (S (sc_rows_to_discard c)) ltac:(lia)) as M. change (row_off b d 1) with (0 + b ^ (d - 0)) in M. rewrite Nat.sub_0_r in M.
  pose proof (geom_row_off b d (S (sc_rows_to_discard c)) ltac:(lia)) as G2. lia.
Qed.
Print Assumptions C99_lc_build.

(* what this allows: write_at, which does not translate its index, past the end of the file of
   cached rows; it succeeds, the file grows, and can not be opened with a level cache any more; if the index was
   that of the root, the file has the size of the whole tree and is taken for one *)
Theorem C99_lc_write : forall E (EO : ElementOps E) A en b c leaves t f' x i,
  lc_call EO A en b c leaves (Ok t, f') ->
  exists s, mt_data t = BaseTree (s : st_t (lc_store EO)) /\
    (fs_size f' (lc_file s) <= i * e_byte_len EO -> i < mt_len (lc_store EO) t ->
      exists f3, st_write_at (lc_store EO) x i (s, f') = (Ok tt, (s, f3)) /\
        (exists bytes, fs_file f3 (cfg_path c) = Some bytes /\ List.length bytes = (i + 1) * e_byte_len EO) /\
        lc_is_consistent EO (mt_len (lc_store EO) t) b c f3 = Ok false /\
        disk_is_consistent EO (mt_len (lc_store EO) t) b c f3 = Ok (i + 1 =? mt_len (lc_store EO) t)).
Proof.
  intros E EO A en b c leaves t f' x i HC.
  destruct (C27_build E EO A en b c leaves _ HC) as (d & top & Hl & HR & _ & _ & HLen & _).
  pose proof HC as (EL & AL & Hb & Hch & _).
  destruct (lc_call_ok EO A en b c leaves _ d HC Hl HR) as (f0 & t0 & f0' & HE & HB). injection HE as <- <-.
  destruct (lb_s _ _ _ _ _ _ _ _ _ HB) as (s & T1 & L1 & _ & _ & _ & S1 & S2 & _).
  destruct HC as (_ & _ & _ & _ & f & Hp & HC).
  exists s. split; [exact T1|]. rewrite HLen. intros Hi Hlt.
  destruct (cfg_size EO EL A AL en b d c Hb ltac:(lia) HR leaves f t f' s Hl Hp HC T1) as [HS HW].
  assert (HX : List.length (e_as_ref EO x) = e_byte_len EO) by apply (el_len EO EL). pose proof (bl_pos EO EL) as Hbl.
  assert (HM : (i + 1) * e_byte_len EO <= geom b d * e_byte_len EO) by (apply Nat.mul_le_mono_r; lia).
  set (bytes := overwrite (resize (fs_data f' (h_ino (lc_file s))) ((i + 1) * e_byte_len EO) x00) (i * e_byte_len EO) (e_as_ref EO x)).
  assert (HBy : List.length bytes = (i + 1) * e_byte_len EO) by (unfold bytes; rewrite overwrite_length by (rewrite resize_length; lia); apply resize_length).
  exists (fs_set_data f' (h_ino (lc_file s)) bytes).
  assert (HF : fs_file (fs_set_data f' (h_ino (lc_file s)) bytes) (cfg_path c) = Some bytes).
  { unfold fs_file. change (fs_dir (fs_set_data f' (h_ino (lc_file s)) bytes) (cfg_path c)) with (fs_dir f' (cfg_path c)). rewrite S2, fs_set_data_get. reflexivity. }
  split; [|split; [exists bytes; auto|]].
  - cbn [st_write_at lc_store]. unfold lc_write_at, lc_store_copy_from_slice, sbind, on_fs, sget, lc_upd_len. cbn [fst snd]. rewrite HX, HS.
    replace (i * e_byte_len EO + e_byte_len EO <=? geom b d * e_byte_len EO) with true by (symmetry; apply Nat.leb_le; lia).
    unfold fs_write_all_at. rewrite HX, HW. replace (e_byte_len EO =? 0) with false by (symmetry; apply Nat.eqb_neq; lia).
    unfold fs_size in Hi. rewrite Nat.max_r by lia. replace (i * e_byte_len EO + e_byte_len EO) with ((i + 1) * e_byte_len EO) by lia. fold bytes.
    cbn [fst snd]. rewrite L1, Nat.max_l by lia. rewrite <- L1. destruct s. reflexivity.
  - pose proof (checks_file EO b c _ d bytes Hb HR HF) as K. cbv zeta in K. unfold checks in K.
    injection K as K1 _ K. rewrite K, K1, HBy, !eqb_mul by exact Hbl. split; [|reflexivity]. f_equal. apply Nat.eqb_neq.
    unfold fs_size in Hi. rewrite S1, (encode_length EO EL), skipn_length in Hi. apply Nat.mul_le_mono_pos_r in Hi; [|exact Hbl].
    pose proof (arity_ge b Hb) as H2. rewrite (all_rows_length A b ltac:(lia) leaves 1 d d ltac:(lia) ltac:(lia)), Nat.mul_1_l in Hi.
    pose proof (geom_row_off b d d ltac:(lia)) as G1. rewrite Nat.sub_diag in G1. change (geom b 0) with 1 in G1.
    change (row_off b d (S d)) with (row_off b d d + b ^ (d - d)) in Hi. rewrite Nat.sub_diag, Nat.pow_0_r, <- G1 in Hi.
    pose proof (geom_row_off b d (S (sc_rows_to_discard c)) ltac:(lia)) as G2.
    replace (d - S (sc_rows_to_discard c)) with (d - 1 - sc_rows_to_discard c) in G2 by lia. lia.
Qed.
Print Assumptions C99_lc_write.

(* writing the root of the tree of 8 leaves at its index 14: the file of 3 bytes becomes one of 15,
   and the store, without a reader, reads at 14 a zero of the gap, neither the old root nor what was written *)
Example C99_lc_write_case :
  match mt_new_with_config BO (lc_store BO) sum_alg env1 2 leaves8 (cfg_r 1) fs_empty with
  | (Ok t, f) =>
    match mt_data t with
    | BaseTree s =>
      let '(q, (s3, f3)) := st_write_at (lc_store BO) (el 7) 14 (s, f) in
      q = Ok tt /\ fs_size f3 (lc_file s3) = 15 /\ match st_read_at (lc_store BO) (s3, f3) 14 with Ok y => e_as_ref BO y = [x00] | _ => False end /\ e_as_ref BO (mt_root t) <> [x00] /\ e_as_ref BO (el 7) <> [x00]
    | _ => False
    end
  | _ => False
  end.
Proof. vm_compute. repeat split; try reflexivity; discriminate. Qed.

(* 8 leaves of one byte: 15 bytes by the store, 3 in the file *)
Example C99_lc_build_case :
  match mt_new_with_config BO (lc_store BO) sum_alg env1 2 leaves8 (cfg_r 1) fs_empty with
  | (Ok t, f) => match mt_data t with BaseTree s => lc_size s = 15 /\ fs_size f (lc_file s) = 3 | _ => False end
  | _ => False
  end.
Proof. vm_compute. split; reflexivity. Qed.
