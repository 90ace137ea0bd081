(* C84: the Deref views of VecStore and MmapStore. *)
From Coq Require Import String List Arith NArith Bool Lia Init.Byte ZifyBool ZifyNat.
From Verif Require Import Base Element Hash Sizing FS Sched Store VecStore DiskStore MmapStore LevelCache ProofModel Tree ListFacts Spec SpecFacts SizingFacts SchedFacts StoreLaws RowFacts ChunkFacts BuildFacts BuildLoop StoreSpec FileFacts VecFacts MapLayer DiskFacts MmapFacts PopFacts TreeFacts ProofSpec ProofFacts TreeProofs TreeObs Builders BuiltFacts FrameFacts CompactTrees ReopenFacts Deref Cases Props_Build.
Import ListNotations.

(* VecStore: the view is what the reads return, element by element and range by range *)
Theorem C84_vec_reads : forall E (EO : ElementOps E) (s : vec_t) f i a e,
  List.length (vec_deref s) = st_len (vec_store EO) s /\
  (i < st_len (vec_store EO) s -> exists x, nth_error (vec_deref s) i = Some x /\ st_read_at (vec_store EO) (s, f) i = Ok x) /\
  (a <= e -> e <= st_len (vec_store EO) s -> st_read_range (vec_store EO) (s, f) a e = Ok (sub (vec_deref s) a (e - a))).
Proof.
  intros E EO s f i a e. cbn [st_len st_read_at st_read_range vec_store]. unfold vec_deref, vec_read_at, vec_read_range, rnth. cbn [fst].
  split; [reflexivity|]. split.
  - intros H. destruct (nth_error_ex s i H) as [x Hx]. exists x. rewrite Hx. auto.
  - intros H1 H2. replace (a <=? e) with true by lia. replace (e <=? List.length s) with true by lia. reflexivity.
Qed.

(* the view of a tree built over it: all its nodes, row by row *)
Theorem C84_vec_tree : forall E (EO : ElementOps E) A en b leaves f t f',
  setting EO A (vec_store EO) true en b ->
  builder EO (vec_store EO) A en b leaves f (Ok t, f') ->
  exists d s, mt_data t = BaseTree s /\ Layout (h_node A) b d leaves (vec_deref s).
Proof.
  intros E EO A en b leaves f t f' (EL & AL & HS & Hb & Hch) HB.
  destruct (builder_tree EO EL A AL en b (vec_store EO) true HS leaves f t f' Hb Hch HB) as (d & els & Hn & HF).
  destruct (ft_base _ _ _ _ _ _ _ _ HF) as [s Hs]. exists d, s. split; [exact Hs|].
  pose proof (ft_layout _ _ _ _ _ _ _ _ HF) as HL. pose proof HL as (L1 & L2 & L3). pose proof (geom_pos b d) as Hg.
  pose proof (ft_read_range _ _ _ _ _ _ _ _ HF 0 (geom b d) ltac:(lia) (le_n _)) as HR.
  pose proof (ft_len _ _ _ _ _ _ _ _ HF) as HLn.
  unfold mt_read_range, mt_store in HR. replace (0 <? geom b d) with true in HR by lia. cbn [ensure rbind] in HR. unfold mt_len in HLn. rewrite Hs in HR, HLn. cbn [st_len st_read_range vec_store] in HR, HLn.
  unfold vec_read_range in HR. cbn [fst] in HR. rewrite HLn in HR. rewrite Nat.leb_refl in HR. cbn [Nat.leb andb] in HR.
  injection HR as HR. rewrite Nat.sub_0_r, !sub_0 in HR. rewrite (firstn_all2 els) in HR by lia.
  rewrite (firstn_all2 s) in HR by lia. unfold vec_deref. rewrite HR. exact HL.
Qed.

(* MmapStore: the view panics exactly when the store has no map - after compact, until
   something maps the file again *)
Theorem C84_mmap_unmapped : forall E (EO : ElementOps E) (s : mmap_t) f sizes b c v,
  (mm_map s = None -> mmap_deref (s, f) = Panic "couldn't dereference") /\
  (mmap_deref (s, f) = Panic "couldn't dereference" -> mm_map s = None) /\
  mmap_deref (snd (st_compact (mmap_store_ops EO) sizes b c v (s, f))) = Panic "couldn't dereference".
Proof.
  intros E EO s f sizes b c v. unfold mmap_deref. cbn [fst snd]. split; [intros ->; reflexivity|]. split; [|reflexivity].
  destruct (mm_map s) as [m|]; [|reflexivity]. unfold fs_map_read. destruct (_ || _); discriminate.
Qed.

(* otherwise the reads decode pieces of the view *)
Theorem C84_mmap_reads : forall E (EO : ElementOps E) (s : mmap_t) f bs a e,
  ElementLaws EO ->
  mmap_deref (s, f) = Ok bs -> mm_len s * e_byte_len EO <= List.length bs ->
  a < e -> e <= mm_len s ->
  st_read_range (mmap_store_ops EO) (s, f) a e = decode EO (sub bs (a * e_byte_len EO) ((e - a) * e_byte_len EO)) /\
  st_read_at (mmap_store_ops EO) (s, f) a = e_from_slice EO (sub bs (a * e_byte_len EO) (e_byte_len EO)).
Proof.
  intros E EO s f bs a e EL HD HL Ha He. cbn [st_read_at st_read_range mmap_store_ops].
  unfold mmap_deref in HD. cbn [fst snd] in HD. destruct (mm_map s) as [m|] eqn:HM; [|discriminate].
  set (bl := e_byte_len EO) in *. pose proof (bl_pos EO EL) as Hbl. fold bl in Hbl.
  assert (HB : bs = sub (fs_data f (h_ino (mm_file s))) 0 m /\ (m = 0 \/ m <= fs_size f (mm_file s))).
  { unfold fs_map_read in HD. destruct (_ || _) eqn:G; [|discriminate]. injection HD as <-. split; [reflexivity|lia]. }
  destruct HB as [HB Hm]. assert (Lb : List.length bs <= m) by (rewrite HB, sub_length; lia).
  assert (H1 : S a * bl <= e * bl) by (apply Nat.mul_le_mono_r; lia).
  assert (H2 : e * bl <= mm_len s * bl) by (apply Nat.mul_le_mono_r; lia). cbn [Nat.mul] in H1.
  assert (G : forall st n, 0 < n -> st + n <= mm_len s * bl ->
    mmap_check EO (s, f) st (st + n) = Ok tt /\ mmap_slice (s, f) st (st + n) = Ok (sub bs st n)).
  { intros st n Hn Hle. unfold mmap_check, mmap_slice. cbn [fst snd]. fold bl. rewrite HM.
    replace (st <? mm_len s * bl) with true by lia. replace (st + n <=? mm_len s * bl) with true by lia. split; [reflexivity|].
    replace (st <=? st + n) with true by lia. replace (st + n <=? m) with true by lia. cbn [andb].
    unfold fs_map_read. replace (st + n - st) with n by lia. replace (n =? 0) with false by lia. cbn [orb].
    replace (st + n <=? fs_size f (mm_file s)) with true by lia. f_equal.
    rewrite HB. unfold sub. rewrite skipn_O, skipn_firstn_comm, firstn_firstn. f_equal. lia. }
  unfold mmap_read_range, mmap_read_at. fold bl. split.
  - replace (e * bl) with (a * bl + (e - a) * bl) by (rewrite <- Nat.mul_add_distr_r; f_equal; lia).
    destruct (G (a * bl) ((e - a) * bl)) as [G1 G2].
    { apply Nat.mul_pos_pos; lia. }
    { rewrite <- Nat.mul_add_distr_r. replace (a + (e - a)) with e by lia. exact H2. }
    rewrite G1, G2. reflexivity.
  - destruct (G (a * bl) bl) as [G1 G2]; [lia|lia|]. rewrite G1, G2. reflexivity.
Qed.

(* If the file has become shorter than the map, touching what is gone kills the process (it
   is not an error that could be handled), while elements before the cut are read. *)
Theorem C84_mmap_cut : forall E (EO : ElementOps E) (s : mmap_t) f m,
  ElementLaws EO -> mm_map s = Some m -> mm_len s * e_byte_len EO <= m -> fs_size f (mm_file s) < m ->
  (exists e, mmap_deref (s, f) = Panic e) /\
  forall i, i < mm_len s ->
    if (i + 1) * e_byte_len EO <=? fs_size f (mm_file s)
    then st_read_at (mmap_store_ops EO) (s, f) i = e_from_slice EO (sub (fs_data f (h_ino (mm_file s))) (i * e_byte_len EO) (e_byte_len EO))
    else exists e, st_read_at (mmap_store_ops EO) (s, f) i = Panic e.
Proof.
  intros E EO s f m EL HM HL HC. pose proof (bl_pos EO EL) as Hbl. split.
  - unfold mmap_deref. cbn [fst snd]. rewrite HM. unfold fs_map_read. replace (m =? 0) with false by lia. cbn [orb].
    replace (0 + m <=? fs_size f (mm_file s)) with false by lia. eexists. reflexivity.
  - intros i Hi. cbn [st_read_at mmap_store_ops]. unfold mmap_read_at, mmap_check, mmap_slice. cbn [fst snd]. rewrite HM.
    set (bl := e_byte_len EO) in *. assert (H1 : (i + 1) * bl <= mm_len s * bl) by (apply Nat.mul_le_mono_r; lia). rewrite Nat.mul_add_distr_r, Nat.mul_1_l in *.
    replace (i * bl <? mm_len s * bl) with true by lia. replace (i * bl + bl <=? mm_len s * bl) with true by lia. cbn [ensure rbind].
    replace (i * bl <=? i * bl + bl) with true by lia. replace (i * bl + bl <=? m) with true by lia. cbn [andb]. unfold fs_map_read.
    replace (i * bl + bl - i * bl) with bl by lia. replace (bl =? 0) with false by lia. cbn [orb].
    destruct (i * bl + bl <=? fs_size f (mm_file s)); [reflexivity|]. eexists. reflexivity.
Qed.

(* the view of a tree built with a config at a free path: the bytes of all its nodes and
   nothing else *)
Theorem C84_mmap_tree : forall E (EO : ElementOps E) A en b c leaves f t f',
  setting EO A (mmap_store_ops EO) false en b ->
  fs_dir f (cfg_path c) = None ->
  cfg_builder EO (mmap_store_ops EO) A en b c leaves f (Ok t, f') ->
  exists d s els, mt_data t = BaseTree s /\ Layout (h_node A) b d leaves els /\ mmap_deref (s, f') = Ok (encode EO els).
Proof.
  intros E EO A en b c leaves f t f' (EL & AL & _ & Hb & Hch) Hp HB.
  destruct (cfg_builder_built EO EL (mmap_store_ops EO) mmap_owner mmap_W (mmap_rep EO) false (mmap_laws EO EL) A AL en b Hb Hch c leaves f t f' Hp HB) as (d & Hd & Hl & HBt).
  destruct (built_at (mmap_store_ops EO) mmap_owner mmap_W (mmap_rep EO) A b f _ d leaves t f' HBt) as (s & els & HT & HW & HR & HC).
  exists d, s, els. split; [exact (ta_data _ _ _ _ _ _ _ _ _ _ HT)|].
  pose proof (ta_layout _ _ _ _ _ _ _ _ _ _ HT) as HL. split; [exact HL|]. pose proof HL as (L1 & L2 & L3).
  destruct HR as (_ & _ & HM & HD). cbn [fst snd] in HM, HD. unfold mmap_deref. cbn [fst snd]. rewrite HM.
  pose proof HD as (HDl & _). unfold fs_map_read, fs_size. rewrite HDl, Nat.add_0_l, Nat.leb_refl, orb_true_r.
  rewrite sub_0, firstn_all2 by lia. f_equal. rewrite <- L2 in HD. exact (DRep_full EO els _ HD).
Qed.

Example C84_case :
  match from_byte_slice_with_config BO (mmap_store_ops BO) sum_alg env1 2 (encode BO (map el [3; 7; 9; 100])) cfg0 fs_empty,
        mt_new BO (vec_store BO) sum_alg env1 2 (map el [3; 7; 9; 100]) fs_empty with
  | (Ok t, f), (Ok u, _) =>
      match mt_data t, mt_data u with
      | BaseTree s, BaseTree v =>
          rbind (mmap_deref (s, f)) (fun bs => Ok (map Byte.to_nat (firstn 4 bs), List.length bs)) = Ok ([3; 7; 9; 100], 7) /\
          mmap_deref (snd (st_compact (mmap_store_ops BO) (fun _ => 0) 2 cfg0 0 (s, f))) = Panic "couldn't dereference" /\
          is_ok (mmap_deref (snd (st_reinit (mmap_store_ops BO) (snd (st_compact (mmap_store_ops BO) (fun _ => 0) 2 cfg0 0 (s, f)))))) = true /\
          List.length (vec_deref v) = 7 /\ map val (firstn 1 (vec_deref v)) = [val (h_leaf sum_alg (el 3))]
      | _, _ => False
      end
  | _, _ => False
  end.
Proof. vm_compute. auto. Qed.

Print Assumptions C84_vec_reads.
Print Assumptions C84_vec_tree.
Print Assumptions C84_mmap_unmapped.
Print Assumptions C84_mmap_reads.
Print Assumptions C84_mmap_tree.
Print Assumptions C84_mmap_cut.

(* the file of a map of four bytes cut to two *)
Example C84_cut_case :
  let s := {| mm_map := Some 4; mm_file := {| h_ino := 0; h_write := true |}; mm_len := 4 |} in
  let f := {| fs_dir := fun _ => None; fs_ino := fun _ => {| i_data := [x05; x06]; i_ro := false |}; fs_next := 1 |} in
  mmap_deref (s, f) = Panic "SIGBUS" /\ rbind (st_read_at (mmap_store_ops BO) (s, f) 1) (fun x => Ok (val x)) = Ok 6 /\
  st_read_at (mmap_store_ops BO) (s, f) 2 = Panic "SIGBUS".
Proof. vm_compute. auto. Qed.
