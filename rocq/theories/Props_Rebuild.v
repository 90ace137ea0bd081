(* C56, C57: compound trees made again from serialised base trees, from stores and from files. *)
From Coq Require Import String List Arith NArith Bool Lia Init.Byte ZifyBool ZifyNat.
From Verif Require Import Base Element Hash Sizing FS Sched Store VecStore DiskStore MmapStore LevelCache ProofModel Tree ListFacts Spec SpecFacts SizingFacts SchedFacts StoreLaws RowFacts ChunkFacts BuildFacts BuildLoop StoreSpec FileFacts VecFacts MapLayer DiskFacts MmapFacts PopFacts TreeFacts ProofSpec ProofFacts TreeProofs TreeObs Builders BuiltFacts CompoundFacts CompoundTrees CompoundGroups CompoundBuilt CompactTrees ReopenFacts ReplicaFacts RebuildFacts Cases Props_Build Props_Compound Props_Reopen.
Import ListNotations.

(* ---------------- C56 ---------------- *)
(* [dumped SO f ts alls]: alls are all elements of each base tree, in order *)
Theorem C56_slices : forall E (EO : ElementOps E) A SO np SO' np' en en' b lss f ts f1 sub_ t t0 alls f0,
  setting EO A SO np en b -> setting EO A SO' np' en' b ->
  built_all EO SO A en b lss f ts f1 -> from_trees SO A sub_ ts = Ok t -> nth_error ts 0 = Some t0 ->
  dumped SO f1 ts alls ->
  exists t2 f2, from_slices EO SO' A b sub_ (map (encode EO) alls) (mt_leafs t0) f0 = (Ok t2, f2) /\
    same_compound SO SO' b sub_ 0 t f1 t2 f2.
Proof.
  intros E EO A SO np SO' np' en en' b lss f ts f1 sub_ t t0 alls f0 (EL & AL & HS & Hb & Hch) (_ & _ & HS' & _ & _) HB HT H0 HD.
  destruct (built_sub EO EL A AL en b Hb Hch SO np HS lss f ts f1 sub_ t HB HT) as (d & ess & HL & HSA).
  pose proof (sa_bases _ _ _ _ _ _ _ _ _ HSA) as HBs. pose proof (sa_pos _ _ _ _ _ _ _ _ _ HSA) as Hpos.
  pose proof HBs as (B1 & B2 & B3). destruct (B3 0 t0 H0) as (lv & es & _ & _ & HF0). rewrite (ft_leafs _ _ _ _ _ _ _ _ HF0).
  pose proof (Forall2_length _ _ _ HD) as HDL.
  destruct (from_slices_ok EO EL A b Hb SO' np' HS' d lss alls f0 (bases_d A b SO f1 d ts lss ess HBs Hpos) ltac:(lia) (bases_layouts A b SO f1 d ts lss ess alls HBs HD))
    as (t2 & ts2 & ess2 & f2 & G1 & G2 & G3).
  exists t2, f2. replace sub_ with (List.length alls) at 1 by lia. split; [exact G1|]. rewrite <- HL.
  eapply sub_twin; eauto.
Qed.

(* on pairwise different fresh paths *)
Theorem C56_slices_configs : forall E (EO : ElementOps E) A SO np SO' np' en en' b lss f ts f1 sub_ t t0 alls configs f0,
  setting EO A SO np en b -> setting EO A SO' np' en' b ->
  built_all EO SO A en b lss f ts f1 -> from_trees SO A sub_ ts = Ok t -> nth_error ts 0 = Some t0 ->
  dumped SO f1 ts alls ->
  sub_ <= List.length configs -> NoDup (map cfg_path configs) -> Forall (fun c => fs_dir f0 (cfg_path c) = None) configs ->
  exists t2 f2, from_slices_with_configs EO SO' A b sub_ (map (encode EO) alls) (mt_leafs t0) configs f0 = (Ok t2, f2) /\
    same_compound SO SO' b sub_ 0 t f1 t2 f2.
Proof.
  intros E EO A SO np SO' np' en en' b lss f ts f1 sub_ t t0 alls configs f0 (EL & AL & HS & Hb & Hch) (_ & _ & HS' & _ & _) HB HT H0 HD Hc HN HFr.
  destruct (built_sub EO EL A AL en b Hb Hch SO np HS lss f ts f1 sub_ t HB HT) as (d & ess & HL & HSA).
  pose proof (sa_bases _ _ _ _ _ _ _ _ _ HSA) as HBs. pose proof (sa_pos _ _ _ _ _ _ _ _ _ HSA) as Hpos.
  pose proof HBs as (B1 & B2 & B3). destruct (B3 0 t0 H0) as (lv & es & _ & _ & HF0). rewrite (ft_leafs _ _ _ _ _ _ _ _ HF0).
  pose proof (Forall2_length _ _ _ HD) as HDL.
  destruct (from_slices_wc_ok EO EL A b Hb SO' np' HS' d lss alls configs f0 (bases_d A b SO f1 d ts lss ess HBs Hpos) ltac:(lia) (bases_layouts A b SO f1 d ts lss ess alls HBs HD) ltac:(lia) HN HFr)
    as (t2 & ts2 & ess2 & f2 & G1 & G2 & G3).
  exists t2, f2. replace sub_ with (List.length alls) at 1 by lia. split; [exact G1|]. rewrite <- HL.
  eapply sub_twin; eauto.
Qed.

(* over any stores that show the elements *)
Theorem C56_stores : forall E (EO : ElementOps E) A SO np en b lss f ts f1 sub_ t t0 alls (SO' : StoreOps E) stores f0,
  setting EO A SO np en b ->
  built_all EO SO A en b lss f ts f1 -> from_trees SO A sub_ ts = Ok t -> nth_error ts 0 = Some t0 ->
  dumped SO f1 ts alls ->
  Forall2 (fun s all => store_shows SO' s f0 all) stores alls ->
  exists t2, from_stores SO' A b sub_ (mt_leafs t0) stores f0 = (Ok t2, f0) /\ same_compound SO SO' b sub_ 0 t f1 t2 f0.
Proof.
  intros E EO A SO np en b lss f ts f1 sub_ t t0 alls SO' stores f0 (EL & AL & HS & Hb & Hch) HB HT H0 HD HSt.
  destruct (built_sub EO EL A AL en b Hb Hch SO np HS lss f ts f1 sub_ t HB HT) as (d & ess & HL & HSA).
  pose proof (sa_bases _ _ _ _ _ _ _ _ _ HSA) as HBs. pose proof (sa_pos _ _ _ _ _ _ _ _ _ HSA) as Hpos.
  pose proof HBs as (B1 & B2 & B3). destruct (B3 0 t0 H0) as (lv & es & _ & _ & HF0). rewrite (ft_leafs _ _ _ _ _ _ _ _ HF0).
  pose proof (Forall2_length _ _ _ HD) as HDL. pose proof (Forall2_length _ _ _ HSt) as HSL.
  destruct (from_stores_ok A b Hb SO' d lss alls stores f0 (bases_d A b SO f1 d ts lss ess HBs Hpos) ltac:(lia) (bases_layouts A b SO f1 d ts lss ess alls HBs HD) HSt)
    as (t2 & ts2 & ess2 & G1 & G2 & G3).
  exists t2. replace sub_ with (List.length stores) at 1 by lia. split; [exact G1|]. rewrite <- HL.
  eapply sub_twin; eauto.
Qed.

(* over files: [holds] says that the file of a configuration has exactly the bytes of the
   elements, and (MmapStore) may be written *)
Theorem C56_store_configs : forall E (EO : ElementOps E) A SO np en b lss f ts f1 sub_ t t0 alls SO' np' rw configs f0,
  setting EO A SO np en b -> file_store EO SO' np' rw ->
  built_all EO SO A en b lss f ts f1 -> from_trees SO A sub_ ts = Ok t -> nth_error ts 0 = Some t0 ->
  dumped SO f1 ts alls ->
  Forall2 (holds EO rw f0) configs alls ->
  exists t2, from_store_configs SO' A b sub_ (mt_leafs t0) configs f0 = (Ok t2, f0) /\ same_compound SO SO' b sub_ 0 t f1 t2 f0.
Proof.
  intros E EO A SO np en b lss f ts f1 sub_ t t0 alls SO' np' rw configs f0 (EL & AL & HS & Hb & Hch) HFS HB HT H0 HD HH.
  destruct (built_sub EO EL A AL en b Hb Hch SO np HS lss f ts f1 sub_ t HB HT) as (d & ess & HL & HSA).
  pose proof (sa_bases _ _ _ _ _ _ _ _ _ HSA) as HBs. pose proof (sa_pos _ _ _ _ _ _ _ _ _ HSA) as Hpos.
  pose proof HBs as (B1 & B2 & B3). destruct (B3 0 t0 H0) as (lv & es & _ & _ & HF0). rewrite (ft_leafs _ _ _ _ _ _ _ _ HF0).
  pose proof (Forall2_length _ _ _ HD) as HDL. pose proof (Forall2_length _ _ _ HH) as HSL.
  destruct (from_store_configs_ok EO EL A b Hb SO' np' rw HFS d lss alls configs f0 (bases_d A b SO f1 d ts lss ess HBs Hpos) ltac:(lia) (bases_layouts A b SO f1 d ts lss ess alls HBs HD) HH)
    as (t2 & ts2 & ess2 & G1 & G2 & G3).
  exists t2. replace sub_ with (List.length configs) at 1 by lia. split; [exact G1|]. rewrite <- HL.
  eapply sub_twin; eauto.
Qed.

(* three layers *)
Theorem C56_sub_tree_store_configs : forall E (EO : ElementOps E) A SO np en b lss f gs f1 sub_ top subs t t0 alls SO' np' rw configs f0,
  setting EO A SO np en b -> file_store EO SO' np' rw ->
  built_all EO SO A en b lss f (concat gs) f1 -> rmap (from_trees SO A sub_) gs = Ok subs -> from_sub_trees SO A top subs = Ok t ->
  nth_error (concat gs) 0 = Some t0 ->
  dumped SO f1 (concat gs) alls ->
  Forall2 (holds EO rw f0) configs alls ->
  exists t2, from_sub_tree_store_configs SO' A b sub_ top (mt_leafs t0) configs f0 = (Ok t2, f0) /\ same_compound SO SO' b sub_ top t f1 t2 f0.
Proof.
  intros E EO A SO np en b lss f gs f1 sub_ top subs t t0 alls SO' np' rw configs f0 (EL & AL & HS & Hb & Hch) HFS HB HM HT H0 HD HH.
  destruct (built_top EO EL A AL en b Hb Hch SO np HS lss f gs f1 sub_ top subs t HB HM HT) as (d & ls & HL & Hls & HTA).
  pose proof (pa_subs _ _ _ _ _ _ _ _ _ HTA) as (P1 & P2). pose proof (pa_pos _ _ _ _ _ _ _ _ _ HTA) as Hpos.
  assert (HG : Forall (fun l => List.length l = sub_) ls).
  { apply Forall_forall. intros l Hl. apply In_nth_error in Hl. destruct Hl as [k Hk].
    destruct (nth_error_ex subs k) as [tk Htk]; [apply nth_error_lt in Hk; lia|].
    destruct (P2 k tk Htk) as (bs & l' & ess & Q1 & Q2 & Q3). rewrite Hk in Q1. injection Q1 as <-.
    pose proof (sa_bases _ _ _ _ _ _ _ _ _ Q3) as (B1 & _). lia. }
  assert (Hk0 : exists bs lss0 ess0 tk, nth_error ls 0 = Some lss0 /\ List.length bs = sub_ /\ SubAt SO A b tk f1 d bs lss0 ess0).
  { destruct (nth_error_ex subs 0 Hpos) as [tk Htk]. destruct (P2 0 tk Htk) as (bs & l' & ess & Q). eauto 6. }
  destruct Hk0 as (bs & lss0 & ess0 & tk & _ & Q2 & Q3). pose proof (sa_pos _ _ _ _ _ _ _ _ _ Q3) as Hsub.
  pose proof (bases_d A b SO f1 d bs lss0 ess0 (sa_bases _ _ _ _ _ _ _ _ _ Q3) Hsub) as Hd.
  (* every base tree has b^d leaves *)
  pose proof (built_all_full EO EL A AL en b Hb Hch SO np HS lss f (concat gs) f1 HB) as HFull.
  assert (HLs : Forall (fun lv => List.length lv = b ^ d) lss).
  { rewrite <- Hls. apply Forall_concat. apply Forall_forall. intros l Hl. apply In_nth_error in Hl. destruct Hl as [k Hk].
    destruct (nth_error_ex subs k) as [tk' Htk]; [apply nth_error_lt in Hk; lia|].
    destruct (P2 k tk' Htk) as (bs' & l' & ess' & R1 & R2 & R3). rewrite Hk in R1. injection R1 as <-.
    exact (Bases_lens SO A b f1 d bs' l ess' (sa_bases _ _ _ _ _ _ _ _ _ R3)). }
  assert (HLay : Forall2 (Layout (h_node A) b d) lss alls).
  { clear - Hb HFull HLs HD. revert alls HD HLs. induction HFull as [|lv tk lss ts (d' & es & HF) HFull IH]; intros alls HD HLs; inversion HD as [|? all ? alls' D1 D2]; subst; constructor.
    - inversion HLs as [|? ? L1 L2]; subst. pose proof (ft_layout _ _ _ _ _ _ _ _ HF) as HLy. pose proof HLy as (Q & _).
      assert (d' = d) as -> by (apply (same_leaves_pow b); [exact Hb|congruence]). rewrite (full_dump A b SO _ _ _ _ _ _ HF D1). exact HLy.
    - inversion HLs; subst. apply IH; auto. }
  assert (H0l : mt_leafs t0 = b ^ d).
  { destruct lss as [|lv lss']; [apply Forall2_length in HFull; destruct (concat gs); discriminate|].
    inversion HFull as [|? y ? l' (d' & es & HF) _ Q1 Q4]; subst. rewrite <- Q4 in H0. cbn in H0. injection H0 as <-. inversion HLs as [|? ? L1 L2]; subst.
    pose proof (ft_layout _ _ _ _ _ _ _ _ HF) as (Q & _). rewrite (ft_leafs _ _ _ _ _ _ _ _ HF). congruence. }
  rewrite H0l. rewrite <- Hls in HLay.
  assert (HA : exists alss, concat alss = alls /\ Forall2 (Forall2 (Layout (h_node A) b d)) ls alss).
  { destruct (Forall2_concat_inv (fun x y => Layout (h_node A) b d y x) ls alls) as (alss & Z1 & Z2).
    - clear - HLay. induction HLay; constructor; auto.
    - exists alss. split; [exact Z1|]. clear - Z2. induction Z2 as [|x y l l' H Z2 IH]; constructor; auto. clear - H. induction H; constructor; auto. }
  destruct HA as (alss & Z1 & Z2). rewrite <- Z1 in HH.
  destruct (from_sub_tree_store_configs_ok EO EL A b Hb SO' np' rw HFS d sub_ ls alss configs f0 Hd ltac:(lia) ltac:(lia) HG Z2 HH) as (t2 & ts2 & G1 & G2 & G3).
  exists t2. replace top with (List.length ls) at 1 by lia. split; [exact G1|]. rewrite <- HL. eapply top_twin; eauto.
Qed.

(* base trees built at configured paths and reopened later from the files alone: f2 is any state
   in which those files still have their contents *)
Theorem C56_reopen : forall E (EO : ElementOps E) A SO np rw en b configs lss f ts f1 sub_ t t0 f2,
  setting EO A SO np en b -> file_store EO SO np rw ->
  fs_wf f -> NoDup (map cfg_path configs) -> Forall (fun c => fs_dir f (cfg_path c) = None) configs ->
  built_cfgs EO SO A en b configs lss f ts f1 -> from_trees SO A sub_ ts = Ok t -> nth_error ts 0 = Some t0 ->
  Forall (fun c => fs_file f2 (cfg_path c) = fs_file f1 (cfg_path c) /\ (rw = true -> writable f2 (cfg_path c))) configs ->
  exists t2, from_store_configs SO A b sub_ (mt_leafs t0) configs f2 = (Ok t2, f2) /\ same_compound SO SO b sub_ 0 t f1 t2 f2.
Proof.
  intros E EO A SO np rw en b configs lss f ts f1 sub_ t t0 f2 (EL & AL & HS & Hb & Hch) HF Hw HN HFr HB HT H0 H2.
  destruct (cfgs_dir EO EL A AL en b Hb Hch SO np rw HF configs lss f ts f1 HB Hw HN HFr) as (_ & _ & _ & HFT & alls & HL & HH).
  destruct (from_trees_inv_SubAt SO A b f1 sub_ ts t lss HFT HT) as (d & ess & HLn & HSA).
  pose proof (sa_bases _ _ _ _ _ _ _ _ _ HSA) as HBs. pose proof (sa_pos _ _ _ _ _ _ _ _ _ HSA) as Hpos.
  pose proof HBs as (B1 & B2 & B3). destruct (B3 0 t0 H0) as (lv & es & _ & _ & HF0). rewrite (ft_leafs _ _ _ _ _ _ _ _ HF0).
  pose proof (layouts_at A b Hb d lss alls HL (Bases_lens SO A b f1 d ts lss ess HBs)) as HLy.
  assert (HH2 : Forall2 (holds EO rw f2) configs alls).
  { clear - HH H2. induction HH as [|c all configs alls (P1 & P2) HH IH]; constructor; inversion H2 as [|? ? (Q1 & Q2) Q3]; subst; auto.
    split; [congruence|exact Q2]. }
  pose proof (Forall2_length _ _ _ HL) as L1. pose proof (Forall2_length _ _ _ HH) as L2.
  destruct (from_store_configs_ok EO EL A b Hb SO np rw HF d lss alls configs f2 (bases_d A b SO f1 d ts lss ess HBs Hpos) ltac:(lia) HLy HH2)
    as (t2 & ts2 & ess2 & G1 & G2 & G3).
  exists t2. replace sub_ with (List.length configs) at 1 by lia. split; [exact G1|]. rewrite <- HLn.
  eapply sub_twin; eauto.
Qed.

(* the number of parts is checked, and one part that is refused refuses the whole *)
Theorem C56_count : forall E (EO : ElementOps E) (SO : StoreOps E) A b sub_ leafs tree_data stores configs f t f',
  (from_slices EO SO A b sub_ tree_data leafs f = (Ok t, f') -> List.length tree_data = sub_) /\
  (from_slices_with_configs EO SO A b sub_ tree_data leafs configs f = (Ok t, f') -> List.length tree_data = sub_ /\ sub_ <= List.length configs) /\
  (from_stores SO A b sub_ leafs stores f = (Ok t, f') -> List.length stores = sub_) /\
  (from_store_configs SO A b sub_ leafs configs f = (Ok t, f') -> List.length configs = sub_).
Proof.
  intros E EO SO A b sub_ leafs tree_data stores configs f t f'.
  assert (HC : forall {St X Y} (g : X -> SM St Y) l st ys st', smap g l st = (Ok ys, st') -> List.length ys = List.length l).
  { intros St X Y g l. induction l as [|x l IH]; intros st ys st' H; cbn [smap] in H.
    - injection H as <- <-. reflexivity.
    - apply sbind_inv in H. destruct H as (y & s1 & _ & H). apply sbind_inv in H. destruct H as (r & s2 & H1 & H2). injection H2 as <- <-. cbn [List.length]. rewrite (IH _ _ _ H1). reflexivity. }
  assert (HF : forall ts (x : fs) y, slift (from_trees SO A sub_ ts) x = (Ok t, y) -> List.length ts = sub_).
  { intros ts x y H. unfold slift in H. injection H as H _. exact (proj1 (proj2 (from_trees_inv SO A _ _ _ H))). }
  split; [|split; [|split]]; intros H; apply sbind_inv in H; destruct H as (ts & f1 & H1 & H2); pose proof (HC _ _ _ _ _ _ _ _ H1) as HL; apply HF in H2.
  - lia.
  - rewrite combine_length, seq_length, Nat.min_id in HL. split; [lia|]. rewrite <- H2, HL. clear - H1.
    destruct (Nat.le_gt_cases (List.length tree_data) (List.length configs)) as [Q|Q]; [exact Q|exfalso].
    assert (HI : forall (l : list (list byte)) n f ts f1, smap (fun '(i, d) => sbind (slift (rnth configs i)) (fun c => from_tree_slice_with_config EO SO b 0 0 d leafs c))
        (combine (seq n (List.length l)) l) f = (Ok ts, f1) -> n <= List.length configs -> n + List.length l <= List.length configs).
    { induction l as [|x l IH]; intros n f0 ts0 f2 H Hn; cbn [List.length] in *; [lia|]. cbn [seq combine smap] in H.
      apply sbind_inv in H. destruct H as (y & s1 & G & H). apply sbind_inv in H. destruct H as (r & s2 & G1 & _).
      apply sbind_inv in G. destruct G as (c & s3 & G & _). unfold slift, rnth in G. destruct (nth_error configs n) eqn:Hc; [|discriminate]. apply nth_error_lt in Hc.
      specialize (IH (S n) _ _ _ G1 ltac:(lia)). lia. }
    specialize (HI tree_data 0 _ _ _ H1 ltac:(lia)). lia.
  - lia.
  - lia.
Qed.

(* worked: three trees over DiskStores dumped and read back into VecStores, MmapStores at paths,
   and reopened from the files *)
Definition rb_cfg (k : nat) : StoreConfig := {| sc_path := "/d"; sc_id := String (Ascii.ascii_of_nat (97 + k)) EmptyString; sc_size := None; sc_rows_to_discard := 0 |}.
Definition rb_cfgs (n : nat) : list StoreConfig := map rb_cfg (seq 0 n).
Definition dump (SO : StoreOps B1) (f : fs) (ts : list (mtree (st_t SO) B1)) : res (list (list B1)) :=
  rmap (fun tk => mt_read_range SO tk f 0 (mt_len SO tk)) ts.
Definition sees (SO : StoreOps B1) (sub_ top : nat) (r : res (mtree (st_t SO) B1) * fs) : option (nat * nat * nat * nat * list (option nat) * list bool) :=
  match r with
  | (Ok t, f) => Some (val (mt_root t), mt_leafs t, mt_len SO t, mt_row_count t,
        map (fun i => match mt_read_at SO sub_ top t f i with Ok x => Some (val x) | _ => None end) (seq 0 (mt_leafs t)),
        map (fun i => match rbind (gen_proof SO 2 sub_ top t f i) (validate BO sum_alg 2) with Ok true => true | _ => false end) (seq 0 (mt_leafs t)))
  | _ => None
  end.
Definition rb_case (g : list (list byte) -> option (nat * nat * nat * nat * list (option nat) * list bool)) : bool :=
  match mk_trees (disk_store BO) sum_alg 2 [xs4 1; xs4 9; xs4 5] fs_empty with
  | Some (ts, f) => match from_trees (disk_store BO) sum_alg 3 ts, dump (disk_store BO) f ts with
      | Ok t, Ok alls =>
          match sees (disk_store BO) 3 0 (Ok t, f), g (map (encode BO) alls) with
          | Some (r1, a1, b1, c1, l1, p1), Some (r2, a2, b2, c2, l2, p2) =>
              (r1 =? r2) && (a1 =? a2) && (b1 =? b2) && (c1 =? c2) && (a1 =? 12) &&
              forallb (fun '(x, y) => match x, y with Some u, Some v => u =? v | _, _ => false end) (combine l1 l2) &&
              (List.length l2 =? 12) && forallb (fun x => x) p1 && forallb (fun x => x) p2
          | _, _ => false
          end
      | _, _ => false
      end
  | None => false
  end.
Fixpoint built_at_cfgs (cs : list StoreConfig) (xss : list (list B1)) (f : fs) : option fs :=
  match cs, xss with
  | c :: cs, xs :: xss => match mt_new_with_config BO (mmap_store_ops BO) sum_alg env1 2 xs c f with
                          | (Ok _, f1) => built_at_cfgs cs xss f1
                          | _ => None
                          end
  | _, _ => Some f
  end.
Example C56_case :
  rb_case (fun data => sees (vec_store BO) 3 0 (from_slices BO (vec_store BO) sum_alg 2 3 data 4 fs_empty)) = true /\
  rb_case (fun data => sees (mmap_store_ops BO) 3 0 (from_slices_with_configs BO (mmap_store_ops BO) sum_alg 2 3 data 4 (rb_cfgs 3) fs_empty)) = true /\
  rb_case (fun data => match from_slices_with_configs BO (disk_store BO) sum_alg 2 3 data 4 (rb_cfgs 3) fs_empty with
                       | (Ok _, f) => sees (disk_store BO) 3 0 (from_store_configs (disk_store BO) sum_alg 2 3 4 (rb_cfgs 3) f)
                       | _ => None end) = true /\
  rb_case (fun _ => match built_at_cfgs (rb_cfgs 3) [xs4 1; xs4 9; xs4 5] fs_empty with
                    | Some f => sees (mmap_store_ops BO) 3 0 (from_store_configs (mmap_store_ops BO) sum_alg 2 3 4 (rb_cfgs 3) f)
                    | None => None end) = true /\
  rb_case (fun data => sees (vec_store BO) 3 0 (from_slices BO (vec_store BO) sum_alg 2 3 (rev data) 4 fs_empty)) = false /\
  fst (from_slices_with_configs BO (vec_store BO) sum_alg 2 3 [[x01; x02; x03]; [x01; x02; x03]; [x01; x02; x03]] 2 (rb_cfgs 2) fs_empty)
    = Panic "index out of bounds"%string.
Proof. vm_compute. repeat split. Qed.

(* ---------------- C57 ---------------- *)
(* from_store_configs succeeds only over files that are there and have exactly the length of the
   tree; it then leaves the file system alone *)
Lemma from_data_store_len {E} (SO : StoreOps E) b s leafs f t f' : arity b -> from_data_store SO b 0 0 s leafs f = (Ok t, f') ->
  f' = f /\ exists d, 1 <= d /\ leafs = b ^ d /\ st_len SO s = geom b d.
Proof.
  intros Hb H. unfold from_data_store in H.
  do 4 (apply sbind_inv in H; destruct H as (? & ? & G & H); unfold slift in G; injection G as _ <-).
  apply sbind_inv in H; destruct H as (n & ? & G & H); unfold slift in G; injection G as Hn <-.
  apply sbind_inv in H; destruct H as (? & ? & G & H); unfold slift in G; injection G as Hl <-.
  apply sbind_inv in H; destruct H as (v & ? & G & H); unfold slift in G; injection G as Hv <-.
  apply sbind_inv in H; destruct H as (? & ? & G & H); unfold slift in G; injection G as Hv' <-.
  apply sbind_inv in H; destruct H as (? & ? & G & H); unfold sreads in G; injection G as _ <-. injection H as _ <-.
  split; [reflexivity|]. destruct v; [|discriminate Hv'].
  destruct (size_valid_spec b leafs) as (v & V1 & V2); [pose proof (arity_ge b Hb); lia|]. rewrite Hv in V1. injection V1 as <-.
  destruct (proj1 V2 eq_refl) as (_ & d & ->). destruct (n =? st_len SO s) eqn:Hq; [|discriminate Hl]. apply Nat.eqb_eq in Hq.
  exists d. destruct d as [|d].
  - exfalso. destruct (get_merkle_tree_len_small (b ^ 0) b) as [m Hm]; [pose proof (arity_ge b Hb); cbn; lia|]. congruence.
  - rewrite get_merkle_tree_len_full in Hn by (auto; lia). injection Hn as Hn. split; [lia|]. split; [reflexivity|]. rewrite <- Hq. symmetry. exact Hn.
Qed.

Lemma newc_len {E} (EO : ElementOps E) SO np rw b c n f s f' : file_store EO SO np rw ->
  st_new_with_config SO n b c f = (Ok s, f') -> st_len SO s <> 0 ->
  f' = f /\ exists data, fs_file f (cfg_path c) = Some data /\ List.length data = n * e_byte_len EO.
Proof.
  intros HF H Hl. destruct (fs_dir f (cfg_path c)) as [i|] eqn:Hi.
  - assert (HFi : fs_file f (cfg_path c) = Some (fs_data f i)) by (unfold fs_file; rewrite Hi; reflexivity).
    destruct HF.
    + change (disk_new_with_config EO n b c f = (Ok s, f')) in H. rewrite (disk_newc_existing EO b f c i n Hi) in H.
      destruct (disk_open EO b f c i n Hi) as [O1 O2].
      destruct (Nat.eq_dec (List.length (fs_data f i)) (n * e_byte_len EO)) as [G|G].
      * destruct (O1 G) as (s' & S1 & _). rewrite S1 in H. injection H as _ <-. split; [reflexivity|]. eauto.
      * destruct (O2 G) as (e & S1). congruence.
    + change (mmap_new_with_config EO n b c f = (Ok s, f')) in H. rewrite (mmap_newc_existing EO b f c i n Hi) in H.
      unfold mmap_new_from_disk in H. unfold fs_exists, fs_open_rw, fs_size in H. rewrite Hi in H. cbn [ensure rbind] in H.
      destruct (i_ro (fs_ino f i)); cbn [rbind h_ino] in H; [discriminate H|].
      destruct (_ =? n * e_byte_len EO) eqn:Hq; cbn [ensure rbind] in H; [|discriminate H].
      injection H as _ <-. split; [reflexivity|]. exists (fs_data f i). split; [exact HFi|]. lia.
  - exfalso. apply Hl. destruct (create_new_len f (cfg_path c) (e_byte_len EO * n) Hi) as (h & f1 & f2 & C1 & C2 & C3 & _).
    destruct HF; cbn [st_new_with_config disk_store mmap_store_ops] in H.
    + unfold disk_new_with_config in H. unfold sbind, sget in H. unfold fs_exists in H. rewrite Hi in H. rewrite C1 in H. rewrite C2 in H. injection H as <- _. reflexivity.
    + unfold mmap_new_with_config in H. unfold sbind, sget in H. unfold fs_exists in H. rewrite Hi in H. rewrite C1 in H. rewrite C2 in H.
      unfold mm_map_mut, fs_map_mut in H. rewrite C3 in H. cbn [rbind] in H. injection H as <- _. reflexivity.
Qed.

Theorem C57_partial : forall E (EO : ElementOps E) A SO np rw b sub_ leafs configs f t f',
  file_store EO SO np rw -> arity b ->
  from_store_configs SO A b sub_ leafs configs f = (Ok t, f') ->
  f' = f /\ List.length configs = sub_ /\ exists n, get_merkle_tree_len leafs b = Ok n /\
  Forall (fun c => exists data, fs_file f (cfg_path c) = Some data /\ List.length data = n * e_byte_len EO) configs.
Proof.
  intros E EO A SO np rw b sub_ leafs configs f t f' HF Hb H.
  pose proof (proj2 (proj2 (proj2 (C56_count E EO SO A b sub_ leafs [] [] configs f t f'))) H) as HC.
  apply sbind_inv in H. destruct H as (ts & f1 & H1 & H2). unfold slift in H2. injection H2 as H2 <-.
  assert (HG : f1 = f /\ Forall (fun c => exists d data, 1 <= d /\ leafs = b ^ d /\ fs_file f (cfg_path c) = Some data /\ List.length data = geom b d * e_byte_len EO) configs).
  { clear H2 HC. revert f ts f1 H1. induction configs as [|c l IH]; intros f ts f1 H; cbn [smap] in H.
    - injection H as _ <-. auto.
    - apply sbind_inv in H. destruct H as (y & s1 & G & H). apply sbind_inv in H. destruct H as (r & s2 & G1 & G2). injection G2 as _ <-.
      apply sbind_inv in G. destruct G as (n & s3 & Q1 & G). unfold slift in Q1. injection Q1 as Q1 <-.
      apply sbind_inv in G. destruct G as (s & s4 & Q2 & G).
      destruct (from_data_store_len SO b s leafs s4 y s1 Hb G) as (-> & d & D1 & D2 & D3).
      pose proof (geom_pos b d) as D4. subst leafs. rewrite get_merkle_tree_len_full in Q1 by auto. injection Q1 as <-.
      destruct (newc_len EO SO np rw b c _ _ _ _ HF Q2 ltac:(lia)) as (-> & data & W1 & W2).
      destruct (IH _ _ _ G1) as (-> & IH'). split; [reflexivity|]. constructor; eauto 8. }
  destruct HG as (-> & HG). split; [reflexivity|]. split; [exact HC|].
  destruct configs as [|c l].
  - destruct (from_trees_inv SO A _ _ _ H2) as (Hp & Hlen & _). cbn in HC. subst sub_.
    cbn [smap] in H1. injection H1 as <-. exfalso. cbn in Hp. lia.
  - inversion HG as [|? ? (d & data & D1 & -> & D3) _]; subst. exists (geom b d). split; [apply get_merkle_tree_len_full; auto|].
    eapply Forall_impl; [|exact HG]. intros c' (d' & data' & E1 & E2 & E3 & E4). apply (same_leaves_pow b) in E2; [|exact Hb]. subst d'. eauto.
Qed.

(* ... but the failing call has already created the missing file at full length, so that the
   same call made once more succeeds, with a tree nobody built *)
Definition C57_full : Prop := forall E (EO : ElementOps E) A SO np rw en b sub_ leafs configs f e f1 t f2,
  setting EO A SO np en b -> file_store EO SO np rw ->
  from_store_configs SO A b sub_ leafs configs f = (Err e, f1) ->
  from_store_configs SO A b sub_ leafs configs f1 = (Ok t, f2) -> False.

Definition twice : (res (mtree disk_t B1) * fs) * (res (mtree disk_t B1) * fs) :=
  let r1 := from_store_configs (disk_store BO) sum_alg 2 1 8 [cfg0] fs_empty in
  (r1, from_store_configs (disk_store BO) sum_alg 2 1 8 [cfg0] (snd r1)).
Theorem C57_refuted : ~ C57_full.
Proof.
  intros H.
  assert (H1 : exists e f1, from_store_configs (disk_store BO) sum_alg 2 1 8 [cfg0] fs_empty = (Err e, f1) /\
    exists t f2, from_store_configs (disk_store BO) sum_alg 2 1 8 [cfg0] f1 = (Ok t, f2)).
  { eexists _, _. split; [vm_compute; reflexivity|]. eexists _, _. vm_compute. reflexivity. }
  destruct H1 as (e & f1 & H1 & t & f2 & H2).
  exact (H B1 BO sum_alg (disk_store BO) true false env1 2 1 8 [cfg0] fs_empty e f1 t f2
    (setting_intro (disk_store BO) true env1 2 (bs_disk BO) arity_2 ltac:(split; [vm_compute; lia|reflexivity])) (fst_disk BO) H1 H2).
Qed.
(* the tree of the second call has eight zero leaves and a zero root, although the sum of its
   leaves under this hash is not zero *)
Example C57_case : match twice with
  | ((Err m, _), (Ok t, f)) => (m, map (fun i => match mt_read_at (disk_store BO) 1 0 t f i with Ok x => Some (val x) | _ => None end) (seq 0 8))
      = ("Inconsistent tree data"%string, repeat (Some 0) 8)
  | _ => False
  end /\
  match mt_new BO (disk_store BO) sum_alg env1 2 (repeat (el 0) 8) fs_empty, twice with
  | (Ok t1, _), (_, (Ok t2, _)) => (val (mt_root t1) =? val (mt_root t2)) = false
  | _, _ => False
  end.
Proof. vm_compute. auto. Qed.

Print Assumptions C56_slices.
Print Assumptions C56_slices_configs.
Print Assumptions C56_stores.
Print Assumptions C56_store_configs.
Print Assumptions C56_sub_tree_store_configs.
Print Assumptions C56_reopen.
Print Assumptions C56_count.
Print Assumptions C57_partial.
Print Assumptions C57_refuted.
