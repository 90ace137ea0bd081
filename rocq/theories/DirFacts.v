(* Sessions on a directory of trees keep to the specification in DirSpec.v. *)
From Coq Require Import String List Arith NArith Bool Lia Init.Byte ZifyBool ZifyNat.
From Verif Require Import Base Element Hash Sizing FS Sched Store VecStore DiskStore MmapStore LevelCache ProofModel Tree ListFacts Spec SpecFacts SizingFacts SchedFacts StoreLaws RowFacts ChunkFacts BuildFacts BuildLoop StoreSpec FileFacts VecFacts MapLayer DiskFacts MmapFacts PopFacts TreeFacts ProofSpec ProofFacts TreeProofs TreeObs Builders BuiltFacts CompoundFacts CompoundTrees CachedFacts CachedTrees LcReads LcTrees ArraySpec ArrayFacts ArrayStart FileSpec FrameFacts CompactFacts CompactTrees LcBuild LcCreate ReopenFacts Props_Files OwnFile DirSpec.
Import ListNotations.

(* ------------------------------------------------------------------ *)
(* sizes *)
Lemma len_loop_total s leafs : 1 <= s -> forall fuel cur len, cur < fuel ->
  (exists n, len_loop fuel s leafs cur len = Ok n) \/ exists e, len_loop fuel s leafs cur len = Err e.
Proof.
  intros Hs. induction fuel as [|fuel IH]; intros cur len Hc; [lia|]. cbn [len_loop].
  destruct (0 <? cur) eqn:G; [|left; eexists; reflexivity].
  destruct (Nat.shiftr cur s <? leafs); cbn [ensure rbind]; [|right; eexists; reflexivity].
  apply IH. rewrite Nat.shiftr_div_pow2. pose proof (Nat.pow_gt_lin_r 2 s ltac:(lia)).
  assert (cur / 2 ^ s < cur) by (apply Nat.div_lt; lia). lia.
Qed.
Lemma tree_len_total b n : arity b -> (exists m, get_merkle_tree_len n b = Ok m) \/ exists e, get_merkle_tree_len n b = Err e.
Proof.
  intros Hb. unfold get_merkle_tree_len. destruct (b <=? n) eqn:G; cbn [ensure rbind]; [|right; eexists; reflexivity].
  rewrite (arity_next b Hb), Nat.eqb_refl. cbn [ensure rbind]. pose proof (arity_ge b Hb).
  destruct (b =? 2).
  - destruct (n =? next_pow2 n); cbn [ensure rbind]; [|right; eexists; reflexivity].
    rewrite checked_sub_ok by lia. left. eexists. reflexivity.
  - cbv zeta. pose proof (arity_log_pos b Hb). replace (log2_pow2 b =? 0) with false by lia.
    apply len_loop_total; lia.
Qed.

Lemma geom_mod b q : 2 <= b -> geom b q mod b = 1.
Proof.
  intros Hb. induction q as [|q IH]; [apply Nat.mod_small; lia|]. cbn [geom Nat.pow].
  rewrite Nat.add_comm, (Nat.mul_comm b), Nat.mod_add by lia. exact IH.
Qed.
Lemma mul_geom_mod b m q : m < b -> 2 <= b -> (m * geom b q) mod b = m.
Proof.
  intros Hm Hb. rewrite <- Nat.mul_mod_idemp_r, geom_mod, Nat.mul_1_r by lia. apply Nat.mod_small. exact Hm.
Qed.

Lemma rbind_inv {X Y} (x : res X) (k : X -> res Y) y : rbind x k = Ok y -> exists a, x = Ok a /\ k a = Ok y.
Proof. destruct x; cbn [rbind]; try discriminate. eauto. Qed.

(* ------------------------------------------------------------------ *)
(* the directory *)
Section Dir.
  Context {E : Type} (EO : ElementOps E) (EL : ElementLaws EO) (A : AlgOps E) (AL : AlgLaws A) (b : nat) (Hb : arity b).
  Local Notation bl := (e_byte_len EO).
  Local Notation DO := (disk_store EO).
  Local Notation LO := (lc_store EO).
  Local Notation describes := (describes EO A b).
  Local Notation holds := (holds EO A b).
  Local Notation cpath := cfg_path.

  Lemma upd_same (s : dir E) p o : upd s p o p = o.
  Proof. unfold upd. rewrite String.eqb_refl. reflexivity. Qed.
  Lemma upd_other (s : dir E) p o q : q <> p -> upd s p o q = s q.
  Proof. unfold upd. intros H. apply String.eqb_neq in H. rewrite H. reflexivity. Qed.

  Lemma step_dir s f f' p o : describes s f -> only (eq p) f f' ->
    match o, file_at f' p with None, None => True | Some e, Some i => holds e i | _, _ => False end ->
    describes (upd s p o) f'.
  Proof.
    intros [W H] HO Hp. destruct (HO W) as [W' Q]. split; [exact W'|]. intros q.
    destruct (String.eqb q p) eqn:G.
    - apply String.eqb_eq in G. subst q. rewrite upd_same. exact Hp.
    - apply String.eqb_neq in G. rewrite upd_other by exact G. rewrite Q by congruence. apply H.
  Qed.

  Lemma free_path s f p : describes s f -> s p = None -> fs_dir f p = None.
  Proof.
    intros [_ H] Hs. specialize (H p). rewrite Hs in H. unfold file_at in H. destruct (fs_dir f p); [contradiction|reflexivity].
  Qed.
  Lemma taken_path s f p e : describes s f -> s p = Some e -> exists i, fs_dir f p = Some i /\ holds e (fs_ino f i).
  Proof.
    intros [_ H] Hs. specialize (H p). rewrite Hs in H. unfold file_at in H. destruct (fs_dir f p) as [i|]; [eauto|contradiction].
  Qed.
  Lemma left_over_holds (o : option inode) : exists e, left_over (E := E) e /\
    match e, o with None, None => True | Some e, Some i => holds e i | _, _ => False end.
  Proof. destruct o as [i|]; [exists (Some Unknown)|exists None]; (split; [|exact I]); [right|left]; reflexivity. Qed.

  (* ---------------------------------------------------------------- *)
  (* views *)
  Lemma layout_nth d leaves els k x : Layout (h_node A) b d leaves els -> nth_error leaves k = Some x -> k < b ^ d /\ nth_error els k = Some x.
  Proof.
    intros HL Hx. pose proof (nth_error_lt _ _ _ Hx) as Hk. pose proof HL as (L1 & _). rewrite L1 in Hk. split; [exact Hk|].
    rewrite (Layout_leaf b ltac:(pose proof (arity_ge b Hb); lia) (h_node A) d leaves els k HL Hk). exact Hx.
  Qed.

  Lemma canon_says d leaves els k x root : Layout (h_node A) b d leaves els -> nth_error leaves k = Some x ->
    nth_error els (geom b d - 1) = Some root ->
    pf_item (canon b els d k) = Ok x /\ pf_root (canon b els d k) = Ok root /\
    (b = 2 \/ height_agnostic A -> validate EO A b (canon b els d k) = Ok true).
  Proof.
    intros HL Hx Hr. destruct (layout_nth d leaves els k x HL Hx) as [Hk He].
    pose proof (lemma_of_eq b d els k x root Hk He Hr) as HE.
    unfold pf_item, pf_root, canon. cbn [pf_lemma]. split; [rewrite HE; reflexivity|]. split; [rewrite HE; cbn [rev]; rewrite rev_app_distr; reflexivity|].
    intros HA. exact (canon_valid EO EL A AL b Hb d leaves els k HA HL Hk).
  Qed.

  Lemma root_layout d leaves els root : 1 <= d -> Layout (h_node A) b d leaves els -> nth_error els (geom b d - 1) = Some root ->
    full b (List.length leaves) d /\ MRoot (h_node A) b d leaves root.
  Proof.
    intros Hd HL Hr. pose proof (arity_ge b Hb). split; [split; [exact Hd|exact (proj1 HL)]|].
    exact (Layout_root b ltac:(lia) (h_node A) d leaves els root HL Hr).
  Qed.

  Lemma full_tells t f d leaves els : FullTree DO A b t f d leaves els -> tells EO A b leaves (view_of DO (gen_proof DO b 0 0) t f).
  Proof.
    intros HF. pose proof (ft_layout _ _ _ _ _ _ _ _ HF) as HL. pose proof (ft_root _ _ _ _ _ _ _ _ HF) as Hr.
    destruct (root_layout d leaves els _ (ft_d _ _ _ _ _ _ _ _ HF) HL Hr) as [G1 G2]. split; [|split].
    - exists d. split; [exact G1|]. unfold view_of. cbn [v_leafs v_len v_rows v_root].
      rewrite (ft_leafs _ _ _ _ _ _ _ _ HF), (ft_len _ _ _ _ _ _ _ _ HF), (ft_rows _ _ _ _ _ _ _ _ HF). destruct G1 as [_ ->]. auto.
    - intros k x Hx. destruct (layout_nth d leaves els k x HL Hx) as [Hk He]. pose proof (geom_gt b d). cbn [v_read view_of].
      rewrite (ft_read_at _ _ _ _ _ _ _ _ HF k ltac:(lia)). unfold rnth. rewrite He. reflexivity.
    - intros k x Hx. destruct (layout_nth d leaves els k x HL Hx) as [Hk He]. cbn [v_prove v_root view_of].
      eexists. split; [exact (ft_proof _ _ _ _ _ _ _ _ HF k Hk)|]. exact (canon_says d leaves els k x _ HL Hx Hr).
  Qed.

  Lemma lc_tells en t s f d R leaves els : chunk_ok en b -> LcTree EO A b t s f d R leaves els ->
    tells_packed EO A b R leaves (view_of LO (fun t f i => gen_cached_proof EO LO A en b 0 0 t f i None) t f).
  Proof.
    intros Hch HT. pose proof HT as [T1 T2 T3 T4 HL Hr HA]. pose proof (la_R _ _ _ _ _ _ _ _ HA) as HR.
    destruct (root_layout d leaves els _ ltac:(lia) HL Hr) as [G1 G2]. split; [|split].
    - exists d. split; [exact G1|]. unfold view_of. cbn [v_leafs v_len v_rows v_root]. rewrite T2, T4. destruct G1 as [_ ->].
      split; [reflexivity|]. split; [|split; [lia|exact G2]]. unfold mt_len. rewrite T1. exact (la_len _ _ _ _ _ _ _ _ HA).
    - intros k x Hx. destruct (layout_nth d leaves els k x HL Hx) as [Hk He]. cbn [v_read view_of].
      unfold mt_read_at. cbn [mt_read_at_n]. rewrite T1. exact (lc_read_at_kept EO EL b s f d R leaves els HA k x (or_introl Hk) He).
    - intros Hdef k x Hx. destruct (layout_nth d leaves els k x HL Hx) as [Hk He]. cbn [v_prove v_root view_of].
      exists (canon b els d k). split; [|exact (canon_says d leaves els k x _ HL Hx Hr)].
      unfold gen_cached_proof. cbn [gen_cached_proof_n]. rewrite T1. apply (lc_cached_ok EO EL A en b Hb Hch t s f d R leaves els k None HT Hk).
      unfold capped. rewrite <- (proj1 HL). exact Hdef.
  Qed.

  (* ---------------------------------------------------------------- *)
  (* DiskStore constructors on a file holding [xs] *)
  Definition found (xs : list E) (n : nat) (f : fs) (r : res (mtree (st_t DO) E) * fs) : Prop :=
    (exists e, r = (Err e, f)) \/
    exists t q, r = (Ok t, f) /\ 1 <= q /\ n = b ^ q /\ List.length xs = geom b q /\ nth_error xs (List.length xs - 1) = Some (mt_root t).

  Lemma disk_last xs s f : 0 < List.length xs -> disk_rep EO (List.length xs) (List.length xs) (nth_error xs) (s, f) ->
    exists root, nth_error xs (List.length xs - 1) = Some root /\ sreads (store_last DO s) f = (Ok root, f).
  Proof.
    intros Hx HR. destruct (nth_error_ex xs (List.length xs - 1) ltac:(lia)) as [root Hroot]. exists root. split; [exact Hroot|].
    unfold sreads, store_last. pose proof (proj1 HR) as G. cbn [fst] in G. cbn [st_len disk_store]. unfold disk_store. cbn [st_len]. rewrite G.
    rewrite checked_sub_ok by lia. cbn [rbind]. f_equal.
    assert (Hlt : List.length xs - 1 < List.length xs) by lia.
    exact (cl_read_at _ _ _ _ _ _ _ _ _ _ (sl_core _ _ _ _ _ _ (disk_laws EO EL)) _ _ _ _ _ _ HR Hlt Hroot).
  Qed.

  (* the file is loaded if it has the length of a tree of n leaves, else refused *)
  Lemma disk_newc_found xs c f m q : fs_file f (cpath c) = Some (encode EO xs) -> List.length xs mod b = 1 -> 1 <= m < b -> 1 <= q ->
    (exists e, disk_new_from_disk EO (m * geom b q) b c f = (Err e, f)) \/
    exists s root, m = 1 /\ List.length xs = geom b q /\ disk_new_from_disk EO (m * geom b q) b c f = (Ok s, f) /\ ds_loaded s = true /\ ds_len s = geom b q /\
      nth_error xs (List.length xs - 1) = Some root /\ sreads (store_last DO s) f = (Ok root, f).
  Proof.
    intros Hf Hx Hm Hq. pose proof (arity_ge b Hb) as H2. pose proof (bl_pos EO EL) as Hbl. pose proof (geom_pos b q) as Hg.
    destruct (Nat.eq_dec (List.length xs) (m * geom b q)) as [He|He].
    - right. assert (m = 1) by (rewrite He, mul_geom_mod in Hx by lia; exact Hx). subst m. rewrite Nat.mul_1_l in *.
      destruct (disk_open_full EO EL b f c xs Hf) as (s & S1 & S2 & S3). rewrite He in S1.
      destruct (disk_last xs s f ltac:(lia) S3) as (root & R1 & R2). exists s, root.
      split; [reflexivity|]. split; [exact He|]. split; [exact S1|]. split; [exact S2|]. split; [|auto].
      pose proof (proj1 S3) as G. cbn [fst] in G. congruence.
    - left. apply file_inv in Hf. destruct Hf as (i & Hi & Hd). destruct (disk_open EO b f c i (m * geom b q) Hi) as [_ O2]. apply O2.
      rewrite Hd, encode_length by exact EL. intros G. apply He. nia.
  Qed.

  Lemma iter_found xs n items c f : fs_file f (cpath c) = Some (encode EO xs) -> List.length xs mod b = 1 -> forall en,
    found xs n f (try_from_iter_with_config EO DO A en b (Some n) items c f).
  Proof.
    intros Hf Hx en. pose proof (file_inv _ _ _ Hf) as (i & Hi & _). unfold try_from_iter_with_config. rewrite (sbind_ok _ _ f n f) by reflexivity.
    destruct (leafs_checks_cases b Hb n) as [[e He]|(m & q & Hp & Hm & Hq & Hn & He)]; rewrite He.
    { left. eexists. reflexivity. }
    rewrite (sbind_ok _ _ f (m * geom b q, S q) f) by reflexivity.
    destruct (disk_newc_found xs c f m q Hf Hx Hm Hq) as [[e Hs]|(s & root & -> & Hl & Hs & Hld & _ & Hr & Hlast)];
      rewrite <- (disk_newc_existing EO b f c i _ Hi) in Hs.
    { left. exists e. unfold sbind at 1. cbn [st_new_with_config disk_store]. rewrite Hs. reflexivity. }
    right. rewrite (sbind_ok _ _ f s f) by exact Hs. replace (st_loaded_from_disk DO s) with true by (symmetry; exact Hld).
    rewrite (sbind_ok _ _ f root f) by exact Hlast.
    eexists _, q. split; [reflexivity|]. split; [exact Hq|]. split; [lia|]. split; [exact Hl|]. exact Hr.
  Qed.
  Lemma par_found xs items c f : fs_file f (cpath c) = Some (encode EO xs) -> List.length xs mod b = 1 -> forall en,
    found xs (List.length items) f (from_par_iter_with_config EO DO A en b items c f).
  Proof.
    intros Hf Hx en. pose proof (file_inv _ _ _ Hf) as (i & Hi & _). unfold from_par_iter_with_config. cbv zeta. set (n := List.length items).
    destruct (leafs_checks_cases b Hb n) as [[e He]|(m & q & Hp & Hm & Hq & Hn & He)]; rewrite He.
    { left. eexists. reflexivity. }
    rewrite (sbind_ok _ _ f (m * geom b q, S q) f) by reflexivity.
    destruct (disk_newc_found xs c f m q Hf Hx Hm Hq) as [[e Hs]|(s & root & -> & Hl & Hs & Hld & _ & Hr & Hlast)];
      rewrite <- (disk_newc_existing EO b f c i _ Hi) in Hs.
    { left. exists e. unfold sbind at 1. cbn [st_new_with_config disk_store]. rewrite Hs. reflexivity. }
    right. rewrite (sbind_ok _ _ f s f) by exact Hs. replace (st_loaded_from_disk DO s) with true by (symmetry; exact Hld).
    rewrite (sbind_ok _ _ f root f) by exact Hlast.
    eexists _, q. split; [reflexivity|]. split; [exact Hq|]. split; [lia|]. split; [exact Hl|]. exact Hr.
  Qed.
  Lemma open_found xs n c f : fs_file f (cpath c) = Some (encode EO xs) -> List.length xs mod b = 1 -> found xs n f (open_disk EO b c n f).
  Proof.
    intros Hf Hx. unfold open_disk. destruct (tree_len_total b n Hb) as [[size Hsz]|[e He]]; [|rewrite He; left; eexists; reflexivity].
    rewrite Hsz. rewrite (sbind_ok _ _ f size f) by reflexivity.
    destruct (next_pow2 n =? n) eqn:G.
    2:{ left. pose proof (file_inv _ _ _ Hf) as (i & Hi & Hd). destruct (disk_open EO b f c i size Hi) as [O1 O2].
        destruct (Nat.eq_dec (List.length (fs_data f i)) (size * bl)) as [Ho|Ho].
        - destruct (O1 Ho) as (s & S1 & _). rewrite (sbind_ok _ _ f s f) by exact S1. unfold from_data_store. cbn [Nat.eqb ensure]. rewrite G.
          eexists. reflexivity.
        - destruct (O2 Ho) as [e He]. exists e. unfold sbind. rewrite He. reflexivity. }
    apply next_pow2_eqb in G. destruct (pow2_decomp b n Hb G) as (m & q & Hn & Hm & Hmb). pose proof (pow2_pos m Hm).
    destruct q as [|q]; [destruct (get_merkle_tree_len_small n b) as [e He]; [cbn [Nat.pow] in Hn; lia|congruence]|].
    pose proof Hsz as Hsz'. rewrite Hn, get_merkle_tree_len_decomp in Hsz' by (auto; lia). assert (size = m * geom b (S q)) by congruence. subst size.
    destruct (disk_newc_found xs c f m (S q) Hf Hx ltac:(lia) ltac:(lia)) as [[e Hs]|(s & root & -> & Hl & Hs & Hld & Hlen & Hr & Hlast)].
    { left. exists e. unfold sbind at 1. rewrite Hs. reflexivity. }
    right. rewrite Nat.mul_1_l in *. rewrite (sbind_ok _ _ f s f) by exact Hs. unfold from_data_store. cbn [Nat.eqb ensure].
    pose proof G as G'. apply next_pow2_eqb in G'. rewrite G'. rewrite (arity_next b Hb), Nat.eqb_refl. rewrite Hsz.
    rewrite Hn, size_valid_full by exact Hb. unfold sbind. cbn [slift ensure].
    replace (geom b (S q) =? st_len DO s) with true by (symmetry; apply Nat.eqb_eq; symmetry; exact Hlen). cbn [ensure].
    rewrite Hlast. cbn [sret].
    eexists _, (S q). split; [reflexivity|]. split; [lia|]. split; [reflexivity|]. split; [exact Hl|]. exact Hr.
  Qed.

  (* ---------------------------------------------------------------- *)
  (* what the entries say about the file *)
  Lemma full_file s f p leaves : describes s f -> s p = Some (Full leaves) ->
    exists i d els, fs_dir f p = Some i /\ i_ro (fs_ino f i) = false /\ 1 <= d /\ Layout (h_node A) b d leaves els /\
      fs_file f p = Some (encode EO els) /\ List.length els mod b = 1.
  Proof.
    intros HD Hs. destruct (taken_path s f p _ HD Hs) as (i & Hi & d & els & Hd & HL & Hdata & Hro). pose proof (arity_ge b Hb).
    exists i, d, els. split; [exact Hi|]. split; [exact Hro|]. split; [exact Hd|]. split; [exact HL|]. split.
    - unfold fs_file. rewrite Hi. unfold fs_data. rewrite Hdata. reflexivity.
    - rewrite (proj1 (proj2 HL)). apply geom_mod. lia.
  Qed.

  Definition kept (keep : bool) (R d : nat) (leaves els : list E) : list E := (if keep then leaves else []) ++ skipn (row_off b d (S R)) els.
  Lemma kept_length keep R d leaves els : R < d -> Layout (h_node A) b d leaves els ->
    List.length (kept keep R d leaves els) = (if keep then b ^ d else 0) + geom b (d - S R).
  Proof.
    intros HR (L1 & L2 & _). unfold kept. rewrite app_length, skipn_length, L2. pose proof (geom_row_off b d (S R) ltac:(lia)) as G.
    destruct keep; [rewrite L1|]; cbn [List.length]; lia.
  Qed.
  Lemma kept_mod keep R d leaves els : R < d -> Layout (h_node A) b d leaves els -> List.length (kept keep R d leaves els) mod b = 1.
  Proof.
    intros HR HL. rewrite (kept_length keep R d leaves els HR HL). pose proof (arity_ge b Hb). destruct keep; [|apply geom_mod; lia].
    destruct d as [|d]; [lia|]. cbn [Nat.pow]. rewrite Nat.add_comm, (Nat.mul_comm b), Nat.mod_add by lia. apply geom_mod. lia.
  Qed.
  Lemma kept_last keep R d leaves els : R < d -> Layout (h_node A) b d leaves els ->
    nth_error (kept keep R d leaves els) (List.length (kept keep R d leaves els) - 1) = nth_error els (geom b d - 1).
  Proof.
    intros HR HL. pose proof (kept_length keep R d leaves els HR HL) as HK. pose proof HL as (L1 & L2 & _). pose proof (geom_row_off b d (S R) ltac:(lia)) as G.
    pose proof (geom_pos b (d - S R)). rewrite HK. unfold kept. rewrite nth_error_app2 by (destruct keep; cbn [List.length]; lia).
    rewrite nth_error_skipn. f_equal. destruct keep; cbn [List.length]; lia.
  Qed.
  Lemma kept_no_tree R d leaves els q : R < d -> R <> 0 -> Layout (h_node A) b d leaves els -> List.length (kept true R d leaves els) <> geom b q.
  Proof.
    intros HR H0 HL. rewrite (kept_length true R d leaves els HR HL). pose proof (arity_ge b Hb) as H2. intros G.
    destruct d as [|d]; [lia|]. pose proof (geom_pos b (S d - S R)). pose proof (geom_lt_next b d ltac:(lia)).
    assert (geom b (S d - S R) < geom b d) by (apply geom_strict; lia).
    assert (G1 : geom b q < geom b (S d)) by (rewrite <- G; cbn [geom]; lia).
    assert (G2 : geom b d < geom b q) by (rewrite <- G; lia).
    destruct (Nat.le_gt_cases q d) as [K|K].
    - pose proof (geom_mono b q d K). lia.
    - pose proof (geom_mono b (S d) q K). lia.
  Qed.
  Lemma kept_all d leaves els : 1 <= d -> Layout (h_node A) b d leaves els -> kept true 0 d leaves els = els.
  Proof.
    intros Hd HL. pose proof HL as (L1 & L2 & _). unfold kept. rewrite <- (firstn_skipn (row_off b d 1) els) at 2. f_equal.
    apply nth_error_ext. intros k. pose proof (geom_gt b d) as Hg. assert (H1 : row_off b d 1 = b ^ d) by (cbn [row_off]; rewrite Nat.sub_0_r; lia).
    rewrite H1. destruct (Nat.lt_ge_cases k (b ^ d)) as [Hk|Hk].
    - rewrite nth_error_firstn. replace (k <? b ^ d) with true by lia. symmetry. exact (Layout_leaf b ltac:(pose proof (arity_ge b Hb); lia) (h_node A) d leaves els k HL Hk).
    - rewrite (proj2 (nth_error_None leaves k)) by lia. symmetry. apply nth_error_None. rewrite firstn_length. lia.
  Qed.
  Lemma packed_file s f p keep R leaves : describes s f -> s p = Some (Packed keep R leaves) ->
    exists i d els, fs_dir f p = Some i /\ i_ro (fs_ino f i) = false /\ R < d /\ Layout (h_node A) b d leaves els /\
      fs_file f p = Some (encode EO (kept keep R d leaves els)) /\ keep && (R =? 0) = false.
  Proof.
    intros HD Hs. destruct (taken_path s f p _ HD Hs) as (i & Hi & d & els & Hd & HL & Hro & Hdata & Hk).
    exists i, d, els. repeat (split; [assumption|]). split; [|exact Hk]. unfold fs_file. rewrite Hi. unfold fs_data. rewrite Hdata. reflexivity.
  Qed.

  (* ---------------------------------------------------------------- *)
  (* building with DiskStore *)
  Record DataCall (c : StoreConfig) (leaves : list E) (f : fs) (r : res (mtree (st_t DO) E) * fs) : Prop := {
    dc_built : exists en, chunk_ok en b /\ cfg_builder EO DO A en b c leaves f r;
    dc_only : only (eq (cpath c)) f (snd r);
    dc_pure : fs_dir f (cpath c) <> None -> snd r = f;
    dc_found : forall xs, fs_file f (cpath c) = Some (encode EO xs) -> List.length xs mod b = 1 -> found xs (List.length leaves) f r;
    dc_again : forall d old els, 1 <= d -> Layout (h_node A) b d old els -> fs_file f (cpath c) = Some (encode EO els) ->
      List.length leaves = b ^ d -> exists t, r = (Ok t, f) /\ FullTree DO A b t f d old els
  }.

  Lemma disk_free c leaves f r : fs_dir f (cpath c) = None -> (exists en, chunk_ok en b /\ cfg_builder EO DO A en b c leaves f r) ->
    (exists t f' d els i, r = (Ok t, f') /\ FullTree DO A b t f' d leaves els /\ fs_dir f' (cpath c) = Some i /\
       fs_data f' i = encode EO els /\ i_ro (fs_ino f' i) = false) \/
    (exists e f', r = (Err e, f') /\ forall d, ~ full b (List.length leaves) d).
  Proof.
    intros Hp (en & Hch & HB).
    assert (HBu : builder EO DO A en b leaves f r) by (destruct HB; constructor; auto).
    pose proof (builder_outcome EO EL A AL en b _ _ (bs_disk EO) leaves f r Hb Hch HBu) as HO.
    destruct r as [[t|e|e|] f2]; cbn in HO.
    - left. destruct (disk_tree_built EO EL A AL en b Hb Hch c leaves f t f2 Hp HB) as (d & s & i & els & Hd & Hl & HT).
      exists t, f2, d, els, i. split; [reflexivity|]. split; [exact (dt_full EO EL A b Hb t s f2 c i d leaves els HT)|].
      split; [exact (dt_path _ _ _ _ _ _ _ _ _ _ _ HT)|]. split; [|exact (dt_ro _ _ _ _ _ _ _ _ _ _ _ HT)].
      pose proof (dt_layout EO A b t s f2 c i d leaves els HT) as (_ & L2 & _).
      pose proof (dt_rep _ _ _ _ _ _ _ _ _ _ _ HT) as (_ & _ & _ & HR). cbn [snd fst] in HR. rewrite (dt_file _ _ _ _ _ _ _ _ _ _ _ HT) in HR.
      rewrite <- L2 in HR. apply DRep_full; auto.
    - right. exists e, f2. split; [reflexivity|]. intros d [D1 D2]. exact (HO d D1 D2).
    - destruct HO as [HO _]. discriminate.
    - contradiction.
  Qed.

  Lemma reply_ok (SO : StoreOps E) pr (t : mtree (st_t SO) E) f : reply SO pr (Ok t, f) = (Opened (view_of SO pr t f), f).
  Proof. reflexivity. Qed.
  Lemma reply_err (SO : StoreOps E) pr e f : reply SO pr (Err e, f) = (Refused, f).
  Proof. reflexivity. Qed.

  Lemma build_step s c leaves f r : describes s f -> DataCall c leaves f r ->
    exists s', build_spec EO A b s c leaves (fst (reply_disk EO b r)) s' /\ describes s' (snd (reply_disk EO b r)).
  Proof.
    intros HD [HB HO HP HF HA]. unfold reply_disk. destruct (s (cpath c)) as [[old|keep R old|bytes|]|] eqn:Hs.
    - destruct (full_file s f _ old HD Hs) as (i & d & els & Hi & Hro & Hd & HL & Hf & Hm).
      destruct (Nat.eq_dec (List.length leaves) (List.length old)) as [Hn|Hn].
      + destruct (HA d old els Hd HL Hf) as (t & -> & HT); [rewrite Hn; exact (proj1 HL)|].
        rewrite reply_ok. exists s. split; [|exact HD]. eapply B_same; eauto. exact (full_tells t f d old els HT).
      + destruct (HF els Hf Hm) as [[e ->]|(t & q & -> & Hq & Hl & Hg & _)].
        * rewrite reply_err. exists s. split; [|exact HD]. eapply B_other; eauto.
        * exfalso. apply Hn. rewrite Hl, (proj1 HL). pose proof HL as (_ & L2 & _). rewrite L2 in Hg.
          apply geom_inj in Hg; [congruence|]. pose proof (arity_ge b Hb). lia.
    - destruct (packed_file s f _ keep R old HD Hs) as (i & d & els & Hi & Hro & Hd & HL & Hf & Hk).
      destruct (HF _ Hf (kept_mod keep R d old els Hd HL)) as [[e ->]|(t & q & -> & Hq & Hl & Hg & Hr)].
      + rewrite reply_err. exists s. split; [|exact HD]. eapply B_packed; eauto.
      + rewrite reply_ok. exists s. split; [|exact HD]. destruct keep.
        { exfalso. apply (kept_no_tree R d old els q Hd); auto. cbn in Hk. lia. }
        eapply B_truncated; eauto. rewrite (kept_last false R d old els Hd HL) in Hr. exists d. exact (root_layout d old els _ ltac:(lia) HL Hr).
    - destruct (taken_path s f _ _ HD Hs) as (i & Hi & _). exists s. split; [eapply B_raw; eauto|]. cbn [reply snd]. rewrite HP by congruence. exact HD.
    - destruct (taken_path s f _ _ HD Hs) as (i & Hi & _). exists s. split; [eapply B_unknown; eauto|]. cbn [reply snd]. rewrite HP by congruence. exact HD.
    - destruct (disk_free c leaves f r (free_path s f _ HD Hs) HB) as [(t & f' & d & els & i & -> & HT & Hi & Hdata & Hro)|(e & f' & -> & Hn)].
      + pose proof (ft_d _ _ _ _ _ _ _ _ HT) as Hd. pose proof (ft_layout _ _ _ _ _ _ _ _ HT) as HL. rewrite reply_ok. eexists. split.
        * apply (B_free EO A b s c leaves d); [exact Hs|split; [exact Hd|exact (proj1 HL)]|exact (full_tells t f' d leaves els HT)].
        * eapply step_dir; [exact HD|exact HO|]. cbn [snd]. unfold file_at. rewrite Hi. exists d, els. auto.
      + rewrite reply_err. cbn [fst snd] in *. destruct (left_over_holds (file_at f' (cpath c))) as (o & O1 & O2). exists (upd s (cpath c) o).
        split; [apply B_bad; auto|]. eapply step_dir; eauto.
  Qed.

  (* constructors over an existing path read only *)
  Section Existing.
    Variables (SO : StoreOps E) (c : StoreConfig) (f : fs).
    Hypothesis HN : forall size, snd (st_new_with_config SO size b c f) = f /\
      forall s f1, st_new_with_config SO size b c f = (Ok s, f1) -> st_loaded_from_disk SO s = true.
    Lemma loaded_pure {X} size (k1 k2 : st_t SO -> SM fs X) : (forall s, snd (k1 s f) = f) ->
      snd (sbind (st_new_with_config SO size b c) (fun s => if st_loaded_from_disk SO s then k1 s else k2 s) f) = f.
    Proof.
      intros H1. destruct (HN size) as [N1 N2]. unfold sbind. destruct (st_new_with_config SO size b c f) as [[s|e|e|] f1] eqn:G; cbn [snd] in N1; subst f1; cbn [snd]; auto.
      rewrite (N2 s f eq_refl). apply H1.
    Qed.
    Lemma iter_existing en hint items : snd (try_from_iter_with_config EO SO A en b hint items c f) = f.
    Proof.
      unfold try_from_iter_with_config. apply bind_pure; [reflexivity|]. intros n. apply bind_pure; [reflexivity|]. intros [size rc].
      apply loaded_pure. intros s. apply bind_pure; reflexivity.
    Qed.
    Lemma par_existing en items : snd (from_par_iter_with_config EO SO A en b items c f) = f.
    Proof.
      unfold from_par_iter_with_config. cbv zeta. apply bind_pure; [reflexivity|]. intros [size rc].
      apply loaded_pure. intros s. apply bind_pure; reflexivity.
    Qed.
  End Existing.
  Lemma disk_existing c f : fs_dir f (cpath c) <> None -> forall size, snd (st_new_with_config DO size b c f) = f /\
      forall s f1, st_new_with_config DO size b c f = (Ok s, f1) -> st_loaded_from_disk DO s = true.
  Proof.
    intros Hp size. cbn [st_new_with_config st_loaded_from_disk disk_store]. destruct (fs_dir f (cpath c)) as [i|] eqn:Hi; [|congruence].
    rewrite (disk_newc_existing EO b f c i size Hi). destruct (disk_open EO b f c i size Hi) as [O1 O2].
    destruct (Nat.eq_dec (List.length (fs_data f i)) (size * bl)) as [Ho|Ho].
    - destruct (O1 Ho) as (s & S1 & S2 & _). rewrite S1. split; [reflexivity|]. intros s0 f1 G. inversion G. subst s0. exact S2.
    - destruct (O2 Ho) as [e He]. rewrite He. split; [reflexivity|]. intros s0 f1 G. discriminate.
  Qed.
  Lemma lc_existing c f : fs_dir f (cpath c) <> None -> forall size, snd (st_new_with_config LO size b c f) = f /\
      forall s f1, st_new_with_config LO size b c f = (Ok s, f1) -> st_loaded_from_disk LO s = true.
  Proof.
    intros Hp size. cbn [st_new_with_config st_loaded_from_disk lc_store]. destruct (fs_dir f (cpath c)) as [i|] eqn:Hi; [|congruence].
    unfold lc_new_with_config, sbind, sget, fs_exists. rewrite Hi. split; [reflexivity|]. intros s f1 G. unfold lc_new_from_disk in G.
    assert (G1 : forall (x : res lc_t), (x, f) = (Ok s, f1) -> x = Ok s) by (intros x H; congruence). apply G1 in G. clear G1.
    repeat (apply rbind_inv in G; destruct G as (? & _ & G)). inversion G. reflexivity.
  Qed.

  (* ---------------------------------------------------------------- *)
  (* the constructors make DataCalls *)
  Lemma new_call en c xs f : chunk_ok en b -> DataCall c (map (h_leaf A) xs) f (mt_new_with_config EO DO A en b xs c f).
  Proof.
    intros Hch. constructor.
    - exists en. split; [exact Hch|constructor].
    - apply (iter_only EO DO down (disk_bound EO)).
    - intros Hp. apply (iter_existing DO c f (disk_existing c f Hp)).
    - intros ys Hf Hm. rewrite map_length. exact (iter_found ys _ _ c f Hf Hm en).
    - intros d old els Hd HL Hf Hn. eapply (again_ok EO EL A en b Hb f c d old els _ Hd HL Hf). apply Ag_new. rewrite map_length in Hn. exact Hn.
  Qed.
  Lemma data_call en c xs f : chunk_ok en b -> DataCall c (map (fun x => h_leaf A (hash_of A x)) xs) f (from_data_with_config EO DO A en b xs c f).
  Proof.
    intros Hch. constructor.
    - exists en. split; [exact Hch|constructor].
    - apply (iter_only EO DO down (disk_bound EO)).
    - intros Hp. apply (iter_existing DO c f (disk_existing c f Hp)).
    - intros ys Hf Hm. rewrite map_length. exact (iter_found ys _ _ c f Hf Hm en).
    - intros d old els Hd HL Hf Hn. eapply (again_ok EO EL A en b Hb f c d old els _ Hd HL Hf). apply Ag_data. rewrite map_length in Hn. exact Hn.
  Qed.
  Lemma par_call en c xs f : chunk_ok en b -> 0 < p_block (env_params en) -> DataCall c (map (h_leaf A) xs) f (from_par_iter_with_config EO DO A en b xs c f).
  Proof.
    intros Hch Hbk. constructor.
    - exists en. split; [exact Hch|constructor; exact Hbk].
    - apply (par_only EO DO down (disk_bound EO)).
    - intros Hp. apply (par_existing DO c f (disk_existing c f Hp)).
    - intros ys Hf Hm. rewrite map_length. exact (par_found ys xs c f Hf Hm en).
    - intros d old els Hd HL Hf Hn. eapply (again_ok EO EL A en b Hb f c d old els _ Hd HL Hf). apply Ag_par. rewrite map_length in Hn. exact Hn.
  Qed.

  Lemma bytes_step en s c els f : chunk_ok en b -> describes s f ->
    let r := from_byte_slice_with_config EO DO A en b (encode EO els) c f in
    exists s', bytes_spec EO A b s c els (fst (reply_disk EO b r)) s' /\ describes s' (snd (reply_disk EO b r)).
  Proof.
    intros Hch HD r. pose proof (bytes_only EO DO down (disk_bound EO) A en b (encode EO els) c f) as HO. fold r in HO.
    assert (HB : exists en, chunk_ok en b /\ cfg_builder EO DO A en b c els f r) by (exists en; split; [exact Hch|constructor]).
    unfold reply_disk. destruct (s (cpath c)) as [e|] eqn:Hs.
    - destruct (taken_path s f _ _ HD Hs) as (i & Hi & _). destruct (disk_bytes_existing EO EL A en b Hb f c i els Hi) as [m Hm].
      unfold r. rewrite Hm, reply_err. exists s. split; [eapply BB_taken; eauto|exact HD].
    - destruct (disk_free c els f r (free_path s f _ HD Hs) HB) as [(t & f' & d & rows & i & Hr & HT & Hi & Hdata & Hro)|(e & f' & Hr & Hn)];
        rewrite Hr in *; clear HB.
      + pose proof (ft_d _ _ _ _ _ _ _ _ HT) as Hd. pose proof (ft_layout _ _ _ _ _ _ _ _ HT) as HL. rewrite reply_ok. eexists. split.
        * apply (BB_free EO A b s c els d); [exact Hs|split; [exact Hd|exact (proj1 HL)]|exact (full_tells t f' d els rows HT)].
        * eapply step_dir; [exact HD|exact HO|]. cbn [snd]. unfold file_at. rewrite Hi. exists d, rows. auto.
      + rewrite reply_err. cbn [fst snd] in *. destruct (left_over_holds (file_at f' (cpath c))) as (o & O1 & O2). exists (upd s (cpath c) o).
        split; [apply BB_bad; auto|]. eapply step_dir; eauto.
  Qed.

  (* ---------------------------------------------------------------- *)
  (* building with LevelCacheStore *)
  Lemma all_rows_layout d leaves : 1 <= d -> List.length leaves = b ^ d -> Layout (h_node A) b d leaves (all_rows A b leaves d).
  Proof. intros Hd Hl. apply all_rows_Layout; auto. pose proof (arity_ge b Hb). lia. Qed.

  Lemma lc_free en s c leaves f r : chunk_ok en b -> describes s f -> s (cpath c) = None -> cfg_builder EO LO A en b c leaves f r ->
    only (eq (cpath c)) f (snd r) ->
    exists s', packed_spec A b s c leaves (fst (reply_lc EO A b en r)) s' /\ describes s' (snd (reply_lc EO A b en r)).
  Proof.
    intros Hch HD Hs HB HO. pose proof (free_path s f _ HD Hs) as Hp. pose proof (arity_ge b Hb) as H2.
    assert (HDec : (exists d, full b (List.length leaves) d /\ sc_rows_to_discard c < d) \/
                   (forall d, sc_rows_to_discard c < d -> List.length leaves <> b ^ d)).
    { destruct (full_dec b Hb (List.length leaves)) as [(d & D1 & D2)|Hn].
      - destruct (Nat.lt_ge_cases (sc_rows_to_discard c) d) as [G|G]; [left; exists d; split; [split|]; auto|].
        right. intros d' Hd' He. rewrite D2 in He. apply same_leaves_pow in He; auto. lia.
      - right. intros d' Hd' He. apply (Hn d'); [lia|exact He]. }
    unfold reply_lc. destruct HDec as [(d & [D1 D2] & HR)|Hn].
    - destruct (lc_cfg_built EO EL A AL en b Hb Hch d c D1 leaves f r Hp D2 HR HB) as (t & f' & -> & HT).
      pose proof (lb_s _ _ _ _ _ _ _ _ _ HT) as (st & T1 & T2 & T3 & T4 & T5 & T6 & T7 & T8).
      pose proof (all_rows_layout d leaves D1 D2) as HL. pose proof (lb_root _ _ _ _ _ _ _ _ _ HT) as Hr.
      rewrite reply_ok. eexists. split.
      + apply (BP_free A b s c leaves d); [exact Hs|split; auto|exact HR|]. exists d. split; [split; auto|].
        unfold view_of. cbn [v_leafs v_len v_rows v_root]. rewrite (lb_leafs _ _ _ _ _ _ _ _ _ HT), (lb_rows _ _ _ _ _ _ _ _ _ HT).
        split; [auto|]. split; [unfold mt_len; rewrite T1; exact T2|]. split; [lia|]. exact (proj2 (root_layout d leaves _ _ D1 HL Hr)).
      + eapply step_dir; [exact HD|exact HO|]. cbn [snd]. unfold file_at. rewrite T7. exists d, (all_rows A b leaves d).
        split; [exact HR|]. split; [exact HL|]. split; [|split; [exact T6|reflexivity]].
        destruct T8 as (_ & _ & _ & _ & C5 & C6). apply C6. specialize (C5 (cpath c) eq_refl). rewrite T7 in C5. destruct (lc_owner st); congruence.
    - destruct (lc_cfg_refused EO EL A AL en b Hb c leaves f r HB Hn) as (e & f' & ->). rewrite reply_err. cbn [fst snd] in *.
      destruct (left_over_holds (file_at f' (cpath c))) as (o & O1 & O2). exists (upd s (cpath c) o). split; [|eapply step_dir; eauto].
      apply BP_bad; auto. intros d [D1 D2]. destruct (Nat.lt_ge_cases (sc_rows_to_discard c) d) as [G|G]; [|exact G]. exfalso. exact (Hn d G D2).
  Qed.

  Lemma lc_step en s c leaves f r : chunk_ok en b -> describes s f -> cfg_builder EO LO A en b c leaves f r ->
    only (eq (cpath c)) f (snd r) -> (fs_dir f (cpath c) <> None -> snd r = f) ->
    exists s', packed_spec A b s c leaves (fst (reply_lc EO A b en r)) s' /\ describes s' (snd (reply_lc EO A b en r)).
  Proof.
    intros Hch HD HB HO HP. destruct (s (cpath c)) as [e|] eqn:Hs; [|eapply lc_free; eauto].
    destruct (taken_path s f _ _ HD Hs) as (i & Hi & _). exists s. split; [eapply BP_taken; eauto|]. cbn [reply_lc reply snd].
    unfold reply_lc. cbn [reply snd]. rewrite HP by congruence. exact HD.
  Qed.

  Lemma exists_after (SO : StoreOps E) own (FB : FileBound SO own) c (f : fs) i (data : list byte) en : fs_dir f (cpath c) = Some i ->
    exists j, fs_dir (snd (from_byte_slice_with_config EO SO A en b data c f)) (cpath c) = Some j.
  Proof.
    intros Hi. unfold from_byte_slice_with_config.
    destruct (List.length data mod bl =? 0); [|exists i; exact Hi]. rewrite (sbind_ok _ _ f tt f) by reflexivity. cbv zeta.
    destruct (leafs_checks b (List.length data / bl)) as [[size rc]|e|e|]; [|exists i; exact Hi|exists i; exact Hi|exists i; exact Hi].
    rewrite (sbind_ok _ _ f (size, rc) f) by reflexivity. pose proof (fb_slice SO own FB size b data c f) as HT. unfold touches in HT.
    unfold sbind at 1. destruct (st_new_from_slice_with_config SO size b data c f) as [[st|e|e|] f1] eqn:G; cbn [snd fst] in *.
    2-4: destruct HT as [[-> _]|(j & Hj & _)]; [exists i; exact Hi|exists j; exact Hj].
    destruct HT as [[_ HT]|(j & Hj & _ & _ & _ & Ho)]; [exfalso; exact (HT st eq_refl)|]. specialize (Ho st eq_refl).
    pose proof (fb_build SO own FB j en A b (List.length data / bl) rc c (st, f1) Ho Hj) as [_ HF].
    exists j. unfold sbind, with_store. destruct (st_build SO en A b (List.length data / bl) rc (Some c) (st, f1)) as [[root|e|e|] [st' f2]]; cbn [snd fst sret] in *;
      destruct HF as (F1 & _); rewrite F1; exact Hj.
  Qed.

  Lemma lc_bytes_step en s c els f : chunk_ok en b -> describes s f ->
    let r := from_byte_slice_with_config EO LO A en b (encode EO els) c f in
    exists s', allowed EO A b s (BuildPackedBytes c els) (fst (reply_lc EO A b en r)) s' /\ describes s' (snd (reply_lc EO A b en r)).
  Proof.
    intros Hch HD r. pose proof (bytes_only EO LO lown (lc_bound EO) A en b (encode EO els) c f) as HO. fold r in HO.
    destruct (s (cpath c)) as [e|] eqn:Hs.
    - exists (upd s (cpath c) (Some Unknown)). split; [eapply A_packed_over; eauto|].
      destruct (taken_path s f _ _ HD Hs) as (i & Hi & _). destruct (exists_after LO lown (lc_bound EO) c f i (encode EO els) en Hi) as [j Hj]. fold r in Hj.
      eapply step_dir; [exact HD|exact HO|]. unfold reply_lc, reply. cbn [snd]. unfold file_at. rewrite Hj. exact I.
    - destruct (lc_free en s c els f r Hch HD Hs) as (s' & H1 & H2); [constructor|exact HO|]. exists s'. split; [apply A_packed_bytes; auto|exact H2].
  Qed.

  (* ---------------------------------------------------------------- *)
  (* files from outside *)
  Lemma create_only p f : fs_dir f p = None -> only (eq p) f (snd (fs_create_new p f)).
  Proof.
    intros Hp W. split; [exact (keeps_create p f W)|]. intros q Hq. unfold fs_create_new, fs_exists. rewrite Hp. unfold fs_alloc. cbn [snd].
    apply (others p (fs_next f)); [exact W|right; auto| | |congruence]; cbn [fs_dir fs_ino].
    - intros q' Hq'. apply String.eqb_neq in Hq'. rewrite Hq'. reflexivity.
    - intros j Hj. apply Nat.eqb_neq in Hj. rewrite Hj. reflexivity.
  Qed.
  Lemma put_step s p bytes f : describes s f ->
    exists s', allowed EO A b s (Put p bytes) (fst (reply_done (put p bytes f))) s' /\ describes s' (snd (reply_done (E := E) (put p bytes f))).
  Proof.
    intros HD. unfold put. destruct (s p) as [e|] eqn:Hs.
    - destruct (taken_path s f _ _ HD Hs) as (i & Hi & _). exists s. unfold sbind, fs_create_new, fs_exists. rewrite Hi. cbn [reply_done fst snd].
      split; [eapply A_put_taken; eauto|exact HD].
    - pose proof (free_path s f p HD Hs) as Hp. exists (upd s p (Some (Raw bytes))). pose proof (create_only p f Hp) as HO.
      assert (HC : exists f1, fs_create_new p f = (Ok {| h_ino := fs_next f; h_write := true |}, f1) /\ fs_dir f1 p = Some (fs_next f) /\
                   fs_ino f1 (fs_next f) = {| i_data := []; i_ro := false |}).
      { unfold fs_create_new, fs_exists. rewrite Hp. unfold fs_alloc. eexists. split; [reflexivity|]. cbn [fs_dir fs_ino]. rewrite String.eqb_refl, Nat.eqb_refl. auto. }
      destruct HC as (f1 & H1 & H2 & H3). rewrite H1 in HO. cbn [snd] in HO. rewrite (sbind_ok _ _ f _ f1 H1).
      unfold fs_write_all_at. cbn [h_write h_ino]. destruct (List.length bytes =? 0) eqn:G.
      + apply Nat.eqb_eq in G. destruct bytes; [|discriminate]. split; [apply A_put; exact Hs|]. eapply step_dir; [exact HD|exact HO|].
        cbn [reply_done snd]. unfold file_at. rewrite H2, H3. reflexivity.
      + split; [apply A_put; exact Hs|]. cbn [reply_done snd]. eapply step_dir; [exact HD| |].
        * eapply only_trans; [exact HO|]. apply (frame_only p (fs_next f)); [exact H2|]. apply fs_set_data_frame.
        * unfold file_at. cbn [fs_set_data fs_dir fs_ino]. rewrite H2, Nat.eqb_refl. cbn [holds i_data]. unfold fs_data. rewrite H3. cbn [i_data].
          unfold overwrite. cbn [firstn app Nat.add List.length]. rewrite skipn_all2; [apply app_nil_r|]. rewrite resize_length. lia.
  Qed.

  (* ---------------------------------------------------------------- *)
  (* opening *)
  Lemma open_none c n f : fs_dir f (cpath c) = None -> exists e, open_disk EO b c n f = (Err e, f).
  Proof.
    intros Hp. unfold open_disk. destruct (tree_len_total b n Hb) as [[size Hsz]|[e He]]; [|rewrite He; eexists; reflexivity].
    rewrite Hsz, (sbind_ok _ _ f size f) by reflexivity. unfold sbind, disk_new_from_disk, disk_new_from_disk_with_path, fs_exists. rewrite Hp. eexists. reflexivity.
  Qed.
  Lemma open_pure c n f : snd (open_disk EO b c n f) = f.
  Proof.
    unfold open_disk. apply bind_pure; [reflexivity|]. intros size. apply bind_pure; [reflexivity|]. intros st. apply data_store_pure.
  Qed.
  Lemma open_full c f d leaves els : 1 <= d -> Layout (h_node A) b d leaves els -> fs_file f (cpath c) = Some (encode EO els) ->
    exists t, open_disk EO b c (b ^ d) f = (Ok t, f) /\ FullTree DO A b t f d leaves els.
  Proof.
    intros Hd HL Hf. destruct (file_reopen EO EL A b Hb DO true false f c d leaves els (fst_disk EO) Hd HL Hf ltac:(discriminate)) as (st & t & H1 & H2 & H3).
    exists t. split; [|exact H3]. unfold open_disk. rewrite get_merkle_tree_len_full by auto. rewrite (sbind_ok _ _ f _ f) by reflexivity.
    rewrite (sbind_ok _ _ f st f) by exact H1. exact H2.
  Qed.
  Lemma open_step s c n f : describes s f ->
    open_spec EO A b s c n (fst (reply_disk EO b (open_disk EO b c n f))) /\ describes s (snd (reply_disk EO b (open_disk EO b c n f))).
  Proof.
    intros HD. split; [|unfold reply_disk, reply; cbn [snd]; rewrite open_pure; exact HD].
    unfold reply_disk. destruct (s (cpath c)) as [[old|keep R old|bytes|]|] eqn:Hs.
    - destruct (full_file s f _ old HD Hs) as (i & d & els & Hi & Hro & Hd & HL & Hf & Hm).
      destruct (Nat.eq_dec n (List.length old)) as [Hn|Hn].
      + destruct (open_full c f d old els Hd HL Hf) as (t & Ht & HT). subst n. rewrite (proj1 HL), Ht, reply_ok.
        eapply O_full; eauto; [symmetry; exact (proj1 HL)|]. exact (full_tells t f d old els HT).
      + destruct (open_found els n c f Hf Hm) as [[e ->]|(t & q & _ & Hq & Hl & Hg & _)].
        * rewrite reply_err. eapply O_size; eauto.
        * exfalso. apply Hn. rewrite Hl, (proj1 HL). pose proof HL as (_ & L2 & _). rewrite L2 in Hg.
          apply geom_inj in Hg; [congruence|]. pose proof (arity_ge b Hb). lia.
    - destruct (packed_file s f _ keep R old HD Hs) as (i & d & els & Hi & Hro & Hd & HL & Hf & Hk).
      destruct (open_found _ n c f Hf (kept_mod keep R d old els Hd HL)) as [[e ->]|(t & q & -> & Hq & Hl & Hg & Hr)].
      + rewrite reply_err. eapply O_packed; eauto.
      + rewrite reply_ok. destruct keep.
        { exfalso. apply (kept_no_tree R d old els q Hd); auto. cbn in Hk. lia. }
        eapply O_truncated; eauto. rewrite (kept_last false R d old els Hd HL) in Hr. exists d. exact (root_layout d old els _ ltac:(lia) HL Hr).
    - eapply O_raw; eauto.
    - eapply O_unknown; eauto.
    - destruct (open_none c n f (free_path s f _ HD Hs)) as [e ->]. rewrite reply_err. apply O_none. exact Hs.
  Qed.

  (* the entry for packed trees, whether written as Full or as Packed *)
  Lemma pack_holds keep R leaves d els i : R < d -> Layout (h_node A) b d leaves els -> i_ro i = false ->
    i_data i = encode EO (kept keep R d leaves els) -> holds (pack keep R leaves) i.
  Proof.
    intros HR HL Hro Hd. unfold pack. destruct (keep && (R =? 0)) eqn:G.
    - exists d, els. split; [lia|]. split; [exact HL|]. split; [|exact Hro]. rewrite Hd. f_equal. destruct keep; [|discriminate]. assert (R = 0) by (cbn in G; lia). subst R.
      apply kept_all; auto.
    - exists d, els. auto.
  Qed.
  Lemma pack_file s f p keep R leaves : describes s f -> s p = Some (pack keep R leaves) ->
    exists i d els, fs_dir f p = Some i /\ i_ro (fs_ino f i) = false /\ R < d /\ Layout (h_node A) b d leaves els /\
      fs_data f i = encode EO (kept keep R d leaves els).
  Proof.
    intros HD Hs. unfold pack in Hs. destruct (keep && (R =? 0)) eqn:G.
    - destruct (full_file s f p leaves HD Hs) as (i & d & els & Hi & Hro & Hd & HL & Hf & _). destruct keep; [|discriminate]. assert (R = 0) by (cbn in G; lia). subst R.
      exists i, d, els. split; [exact Hi|]. split; [exact Hro|]. split; [lia|]. split; [exact HL|]. rewrite kept_all by auto.
      unfold fs_file in Hf. rewrite Hi in Hf. congruence.
    - destruct (packed_file s f p keep R leaves HD Hs) as (i & d & els & Hi & Hro & Hd & HL & Hf & _).
      exists i, d, els. repeat (split; [assumption|]). unfold fs_file in Hf. rewrite Hi in Hf. congruence.
  Qed.

  Lemma open_lc_pure c n f : snd (open_lc EO b c n f) = f.
  Proof.
    unfold open_lc. apply bind_pure; [reflexivity|]. intros size. apply bind_pure; [reflexivity|]. intros st. apply data_store_pure.
  Qed.
  Lemma open_replica_pure c n rp f : snd (open_replica EO b c n rp f) = f.
  Proof.
    unfold open_replica. apply bind_pure; [reflexivity|]. intros size. apply bind_pure; [reflexivity|]. intros f0. apply bind_pure; [reflexivity|]. intros r.
    apply bind_pure; [reflexivity|]. intros st. apply data_store_pure.
  Qed.

  Lemma pack_inj keep R (leaves leaves' : list E) : pack keep R leaves = pack keep R leaves' -> leaves = leaves'.
  Proof. unfold pack. destruct (keep && (R =? 0)); intros H; inversion H; reflexivity. Qed.
  Lemma elt_dec (x y : E) : {x = y} + {x <> y}.
  Proof.
    destruct (e_eqb EO x y) eqn:G.
    - left. apply (el_eqb EO EL). exact G.
    - right. intros H. apply (el_eqb EO EL) in H. congruence.
  Qed.
  Lemma matching_dec keep e c n : (exists leaves, matching e keep c n leaves) \/ forall leaves : list E, ~ matching e keep c n leaves.
  Proof.
    assert (G : (exists leaves : list E, e = pack keep (sc_rows_to_discard c) leaves) \/ forall leaves : list E, e <> pack keep (sc_rows_to_discard c) leaves).
    { unfold pack. destruct (keep && (sc_rows_to_discard c =? 0)) eqn:G.
      - destruct e as [l|k R l|bytes|]; [left; eauto| | |]; right; intros; discriminate.
      - destruct e as [l|k R l|bytes|]; [right; discriminate| |right; discriminate|right; discriminate].
        destruct (Bool.bool_dec k keep) as [->|Hk]; [|right; congruence]. destruct (Nat.eq_dec R (sc_rows_to_discard c)) as [->|HR]; [left; eauto|right; congruence]. }
    destruct G as [[l ->]|G]; [|right; intros l [H _]; exact (G l H)].
    destruct (Nat.eq_dec n (List.length l)) as [->|Hn]; [left; exists l; split; reflexivity|].
    right. intros l' [H1 H2]. apply pack_inj in H1. congruence.
  Qed.

  Lemma open_packed_step en s c n f : chunk_ok en b -> describes s f ->
    open_packed_spec EO A b s c n (fst (reply_lc EO A b en (open_lc EO b c n f))) /\ describes s (snd (reply_lc EO A b en (open_lc EO b c n f))).
  Proof.
    intros Hch HD. split; [|unfold reply_lc, reply; cbn [snd]; rewrite open_lc_pure; exact HD].
    destruct (s (cpath c)) as [e|] eqn:Hs.
    - destruct (matching_dec true e c n) as [(leaves & -> & ->)|Hn]; [|eapply OP_other; eauto].
      destruct (pack_file s f _ true _ leaves HD Hs) as (i & d & els & Hi & Hro & HR & HL & Hd).
      destruct (lc_open_v1 EO EL A b Hb c f i d leaves els Hi HR HL Hd) as (st & O1 & O2 & O3 & O4).
      destruct (lc_from_data_store EO EL A b Hb st f d _ leaves els HL O4) as (t & T1 & T2).
      assert (Ho : open_lc EO b c (List.length leaves) f = (Ok t, f)).
      { unfold open_lc. rewrite (proj1 HL). rewrite get_merkle_tree_len_full by (auto; lia). rewrite (sbind_ok _ _ f _ f) by reflexivity.
        rewrite (sbind_ok _ _ f st f) by exact O1. exact T1. }
      unfold reply_lc. rewrite Ho, reply_ok. cbn [fst]. eapply OP_ok; [exact Hs|split; reflexivity|]. exact (lc_tells en t st f d _ leaves els Hch T2).
    - pose proof (free_path s f _ HD Hs) as Hp. assert (Ho : exists e, open_lc EO b c n f = (Err e, f)).
      { unfold open_lc. destruct (tree_len_total b n Hb) as [[size Hsz]|[e He]]; [|rewrite He; eexists; reflexivity].
        rewrite Hsz, (sbind_ok _ _ f size f) by reflexivity. unfold sbind, lc_new_from_disk, fs_exists. rewrite Hp. eexists. reflexivity. }
      destruct Ho as [e Ho]. unfold reply_lc. rewrite Ho, reply_err. apply OP_none. exact Hs.
  Qed.

  Lemma supplies_reader s f rp leaves : describes s f -> supplies EO (s rp) leaves ->
    exists r, er_new_from_path f rp = Ok r /\ reads_leaves EO r f leaves.
  Proof.
    intros HD Hsup.
    assert (HF : exists bytes, fs_file f rp = Some bytes /\ firstn (List.length leaves * bl) bytes = encode EO leaves).
    { assert (P : forall xs, firstn (List.length leaves * bl) (encode EO (leaves ++ xs)) = encode EO leaves).
      { intros xs. unfold encode. rewrite map_app, concat_app. fold (encode EO leaves). rewrite firstn_app, encode_length by exact EL.
        rewrite Nat.sub_diag, firstn_O, app_nil_r. apply firstn_all2. rewrite encode_length by exact EL. lia. }
      destruct (s rp) as [[l|[|] R l|bytes|]|] eqn:Hs; cbn [supplies] in Hsup; try contradiction.
      - subst l. destruct (full_file s f rp leaves HD Hs) as (i & d & els & Hi & _ & Hd & HL & Hf & _).
        eexists. split; [exact Hf|]. rewrite <- (kept_all d leaves els Hd HL). apply P.
      - subst l. destruct (packed_file s f rp true R leaves HD Hs) as (i & d & els & Hi & _ & Hd & HL & Hf & _).
        eexists. split; [exact Hf|]. apply P.
      - destruct (taken_path s f rp _ HD Hs) as (i & Hi & Hd). cbn [DirSpec.holds] in Hd. exists bytes. split; [|exact Hsup].
        unfold fs_file. rewrite Hi. unfold fs_data. rewrite Hd. reflexivity. }
    destruct HF as (bytes & HF & HP). unfold fs_file in HF. destruct (fs_dir f rp) as [i|] eqn:Hi; [|discriminate].
    inversion HF as [HF']. unfold er_new_from_path, er_new_from_config, fs_open_ro. cbn [rc_path rc_offsets]. rewrite Hi. cbn [rbind rnth nth_error].
    eexists. split; [reflexivity|]. apply file_reads_leaves; auto.
    - unfold fs_size. cbn [h_ino]. rewrite HF'. pose proof (f_equal (@List.length _) HP) as HL. rewrite firstn_length, encode_length in HL by auto. lia.
    - cbn [h_ino]. rewrite HF', sub_0. exact HP.
  Qed.

  Lemma open_replica_step en s c n rp f : chunk_ok en b -> describes s f ->
    open_replica_spec EO A b s c n rp (fst (reply_lc EO A b en (open_replica EO b c n rp f))) /\
    describes s (snd (reply_lc EO A b en (open_replica EO b c n rp f))).
  Proof.
    intros Hch HD. split; [|unfold reply_lc, reply; cbn [snd]; rewrite open_replica_pure; exact HD].
    assert (HN : fs_dir f (cpath c) = None \/ fs_dir f rp = None -> exists e, open_replica EO b c n rp f = (Err e, f)).
    { intros Hp. unfold open_replica. destruct (tree_len_total b n Hb) as [[size Hsz]|[e He]]; [|rewrite He; eexists; reflexivity].
      rewrite Hsz, (sbind_ok _ _ f size f) by reflexivity. rewrite (sbind_ok _ _ f f f) by reflexivity.
      unfold sbind, er_new_from_path, er_new_from_config, fs_open_ro. cbn [rc_path rc_offsets]. destruct (fs_dir f rp) as [j|] eqn:Hj; cbn [rbind slift]; [|eexists; reflexivity].
      destruct Hp as [Hp|Hp]; [|discriminate]. cbn [rnth nth_error rbind slift]. unfold lc_new_from_disk_with_reader, fs_exists. rewrite Hp. eexists. reflexivity. }
    destruct (s (cpath c)) as [e|] eqn:Hs.
    - destruct (s rp) as [e2|] eqn:Hs2.
      2:{ destruct HN as [m Hm]; [right; exact (free_path s f _ HD Hs2)|]. unfold reply_lc. rewrite Hm, reply_err. apply OR_none. auto. }
      destruct (matching_dec false e c n) as [(leaves & -> & ->)|Hn].
      2:{ eapply OR_other; [exact Hs|]. intros leaves Hm. exfalso. exact (Hn leaves Hm). }
      assert (HS : supplies EO (s rp) leaves \/ ~ supplies EO (s rp) leaves).
      { rewrite Hs2. destruct e2 as [l|[|] R l|bytes|]; cbn [supplies]; auto.
        - destruct (list_eq_dec elt_dec l leaves); auto.
        - destruct (list_eq_dec elt_dec l leaves); auto.
        - destruct (list_eq_dec Byte.byte_eq_dec (firstn (List.length leaves * bl) bytes) (encode EO leaves)); auto. }
      destruct HS as [HS|HS].
      2:{ eapply OR_other; [exact Hs|]. intros l [Hm _]. apply pack_inj in Hm. subst l. exact HS. }
      destruct (supplies_reader s f rp leaves HD HS) as (r & R1 & R2).
      destruct (pack_file s f _ false _ leaves HD Hs) as (i & d & els & Hi & Hro & HR & HL & Hd).
      destruct (lc_open_v2 EO EL A b Hb c f i d leaves els r Hi HR HL R2 Hd) as (st & O1 & O2 & O3 & O4).
      destruct (lc_from_data_store EO EL A b Hb st f d _ leaves els HL O4) as (t & T1 & T2).
      assert (Ho : open_replica EO b c (List.length leaves) rp f = (Ok t, f)).
      { unfold open_replica. rewrite (proj1 HL). rewrite get_merkle_tree_len_full by (auto; lia). rewrite (sbind_ok _ _ f _ f) by reflexivity.
        rewrite (sbind_ok _ _ f f f) by reflexivity. rewrite R1. rewrite (sbind_ok _ _ f r f) by reflexivity.
        rewrite (sbind_ok _ _ f st f) by exact O1. exact T1. }
      unfold reply_lc. rewrite Ho, reply_ok. cbn [fst]. eapply OR_ok; [exact Hs|split; reflexivity|exact HS|]. exact (lc_tells en t st f d _ leaves els Hch T2).
    - destruct HN as [m Hm]; [left; exact (free_path s f _ HD Hs)|]. unfold reply_lc. rewrite Hm, reply_err. apply OR_none. auto.
  Qed.

  (* ---------------------------------------------------------------- *)
  (* compaction *)
  Lemma open_ok_file c n f t f1 : open_disk EO b c n f = (Ok t, f1) ->
    f1 = f /\ exists i st, fs_dir f (cpath c) = Some i /\ mt_data t = BaseTree (st : st_t DO) /\ h_ino (ds_file st) = i.
  Proof.
    intros Ho. pose proof (open_pure c n f) as Hf. rewrite Ho in Hf. cbn [snd] in Hf. split; [exact Hf|]. subst f1.
    unfold open_disk in Ho. apply sbind_inv in Ho. destruct Ho as (size & f1 & H1 & Ho). apply sbind_inv in Ho. destruct Ho as (st & f2 & H2 & Ho).
    unfold slift in H1. assert (f1 = f) by congruence. subst f1.
    destruct (fs_dir f (cpath c)) as [i|] eqn:Hi.
    2:{ exfalso. unfold disk_new_from_disk, disk_new_from_disk_with_path, fs_exists in H2. rewrite Hi in H2. discriminate. }
    destruct (disk_open EO b f c i size Hi) as [O1 O2]. destruct (Nat.eq_dec (List.length (fs_data f i)) (size * bl)) as [G|G].
    2:{ destruct (O2 G) as [e He]. congruence. }
    destruct (O1 G) as (st' & S1 & _ & _ & _ & S5). assert (st' = st) by congruence. subst st'. exists i, st. split; [reflexivity|]. split; [|exact S5].
    unfold from_data_store in Ho. repeat (apply sbind_inv in Ho; destruct Ho as (? & ? & _ & Ho)). unfold sret in Ho. inversion Ho. reflexivity.
  Qed.

  Lemma compact_frame sizes c n v f i : fs_dir f (cpath c) = Some i -> fs_frame (Some i) f (snd (open_compact EO b sizes c n v f)).
  Proof.
    intros Hi. unfold open_compact, sbind. pose proof (open_pure c n f) as Hf. destruct (open_disk EO b c n f) as [[t|e|e|] f1] eqn:Ho; cbn [snd] in Hf; subst f1;
      cbn [snd]; try apply fs_frame_refl.
    destruct (open_ok_file c n f t f Ho) as (_ & j & st & Hj & HT & Hfile). assert (Hfi : h_ino (ds_file st) = i) by congruence.
    pose proof (disk_compact_fr EO i (cpath c) sizes b c v eq_refl (st, f) Hfi Hi) as [_ HF].
    destruct (disk_compact EO sizes b c v (st, f)) as [x [st' f']] eqn:G. cbn [snd] in HF.
    assert (HC : mt_compact DO b sizes c v (t, f) = (x, (mk_tree (BaseTree (st' : st_t DO)) (mt_leafs t) (mt_len_field t) (mt_row_count t) (mt_root t), f'))).
    { exact (mt_on_store_base DO _ t st f x st' f' HT G). }
    rewrite HC. exact HF.
  Qed.

  Lemma compact_err sizes c n v f e : open_disk EO b c n f = (Err e, f) -> open_compact EO b sizes c n v f = (Err e, f).
  Proof. intros Ho. unfold open_compact, sbind. rewrite Ho. reflexivity. Qed.

  Lemma open_disk_tree c f i d leaves els : 1 <= d -> Layout (h_node A) b d leaves els -> fs_dir f (cpath c) = Some i ->
    fs_data f i = encode EO els -> i_ro (fs_ino f i) = false ->
    exists t st, open_disk EO b c (b ^ d) f = (Ok t, f) /\ DiskTree EO A b t st f (cpath c) i d leaves els.
  Proof.
    intros Hd HL Hi Hdata Hro. assert (Hf : fs_file f (cpath c) = Some (encode EO els)) by (unfold fs_file; rewrite Hi, Hdata; reflexivity).
    pose proof HL as (L1 & L2 & _). destruct (disk_open_full EO EL b f c els Hf) as (st & S1 & S2 & S3). rewrite L2 in *.
    assert (Hlen : 0 < List.length els) by (rewrite L2; apply geom_pos).
    destruct (disk_last els st f Hlen) as (root & R1 & R2); [rewrite L2; exact S3|]. rewrite L2 in R1.
    exists (mk_base DO st (b ^ d) (geom b d) (S d) root), st. split.
    - unfold open_disk. rewrite get_merkle_tree_len_full by auto. rewrite (sbind_ok _ _ f _ f) by reflexivity. rewrite (sbind_ok _ _ f st f) by exact S1.
      unfold from_data_store. cbn [Nat.eqb ensure]. replace (next_pow2 (b ^ d) =? b ^ d) with true by (symmetry; apply next_pow2_eqb, pow2_pow, arity_pow2; auto).
      rewrite (arity_next b Hb), Nat.eqb_refl, get_merkle_tree_len_full by auto. rewrite size_valid_full by exact Hb. unfold sbind. cbn [slift ensure].
      replace (geom b d =? st_len DO st) with true by (symmetry; apply Nat.eqb_eq; symmetry; exact (proj1 S3)). cbn [ensure].
      rewrite R2. cbn [sret]. rewrite row_count_full by auto. reflexivity.
    - constructor; auto.
      + constructor; auto. exists (geom b d). exact S3.
      + destruct (disk_open EO b f c i (geom b d) Hi) as [O1 _]. destruct O1 as (st' & Q1 & _ & _ & _ & Q5); [rewrite Hdata, encode_length, L2 by exact EL; reflexivity|].
        congruence.
  Qed.

  Lemma compact_step sizes s c n v f : describes s f ->
    exists s', compact_spec b s c n v (fst (reply_done (E := E) (open_compact EO b sizes c n v f))) s' /\
      describes s' (snd (reply_done (E := E) (open_compact EO b sizes c n v f))).
  Proof.
    intros HD. destruct (s (cpath c)) as [e|] eqn:Hs.
    2:{ destruct (open_none c n f (free_path s f _ HD Hs)) as [e He]. rewrite (compact_err sizes c n v f e He). exists s. split; [apply C_none; exact Hs|exact HD]. }
    destruct (taken_path s f _ _ HD Hs) as (i & Hi & Hh). pose proof (compact_frame sizes c n v f i Hi) as HF.
    assert (HO : only (eq (cpath c)) f (snd (open_compact EO b sizes c n v f))) by (eapply frame_only; eauto).
    assert (HE : forall e', (forall j, fs_ino (snd (open_compact EO b sizes c n v f)) i = j -> holds e' j) ->
              describes (upd s (cpath c) (Some e')) (snd (open_compact EO b sizes c n v f))).
    { intros e' H. eapply step_dir; [exact HD|exact HO|]. unfold file_at. destruct HF as (F1 & _). rewrite F1, Hi. apply H. reflexivity. }
    assert (HR : forall m, open_disk EO b c n f = (Err m, f) -> forall s', compact_spec b s c n v Refused s' -> describes s' f ->
              exists s', compact_spec b s c n v (fst (reply_done (E := E) (open_compact EO b sizes c n v f))) s' /\
                describes s' (snd (reply_done (E := E) (open_compact EO b sizes c n v f)))).
    { intros m Hm s' H1 H2. rewrite (compact_err sizes c n v f m Hm). exists s'. auto. }
    destruct e as [leaves|keep R leaves|bytes|].
    - destruct Hh as (d & els & Hd & HL & Hdata & Hro).
      assert (Hf : fs_file f (cpath c) = Some (encode EO els)) by (unfold fs_file; rewrite Hi; unfold fs_data; rewrite Hdata; reflexivity).
      destruct (Nat.eq_dec n (List.length leaves)) as [Hn|Hn].
      + pose proof HL as (L1 & L2 & _). destruct (open_disk_tree c f i d leaves els Hd HL Hi Hdata Hro) as (t & st & Ho & HT).
        assert (Hc : forall x t' f', mt_compact DO b sizes c v (t, f) = (x, (t', f')) -> open_compact EO b sizes c n v f = (x, f')).
        { intros x t' f' Hc. unfold open_compact. rewrite Hn, L1. rewrite (sbind_ok _ _ f t f) by exact Ho. rewrite Hc. reflexivity. }
        destruct (Nat.lt_ge_cases (sc_rows_to_discard c) d) as [HRd|HRd].
        * destruct (tree_compact_ok EO EL A b Hb t st f c i d leaves els HT sizes v HRd) as (t' & f' & C1 & C2 & C3 & C4).
          pose proof (Hc _ _ _ C1) as Hc'. exists (upd s (cpath c) (Some (pack (v =? 1) (sc_rows_to_discard c) leaves))). split.
          { rewrite Hc'. cbn [reply_done fst]. eapply C_ok; eauto. split; [exact Hd|]. rewrite Hn. exact L1. }
          cbn [reply_done snd]. apply HE. intros j Hj. rewrite Hc' in Hj. cbn [snd] in Hj. subst j.
          apply (pack_holds (v =? 1) (sc_rows_to_discard c) leaves d els); auto.
          { destruct C4 as (_ & _ & _ & F4). rewrite F4. exact Hro. }
          { unfold fs_data in C3. rewrite C3. unfold compacted, cached, kept. destruct (v =? 1); reflexivity. }
        * pose proof (ta_data _ _ _ _ _ _ _ _ _ _ (dt_at _ _ _ _ _ _ _ _ _ _ _ HT)) as Hdt.
          destruct (disk_compact_bad EO b Hb c d leaves els st f i L1 L2 (dt_first EO A b Hb t st f c i d leaves els HT) (dt_rep _ _ _ _ _ _ _ _ _ _ _ HT)
            (dt_file _ _ _ _ _ _ _ _ _ _ _ HT) Hro (fun a b0 c0 d0 => fs_copy sizes a b0 c0 d0) v Hd HRd) as [e He].
          assert (Hc' : open_compact EO b sizes c n v f = (Err e, f)).
          { eapply Hc. apply (mt_compact_eq EO A b t st f c i d leaves els HT). exact He. }
          rewrite Hc'. exists s. split; [|exact HD]. eapply C_rows; eauto. split; [exact Hd|]. rewrite Hn. exact L1.
      + destruct (open_found els n c f Hf) as [[m Hm]|(t & q & _ & Hq & Hl & Hg & _)].
        * pose proof HL as (_ & L2 & _). rewrite L2. apply geom_mod. exact (arity_ge b Hb).
        * eapply (HR m Hm); [|exact HD]. eapply C_size; eauto.
        * exfalso. apply Hn. rewrite Hl, (proj1 HL). pose proof HL as (_ & L2 & _). rewrite L2 in Hg.
          apply geom_inj in Hg; [congruence|]. pose proof (arity_ge b Hb). lia.
    - destruct keep.
      + destruct (packed_file s f _ true R leaves HD Hs) as (i' & d & els & _ & _ & Hd & HL & Hf & Hk).
        destruct (open_found _ n c f Hf (kept_mod true R d leaves els Hd HL)) as [[m Hm]|(t & q & _ & Hq & Hl & Hg & Hr)].
        * eapply (HR m Hm); [|exact HD]. eapply C_packed; eauto.
        * exfalso. apply (kept_no_tree R d leaves els q Hd); auto. cbn in Hk. lia.
      + exists (upd s (cpath c) (Some Unknown)). split; [eapply C_truncated; eauto|]. apply HE. intros; exact I.
    - exists (upd s (cpath c) (Some Unknown)). split; [eapply C_raw; eauto|]. apply HE. intros; exact I.
    - exists s. split; [eapply C_unknown; eauto|]. destruct HD as [W HD]. destruct (HO W) as [W' Q]. split; [exact W'|]. intros q.
      destruct (String.eqb_spec q (cpath c)) as [->|Hq].
      + rewrite Hs. cbn [reply_done snd]. unfold file_at. destruct HF as (F1 & _). rewrite F1, Hi. exact I.
      + cbn [reply_done snd]. rewrite Q by congruence. apply HD.
  Qed.

  (* ---------------------------------------------------------------- *)
  Lemma delete_step s c f : describes s f ->
    exists s', allowed EO A b s (Delete c) (fst (reply_done (fs_remove (cpath c) f))) s' /\ describes s' (snd (reply_done (E := E) (fs_remove (cpath c) f))).
  Proof.
    intros HD. pose proof (remove_only (cpath c) f) as HO. destruct (s (cpath c)) as [e|] eqn:Hs.
    - destruct (taken_path s f _ _ HD Hs) as (i & Hi & _). unfold fs_remove, fs_exists in *. rewrite Hi in *. cbn [reply_done fst snd] in *.
      exists (upd s (cpath c) None). split; [eapply A_delete; eauto|]. eapply step_dir; [exact HD|exact HO|]. unfold file_at. cbn [fs_dir]. rewrite String.eqb_refl. exact I.
    - pose proof (free_path s f _ HD Hs) as Hp. unfold fs_remove, fs_exists. rewrite Hp. cbn [reply_done fst snd]. exists s. split; [apply A_delete_none; exact Hs|exact HD].
  Qed.

  Lemma serve_step s f q af : describes s f -> serves EO A b f q af -> exists s', allowed EO A b s q (fst af) s' /\ describes s' (snd af).
  Proof.
    intros HD HS. destruct HS as [en c xs Hch|en c xs Hch Hbk|en c xs Hch|en c els Hch|en c xs Hch|en c xs Hch Hbk|en c xs Hch|en c els Hch|p bytes|c n|en c n Hch|en c n rp Hch|sizes c n v|c|c].
    - destruct (build_step s c _ f _ HD (new_call en c xs f Hch)) as (s' & H1 & H2). exists s'. split; [constructor; exact H1|exact H2].
    - destruct (build_step s c _ f _ HD (par_call en c xs f Hch Hbk)) as (s' & H1 & H2). exists s'. split; [constructor; exact H1|exact H2].
    - destruct (build_step s c _ f _ HD (data_call en c xs f Hch)) as (s' & H1 & H2). exists s'. split; [constructor; exact H1|exact H2].
    - destruct (bytes_step en s c els f Hch HD) as (s' & H1 & H2). exists s'. split; [constructor; exact H1|exact H2].
    - destruct (lc_step en s c _ f _ Hch HD (CB_new EO LO A en b c xs f)) as (s' & H1 & H2).
      + apply (iter_only EO LO lown (lc_bound EO)).
      + intros Hp. apply (iter_existing LO c f (lc_existing c f Hp)).
      + exists s'. split; [constructor; exact H1|exact H2].
    - destruct (lc_step en s c _ f _ Hch HD (CB_par EO LO A en b c xs f Hbk)) as (s' & H1 & H2).
      + apply (par_only EO LO lown (lc_bound EO)).
      + intros Hp. apply (par_existing LO c f (lc_existing c f Hp)).
      + exists s'. split; [constructor; exact H1|exact H2].
    - destruct (lc_step en s c _ f _ Hch HD (CB_data EO LO A en b c xs f)) as (s' & H1 & H2).
      + apply (iter_only EO LO lown (lc_bound EO)).
      + intros Hp. apply (iter_existing LO c f (lc_existing c f Hp)).
      + exists s'. split; [constructor; exact H1|exact H2].
    - exact (lc_bytes_step en s c els f Hch HD).
    - exact (put_step s p bytes f HD).
    - destruct (open_step s c n f HD) as [H1 H2]. exists s. split; [constructor; exact H1|exact H2].
    - destruct (open_packed_step en s c n f Hch HD) as [H1 H2]. exists s. split; [constructor; exact H1|exact H2].
    - destruct (open_replica_step en s c n rp f Hch HD) as [H1 H2]. exists s. split; [constructor; exact H1|exact H2].
    - destruct (compact_step sizes s c n v f HD) as (s' & H1 & H2). exists s'. split; [constructor; exact H1|exact H2].
    - exact (delete_step s c f HD).
    - exact (delete_step s c f HD).
  Qed.

  Lemma serve_all s f l f' : describes s f -> serves_all EO A b f l f' -> exists s', allowed_all EO A b s l s' /\ describes s' f'.
  Proof.
    intros HD HS. revert s HD. induction HS as [f|f q a f1 l f2 H1 H2 IH]; intros s HD.
    - exists s. split; [constructor|exact HD].
    - destruct (serve_step s f q (a, f1) HD H1) as (s1 & A1 & D1). destruct (IH s1 D1) as (s2 & A2 & D2).
      exists s2. split; [econstructor; eauto|exact D2].
  Qed.
End Dir.
