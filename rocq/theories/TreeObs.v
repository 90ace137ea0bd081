(* What can be observed of a base tree, and the three general-purpose stores. *)
From Coq Require Import String List Arith Bool Lia Init.Byte ZifyBool ZifyNat.
From Verif Require Import Base Element Hash Sizing FS Sched Store VecStore DiskStore MmapStore ProofModel Tree ListFacts Spec SpecFacts SizingFacts SchedFacts StoreLaws RowFacts ChunkFacts BuildFacts BuildLoop StoreSpec FileFacts VecFacts MapLayer DiskFacts MmapFacts PopFacts TreeFacts ProofSpec ProofFacts TreeProofs.
Import ListNotations.

(* the stores that keep every node; [np]: oversized writes are errors, not panics *)
Inductive basic_store {E} (EO : ElementOps E) : StoreOps E -> bool -> Prop :=
| bs_vec : basic_store EO (vec_store EO) true
| bs_disk : basic_store EO (disk_store EO) true
| bs_mmap : basic_store EO (mmap_store_ops EO) false.

Lemma basic_laws {E} (EO : ElementOps E) (EL : ElementLaws EO) SO np : basic_store EO SO np ->
  exists owner W Rep, StoreLaws EO SO owner W Rep np.
Proof.
  intros []; do 3 eexists; [apply vec_laws|apply disk_laws|apply mmap_laws]; auto.
Qed.

(* [t] in file system [f] shows the full arity-b tree over b^d leaves [leaves],
   whose nodes, leaves first and root last, are [els] *)
Record FullTree {E} (SO : StoreOps E) (A : AlgOps E) (b : nat) (t : mtree (st_t SO) E) (f : fs)
    (d : nat) (leaves els : list E) : Prop := {
  ft_d : 1 <= d;
  ft_layout : Layout (h_node A) b d leaves els;
  ft_leafs : mt_leafs t = b ^ d;
  ft_len : mt_len SO t = geom b d;
  ft_rows : mt_row_count t = d + 1;
  ft_root : nth_error els (geom b d - 1) = Some (mt_root t);
  ft_read_at : forall i, i < geom b d -> mt_read_at SO 0 0 t f i = rnth els i;
  ft_read_range : forall s e, s < e -> e <= geom b d -> mt_read_range SO t f s e = Ok (sub els s (e - s));
  ft_proof : forall i, i < b ^ d -> gen_proof SO b 0 0 t f i = Ok (mk_proof None 0 0 (lemma_of b els d i) (path_of b d i));
  ft_base : exists s, mt_data t = BaseTree s
}.

(* ... and still does whatever else is created in the file system later *)
Definition Stable {E} (SO : StoreOps E) (A : AlgOps E) (b : nat) (t : mtree (st_t SO) E) (f : fs)
    (d : nat) (leaves els : list E) : Prop := forall f2, fs_ext f f2 -> FullTree SO A b t f2 d leaves els.

Section Obs.
  Context {E : Type} (EO : ElementOps E) (EL : ElementLaws EO) (SO : StoreOps E).
  Local Notation T := (st_t SO).
  Variable owner : T -> option nat.
  Variable W : T -> Prop.
  Variable Rep : nat -> nat -> (nat -> option E) -> T * fs -> Prop.
  Variable np : bool.
  Hypothesis SL : StoreLaws EO SO owner W Rep np.
  Variable A : AlgOps E.
  Hypothesis AL : AlgLaws A.
  Variable b : nat.
  Hypothesis Hb : arity b.

  Lemma TreeAt_Full t s f d leaves els : TreeAt SO Rep A b t s f d leaves els -> FullTree SO A b t f d leaves els.
  Proof.
    intros HT. pose proof HT as [T1 T2 T3 T4 T5 T6 T7 T8]. constructor; auto.
    - eapply ta_mt_len; eauto.
    - lia.
    - intros i Hi. unfold mt_read_at. cbn [mt_read_at_n]. rewrite T1. destruct T6 as (_ & L & _).
      destruct (nth_error_ex els i ltac:(lia)) as [x Hx]. unfold rnth. rewrite Hx. eapply ta_read_at; eauto.
    - intros s0 e0 Hs He. unfold mt_read_range, mt_store. rewrite T1. replace (s0 <? e0) with true by lia. cbn [ensure rbind].
      eapply ta_read_range; eauto.
    - intros i Hi. eapply gen_proof_ok; eauto.
    - eauto.
  Qed.

  Lemma Built_Stable f p d leaves t f' : Built SO owner W Rep A b f p d leaves t f' ->
    (exists els, Stable SO A b t f' d leaves els) /\ fs_ext f f'.
  Proof.
    intros (s & HT & _ & HC). split; [|eapply Created_ext; eauto].
    eexists. intros f2 [X1 X2]. eapply TreeAt_Full. eapply TreeAt_frame; eauto.
    intros i Hi. apply X2. destruct HC as (_ & _ & C3 & _). apply C3 in Hi. lia.
  Qed.

  Lemma Built_Full f p d leaves t f' : Built SO owner W Rep A b f p d leaves t f' -> exists els, FullTree SO A b t f' d leaves els.
  Proof. intros (s & HT & _). eexists. eapply TreeAt_Full; eauto. Qed.
End Obs.

Lemma FullTree_root {E} (SO : StoreOps E) A b t f d leaves els : arity b -> FullTree SO A b t f d leaves els ->
  MRoot (h_node A) b d leaves (mt_root t).
Proof. intros Hb H. pose proof (arity_ge b Hb). eapply Layout_root; [lia|apply (ft_layout _ _ _ _ _ _ _ _ H)|apply (ft_root _ _ _ _ _ _ _ _ H)]. Qed.

(* trees over the same leaves are indistinguishable, whatever the stores *)
Lemma FullTree_same {E} (SO SO' : StoreOps E) A b t f t' f' d leaves els d' els' : arity b ->
  FullTree SO A b t f d leaves els -> FullTree SO' A b t' f' d' leaves els' ->
  mt_root t = mt_root t' /\ mt_leafs t = mt_leafs t' /\ mt_len SO t = mt_len SO' t' /\ mt_row_count t = mt_row_count t' /\
  (forall i, i < mt_len SO t -> mt_read_at SO 0 0 t f i = mt_read_at SO' 0 0 t' f' i) /\
  (forall s e, s < e -> e <= mt_len SO t -> mt_read_range SO t f s e = mt_read_range SO' t' f' s e) /\
  (forall i, i < mt_leafs t -> gen_proof SO b 0 0 t f i = gen_proof SO' b 0 0 t' f' i).
Proof.
  intros Hb H H'. pose proof (arity_ge b Hb).
  pose proof (ft_layout _ _ _ _ _ _ _ _ H) as HL. pose proof (ft_layout _ _ _ _ _ _ _ _ H') as HL'.
  assert (d' = d).
  { destruct HL as (L1 & _). destruct HL' as (L1' & _). apply (pow_inj b); [lia|congruence]. }
  subst d'. assert (els' = els) by (eapply Layout_fun; [exact HL'|exact HL]). subst els'.
  destruct H, H'. rewrite ft_len0, ft_leafs0. repeat split; try congruence.
  - intros i Hi. rewrite ft_read_at0, ft_read_at1 by auto. reflexivity.
  - intros s e Hs He. rewrite ft_read_range0, ft_read_range1 by auto. reflexivity.
  - intros i Hi. rewrite ft_proof0, ft_proof1 by auto. reflexivity.
Qed.

Lemma same_leaves_pow b d d' : arity b -> b ^ d = b ^ d' -> d = d'.
Proof. intros Hb. apply pow_inj. apply arity_ge. auto. Qed.

(* ---- all constructors over the general-purpose stores ---- *)
Section Constr.
  Context {E : Type} (EO : ElementOps E) (EL : ElementLaws EO) (A : AlgOps E) (AL : AlgLaws A).
  Variables (en : env) (b : nat).
  Hypothesis Hb : arity b.
  Hypothesis Hch : chunk_ok en b.
  Variables (SO : StoreOps E) (np : bool).
  Hypothesis HS : basic_store EO SO np.

  (* outcome of a constructor given n leaf values: a full tree exactly for n = b^d, d >= 1 *)
  Definition outcome (n : nat) (leaves : list E) (r : res (mtree (st_t SO) E) * fs) : Prop :=
    match r with
    | (Ok t, f') => exists d els, n = b ^ d /\ FullTree SO A b t f' d leaves els
    | (Err _, _) => forall d, 1 <= d -> n <> b ^ d
    | (Panic _, _) => np = false /\ forall d, 1 <= d -> n <> b ^ d
    | (Diverge, _) => False
    end.

  (* the same with what is needed to go on using the file system *)
  Definition outcome_s (f : fs) (n : nat) (leaves : list E) (r : res (mtree (st_t SO) E) * fs) : Prop :=
    match r with
    | (Ok t, f') => exists d els, n = b ^ d /\ Stable SO A b t f' d leaves els /\ fs_ext f f'
    | _ => outcome n leaves r
    end.
  Lemma outcome_weak f n leaves r : outcome_s f n leaves r -> outcome n leaves r.
  Proof.
    destruct r as [[t|e|e|] f']; auto. cbn. intros (d & els & H1 & H2 & _). exists d, els. split; [exact H1|]. apply H2. apply fs_ext_refl.
  Qed.

  Lemma outcome_intro f n leaves r :
    (forall d, 1 <= d -> n = b ^ d -> exists t f' els, r = (Ok t, f') /\ Stable SO A b t f' d leaves els /\ fs_ext f f') ->
    ((forall d, 1 <= d -> n <> b ^ d) -> exists x f', r = (x, f') /\ failed np x) ->
    outcome_s f n leaves r.
  Proof.
    intros H1 H2. destruct (full_dec b Hb n) as [(d & Hd & Hn)|H].
    - destruct (H1 d Hd Hn) as (t & f' & els & -> & HF). cbn. eauto.
    - destruct (H2 H) as (x & f' & -> & HF). destruct x; cbn in *; auto; contradiction.
  Qed.

  Lemma new_outcome xs f : outcome_s f (List.length xs) (map (h_leaf A) xs) (mt_new EO SO A en b xs f).
  Proof.
    destruct (basic_laws EO EL SO np HS) as (ow & W & Rep & SL). apply outcome_intro.
    - intros d Hd Hn. destruct (try_from_iter_ok EO SO ow W Rep np SL A AL b Hb en Hch xs d f Hd Hn) as (t & f' & H1 & H2).
      destruct (Built_Stable EO SO ow W Rep np SL A b Hb _ _ _ _ _ _ H2) as [[els HF] HX]. exists t, f', els. split; [exact H1|split; [exact HF|exact HX]].
    - intros H. exact (try_from_iter_bad EO SO ow W Rep np SL A AL b Hb en Hch xs f H).
  Qed.
  Lemma new_wc_outcome xs c f : fs_dir f (cfg_path c) = None ->
    outcome_s f (List.length xs) (map (h_leaf A) xs) (mt_new_with_config EO SO A en b xs c f).
  Proof.
    intros Hp. destruct (basic_laws EO EL SO np HS) as (ow & W & Rep & SL). apply outcome_intro.
    - intros d Hd Hn. destruct (try_from_iter_wc_ok EO SO ow W Rep np SL A AL b Hb en Hch xs d c f Hd Hn Hp) as (t & f' & H1 & H2).
      destruct (Built_Stable EO SO ow W Rep np SL A b Hb _ _ _ _ _ _ H2) as [[els HF] HX]. exists t, f', els. split; [exact H1|split; [exact HF|exact HX]].
    - intros H. exact (try_from_iter_wc_bad EO SO ow W Rep np SL A AL b Hb en Hch xs c f Hp H).
  Qed.
  Lemma par_outcome xs f : 0 < p_block (env_params en) ->
    outcome_s f (List.length xs) (map (h_leaf A) xs) (from_par_iter EO SO A en b xs f).
  Proof.
    intros Hbl. destruct (basic_laws EO EL SO np HS) as (ow & W & Rep & SL). apply outcome_intro.
    - intros d Hd Hn. destruct (from_par_iter_ok EO SO ow W Rep np SL A AL b Hb en Hch xs d f Hbl Hd Hn) as (t & f' & H1 & H2).
      destruct (Built_Stable EO SO ow W Rep np SL A b Hb _ _ _ _ _ _ H2) as [[els HF] HX]. exists t, f', els. split; [exact H1|split; [exact HF|exact HX]].
    - intros H. exact (from_par_iter_bad EO SO ow W Rep np SL A AL b Hb en Hch xs f Hbl H).
  Qed.
  Lemma par_wc_outcome xs c f : 0 < p_block (env_params en) -> fs_dir f (cfg_path c) = None ->
    outcome_s f (List.length xs) (map (h_leaf A) xs) (from_par_iter_with_config EO SO A en b xs c f).
  Proof.
    intros Hbl Hp. destruct (basic_laws EO EL SO np HS) as (ow & W & Rep & SL). apply outcome_intro.
    - intros d Hd Hn. destruct (from_par_iter_wc_ok EO SO ow W Rep np SL A AL b Hb en Hch xs d c f Hbl Hd Hn Hp) as (t & f' & H1 & H2).
      destruct (Built_Stable EO SO ow W Rep np SL A b Hb _ _ _ _ _ _ H2) as [[els HF] HX]. exists t, f', els. split; [exact H1|split; [exact HF|exact HX]].
    - intros H. exact (from_par_iter_wc_bad EO SO ow W Rep np SL A AL b Hb en Hch xs c f Hbl Hp H).
  Qed.
  Lemma data_outcome xs f : outcome_s f (List.length xs) (map (h_leaf A) (map (hash_of A) xs)) (from_data EO SO A en b xs f).
  Proof.
    unfold from_data. rewrite (hash_items_ok A AL). rewrite <- (map_length (hash_of A) xs). apply new_outcome.
  Qed.
  Lemma data_wc_outcome xs c f : fs_dir f (cfg_path c) = None ->
    outcome_s f (List.length xs) (map (h_leaf A) (map (hash_of A) xs)) (from_data_with_config EO SO A en b xs c f).
  Proof.
    intros Hp. unfold from_data_with_config. rewrite (hash_items_ok A AL). rewrite <- (map_length (hash_of A) xs). apply new_wc_outcome. exact Hp.
  Qed.
  Lemma bytes_outcome els f : outcome_s f (List.length els) els (from_byte_slice EO SO A en b (encode EO els) f).
  Proof.
    destruct (basic_laws EO EL SO np HS) as (ow & W & Rep & SL). apply outcome_intro.
    - intros d Hd Hn. destruct (from_byte_slice_ok EO EL SO ow W Rep np SL A b Hb en Hch els d f Hd Hn) as (t & f' & H1 & H2).
      destruct (Built_Stable EO SO ow W Rep np SL A b Hb _ _ _ _ _ _ H2) as [[es HF] HX]. exists t, f', es. split; [exact H1|split; [exact HF|exact HX]].
    - intros H. exact (from_byte_slice_bad EO EL SO ow W Rep np SL A b Hb en Hch els f H).
  Qed.
  Lemma bytes_wc_outcome els c f : fs_dir f (cfg_path c) = None ->
    outcome_s f (List.length els) els (from_byte_slice_with_config EO SO A en b (encode EO els) c f).
  Proof.
    intros Hp. destruct (basic_laws EO EL SO np HS) as (ow & W & Rep & SL). apply outcome_intro.
    - intros d Hd Hn. destruct (from_byte_slice_wc_ok EO EL SO ow W Rep np SL A b Hb en Hch els d c f Hd Hn Hp) as (t & f' & H1 & H2).
      destruct (Built_Stable EO SO ow W Rep np SL A b Hb _ _ _ _ _ _ H2) as [[es HF] HX]. exists t, f', es. split; [exact H1|split; [exact HF|exact HX]].
    - intros H. exact (from_byte_slice_wc_bad EO EL SO ow W Rep np SL A b Hb en Hch els c f Hp H).
  Qed.
End Constr.
