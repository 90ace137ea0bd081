(* Compound trees made again from serialised base trees, stores or files. *)
From Coq Require Import String List Arith Bool Lia Init.Byte ZifyBool ZifyNat.
From Verif Require Import Base Element Hash Sizing FS Sched Store VecStore DiskStore MmapStore LevelCache ProofModel Tree ListFacts Spec SpecFacts SizingFacts SchedFacts StoreLaws RowFacts ChunkFacts BuildFacts BuildLoop StoreSpec FileFacts VecFacts MapLayer DiskFacts MmapFacts PopFacts TreeFacts ProofSpec ProofFacts TreeProofs TreeObs Builders BuiltFacts CompoundFacts CompoundTrees CompoundGroups CompoundBuilt CompactTrees ReopenFacts ReplicaFacts.
Import ListNotations.

Lemma Forall2_skipn {X Y} (P : X -> Y -> Prop) : forall n l l', Forall2 P l l' -> Forall2 P (skipn n l) (skipn n l').
Proof. induction n as [|n IH]; intros l l' H; [exact H|]. destruct H; cbn [skipn]; [constructor|auto]. Qed.
Lemma Forall2_firstn {X Y} (P : X -> Y -> Prop) : forall n l l', Forall2 P l l' -> Forall2 P (firstn n l) (firstn n l').
Proof. induction n as [|n IH]; intros l l' H; [constructor|]. destruct H; cbn [firstn]; constructor; auto. Qed.

(* two compound trees no reader can tell apart *)
Definition same_compound {E} (SO SO' : StoreOps E) (b sub_ top : nat) (t : mtree (st_t SO) E) (f : fs)
    (t' : mtree (st_t SO') E) (f' : fs) : Prop :=
  mt_root t = mt_root t' /\ mt_leafs t = mt_leafs t' /\ mt_len SO t = mt_len SO' t' /\ mt_row_count t = mt_row_count t' /\
  (forall i, i < mt_leafs t -> exists x, mt_read_at SO sub_ top t f i = Ok x /\ mt_read_at SO' sub_ top t' f' i = Ok x) /\
  (forall i, i < mt_leafs t -> exists p, gen_proof SO b sub_ top t f i = Ok p /\ gen_proof SO' b sub_ top t' f' i = Ok p).

Section Twin.
  Context {E : Type} (SO SO' : StoreOps E) (A : AlgOps E) (b : nat).
  Hypothesis Hb : arity b.

  Lemma full_twin t f d lv es t' f' d' es' : FullTree SO A b t f d lv es -> FullTree SO' A b t' f' d' lv es' ->
    d' = d /\ es' = es /\ mt_root t = mt_root t'.
  Proof.
    intros H H'. pose proof (arity_ge b Hb) as H2.
    pose proof (ft_layout _ _ _ _ _ _ _ _ H) as HL. pose proof (ft_layout _ _ _ _ _ _ _ _ H') as HL'.
    assert (d' = d) as -> by (destruct HL as (L1 & _); destruct HL' as (L1' & _); apply (pow_inj b); [lia|congruence]).
    assert (es' = es) as -> by (eapply Layout_fun; [exact HL'|exact HL]). split; [reflexivity|]. split; [reflexivity|].
    pose proof (ft_root _ _ _ _ _ _ _ _ H). pose proof (ft_root _ _ _ _ _ _ _ _ H'). congruence.
  Qed.

  Lemma sub_twin_parts t f d ts lss ess t' f' d' ts' ess' : SubAt SO A b t f d ts lss ess -> SubAt SO' A b t' f' d' ts' lss ess' ->
    List.length ts = List.length ts' /\ d' = d /\ map mt_root ts = map mt_root ts' /\ ess' = ess.
  Proof.
    intros H H'. pose proof (sa_bases _ _ _ _ _ _ _ _ _ H) as (B1 & B2 & B3). pose proof (sa_bases _ _ _ _ _ _ _ _ _ H') as (B1' & B2' & B3').
    assert (Hn : List.length ts = List.length ts') by lia.
    assert (HX : forall k tk tk', nth_error ts k = Some tk -> nth_error ts' k = Some tk' -> d' = d /\ mt_root tk = mt_root tk' /\ nth_error ess k = nth_error ess' k).
    { intros k tk tk' Hk Hk'. destruct (B3 k tk Hk) as (lv & es & C1 & C2 & C3). destruct (B3' k tk' Hk') as (lv' & es' & D1 & D2 & D3).
      rewrite C1 in D1. injection D1 as <-. destruct (full_twin _ _ _ _ _ _ _ _ _ C3 D3) as (? & ? & ?). rewrite C2, D2. subst es'. auto. }
    split; [exact Hn|]. pose proof (sa_pos _ _ _ _ _ _ _ _ _ H) as Hp. split; [|split].
    - destruct (nth_error_ex ts 0 ltac:(lia)) as [x Hx]. destruct (nth_error_ex ts' 0 ltac:(lia)) as [y Hy]. eapply HX; eauto.
    - apply map_root_ext; auto. intros k lk tk Hl Hk. eapply HX; eauto.
    - apply nth_error_ext. intros k. destruct (Nat.lt_ge_cases k (List.length ts)) as [Q|Q].
      + destruct (nth_error_ex ts k Q) as [x Hx]. destruct (nth_error_ex ts' k ltac:(lia)) as [y Hy]. symmetry. eapply HX; eauto.
      + rewrite (proj2 (nth_error_None ess k)), (proj2 (nth_error_None ess' k)) by lia. reflexivity.
  Qed.

  Lemma sub_twin t f d ts lss ess t' f' d' ts' ess' : SubAt SO A b t f d ts lss ess -> SubAt SO' A b t' f' d' ts' lss ess' ->
    same_compound SO SO' b (List.length ts) 0 t f t' f'.
  Proof.
    intros H H'. destruct (sub_twin_parts _ _ _ _ _ _ _ _ _ _ _ H H') as (Hn & -> & HR & ->).
    assert (Hroot : mt_root t = mt_root t') by (rewrite (sa_root _ _ _ _ _ _ _ _ _ H), (sa_root _ _ _ _ _ _ _ _ _ H'), HR; reflexivity).
    assert (Hleafs : mt_leafs t = mt_leafs t') by (rewrite (sa_leafs _ _ _ _ _ _ _ _ _ H), (sa_leafs _ _ _ _ _ _ _ _ _ H'), Hn; reflexivity).
    split; [exact Hroot|]. split; [exact Hleafs|].
    split; [rewrite (sa_len _ _ _ _ _ _ _ _ _ H), (sa_len _ _ _ _ _ _ _ _ _ H'), Hn; reflexivity|].
    split; [rewrite (sa_rows _ _ _ _ _ _ _ _ _ H), (sa_rows _ _ _ _ _ _ _ _ _ H'); reflexivity|]. split.
    - intros i Hi. destruct (nth_error_ex (concat lss) i) as [x Hx]; [rewrite (SubAt_leaves SO A b t f d ts lss ess H); exact Hi|].
      exists x. unfold mt_read_at. rewrite (SubAt_read SO A b Hb 1 t f d ts lss ess i H Hi). rewrite Hn.
      rewrite (SubAt_read SO' A b Hb 1 t' f' d ts' lss ess i H') by lia. unfold rnth. rewrite Hx. auto.
    - intros i Hi. destruct (SubAt_child SO A b Hb t f d ts lss ess i H Hi) as (tk & lv & es & C1 & C2 & C3 & HF & C4).
      eexists. unfold gen_proof. rewrite (SubAt_gen SO A b Hb 1 t f d ts lss ess i es H Hi C3). split; [reflexivity|]. rewrite Hn.
      rewrite (SubAt_gen SO' A b Hb 1 t' f' d ts' lss ess i es H' ltac:(lia) C3). unfold sub_proof. rewrite Hroot, HR, Hn. reflexivity.
  Qed.

  Lemma top_twin t f d Sa ts ls t' f' d' ts' : TopAt SO A b t f d Sa ts ls -> TopAt SO' A b t' f' d' Sa ts' ls ->
    same_compound SO SO' b Sa (List.length ts) t f t' f'.
  Proof.
    intros H H'. pose proof (pa_subs _ _ _ _ _ _ _ _ _ H) as (B1 & B3). pose proof (pa_subs _ _ _ _ _ _ _ _ _ H') as (B1' & B3').
    assert (Hn : List.length ts = List.length ts') by lia. pose proof (pa_pos _ _ _ _ _ _ _ _ _ H) as Hp.
    assert (HX : forall k tk tk', nth_error ts k = Some tk -> nth_error ts' k = Some tk' -> d' = d /\ mt_root tk = mt_root tk').
    { intros k tk tk' Hk Hk'. destruct (B3 k tk Hk) as (bs & lss & ess & C1 & C2 & C3). destruct (B3' k tk' Hk') as (bs' & lss' & ess' & D1 & D2 & D3).
      rewrite C1 in D1. injection D1 as <-. destruct (sub_twin_parts _ _ _ _ _ _ _ _ _ _ _ C3 D3) as (_ & ? & _). destruct (sub_twin _ _ _ _ _ _ _ _ _ _ _ C3 D3) as (? & _). auto. }
    assert (Hd : d' = d) by (destruct (nth_error_ex ts 0 ltac:(lia)) as [x Hx]; destruct (nth_error_ex ts' 0 ltac:(lia)) as [y Hy]; eapply HX; eauto).
    subst d'. assert (HR : map mt_root ts = map mt_root ts') by (apply map_root_ext; auto; intros k lk tk Hl Hk; eapply HX; eauto).
    assert (Hroot : mt_root t = mt_root t') by (rewrite (pa_root _ _ _ _ _ _ _ _ _ H), (pa_root _ _ _ _ _ _ _ _ _ H'), HR; reflexivity).
    assert (Hleafs : mt_leafs t = mt_leafs t') by (rewrite (pa_leafs _ _ _ _ _ _ _ _ _ H), (pa_leafs _ _ _ _ _ _ _ _ _ H'), Hn; reflexivity).
    split; [exact Hroot|]. split; [exact Hleafs|].
    split; [rewrite (pa_len _ _ _ _ _ _ _ _ _ H), (pa_len _ _ _ _ _ _ _ _ _ H'), Hn; reflexivity|].
    split; [rewrite (pa_rows _ _ _ _ _ _ _ _ _ H), (pa_rows _ _ _ _ _ _ _ _ _ H'); reflexivity|]. split.
    - intros i Hi. destruct (nth_error_ex (concat (map (@concat E) ls)) i) as [x Hx]; [rewrite (TopAt_leaves SO A b t f d Sa ts ls H); exact Hi|].
      exists x. unfold mt_read_at. rewrite (TopAt_read SO A b Hb 0 t f d Sa ts ls i H Hi). rewrite Hn.
      rewrite (TopAt_read SO' A b Hb 0 t' f' d Sa ts' ls i H') by lia. unfold rnth. rewrite Hx. auto.
    - intros i Hi. destruct (TopAt_child SO A b Hb t f d Sa ts ls i H Hi) as (tk & bs & lss & ess & C1 & C2 & C3 & HS & C4 & C5).
      destruct (TopAt_child SO' A b Hb t' f' d Sa ts' ls i H' ltac:(lia)) as (tk' & bs' & lss' & ess' & D1 & D2 & D3 & HS' & D4 & D5).
      rewrite C2 in D2. injection D2 as <-. destruct (sub_twin_parts _ _ _ _ _ _ _ _ _ _ _ HS HS') as (Hm & _ & HR' & ->).
      destruct (SubAt_child SO A b Hb tk f d bs lss ess _ HS C4) as (bk & lv & es & E1 & E2 & E3 & _).
      eexists. unfold gen_proof. rewrite (TopAt_gen SO A b Hb 0 t f d Sa ts ls i tk bs lss ess es H Hi C1 C3 HS E3). split; [reflexivity|]. rewrite Hn.
      rewrite (TopAt_gen SO' A b Hb 0 t' f' d Sa ts' ls i tk' bs' lss ess es H' ltac:(lia) D1 D3 HS' E3).
      unfold sub_proof. rewrite Hroot, HR, HR', (proj2 (HX _ _ _ C1 D1)), C3, D3. reflexivity.
  Qed.
End Twin.

(* the base trees of a built compound tree, written out *)
Definition dumped {E} (SO : StoreOps E) (f : fs) (ts : list (mtree (st_t SO) E)) (alls : list (list E)) : Prop :=
  Forall2 (fun tk all => mt_read_range SO tk f 0 (mt_len SO tk) = Ok all) ts alls.

Section Rebuild.
  Context {E : Type} (EO : ElementOps E) (EL : ElementLaws EO) (A : AlgOps E).
  Variable b : nat.
  Hypothesis Hb : arity b.

  Lemma full_dump (SO : StoreOps E) t f d lv es all : FullTree SO A b t f d lv es -> mt_read_range SO t f 0 (mt_len SO t) = Ok all -> all = es.
  Proof.
    intros HF H. rewrite (ft_len _ _ _ _ _ _ _ _ HF) in H. rewrite (ft_read_range _ _ _ _ _ _ _ _ HF) in H by (pose proof (geom_pos b d); lia).
    pose proof (ft_layout _ _ _ _ _ _ _ _ HF) as (_ & L2 & _). rewrite Nat.sub_0_r, <- L2, sub_all in H. congruence.
  Qed.

  Lemma bases_layouts (SO : StoreOps E) f d ts lss ess alls : Bases SO A b f d ts lss ess -> dumped SO f ts alls ->
    Forall2 (Layout (h_node A) b d) lss alls.
  Proof.
    intros (B1 & B2 & B3) HD. revert lss ess B1 B2 B3. induction HD as [|t all ts alls H HD IH]; intros lss ess B1 B2 B3.
    - destruct lss; [constructor|discriminate].
    - destruct lss as [|l lss]; [discriminate|]. destruct ess as [|es ess]; [discriminate|].
      destruct (B3 0 t eq_refl) as (lv & es' & C1 & C2 & C3). cbn in C1, C2. injection C1 as <-. injection C2 as <-.
      constructor.
      + rewrite (full_dump SO _ _ _ _ _ _ C3 H). apply (ft_layout _ _ _ _ _ _ _ _ C3).
      + apply (IH lss ess); [cbn in B1; lia|cbn in B2; lia|]. intros k tk Hk. exact (B3 (S k) tk Hk).
  Qed.

  Lemma bases_d (SO : StoreOps E) f d ts lss ess : Bases SO A b f d ts lss ess -> 0 < List.length ts -> 1 <= d.
  Proof.
    intros (B1 & B2 & B3) H. destruct (nth_error_ex ts 0 H) as [x Hx]. destruct (B3 0 x Hx) as (lv & es & _ & _ & HF). apply (ft_d _ _ _ _ _ _ _ _ HF).
  Qed.

  Variables (SO : StoreOps E).
  Local Notation T := (st_t SO).

  (* a constructor run over a list, each run adding files *)
  Lemma smap_grow {X} (g : X -> SM fs (mtree T E)) (I : list X -> fs -> Prop) (P : X -> list E -> Prop) d :
    (forall x r f lv, I (x :: r) f -> P x lv -> exists t es f', g x f = (Ok t, f') /\ Stable SO A b t f' d lv es /\ fs_ext f f' /\ I r f') ->
    forall l f lss, I l f -> Forall2 P l lss ->
    exists ts f', smap g l f = (Ok ts, f') /\ fs_ext f f' /\ List.length ts = List.length l /\
      Forall2 (fun lv tk => exists d es, FullTree SO A b tk f' d lv es) lss ts.
  Proof.
    intros H l. induction l as [|x l IH]; intros f lss HI HP; inversion HP as [|? lv ? lss' P1 P2]; subst.
    - exists [], f. split; [reflexivity|]. split; [apply fs_ext_refl|]. split; [reflexivity|constructor].
    - destruct (H x l f lv HI P1) as (t & es & f1 & G1 & G2 & G3 & G4). destruct (IH f1 lss' G4 P2) as (ts & f2 & K1 & K2 & K3 & K4).
      exists (t :: ts), f2. split; [cbn [smap]; rewrite (sbind_ok _ _ _ _ _ G1), (sbind_ok _ _ _ _ _ K1); reflexivity|].
      split; [eapply fs_ext_trans; eauto|]. split; [cbn [List.length]; lia|]. constructor; [|exact K4]. exists d, es. apply G2. exact K2.
  Qed.

  (* finishing: from_trees over such a list *)
  Lemma finish_sub f d ts lss : 0 < List.length ts ->
    Forall2 (fun lv tk => exists d es, FullTree SO A b tk f d lv es) lss ts -> Forall (fun lv => List.length lv = b ^ d) lss ->
    exists t ess, from_trees SO A (List.length ts) ts = Ok t /\ SubAt SO A b t f d ts lss ess.
  Proof.
    intros H0 HF HL.
    assert (HX : exists ess, Bases SO A b f d ts lss ess).
    { unfold Bases. clear H0. induction HF as [|lv tk lss ts (d' & es & HFT) HF IH].
      - exists []. repeat split; auto. intros k tk Hk. destruct k; discriminate.
      - inversion HL as [|? ? L1 L2]; subst. destruct (IH L2) as (ess & I1 & I2 & I3). exists (es :: ess).
        assert (Hd : d' = d) by (pose proof (ft_layout _ _ _ _ _ _ _ _ HFT) as (Q & _); apply (same_leaves_pow b); [exact Hb|congruence]). subst d'.
        repeat split; cbn [List.length]; auto. intros [|k] tk' Hk.
        + cbn in Hk. injection Hk as <-. exists lv, es. auto.
        + cbn in Hk. destruct (I3 k tk' Hk) as (lv' & es' & J1 & J2 & J3). exists lv', es'. auto. }
    destruct HX as (ess & HB). destruct (from_trees_SubAt SO A b f d ts lss ess H0 HB) as (t & G1 & G2). eauto.
  Qed.

  Lemma layouts_lens d lss alls : Forall2 (Layout (h_node A) b d) lss alls -> Forall (fun lv => List.length lv = b ^ d) lss.
  Proof. intros H. induction H as [|lv es lss alls HL H IH]; constructor; auto. destruct HL as (L & _). exact L. Qed.

  Variable np : bool.
  Hypothesis HS : basic_store EO SO np.

  (* merkle.rs from_slices *)
  Lemma from_slices_ok d lss alls f : 1 <= d -> 0 < List.length alls -> Forall2 (Layout (h_node A) b d) lss alls ->
    exists t ts ess f', from_slices EO SO A b (List.length alls) (map (encode EO) alls) (b ^ d) f = (Ok t, f') /\
      List.length ts = List.length alls /\ SubAt SO A b t f' d ts lss ess.
  Proof.
    intros Hd H0 HL. destruct (basic_laws EO EL SO np HS) as (owner & W & Rep & SL).
    destruct (smap_grow (fun dt => from_tree_slice EO SO b 0 0 dt (b ^ d)) (fun _ _ => True)
               (fun dt lv => exists es, dt = encode EO es /\ Layout (h_node A) b d lv es) d) with (l := map (encode EO) alls) (f := f) (lss := lss)
      as (ts & f' & K1 & K2 & K3 & K4).
    - intros x r f1 lv _ (es & -> & HLy).
      destruct (from_tree_slice_ok EO EL SO owner W Rep np SL A b Hb d lv es f1 Hd HLy) as (t & s & f2 & G1 & G2 & G3 & G4).
      exists t, es, f2. split; [exact G1|]. split; [|split; [eapply Created_ext; eauto|exact I]].
      intros f3 [X1 X2]. eapply (TreeAt_Full EO SO owner W Rep np SL A b Hb). eapply TreeAt_frame; eauto.
      intros i Hi. apply X2. destruct G4 as (_ & _ & C3 & _). apply C3 in Hi. lia.
    - exact I.
    - clear - HL. induction HL; constructor; eauto.
    - rewrite map_length in K3. destruct (finish_sub f' d ts lss) as (t & ess & F1 & F2); [lia|exact K4|eapply layouts_lens; eauto|].
      exists t, ts, ess, f'. split; [|auto]. unfold from_slices. rewrite (sbind_ok _ _ _ _ _ K1), <- K3, F1. reflexivity.
  Qed.

  (* merkle.rs from_slices_with_configs *)
  Lemma from_slices_wc_ok d lss alls configs f : 1 <= d -> 0 < List.length alls -> Forall2 (Layout (h_node A) b d) lss alls ->
    List.length alls <= List.length configs -> NoDup (map cfg_path configs) -> Forall (fun c => fs_dir f (cfg_path c) = None) configs ->
    exists t ts ess f', from_slices_with_configs EO SO A b (List.length alls) (map (encode EO) alls) (b ^ d) configs f = (Ok t, f') /\
      List.length ts = List.length alls /\ SubAt SO A b t f' d ts lss ess.
  Proof.
    intros Hd H0 HL Hc HN HF. destruct (basic_laws EO EL SO np HS) as (owner & W & Rep & SL).
    set (items := combine (seq 0 (List.length (map (encode EO) alls))) (map (encode EO) alls)).
    destruct (smap_grow (fun '(i, dt) => sbind (slift (rnth configs i)) (fun c => from_tree_slice_with_config EO SO b 0 0 dt (b ^ d) c))
               (fun l f => exists n, map fst l = seq n (List.length l) /\ n + List.length l <= List.length configs /\
                  forall j c, n <= j -> nth_error configs j = Some c -> fs_dir f (cfg_path c) = None)
               (fun x lv => exists es, snd x = encode EO es /\ Layout (h_node A) b d lv es) d) with (l := items) (f := f) (lss := lss)
      as (ts & f' & K1 & K2 & K3 & K4).
    - intros [i x] r f1 lv (n & N1 & N2 & N3) (es & Hx & HLy). cbn [snd] in Hx. subst x. cbn [map fst List.length seq] in N1. injection N1 as -> N1.
      cbn [List.length] in N2. destruct (nth_error_ex configs n ltac:(lia)) as [c Hcn].
      destruct (from_tree_slice_wc_ok EO EL SO owner W Rep np SL A b Hb d lv es c f1 Hd HLy (N3 n c (le_n n) Hcn)) as (t & s & f2 & G1 & G2 & G3 & G4).
      exists t, es, f2. split; [unfold rnth; rewrite Hcn; exact G1|]. split; [|split; [eapply Created_ext; eauto|]].
      + intros f3 [X1 X2]. eapply (TreeAt_Full EO SO owner W Rep np SL A b Hb). eapply TreeAt_frame; eauto.
        intros j Hj. apply X2. destruct G4 as (_ & _ & C3 & _). apply C3 in Hj. lia.
      + exists (S n). split; [exact N1|]. split; [lia|]. intros j c' Hj Hc'. destruct G4 as (_ & _ & _ & C4 & _). rewrite C4.
        * apply (N3 j c'); [lia|exact Hc'].
        * intros Q. injection Q as Q. assert (j = n); [|lia].
          apply (proj1 (NoDup_nth_error (map cfg_path configs)) HN); [rewrite map_length; apply nth_error_lt in Hc'; exact Hc'|].
          rewrite !nth_error_map, Hcn, Hc'. cbn [option_map]. congruence.
    - exists 0. assert (HI : List.length items = List.length alls) by (unfold items; rewrite combine_length, seq_length, map_length; lia).
      rewrite HI. split; [|split; [lia|]].
      + unfold items. rewrite map_length. clear. generalize 0. induction alls as [|a l IH]; intros n; [reflexivity|]. cbn [map List.length seq combine fst]. rewrite IH. reflexivity.
      + intros j c _ Hj. rewrite Forall_forall in HF. apply HF. eapply nth_error_In; eauto.
    - unfold items. rewrite map_length. clear - HL. generalize 0. induction HL; intros n; [constructor|]; cbn [map List.length seq combine]; constructor; [exists y; split; [reflexivity|assumption]|apply IHHL].
    - assert (HI : List.length items = List.length alls) by (unfold items; rewrite combine_length, seq_length, map_length; lia).
      rewrite HI in K3. destruct (finish_sub f' d ts lss) as (t & ess & F1 & F2); [lia|exact K4|eapply layouts_lens; eauto|].
      exists t, ts, ess, f'. split; [|auto]. unfold from_slices_with_configs. fold items. rewrite (sbind_ok _ _ _ _ _ K1), <- K3, F1. reflexivity.
  Qed.
End Rebuild.

Section Stores.
  Context {E : Type} (EO : ElementOps E) (EL : ElementLaws EO) (A : AlgOps E).
  Variable b : nat.
  Hypothesis Hb : arity b.
  Variable SO : StoreOps E.
  Local Notation T := (st_t SO).

  (* constructors that leave the file system alone *)
  Lemma smap_still {X} (g : X -> SM fs (mtree T E)) (P : X -> list E -> Prop) d f :
    (forall x lv, P x lv -> exists t es, g x f = (Ok t, f) /\ FullTree SO A b t f d lv es) ->
    forall l lss, Forall2 P l lss ->
    exists ts, smap g l f = (Ok ts, f) /\ List.length ts = List.length l /\
      Forall2 (fun lv tk => exists d es, FullTree SO A b tk f d lv es) lss ts.
  Proof.
    intros H l. induction l as [|x l IH]; intros lss HP; inversion HP as [|? lv ? lss' P1 P2]; subst.
    - exists []. split; [reflexivity|]. split; [reflexivity|constructor].
    - destruct (H x lv P1) as (t & es & G1 & G2). destruct (IH lss' P2) as (ts & K1 & K3 & K4).
      exists (t :: ts). split; [cbn [smap]; rewrite (sbind_ok _ _ _ _ _ G1), (sbind_ok _ _ _ _ _ K1); reflexivity|].
      split; [cbn [List.length]; lia|]. constructor; eauto.
  Qed.

  (* merkle.rs from_stores *)
  Lemma from_stores_ok d lss alls stores f : 1 <= d -> 0 < List.length stores -> Forall2 (Layout (h_node A) b d) lss alls ->
    Forall2 (fun s all => store_shows SO s f all) stores alls ->
    exists t ts ess, from_stores SO A b (List.length stores) (b ^ d) stores f = (Ok t, f) /\
      List.length ts = List.length stores /\ SubAt SO A b t f d ts lss ess.
  Proof.
    intros Hd H0 HL HSh.
    destruct (smap_still (fun s => from_data_store SO b 0 0 s (b ^ d)) (fun s lv => exists es, Layout (h_node A) b d lv es /\ store_shows SO s f es) d f) with (l := stores) (lss := lss)
      as (ts & K1 & K3 & K4).
    - intros s lv (es & G1 & G2). destruct (shown_data_store SO A b Hb s f d lv es Hd G1 G2) as (t & Q1 & Q2). eauto.
    - clear - HL HSh. revert stores HSh. induction HL as [|lv es lss alls H HL IH]; intros stores HSh; inversion HSh; subst; constructor; eauto.
    - destruct (finish_sub A b Hb SO f d ts lss) as (t & ess & F1 & F2); [lia|exact K4|eapply layouts_lens; eauto|].
      exists t, ts, ess. split; [|auto]. unfold from_stores. rewrite (sbind_ok _ _ _ _ _ K1), <- K3, F1. reflexivity.
  Qed.

  Variables (np rw : bool).
  Hypothesis HF : file_store EO SO np rw.

  (* files that hold the elements *)
  Definition holds (f : fs) (c : StoreConfig) (all : list E) : Prop :=
    fs_file f (cfg_path c) = Some (encode EO all) /\ (rw = true -> writable f (cfg_path c)).

  Lemma newc_holds f c d lv es : 1 <= d -> Layout (h_node A) b d lv es -> holds f c es ->
    exists s t, st_new_with_config SO (geom b d) b c f = (Ok s, f) /\ from_data_store SO b 0 0 s (b ^ d) f = (Ok t, f) /\ FullTree SO A b t f d lv es.
  Proof.
    intros Hd HL (H1 & H2). destruct (file_reopen EO EL A b Hb SO np rw f c d lv es HF Hd HL H1 H2) as (s & t & G1 & G2 & G3).
    exists s, t. split; [|auto]. destruct (file_inv f (cfg_path c) _ H1) as (i & Hi & _). rewrite <- G1. destruct HF.
    - exact (disk_newc_existing EO b f c i _ Hi).
    - exact (mmap_newc_existing EO b f c i _ Hi).
  Qed.

  (* merkle.rs from_store_configs *)
  Lemma from_store_configs_ok d lss alls configs f : 1 <= d -> 0 < List.length configs -> Forall2 (Layout (h_node A) b d) lss alls ->
    Forall2 (holds f) configs alls ->
    exists t ts ess, from_store_configs SO A b (List.length configs) (b ^ d) configs f = (Ok t, f) /\
      List.length ts = List.length configs /\ SubAt SO A b t f d ts lss ess.
  Proof.
    intros Hd H0 HL HSh. pose proof (arity_ge b Hb) as H2.
    destruct (smap_still (fun c => sbind (slift (get_merkle_tree_len (b ^ d) b)) (fun size => sbind (st_new_with_config SO size b c) (fun data => from_data_store SO b 0 0 data (b ^ d))))
               (fun c lv => exists es, Layout (h_node A) b d lv es /\ holds f c es) d f) with (l := configs) (lss := lss)
      as (ts & K1 & K3 & K4).
    - intros c lv (es & G1 & G2). destruct (newc_holds f c d lv es Hd G1 G2) as (s & t & Q1 & Q2 & Q3). exists t, es. split; [|exact Q3].
      rewrite (get_merkle_tree_len_full b d Hb Hd). rewrite (sbind_ok _ _ f (geom b d) f) by reflexivity. rewrite (sbind_ok _ _ _ _ _ Q1). exact Q2.
    - clear - HL HSh. revert configs HSh. induction HL as [|lv es lss alls H HL IH]; intros configs HSh; inversion HSh; subst; constructor; eauto.
    - destruct (finish_sub A b Hb SO f d ts lss) as (t & ess & F1 & F2); [lia|exact K4|eapply layouts_lens; eauto|].
      exists t, ts, ess. split; [|auto]. unfold from_store_configs. rewrite (sbind_ok _ _ _ _ _ K1), <- K3, F1. reflexivity.
  Qed.

  (* merkle.rs from_sub_tree_store_configs: the configurations in groups of [Sa] *)
  Lemma from_sub_tree_store_configs_ok d Sa ls alss configs f : 1 <= d -> 0 < Sa -> 0 < List.length ls ->
    Forall (fun l => List.length l = Sa) ls -> Forall2 (Forall2 (Layout (h_node A) b d)) ls alss ->
    Forall2 (holds f) configs (concat alss) ->
    exists t ts, from_sub_tree_store_configs SO A b Sa (List.length ls) (b ^ d) configs f = (Ok t, f) /\
      List.length ts = List.length ls /\ TopAt SO A b t f d Sa ts ls.
  Proof.
    intros Hd HSa H0 HG HL HH.
    assert (HG' : Forall (fun l => List.length l = Sa) alss).
    { clear - HG HL. induction HL as [|l al ls alss H HL IH]; constructor; inversion HG; subst; auto. symmetry. eapply Forall2_length; eauto. }
    assert (Hla : List.length alss = List.length ls) by (symmetry; eapply Forall2_length; eauto).
    assert (Hcl : List.length configs = List.length ls * Sa).
    { rewrite (Forall2_length _ _ _ HH), (concat_length_const alss Sa HG'). lia. }
    assert (Hn : List.length configs / List.length ls = Sa) by (rewrite Hcl, Nat.mul_comm; apply Nat.div_mul; lia).
    destruct (smap_ok (fun k => from_store_configs SO A b Sa (b ^ d) (sub configs (k * Sa) Sa))
       (fun k tk => exists bs lss ess, nth_error ls k = Some lss /\ List.length bs = Sa /\ SubAt SO A b tk f d bs lss ess) f (seq 0 (List.length ls)) 0) as (ts & M1 & M2 & M3).
    { intros j x Hx. assert (Hj : j < List.length ls) by (apply nth_error_lt in Hx; rewrite seq_length in Hx; exact Hx).
      assert (x = j) as ->.
      { rewrite (nth_error_nth' (seq 0 (List.length ls)) 0) in Hx by (rewrite seq_length; exact Hj). rewrite seq_nth in Hx by exact Hj. injection Hx as <-. reflexivity. }
      cbn [Nat.add]. destruct (nth_error_ex ls j Hj) as [lj Hlj]. destruct (nth_error_ex alss j ltac:(lia)) as [aj Haj].
      assert (HLj : Forall2 (Layout (h_node A) b d) lj aj).
      { clear - HL Hlj Haj. revert j Hlj Haj. induction HL as [|l al ls alss H HL IH]; intros [|j] H1 H2; cbn in H1, H2; try discriminate; [congruence|eauto]. }
      assert (Hin : j * Sa + Sa <= List.length configs).
      { rewrite Hcl. assert (S j * Sa <= List.length ls * Sa) by (apply Nat.mul_le_mono_r; lia). lia. }
      assert (Hsl : List.length (sub configs (j * Sa) Sa) = Sa) by (apply sub_length_le; lia).
      assert (Hcj : Forall2 (holds f) (sub configs (j * Sa) Sa) aj).
      { assert (Haj' : List.length aj = Sa) by (rewrite Forall_forall in HG'; apply HG'; eapply nth_error_In; eauto).
        assert (HE : aj = sub (concat alss) (j * Sa) Sa).
        { apply nth_error_ext. intros k. rewrite nth_error_sub. destruct (k <? Sa) eqn:Hk.
          - symmetry. apply (nth_error_concat alss Sa j k aj HG' Haj). lia.
          - apply nth_error_None. lia. }
        rewrite HE. clear - HH. unfold sub. revert HH. generalize (concat alss). intros l HH.
        apply Forall2_firstn. apply Forall2_skipn. exact HH. }
      destruct (from_store_configs_ok d lj aj (sub configs (j * Sa) Sa) f Hd ltac:(lia) HLj Hcj) as (t & bs & ess & G1 & G2 & G3).
      rewrite Hsl in G1, G2. exists t. split; [exact G1|]. eauto 6. }
    rewrite seq_length in M2. cbn [Nat.add] in M3.
    destruct (from_sub_trees_TopAt SO A b f d Sa ts ls) as (t & T1 & T2); [lia|split; [lia|exact M3]|].
    exists t, ts. split; [|auto]. unfold from_sub_tree_store_configs. replace (List.length ls =? 0) with false by lia.
    rewrite Hn, (sbind_ok _ _ _ _ _ M1), <- M2, T1. reflexivity.
  Qed.
End Stores.

(* ---- trees built one after the other at configured paths ---- *)
Inductive built_cfgs {E} (EO : ElementOps E) (SO : StoreOps E) (A : AlgOps E) (en : env) (b : nat)
  : list StoreConfig -> list (list E) -> fs -> list (mtree (st_t SO) E) -> fs -> Prop :=
| BC_nil f : built_cfgs EO SO A en b [] [] f [] f
| BC_cons c configs leaves lss f t f1 ts f2 :
    cfg_builder EO SO A en b c leaves f (Ok t, f1) -> built_cfgs EO SO A en b configs lss f1 ts f2 ->
    built_cfgs EO SO A en b (c :: configs) (leaves :: lss) f (t :: ts) f2.

Section Cfgs.
  Context {E : Type} (EO : ElementOps E) (EL : ElementLaws EO) (A : AlgOps E) (AL : AlgLaws A).
  Variables (en : env) (b : nat).
  Hypothesis Hb : arity b.
  Hypothesis Hch : chunk_ok en b.
  Variables (SO : StoreOps E) (np rw : bool).
  Hypothesis HF : file_store EO SO np rw.

  Lemma cfg_stable c leaves f t f1 : fs_wf f -> fs_dir f (cfg_path c) = None -> cfg_builder EO SO A en b c leaves f (Ok t, f1) ->
    fs_wf f1 /\ fs_ext f f1 /\ (exists d es, Stable SO A b t f1 d leaves es) /\ (forall q, q <> cfg_path c -> fs_dir f1 q = fs_dir f q).
  Proof.
    intros Hw Hp HB. destruct (basic_laws EO EL SO np (file_store_basic EO SO np rw HF)) as (owner & W & Rep & SL).
    destruct (cfg_builder_built EO EL SO owner W Rep np SL A AL en b Hb Hch c leaves f t f1 Hp HB) as (d & _ & _ & HBt).
    destruct (Built_Stable EO SO owner W Rep np SL A b Hb _ _ _ _ _ _ HBt) as [[es HSt] HX].
    destruct HBt as (s & _ & _ & HC). split; [eapply Created_wf; eauto|]. split; [exact HX|]. split; [eauto|].
    destruct HC as (_ & _ & _ & C4 & _). intros q Hq. apply C4. congruence.
  Qed.

  Lemma cfgs_dir configs lss f ts f' : built_cfgs EO SO A en b configs lss f ts f' -> fs_wf f -> NoDup (map cfg_path configs) ->
    Forall (fun c => fs_dir f (cfg_path c) = None) configs ->
    fs_wf f' /\ fs_ext f f' /\ (forall q, ~ In q (map cfg_path configs) -> fs_dir f' q = fs_dir f q) /\
    Forall2 (fun lv tk => exists d es, FullTree SO A b tk f' d lv es) lss ts /\
    exists alls, Forall2 (fun lv all => exists d, 1 <= d /\ Layout (h_node A) b d lv all) lss alls /\ Forall2 (holds EO rw f') configs alls.
  Proof.
    intros H. induction H as [|c configs leaves lss f t f1 ts f2 HB HC IH]; intros Hw HN HFr.
    - split; [exact Hw|]. split; [apply fs_ext_refl|]. split; [auto|]. split; [constructor|]. exists []. split; constructor.
    - cbn [map] in HN. inversion HN as [|? ? N1 N2]; subst. inversion HFr as [|? ? P1 P2]; subst.
      destruct (cfg_stable c leaves f t f1 Hw P1 HB) as (W1 & X1 & (d & es & HSt) & D1).
      assert (HFr1 : Forall (fun c' => fs_dir f1 (cfg_path c') = None) configs).
      { apply Forall_forall. intros c' Hc'. rewrite D1; [rewrite Forall_forall in P2; auto|]. intros Heq. apply N1. rewrite <- Heq. apply in_map. exact Hc'. }
      destruct (IH W1 N2 HFr1) as (W2 & X2 & D2 & HFT & alls & HL & HH).
      split; [exact W2|]. split; [eapply fs_ext_trans; eauto|].
      split. { intros q Hq. cbn [map In] in Hq. rewrite D2 by tauto. apply D1. intros ->. tauto. }
      split. { constructor; [|exact HFT]. exists d, es. apply HSt. exact X2. }
      destruct (built_file EO EL A AL en b Hb Hch SO np rw c leaves f t f1 HF P1 HB) as (d' & els & Hd & _ & HLy & _ & Hfile & Hwr).
      exists (els :: alls). split; [constructor; eauto|]. constructor; [|exact HH].
      pose proof (D2 (cfg_path c) N1) as Hdir. destruct (file_inv _ _ _ Hfile) as (i & Hi & Hdt).
      pose proof (W1 _ _ Hi) as Hlt. destruct X2 as (_ & X2).
      split.
      + unfold fs_file. rewrite Hdir, Hi. f_equal. rewrite <- Hdt. unfold fs_data. rewrite (X2 i Hlt). reflexivity.
      + intros _ j Hj. rewrite Hdir, Hi in Hj. injection Hj as <-. rewrite (X2 i Hlt). apply Hwr. exact Hi.
  Qed.

  Lemma layouts_at d lss alls : Forall2 (fun lv all => exists d, 1 <= d /\ Layout (h_node A) b d lv all) lss alls ->
    Forall (fun lv => List.length lv = b ^ d) lss -> Forall2 (Layout (h_node A) b d) lss alls.
  Proof.
    intros H. induction H as [|lv all lss alls (d' & _ & HL) H IH]; intros G; constructor; inversion G as [|? ? G1 G2]; subst; auto.
    pose proof HL as (L1 & _). assert (d' = d) as -> by (apply (same_leaves_pow b); [exact Hb|congruence]). exact HL.
  Qed.
End Cfgs.
