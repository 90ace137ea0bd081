(* All the ways of building a base tree from its leaves, in one relation. *)
From Coq Require Import String List Arith Bool Lia Init.Byte ZifyBool ZifyNat.
From Verif Require Import Base Element Hash Sizing FS Sched Store VecStore DiskStore MmapStore ProofModel Tree ListFacts Spec SpecFacts SizingFacts StoreLaws StoreSpec VecFacts DiskFacts MmapFacts PopFacts TreeFacts ProofSpec ProofFacts TreeProofs TreeObs.
Import ListNotations.

(* [builder EO SO A en b leaves f r]: r is the result of calling one of the eight
   constructors in file system f on input whose leaf values are [leaves] *)
Inductive builder {E} (EO : ElementOps E) (SO : StoreOps E) (A : AlgOps E) (en : env) (b : nat)
  : list E -> fs -> res (mtree (st_t SO) E) * fs -> Prop :=
| B_new xs f : builder EO SO A en b (map (h_leaf A) xs) f (mt_new EO SO A en b xs f)
| B_new_config xs c f : fs_dir f (cfg_path c) = None ->
    builder EO SO A en b (map (h_leaf A) xs) f (mt_new_with_config EO SO A en b xs c f)
| B_par xs f : 0 < p_block (env_params en) ->
    builder EO SO A en b (map (h_leaf A) xs) f (from_par_iter EO SO A en b xs f)
| B_par_config xs c f : 0 < p_block (env_params en) -> fs_dir f (cfg_path c) = None ->
    builder EO SO A en b (map (h_leaf A) xs) f (from_par_iter_with_config EO SO A en b xs c f)
| B_data xs f :
    builder EO SO A en b (map (fun x => h_leaf A (hash_of A x)) xs) f (from_data EO SO A en b xs f)
| B_data_config xs c f : fs_dir f (cfg_path c) = None ->
    builder EO SO A en b (map (fun x => h_leaf A (hash_of A x)) xs) f (from_data_with_config EO SO A en b xs c f)
| B_bytes els f : builder EO SO A en b els f (from_byte_slice EO SO A en b (encode EO els) f)
| B_bytes_config els c f : fs_dir f (cfg_path c) = None ->
    builder EO SO A en b els f (from_byte_slice_with_config EO SO A en b (encode EO els) c f).

Lemma encode_decode {E} (EO : ElementOps E) (EL : ElementLaws EO) bs l :
  ElementBytesLaw EO -> decode EO bs = Ok l -> encode EO l = bs.
Proof.
  intros HB HD. unfold decode in HD. apply rmap_ok_Forall2 in HD.
  rewrite <- (chunks_concat (e_byte_len EO) bs) by (apply (el_pos EO EL)). unfold encode. f_equal.
  induction HD as [|x y l1 l2 H H' IH]; [reflexivity|]. cbn [map]. rewrite IH. f_equal. apply HB. exact H.
Qed.

Section B.
  Context {E : Type} (EO : ElementOps E) (EL : ElementLaws EO) (A : AlgOps E) (AL : AlgLaws A).
  Variables (en : env) (b : nat).
  Variables (SO : StoreOps E) (np : bool).
  Hypothesis HS : basic_store EO SO np.

  Lemma builder_outcome_s leaves f r : arity b -> chunk_ok en b -> builder EO SO A en b leaves f r ->
    outcome_s A b SO np f (List.length leaves) leaves r.
  Proof.
    intros Hb Hch []; rewrite ?map_length.
    - apply (new_outcome EO EL A AL en b Hb Hch SO np HS).
    - apply (new_wc_outcome EO EL A AL en b Hb Hch SO np HS); auto.
    - apply (par_outcome EO EL A AL en b Hb Hch SO np HS); auto.
    - apply (par_wc_outcome EO EL A AL en b Hb Hch SO np HS); auto.
    - rewrite <- map_map. apply (data_outcome EO EL A AL en b Hb Hch SO np HS).
    - rewrite <- map_map. apply (data_wc_outcome EO EL A AL en b Hb Hch SO np HS); auto.
    - apply (bytes_outcome EO EL A en b Hb Hch SO np HS).
    - apply (bytes_wc_outcome EO EL A en b Hb Hch SO np HS); auto.
  Qed.

  Lemma builder_outcome leaves f r : arity b -> chunk_ok en b -> builder EO SO A en b leaves f r ->
    outcome A b SO np (List.length leaves) leaves r.
  Proof. intros Hb Hch HB. eapply outcome_weak. apply builder_outcome_s; eauto. Qed.

  Lemma builder_stable leaves f t f' : arity b -> chunk_ok en b -> builder EO SO A en b leaves f (Ok t, f') ->
    exists d els, List.length leaves = b ^ d /\ Stable SO A b t f' d leaves els /\ fs_ext f f'.
  Proof. intros Hb Hch HB. exact (builder_outcome_s _ _ _ Hb Hch HB). Qed.

  Lemma builder_full leaves f d r : arity b -> chunk_ok en b -> builder EO SO A en b leaves f r ->
    1 <= d -> List.length leaves = b ^ d -> exists t f' els, r = (Ok t, f') /\ FullTree SO A b t f' d leaves els.
  Proof.
    intros Hb Hch HB Hd Hl. pose proof (builder_outcome leaves f r Hb Hch HB) as H.
    destruct r as [[t|e|e|] f']; cbn in H.
    - destruct H as (d' & els & Hn & HF). rewrite Hl in Hn. apply same_leaves_pow in Hn; auto. subst d'. eauto.
    - exfalso. eapply H; eauto.
    - exfalso. eapply (proj2 H); eauto.
    - contradiction.
  Qed.

  Lemma builder_tree leaves f t f' : arity b -> chunk_ok en b -> builder EO SO A en b leaves f (Ok t, f') ->
    exists d els, List.length leaves = b ^ d /\ FullTree SO A b t f' d leaves els.
  Proof. intros Hb Hch HB. exact (builder_outcome _ _ _ Hb Hch HB). Qed.

  Lemma leafs_checks_badarity n : ~ pow2 b -> exists e, leafs_checks b n = Err e.
  Proof.
    intros H. unfold leafs_checks. destruct (1 <? n); [|eexists; reflexivity]. cbn [ensure rbind].
    destruct (next_pow2 n =? n); [|eexists; reflexivity]. cbn [ensure rbind].
    apply next_pow2_neqb in H. rewrite H. eexists; reflexivity.
  Qed.

  Lemma builder_badarity leaves f r : ~ pow2 b -> builder EO SO A en b leaves f r -> exists e, r = (Err e, f).
  Proof.
    intros H HB. destruct (leafs_checks_badarity (List.length leaves) H) as [e He]. exists e.
    pose proof (bl_pos EO EL) as Hbl.
    destruct HB; rewrite ?map_length in He;
      unfold mt_new, mt_new_with_config, from_par_iter, from_par_iter_with_config, from_data, from_data_with_config,
        from_byte_slice, from_byte_slice_with_config, try_from_iter, try_from_iter_with_config, sbind, slift, ensure;
      rewrite ?encode_length, ?Nat.mod_mul, ?Nat.div_mul by (auto; lia); cbn [Nat.eqb]; rewrite He; reflexivity.
  Qed.
End B.
