(* Base trees: constructors and what the resulting tree holds. *)
From Coq Require Import String List Arith Bool Lia Init.Byte ZifyBool ZifyNat.
From Verif Require Import Base Element Hash Sizing FS Sched Store VecStore ProofModel Tree ListFacts Spec SpecFacts SizingFacts SchedFacts StoreLaws RowFacts ChunkFacts BuildFacts BuildLoop StoreSpec FileFacts PopFacts.
Import ListNotations.

Section TreeF.
  Context {E : Type} (EO : ElementOps E) (EL : ElementLaws EO) (SO : StoreOps E).
  Local Notation T := (st_t SO).
  Variable owner : T -> option nat.
  Variable W : T -> Prop.
  Variable Rep : nat -> nat -> (nat -> option E) -> T * fs -> Prop.
  Variable np : bool.
  Hypothesis SL : StoreLaws EO SO owner W Rep np.
  Variable A : AlgOps E.
  Hypothesis AL : AlgLaws A.
  Let CL := sl_core _ _ _ _ _ _ SL.
  Let leaf := h_leaf A.

  (* a tree over one store: [t] lives in store s and file system f, has b^d leaves
     [leaves], and all its nodes are [els] *)
  Record TreeAt (b : nat) (t : mtree T E) (s : T) (f : fs) (d : nat) (leaves els : list E) : Prop := {
    ta_data : mt_data t = BaseTree s;
    ta_d : 1 <= d;
    ta_leafs : mt_leafs t = b ^ d;
    ta_len : mt_len_field t = geom b d;
    ta_rows : mt_row_count t = S d;
    ta_layout : Layout (h_node A) b d leaves els;
    ta_root : nth_error els (geom b d - 1) = Some (mt_root t);
    ta_rep : exists cap, Rep cap (geom b d) (nth_error els) (s, f)
  }.

  Lemma TreeAt_frame b t s f f' d leaves els :
    TreeAt b t s f d leaves els -> (forall i, owner s = Some i -> fs_ino f' i = fs_ino f i) ->
    TreeAt b t s f' d leaves els.
  Proof.
    intros [H1 H2 H3 H4 H5 H6 H7 [cap H8]] H. constructor; auto. exists cap.
    eapply (cl_frame _ _ _ _ _ _ _ _ _ _ CL); eauto.
  Qed.

  Section ForB.
  Variable b : nat.
  Hypothesis Hb : arity b.

  (* ---- observations ---- *)
  Lemma ta_MRoot t s f d leaves els : TreeAt b t s f d leaves els -> MRoot (h_node A) b d leaves (mt_root t).
  Proof. intros []. pose proof (arity_ge b Hb). eapply Layout_root; eauto. lia. Qed.

  Lemma ta_st_len t s f d leaves els : TreeAt b t s f d leaves els -> st_len SO s = geom b d.
  Proof. intros [H1 H2 H3 H4 H5 H6 H7 [cap H8]]. exact (cl_len _ _ _ _ _ _ _ _ _ _ CL _ _ _ _ H8). Qed.

  Lemma ta_mt_len t s f d leaves els : TreeAt b t s f d leaves els -> mt_len SO t = geom b d.
  Proof. intros H. unfold mt_len. rewrite (ta_data _ _ _ _ _ _ _ H). eapply ta_st_len; eauto. Qed.

  Lemma ta_read_at t s f d leaves els i e :
    TreeAt b t s f d leaves els -> nth_error els i = Some e -> st_read_at SO (s, f) i = Ok e.
  Proof.
    intros [H1 H2 H3 H4 H5 H6 H7 [cap H8]] He. eapply (cl_read_at _ _ _ _ _ _ _ _ _ _ CL); eauto.
    apply nth_error_lt in He. destruct H6 as (_ & L & _). lia.
  Qed.

  Lemma ta_read_range t s f d leaves els s0 e0 :
    TreeAt b t s f d leaves els -> s0 < e0 -> e0 <= geom b d ->
    st_read_range SO (s, f) s0 e0 = Ok (sub els s0 (e0 - s0)).
  Proof.
    intros [H1 H2 H3 H4 H5 H6 H7 [cap H8]] Hs He. destruct H6 as (_ & L & _).
    eapply (cl_read_range _ _ _ _ _ _ _ _ _ _ CL); eauto; [apply sub_length_le; lia|].
    intros k Hk. rewrite sub_length in Hk. rewrite nth_error_sub. replace (k <? e0 - s0) with true by lia. reflexivity.
  Qed.

  Lemma ta_last t s f d leaves els : TreeAt b t s f d leaves els -> store_last SO s f = Ok (mt_root t).
  Proof.
    intros H. unfold store_last. rewrite (ta_st_len _ _ _ _ _ _ H).
    rewrite checked_sub_ok by (pose proof (geom_pos b d); lia). cbn [rbind].
    eapply ta_read_at; [eauto|]. apply (ta_root _ _ _ _ _ _ _ H).
  Qed.

  (* ---- building ---- *)
  Variable en : env.
  Hypothesis Hch : chunk_ok en b.

  Lemma leafs_checks_full d : 1 <= d -> leafs_checks b (b ^ d) = Ok (geom b d, S d).
  Proof.
    intros Hd. pose proof (arity_ge b Hb) as H2. unfold leafs_checks.
    assert (1 < b ^ d).
    { destruct d; [lia|]. pose proof (mul_pow_ge 1 b d ltac:(lia) ltac:(lia)). lia. }
    replace (1 <? b ^ d) with true by lia. cbn [ensure rbind].
    replace (next_pow2 (b ^ d) =? b ^ d) with true by (symmetry; apply next_pow2_eqb, pow2_pow, arity_pow2; auto).
    rewrite (arity_next b Hb), Nat.eqb_refl. cbn [ensure rbind].
    rewrite get_merkle_tree_len_full, row_count_full by auto. reflexivity.
  Qed.

  Lemma finish_ok d leaves v s f c :
    1 <= d -> List.length leaves = b ^ d -> W s -> Rep (geom b d) (b ^ d) v (s, f) -> knows v 0 leaves ->
    exists root s' f', with_store s (st_build SO en A b (b ^ d) (S d) c) f = (Ok (root, s'), f') /\
      TreeAt b (mk_base SO s' (b ^ d) (geom b d) (S d) root) s' f' d leaves (all_rows A b leaves d) /\
      (W s' /\ Rep (geom b d) (geom b d) (nth_error (all_rows A b leaves d)) (s', f')) /\ owner s' = owner s /\ fs_frame (owner s) f f'.
  Proof.
    intros Hd Hl HW HR Hk. pose proof (arity_ge b Hb) as H2.
    destruct (sl_build_ok _ _ _ _ _ _ SL en A b leaves d c v (s, f) Hb Hd Hl Hch HW HR Hk)
      as (root & [s' f'] & H1 & H3 & H4 & H5 & H6).
    exists root, s', f'. unfold with_store. rewrite H1. split; [reflexivity|].
    destruct H5 as [H5 H7]. cbn [fst snd] in *. split; [|auto].
    constructor; auto; [apply all_rows_Layout; auto; lia|eauto].
  Qed.

  (* the tree sits in a file system made from f *)
  Definition Built (f : fs) (p : option string) (d : nat) (leaves : list E) (t : mtree T E) (f' : fs) : Prop :=
    exists s, TreeAt b t s f' d leaves (all_rows A b leaves d) /\
      (W s /\ Rep (geom b d) (geom b d) (nth_error (all_rows A b leaves d)) (s, f')) /\ Created f f' p (owner s).

  Lemma new_fresh size f : exists s f', st_new SO size f = (Ok s, f') /\ Rep size 0 (fun _ => None) (s, f') /\ W s /\ Created f f' None (owner s).
  Proof. destruct (sl_new _ _ _ _ _ _ SL size f) as (s & f' & H1 & H2 & H3 & H4 & H5 & H6). eauto 10. Qed.

  Lemma populated_ok d leaves c f f1 f2 p s s1 v :
    1 <= d -> List.length leaves = b ^ d ->
    Created f f1 p (owner s) -> Step owner (s, f1) (s1, f2) -> W s1 -> Rep (geom b d) (List.length leaves) v (s1, f2) ->
    knows v 0 leaves ->
    exists t f', (let! (root, data) := with_store s1 (st_build SO en A b (b ^ d) (S d) c) in
       sret (mk_base SO data (b ^ d) (geom b d) (S d) root)) f2 = (Ok t, f') /\ Built f p d leaves t f'.
  Proof.
    intros Hd Hl HC [S1 S2] HW HR Hk. cbn [fst snd] in *. rewrite Hl in HR.
    destruct (finish_ok d leaves v s1 f2 c Hd Hl HW HR Hk) as (root & s' & f' & H1 & H2 & H3 & H4 & H5).
    rewrite (sbind_ok _ _ _ _ _ H1). eexists _, f'. split; [reflexivity|].
    exists s'. split; [exact H2|]. split; [exact H3|]. rewrite H4, S1. eapply Created_frame; [|rewrite <- S1; exact H5].
    eapply Created_frame; eauto.
  Qed.

  Lemma try_from_iter_ok xs d f : 1 <= d -> List.length xs = b ^ d ->
    exists t f', try_from_iter EO SO A en b (Some (List.length xs)) (map Ok xs) f = (Ok t, f') /\
      Built f None d (map leaf xs) t f'.
  Proof.
    intros Hd Hl. unfold try_from_iter. rewrite (sbind_ok _ _ f (List.length xs) f) by reflexivity. rewrite Hl.
    rewrite leafs_checks_full by auto. rewrite (sbind_ok _ _ f (geom b d, S d) f) by reflexivity.
    destruct (new_fresh (geom b d) f) as (s & f1 & H1 & H2 & H3 & H4).
    rewrite (sbind_ok _ _ _ _ _ H1).
    destruct (populate_ok EO SO owner W Rep np (sl_pop _ _ _ _ _ _ SL) A AL en (geom b d) xs _ (s, f1) H3 H2) as (v & [s1 f2] & P1 & P2 & P3 & P4 & P5).
    { rewrite Hl. apply geom_gt. }
    rewrite (sbind_ok _ _ f1 (tt, s1) f2) by (unfold with_store; rewrite P1; reflexivity).
    eapply populated_ok; eauto; rewrite ?map_length; eauto.
  Qed.

  Lemma newc_fresh size c f : fs_dir f (cfg_path c) = None ->
    exists s f', st_new_with_config SO size b c f = (Ok s, f') /\ Rep size 0 (fun _ => None) (s, f') /\ W s /\
      st_loaded_from_disk SO s = false /\ Created f f' (Some (cfg_path c)) (owner s).
  Proof. intros Hp. destruct (sl_newc _ _ _ _ _ _ SL size b c f Hp) as (s & f' & H1 & H2 & H3 & H4 & H5 & H6). eauto 10. Qed.

  Lemma try_from_iter_wc_ok xs d c f : 1 <= d -> List.length xs = b ^ d -> fs_dir f (cfg_path c) = None ->
    exists t f', try_from_iter_with_config EO SO A en b (Some (List.length xs)) (map Ok xs) c f = (Ok t, f') /\
      Built f (Some (cfg_path c)) d (map leaf xs) t f'.
  Proof.
    intros Hd Hl Hp. unfold try_from_iter_with_config. rewrite (sbind_ok _ _ f (List.length xs) f) by reflexivity. rewrite Hl.
    rewrite leafs_checks_full by auto. rewrite (sbind_ok _ _ f (geom b d, S d) f) by reflexivity.
    destruct (newc_fresh (geom b d) c f Hp) as (s & f1 & H1 & H2 & H3 & HL & H4).
    rewrite (sbind_ok _ _ _ _ _ H1), HL.
    destruct (populate_ok EO SO owner W Rep np (sl_pop _ _ _ _ _ _ SL) A AL en (geom b d) xs _ (s, f1) H3 H2) as (v & [s1 f2] & P1 & P2 & P3 & P4 & P5).
    { rewrite Hl. apply geom_gt. }
    rewrite (sbind_ok _ _ f1 (tt, s1) f2) by (unfold with_store, sexpect; rewrite P1; reflexivity).
    eapply populated_ok; eauto; rewrite ?map_length; eauto.
  Qed.

  Lemma from_par_iter_ok xs d f : 0 < p_block (env_params en) -> 1 <= d -> List.length xs = b ^ d ->
    exists t f', from_par_iter EO SO A en b xs f = (Ok t, f') /\ Built f None d (map leaf xs) t f'.
  Proof.
    intros Hbl Hd Hl. unfold from_par_iter. cbv zeta. rewrite Hl.
    rewrite leafs_checks_full by auto. rewrite (sbind_ok _ _ f (geom b d, S d) f) by reflexivity.
    destruct (new_fresh (geom b d) f) as (s & f1 & H1 & H2 & H3 & H4).
    rewrite (sbind_ok _ _ f s f1) by (unfold sexpect; rewrite H1; reflexivity).
    destruct (populate_par_ok EO SO owner W Rep np (sl_pop _ _ _ _ _ _ SL) A AL en (geom b d) xs _ (s, f1) Hbl H3 H2) as (v & [s1 f2] & P1 & P2 & P3 & P4 & P5).
    { rewrite Hl. apply geom_gt. }
    rewrite (sbind_ok _ _ f1 (tt, s1) f2) by (unfold with_store; rewrite P1; reflexivity).
    eapply populated_ok; eauto; rewrite ?map_length; eauto.
  Qed.

  Lemma from_par_iter_wc_ok xs d c f : 0 < p_block (env_params en) -> 1 <= d -> List.length xs = b ^ d ->
    fs_dir f (cfg_path c) = None ->
    exists t f', from_par_iter_with_config EO SO A en b xs c f = (Ok t, f') /\ Built f (Some (cfg_path c)) d (map leaf xs) t f'.
  Proof.
    intros Hbl Hd Hl Hp. unfold from_par_iter_with_config. cbv zeta. rewrite Hl.
    rewrite leafs_checks_full by auto. rewrite (sbind_ok _ _ f (geom b d, S d) f) by reflexivity.
    destruct (newc_fresh (geom b d) c f Hp) as (s & f1 & H1 & H2 & H3 & HL & H4).
    rewrite (sbind_ok _ _ _ _ _ H1), HL.
    destruct (populate_par_ok EO SO owner W Rep np (sl_pop _ _ _ _ _ _ SL) A AL en (geom b d) xs _ (s, f1) Hbl H3 H2) as (v & [s1 f2] & P1 & P2 & P3 & P4 & P5).
    { rewrite Hl. apply geom_gt. }
    rewrite (sbind_ok _ _ f1 (tt, s1) f2) by (unfold with_store; rewrite P1; reflexivity).
    eapply populated_ok; eauto; rewrite ?map_length; eauto.
  Qed.

  (* from_byte_slice: no leaf hash *)
  Lemma from_byte_slice_ok els d f : 1 <= d -> List.length els = b ^ d ->
    exists t f', from_byte_slice EO SO A en b (encode EO els) f = (Ok t, f') /\ Built f None d els t f'.
  Proof.
    intros Hd Hl. pose proof (bl_pos EO EL) as Hbl. unfold from_byte_slice.
    rewrite encode_length, Nat.mod_mul, Nat.eqb_refl, Nat.div_mul by (auto; lia).
    unfold ensure at 1. rewrite (sbind_ok _ _ f tt f) by reflexivity.
    rewrite Hl, leafs_checks_full by auto. rewrite (sbind_ok _ _ f (geom b d, S d) f) by reflexivity.
    destruct (sl_slice _ _ _ _ _ _ SL els (geom b d) f) as (s & f1 & H1 & H2 & H3 & H4); [rewrite Hl; apply geom_gt|].
    rewrite (sbind_ok _ _ _ _ _ H1).
    eapply populated_ok with (f1 := f1) (s := s) (v := nth_error els); eauto; [apply Step_refl|].
    intros k Hk. reflexivity.
  Qed.

  Lemma from_byte_slice_wc_ok els d c f : 1 <= d -> List.length els = b ^ d -> fs_dir f (cfg_path c) = None ->
    exists t f', from_byte_slice_with_config EO SO A en b (encode EO els) c f = (Ok t, f') /\ Built f (Some (cfg_path c)) d els t f'.
  Proof.
    intros Hd Hl Hp. pose proof (bl_pos EO EL) as Hbl. unfold from_byte_slice_with_config.
    rewrite encode_length, Nat.mod_mul, Nat.eqb_refl, Nat.div_mul by (auto; lia).
    unfold ensure at 1. rewrite (sbind_ok _ _ f tt f) by reflexivity.
    rewrite Hl, leafs_checks_full by auto. rewrite (sbind_ok _ _ f (geom b d, S d) f) by reflexivity.
    destruct (sl_slicec _ _ _ _ _ _ SL els (geom b d) b c f) as (s & f1 & H1 & H2 & H3 & H4); [rewrite Hl; apply geom_gt|auto|].
    rewrite (sbind_ok _ _ _ _ _ H1).
    eapply populated_ok with (f1 := f1) (s := s) (v := nth_error els); eauto; [apply Step_refl|].
    intros k Hk. reflexivity.
  Qed.

  Lemma from_byte_slice_bad_len bs c f : List.length bs mod e_byte_len EO <> 0 ->
    exists e, from_byte_slice EO SO A en b bs f = (Err e, f) /\ from_byte_slice_with_config EO SO A en b bs c f = (Err e, f).
  Proof.
    intros H. unfold from_byte_slice, from_byte_slice_with_config.
    replace (_ =? 0) with false by lia. eexists. split; reflexivity.
  Qed.

  (* ---- from_data ---- *)
  Definition hash_of (x : hval) : E := fst (a_hash A (hash_into A (a_default A) x)).
  Lemma hash_items_ok xs : forall a, hash_items A xs a = map hash_of xs.
  Proof.
    induction xs as [|x xs IH]; intros a; [reflexivity|]. cbn [hash_items map]. rewrite AL. unfold hash_of at 1.
    destruct (a_hash A (hash_into A (a_default A) x)) as [h a']. rewrite IH. reflexivity.
  Qed.

  Lemma from_data_ok xs d f : 1 <= d -> List.length xs = b ^ d ->
    exists t f', from_data EO SO A en b xs f = (Ok t, f') /\ Built f None d (map leaf (map hash_of xs)) t f'.
  Proof.
    intros Hd Hl. unfold from_data. rewrite hash_items_ok. rewrite <- (map_length hash_of xs).
    apply try_from_iter_ok; auto. rewrite map_length. auto.
  Qed.
  Lemma from_data_wc_ok xs d c f : 1 <= d -> List.length xs = b ^ d -> fs_dir f (cfg_path c) = None ->
    exists t f', from_data_with_config EO SO A en b xs c f = (Ok t, f') /\
      Built f (Some (cfg_path c)) d (map leaf (map hash_of xs)) t f'.
  Proof.
    intros Hd Hl Hp. unfold from_data_with_config. rewrite hash_items_ok. rewrite <- (map_length hash_of xs).
    apply try_from_iter_wc_ok; auto. rewrite map_length. auto.
  Qed.

  (* ---- failures ---- *)
  Lemma leafs_checks_cases n :
    (exists e, leafs_checks b n = Err e) \/
    exists m q, pow2 m /\ 1 <= m < b /\ 1 <= q /\ n = m * b ^ q /\ leafs_checks b n = Ok (m * geom b q, S q).
  Proof.
    pose proof (arity_ge b Hb) as H2. unfold leafs_checks.
    destruct (1 <? n) eqn:G1; [|left; eexists; reflexivity]. cbn [ensure rbind].
    destruct (next_pow2 n =? n) eqn:G2; [|left; eexists; reflexivity]. cbn [ensure rbind].
    rewrite (arity_next b Hb), Nat.eqb_refl. cbn [ensure rbind].
    apply next_pow2_eqb in G2. destruct (pow2_decomp b n Hb G2) as (m & q & Hn & Hm & Hmb).
    destruct q as [|q].
    - left. destruct (get_merkle_tree_len_small n b) as [e He]; [simpl in Hn; lia|]. rewrite He. eexists. reflexivity.
    - right. exists m, (S q). pose proof (pow2_pos m Hm). subst n.
      split; [auto|]. split; [lia|]. split; [lia|]. split; [reflexivity|].
      rewrite get_merkle_tree_len_decomp by (auto; lia). cbn [rbind].
      rewrite row_count_decomp by (auto; lia). reflexivity.
  Qed.

  Lemma build_bad_with m q leaves v s f c :
    1 < m < b -> 1 <= q -> List.length leaves = m * b ^ q -> W s -> Rep (m * geom b q) (m * b ^ q) v (s, f) -> knows v 0 leaves ->
    exists r f', (let! (root, data) := with_store s (st_build SO en A b (m * b ^ q) (S q) c) in
       sret (mk_base SO data (m * b ^ q) (m * geom b q) (S q) root)) f = (r, f') /\ failed np r.
  Proof.
    intros Hm Hq Hl HW HR Hk.
    destruct (sl_build_bad _ _ _ _ _ _ SL en A b leaves m q c v (s, f) Hb Hq Hm Hl Hch HW HR Hk) as (r & [s' f'] & H1 & H2).
    unfold sbind at 1, with_store. rewrite H1. destruct r; cbn in H2; try contradiction; eexists _, _; (split; [reflexivity|auto]).
  Qed.

  (* n items, the hint says n, n is not a power of the arity *)
  Lemma try_from_iter_bad xs f : (forall d, 1 <= d -> List.length xs <> b ^ d) ->
    exists r f', try_from_iter EO SO A en b (Some (List.length xs)) (map Ok xs) f = (r, f') /\ failed np r.
  Proof.
    intros Hbad. unfold try_from_iter. rewrite (sbind_ok _ _ f (List.length xs) f) by reflexivity.
    destruct (leafs_checks_cases (List.length xs)) as [[e He]|(m & q & Hm & Hmb & Hq & Hn & Hc)].
    - rewrite He. eexists _, _. split; [reflexivity|exact I].
    - rewrite Hc. rewrite (sbind_ok _ _ f (m * geom b q, S q) f) by reflexivity.
      assert (Hm1 : 1 < m).
      { destruct (Nat.eq_dec m 1) as [->|]; [|lia]. exfalso. apply (Hbad q Hq). lia. }
      destruct (new_fresh (m * geom b q) f) as (s & f1 & H1 & H2 & H3 & H4).
      rewrite (sbind_ok _ _ _ _ _ H1).
      destruct (populate_ok EO SO owner W Rep np (sl_pop _ _ _ _ _ _ SL) A AL en (m * geom b q) xs _ (s, f1) H3 H2) as (v & [s1 f2] & P1 & P2 & P3 & P4 & P5).
      { rewrite Hn. apply Nat.mul_le_mono_l, geom_gt. }
      rewrite (sbind_ok _ _ f1 (tt, s1) f2) by (unfold with_store; rewrite P1; reflexivity).
      rewrite Hn in P3 |- *. eapply build_bad_with with (leaves := map leaf xs); eauto; [lia|]. rewrite map_length. exact Hn.
  Qed.

  Lemma try_from_iter_wc_bad xs c f : fs_dir f (cfg_path c) = None -> (forall d, 1 <= d -> List.length xs <> b ^ d) ->
    exists r f', try_from_iter_with_config EO SO A en b (Some (List.length xs)) (map Ok xs) c f = (r, f') /\ failed np r.
  Proof.
    intros Hp Hbad. unfold try_from_iter_with_config. rewrite (sbind_ok _ _ f (List.length xs) f) by reflexivity.
    destruct (leafs_checks_cases (List.length xs)) as [[e He]|(m & q & Hm & Hmb & Hq & Hn & Hc)].
    - rewrite He. eexists _, _. split; [reflexivity|exact I].
    - rewrite Hc. rewrite (sbind_ok _ _ f (m * geom b q, S q) f) by reflexivity.
      assert (Hm1 : 1 < m).
      { destruct (Nat.eq_dec m 1) as [->|]; [|lia]. exfalso. apply (Hbad q Hq). lia. }
      destruct (newc_fresh (m * geom b q) c f Hp) as (s & f1 & H1 & H2 & H3 & HL & H4).
      rewrite (sbind_ok _ _ _ _ _ H1), HL.
      destruct (populate_ok EO SO owner W Rep np (sl_pop _ _ _ _ _ _ SL) A AL en (m * geom b q) xs _ (s, f1) H3 H2) as (v & [s1 f2] & P1 & P2 & P3 & P4 & P5).
      { rewrite Hn. apply Nat.mul_le_mono_l, geom_gt. }
      rewrite (sbind_ok _ _ f1 (tt, s1) f2) by (unfold with_store, sexpect; rewrite P1; reflexivity).
      rewrite Hn in P3 |- *. eapply build_bad_with with (leaves := map leaf xs); eauto; [lia|]. rewrite map_length. exact Hn.
  Qed.

  Lemma from_par_iter_bad xs f : 0 < p_block (env_params en) -> (forall d, 1 <= d -> List.length xs <> b ^ d) ->
    exists r f', from_par_iter EO SO A en b xs f = (r, f') /\ failed np r.
  Proof.
    intros Hbl Hbad. unfold from_par_iter. cbv zeta.
    destruct (leafs_checks_cases (List.length xs)) as [[e He]|(m & q & Hm & Hmb & Hq & Hn & Hc)].
    - rewrite He. eexists _, _. split; [reflexivity|exact I].
    - rewrite Hc. rewrite (sbind_ok _ _ f (m * geom b q, S q) f) by reflexivity.
      assert (Hm1 : 1 < m).
      { destruct (Nat.eq_dec m 1) as [->|]; [|lia]. exfalso. apply (Hbad q Hq). lia. }
      destruct (new_fresh (m * geom b q) f) as (s & f1 & H1 & H2 & H3 & H4).
      rewrite (sbind_ok _ _ f s f1) by (unfold sexpect; rewrite H1; reflexivity).
      destruct (populate_par_ok EO SO owner W Rep np (sl_pop _ _ _ _ _ _ SL) A AL en (m * geom b q) xs _ (s, f1) Hbl H3 H2) as (v & [s1 f2] & P1 & P2 & P3 & P4 & P5).
      { rewrite Hn. apply Nat.mul_le_mono_l, geom_gt. }
      rewrite (sbind_ok _ _ f1 (tt, s1) f2) by (unfold with_store; rewrite P1; reflexivity).
      rewrite Hn in P3 |- *. eapply build_bad_with with (leaves := map leaf xs); eauto; [lia|]. rewrite map_length. exact Hn.
  Qed.

  Lemma from_par_iter_wc_bad xs c f : 0 < p_block (env_params en) -> fs_dir f (cfg_path c) = None ->
    (forall d, 1 <= d -> List.length xs <> b ^ d) ->
    exists r f', from_par_iter_with_config EO SO A en b xs c f = (r, f') /\ failed np r.
  Proof.
    intros Hbl Hp Hbad. unfold from_par_iter_with_config. cbv zeta.
    destruct (leafs_checks_cases (List.length xs)) as [[e He]|(m & q & Hm & Hmb & Hq & Hn & Hc)].
    - rewrite He. eexists _, _. split; [reflexivity|exact I].
    - rewrite Hc. rewrite (sbind_ok _ _ f (m * geom b q, S q) f) by reflexivity.
      assert (Hm1 : 1 < m).
      { destruct (Nat.eq_dec m 1) as [->|]; [|lia]. exfalso. apply (Hbad q Hq). lia. }
      destruct (newc_fresh (m * geom b q) c f Hp) as (s & f1 & H1 & H2 & H3 & HL & H4).
      rewrite (sbind_ok _ _ _ _ _ H1), HL.
      destruct (populate_par_ok EO SO owner W Rep np (sl_pop _ _ _ _ _ _ SL) A AL en (m * geom b q) xs _ (s, f1) Hbl H3 H2) as (v & [s1 f2] & P1 & P2 & P3 & P4 & P5).
      { rewrite Hn. apply Nat.mul_le_mono_l, geom_gt. }
      rewrite (sbind_ok _ _ f1 (tt, s1) f2) by (unfold with_store; rewrite P1; reflexivity).
      rewrite Hn in P3 |- *. eapply build_bad_with with (leaves := map leaf xs); eauto; [lia|]. rewrite map_length. exact Hn.
  Qed.

  Lemma from_byte_slice_bad els f : (forall d, 1 <= d -> List.length els <> b ^ d) ->
    exists r f', from_byte_slice EO SO A en b (encode EO els) f = (r, f') /\ failed np r.
  Proof.
    intros Hbad. pose proof (bl_pos EO EL) as Hbl. unfold from_byte_slice.
    rewrite encode_length, Nat.mod_mul, Nat.eqb_refl, Nat.div_mul by (auto; lia).
    unfold ensure at 1. rewrite (sbind_ok _ _ f tt f) by reflexivity.
    destruct (leafs_checks_cases (List.length els)) as [[e He]|(m & q & Hm & Hmb & Hq & Hn & Hc)].
    - rewrite He. eexists _, _. split; [reflexivity|exact I].
    - rewrite Hc. rewrite (sbind_ok _ _ f (m * geom b q, S q) f) by reflexivity.
      assert (Hm1 : 1 < m).
      { destruct (Nat.eq_dec m 1) as [->|]; [|lia]. exfalso. apply (Hbad q Hq). lia. }
      destruct (sl_slice _ _ _ _ _ _ SL els (m * geom b q) f) as (s & f1 & H1 & H2 & H3 & H4);
        [rewrite Hn; apply Nat.mul_le_mono_l, geom_gt|].
      rewrite (sbind_ok _ _ _ _ _ H1). rewrite Hn in H2 |- *.
      eapply build_bad_with with (leaves := els) (v := nth_error els); eauto; [lia|]. intros k Hk. reflexivity.
  Qed.

  Lemma from_byte_slice_wc_bad els c f : fs_dir f (cfg_path c) = None -> (forall d, 1 <= d -> List.length els <> b ^ d) ->
    exists r f', from_byte_slice_with_config EO SO A en b (encode EO els) c f = (r, f') /\ failed np r.
  Proof.
    intros Hp Hbad. pose proof (bl_pos EO EL) as Hbl. unfold from_byte_slice_with_config.
    rewrite encode_length, Nat.mod_mul, Nat.eqb_refl, Nat.div_mul by (auto; lia).
    unfold ensure at 1. rewrite (sbind_ok _ _ f tt f) by reflexivity.
    destruct (leafs_checks_cases (List.length els)) as [[e He]|(m & q & Hm & Hmb & Hq & Hn & Hc)].
    - rewrite He. eexists _, _. split; [reflexivity|exact I].
    - rewrite Hc. rewrite (sbind_ok _ _ f (m * geom b q, S q) f) by reflexivity.
      assert (Hm1 : 1 < m).
      { destruct (Nat.eq_dec m 1) as [->|]; [|lia]. exfalso. apply (Hbad q Hq). lia. }
      destruct (sl_slicec _ _ _ _ _ _ SL els (m * geom b q) b c f) as (s & f1 & H1 & H2 & H3 & H4);
        [rewrite Hn; apply Nat.mul_le_mono_l, geom_gt|auto|].
      rewrite (sbind_ok _ _ _ _ _ H1). rewrite Hn in H2 |- *.
      eapply build_bad_with with (leaves := els) (v := nth_error els); eauto; [lia|]. intros k Hk. reflexivity.
  Qed.

  (* ---- iterator errors and lying hints (C09, C10) ---- *)
  Lemma try_from_iter_err n d xs e more f : 1 <= d -> n = b ^ d -> List.length xs <= geom b d ->
    exists f', try_from_iter EO SO A en b (Some n) (map Ok xs ++ Err e :: more) f = (Err e, f').
  Proof.
    intros Hd -> Hl. unfold try_from_iter. rewrite (sbind_ok _ _ f (b ^ d) f) by reflexivity.
    rewrite leafs_checks_full by auto. rewrite (sbind_ok _ _ f (geom b d, S d) f) by reflexivity.
    destruct (new_fresh (geom b d) f) as (s & f1 & H1 & H2 & H3 & H4).
    rewrite (sbind_ok _ _ _ _ _ H1).
    destruct (populate_err EO SO owner W Rep np (sl_pop _ _ _ _ _ _ SL) A AL en (geom b d) xs e more _ (s, f1) H3 H2 Hl) as ([s1 f2] & P1).
    unfold sbind at 1, with_store at 1. rewrite P1. eexists. reflexivity.
  Qed.

  Lemma try_from_iter_wc_err n d xs e more c f : 1 <= d -> n = b ^ d -> List.length xs <= geom b d ->
    fs_dir f (cfg_path c) = None ->
    exists f', try_from_iter_with_config EO SO A en b (Some n) (map Ok xs ++ Err e :: more) c f = (Panic "failed to populate data", f').
  Proof.
    intros Hd -> Hl Hp. unfold try_from_iter_with_config. rewrite (sbind_ok _ _ f (b ^ d) f) by reflexivity.
    rewrite leafs_checks_full by auto. rewrite (sbind_ok _ _ f (geom b d, S d) f) by reflexivity.
    destruct (newc_fresh (geom b d) c f Hp) as (s & f1 & H1 & H2 & H3 & HL & H4).
    rewrite (sbind_ok _ _ _ _ _ H1), HL.
    destruct (populate_err EO SO owner W Rep np (sl_pop _ _ _ _ _ _ SL) A AL en (geom b d) xs e more _ (s, f1) H3 H2 Hl) as ([s1 f2] & P1).
    unfold sbind at 1, with_store at 1, sexpect. rewrite P1. eexists. reflexivity.
  Qed.

  Lemma items_dec (items : list (res E)) n :
    (exists xs, items = map Ok xs /\ List.length xs = n) \/ ~ (exists xs, items = map Ok xs /\ List.length xs = n).
  Proof.
    assert (G : (exists xs, items = map (@Ok E) xs) \/ ~ exists xs, items = map (@Ok E) xs).
    { induction items as [|i items IH]; [left; exists []; reflexivity|].
      destruct IH as [[xs ->]|IH]; [|right; intros [[|x xs] Hx]; [discriminate|apply IH; exists xs; injection Hx; auto]].
      destruct i as [x|e|e|]; [left; exists (x :: xs); reflexivity|right|right|right]; intros [[|y ys] Hx]; discriminate. }
    destruct G as [[xs ->]|G]; [|right; intros (xs & Hx & _); apply G; eauto].
    destruct (Nat.eq_dec (List.length xs) n) as [G|G]; [left; eauto|right].
    intros (ys & Hx & Hy). apply (f_equal (@List.length _)) in Hx. rewrite !map_length in Hx. congruence.
  Qed.

  Lemma full_dec n : (exists d, 1 <= d /\ n = b ^ d) \/ forall d, 1 <= d -> n <> b ^ d.
  Proof.
    pose proof (arity_ge b Hb) as H2.
    assert (G : forall k, (exists d, 1 <= d /\ d <= k /\ n = b ^ d) \/ forall d, 1 <= d -> d <= k -> n <> b ^ d).
    { induction k as [|k [(d & H)|IH]]; [right; lia|left; exists d; lia|].
      destruct (Nat.eq_dec n (b ^ S k)) as [->|H]; [left; exists (S k); lia|].
      right. intros d Hd Hk. destruct (Nat.eq_dec d (S k)) as [->|]; [auto|apply IH; lia]. }
    destruct (G n) as [(d & H)|H]; [left; exists d; tauto|right].
    intros d Hd ->. apply (H d Hd); auto. pose proof (Nat.pow_gt_lin_r b d). lia.
  Qed.

  Lemma try_from_iter_total xs f :
    match try_from_iter EO SO A en b (Some (List.length xs)) (map Ok xs) f with
    | (Ok _, _) => True | (Err _, _) => True | (Panic _, _) => np = false | (Diverge, _) => False
    end.
  Proof.
    destruct (full_dec (List.length xs)) as [(d & Hd & Hn)|H].
    - destruct (try_from_iter_ok xs d f Hd Hn) as (t & f' & -> & _). exact I.
    - destruct (try_from_iter_bad xs f H) as (r & f' & -> & HF). destruct r; cbn in HF; auto.
  Qed.
  Lemma try_from_iter_wc_total xs c f : fs_dir f (cfg_path c) = None ->
    match try_from_iter_with_config EO SO A en b (Some (List.length xs)) (map Ok xs) c f with
    | (Ok _, _) => True | (Err _, _) => True | (Panic _, _) => np = false | (Diverge, _) => False
    end.
  Proof.
    intros Hp. destruct (full_dec (List.length xs)) as [(d & Hd & Hn)|H].
    - destruct (try_from_iter_wc_ok xs d c f Hd Hn Hp) as (t & f' & -> & _). exact I.
    - destruct (try_from_iter_wc_bad xs c f Hp H) as (r & f' & -> & HF). destruct r; cbn in HF; auto.
  Qed.

  (* no tree unless every item is Ok and their number is the hint *)
  Lemma try_from_iter_inv hint items f :
    Forall item_ok items ->
    match try_from_iter EO SO A en b hint items f with
    | (Ok _, _) => exists xs, items = map Ok xs /\ hint = Some (List.length xs)
    | (Err _, _) => True
    | (Panic _, _) => np = false
    | (Diverge, _) => False
    end.
  Proof.
    intros HI. destruct hint as [n|]; [|exact I].
    destruct (items_dec items n) as [(xs & -> & <-)|HD].
    { pose proof (try_from_iter_total xs f) as HT.
      destruct (try_from_iter EO SO A en b (Some (List.length xs)) (map Ok xs) f) as [[t|e|e|] f']; eauto. }
    unfold try_from_iter. rewrite (sbind_ok _ _ f n f) by reflexivity.
    destruct (leafs_checks_cases n) as [[e He]|(m & q & Hm & Hmb & Hq & Hn & Hc)]; [rewrite He; exact I|].
    rewrite Hc. rewrite (sbind_ok _ _ f (m * geom b q, S q) f) by reflexivity.
    destruct (new_fresh (m * geom b q) f) as (s & f1 & H1 & H2 & H3 & H4).
    rewrite (sbind_ok _ _ _ _ _ H1).
    pose proof (populate_any EO SO owner W Rep np (sl_pop _ _ _ _ _ _ SL) A en items _ _ (s, f1) H2 HI) as HP.
    unfold sbind at 1, with_store at 1.
    destruct (populate_data EO SO A en items (s, f1)) as [[u|e|e|] [s1 f2]] eqn:EP; auto.
    destruct HP as [HP1 HP2]. cbn [fst] in HP1.
    assert (Hx : exists xs, items = map Ok xs).
    { clear - HP2. induction HP2 as [|i l [e ->] _ [xs ->]]; [exists []; reflexivity|exists (e :: xs); reflexivity]. }
    destruct Hx as [xs ->]. rewrite map_length in HP1.
    destruct (Nat.eq_dec (List.length xs) n) as [G|G].
    - exfalso. apply HD. exists xs. auto.
    - destruct (sl_build_len _ _ _ _ _ _ SL en A b n (S q) None (s1, f2) Hb) as [e He]; [cbn; congruence|].
      unfold sbind, with_store. rewrite He. exact I.
  Qed.

  (* the with_config variant on a fresh path: no tree either; errors of the
     population step have become panics *)
  Lemma try_from_iter_wc_inv hint items c f :
    Forall item_ok items -> fs_dir f (cfg_path c) = None ->
    match try_from_iter_with_config EO SO A en b hint items c f with
    | (Ok _, _) => exists xs, items = map Ok xs /\ hint = Some (List.length xs)
    | (Err _, _) => True
    | (Panic _, _) => True
    | (Diverge, _) => False
    end.
  Proof.
    intros HI Hp. destruct hint as [n|]; [|exact I].
    destruct (items_dec items n) as [(xs & -> & <-)|HD].
    { pose proof (try_from_iter_wc_total xs c f Hp) as HT.
      destruct (try_from_iter_with_config EO SO A en b (Some (List.length xs)) (map Ok xs) c f) as [[t|e|e|] f']; eauto. }
    unfold try_from_iter_with_config.
    rewrite (sbind_ok _ _ f n f) by reflexivity.
    destruct (leafs_checks_cases n) as [[e He]|(m & q & Hm & Hmb & Hq & Hn & Hc)]; [rewrite He; exact I|].
    rewrite Hc. rewrite (sbind_ok _ _ f (m * geom b q, S q) f) by reflexivity.
    destruct (newc_fresh (m * geom b q) c f Hp) as (s & f1 & H1 & H2 & H3 & HL & H4).
    rewrite (sbind_ok _ _ _ _ _ H1), HL.
    pose proof (populate_any EO SO owner W Rep np (sl_pop _ _ _ _ _ _ SL) A en items _ _ (s, f1) H2 HI) as HP.
    unfold sbind at 1, with_store at 1, sexpect.
    destruct (populate_data EO SO A en items (s, f1)) as [[u|e|e|] [s1 f2]] eqn:EP; cbn [expect]; auto.
    destruct HP as [HP1 HP2]. cbn [fst] in HP1.
    assert (Hx : exists xs, items = map Ok xs).
    { clear - HP2. induction HP2 as [|i l [e ->] _ [xs ->]]; [exists []; reflexivity|exists (e :: xs); reflexivity]. }
    destruct Hx as [xs ->]. rewrite map_length in HP1.
    destruct (Nat.eq_dec (List.length xs) n) as [G|G].
    - exfalso. apply HD. eauto.
    - destruct (sl_build_len _ _ _ _ _ _ SL en A b n (S q) (Some c) (s1, f2) Hb) as [e He]; [cbn; congruence|].
      unfold sbind, with_store. rewrite He. exact I.
  Qed.

  (* ---- trees over given stores and bytes ---- *)
  Lemma rep_st_len cap n v (s : T) (f : fs) : Rep cap n v (s, f) -> st_len SO s = n.
  Proof. exact (cl_len _ _ _ _ _ _ _ _ _ _ CL cap n v (s, f)). Qed.

  Lemma from_data_store_ok s f d leaves els cap :
    1 <= d -> Layout (h_node A) b d leaves els -> Rep cap (geom b d) (nth_error els) (s, f) ->
    exists t, from_data_store SO b 0 0 s (b ^ d) f = (Ok t, f) /\ TreeAt b t s f d leaves els.
  Proof.
    intros Hd HL HR. unfold from_data_store. cbn [Nat.eqb ensure].
    rewrite (sbind_ok _ _ f tt f) by reflexivity. rewrite (sbind_ok _ _ f tt f) by reflexivity.
    replace (next_pow2 (b ^ d) =? b ^ d) with true by (symmetry; apply next_pow2_eqb, pow2_pow, arity_pow2; auto).
    rewrite (arity_next b Hb), Nat.eqb_refl. cbn [ensure].
    rewrite (sbind_ok _ _ f tt f) by reflexivity. rewrite (sbind_ok _ _ f tt f) by reflexivity.
    rewrite get_merkle_tree_len_full by auto. rewrite (sbind_ok _ _ f (geom b d) f) by reflexivity.
    rewrite (rep_st_len _ _ _ _ _ HR), Nat.eqb_refl. cbn [ensure].
    rewrite (sbind_ok _ _ f tt f) by reflexivity.
    rewrite size_valid_full by auto. rewrite (sbind_ok _ _ f true f) by reflexivity. cbn [ensure].
    rewrite (sbind_ok _ _ f tt f) by reflexivity.
    pose proof HL as (L1 & L2 & L3). pose proof (geom_pos b d) as Hg.
    destruct (nth_error_ex els (geom b d - 1) ltac:(lia)) as [root Hroot].
    assert (Hlast : sreads (store_last SO s) f = (Ok root, f)).
    { unfold sreads, store_last. rewrite (rep_st_len _ _ _ _ _ HR).
      rewrite checked_sub_ok by lia. cbn [rbind]. f_equal.
      eapply (cl_read_at _ _ _ _ _ _ _ _ _ _ CL); [exact HR|lia|exact Hroot]. }
    rewrite (sbind_ok _ _ _ _ _ Hlast). eexists. split; [reflexivity|].
    rewrite row_count_full by auto. constructor; auto. eauto.
  Qed.

  Lemma tree_slice_checks_full els d : 1 <= d -> List.length els = geom b d ->
    tree_slice_checks EO b 0 0 (encode EO els) (b ^ d) = Ok (geom b d).
  Proof.
    intros Hd Hl. pose proof (bl_pos EO EL) as Hbl. unfold tree_slice_checks. cbn [Nat.eqb ensure rbind].
    rewrite get_merkle_tree_len_full by auto. cbn [rbind].
    rewrite encode_length, Nat.div_mul, Hl, Nat.eqb_refl by (auto; lia). cbn [ensure rbind].
    rewrite size_valid_full by auto. reflexivity.
  Qed.

  Lemma from_tree_slice_ok d leaves els f : 1 <= d -> Layout (h_node A) b d leaves els ->
    exists t s f', from_tree_slice EO SO b 0 0 (encode EO els) (b ^ d) f = (Ok t, f') /\
      TreeAt b t s f' d leaves els /\ W s /\ Created f f' None (owner s).
  Proof.
    intros Hd HL. pose proof HL as (L1 & L2 & L3). pose proof (geom_pos b d) as Hg.
    unfold from_tree_slice. rewrite tree_slice_checks_full by auto. rewrite (sbind_ok _ _ f (geom b d) f) by reflexivity.
    destruct (sl_slice _ _ _ _ _ _ SL els (geom b d) f ltac:(lia)) as (s & f1 & H1 & H2 & H3 & H4).
    rewrite (sbind_ok _ _ _ _ _ H1). rewrite L2 in H2.
    destruct (nth_error_ex els (geom b d - 1) ltac:(lia)) as [root Hroot].
    assert (Hlast : sreads (store_last SO s) f1 = (Ok root, f1)).
    { unfold sreads, store_last. rewrite (rep_st_len _ _ _ _ _ H2).
      rewrite checked_sub_ok by lia. cbn [rbind]. f_equal.
      eapply (cl_read_at _ _ _ _ _ _ _ _ _ _ CL); [exact H2|lia|exact Hroot]. }
    rewrite (sbind_ok _ _ _ _ _ Hlast). eexists _, s, f1. split; [reflexivity|]. split; [|auto].
    rewrite row_count_full by auto. constructor; auto. eauto.
  Qed.

  Lemma from_tree_slice_wc_ok d leaves els c f : 1 <= d -> Layout (h_node A) b d leaves els -> fs_dir f (cfg_path c) = None ->
    exists t s f', from_tree_slice_with_config EO SO b 0 0 (encode EO els) (b ^ d) c f = (Ok t, f') /\
      TreeAt b t s f' d leaves els /\ W s /\ Created f f' (Some (cfg_path c)) (owner s).
  Proof.
    intros Hd HL Hp. pose proof HL as (L1 & L2 & L3). pose proof (geom_pos b d) as Hg.
    unfold from_tree_slice_with_config. rewrite tree_slice_checks_full by auto. rewrite (sbind_ok _ _ f (geom b d) f) by reflexivity.
    destruct (sl_slicec _ _ _ _ _ _ SL els (geom b d) b c f ltac:(lia) Hp) as (s & f1 & H1 & H2 & H3 & H4).
    rewrite (sbind_ok _ _ _ _ _ H1). rewrite L2 in H2.
    destruct (nth_error_ex els (geom b d - 1) ltac:(lia)) as [root Hroot].
    assert (Hlast : sreads (store_last SO s) f1 = (Ok root, f1)).
    { unfold sreads, store_last. rewrite (rep_st_len _ _ _ _ _ H2).
      rewrite checked_sub_ok by lia. cbn [rbind]. f_equal.
      eapply (cl_read_at _ _ _ _ _ _ _ _ _ _ CL); [exact H2|lia|exact Hroot]. }
    rewrite (sbind_ok _ _ _ _ _ Hlast). eexists _, s, f1. split; [reflexivity|]. split; [|auto].
    rewrite row_count_full by auto. constructor; auto. eauto.
  Qed.
  End ForB.
End TreeF.
