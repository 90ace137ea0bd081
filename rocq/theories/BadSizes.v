(* Leaf counts that pass the size checks but are not powers of the arity: exactly what the
   constructors do with them. *)
From Coq Require Import String List Arith Bool Lia Init.Byte ZifyBool ZifyNat.
From Verif Require Import Base Element Hash Sizing FS Sched Store VecStore DiskStore MmapStore ProofModel Tree ListFacts Spec SpecFacts SizingFacts SchedFacts StoreLaws RowFacts ChunkFacts BuildFacts BuildLoop StoreSpec FileFacts VecFacts DiskFacts MmapFacts PopFacts TreeFacts TreeObs Builders.
Import ListNotations.

Lemma hash_small {E} (A : AlgOps E) b level row : 0 < List.length row < b -> hash_row A b level row = [h_node A level row].
Proof.
  intros H. unfold hash_row. rewrite chunks_cons; [|lia|destruct row; simpl in *; [lia|congruence]].
  rewrite firstn_all2, skipn_all2 by lia. rewrite chunks_nil. reflexivity.
Qed.

Section Loose.
  Context {E : Type} (EO : ElementOps E) (EL : ElementLaws EO).
  Context {T : Type}.
  Let St := (T * fs)%type.
  Variable len : T -> nat.
  Variable read_at : St -> nat -> res E.
  Variable read_range : St -> nat -> nat -> res (list E).
  Variable write_at : E -> nat -> SM St unit.
  Variable copy_from_slice : list byte -> nat -> SM St unit.
  Variable owner : T -> option nat.
  Variable W : T -> Prop.
  Variable Rep : nat -> nat -> (nat -> option E) -> St -> Prop.
  Variable np : bool.
  Hypothesis CL : CoreLaws EO len read_at read_range write_at copy_from_slice owner W Rep np.
  Variable A : AlgOps E.
  Variable b : nat.
  Hypothesis Hb : arity b.
  Variable chunk : nat.

  (* on a store that panics on writes past its capacity *)
  Lemma default_build_loose small sched leaves m q v st :
    List.length leaves = m * b ^ q -> 1 < m < b -> 1 <= q ->
    (forall e i n v st, Rep (m * geom b q) n v st -> m * geom b q <= i -> exists x st', write_at e i st = (Panic x, st')) ->
    (m * b ^ q <= small \/ (0 < chunk /\ chunk mod b = 0)) ->
    W (fst st) -> Rep (m * geom b q) (m * b ^ q) v st -> knows v 0 leaves ->
    exists x st', default_build_fuel EO len read_at read_range write_at copy_from_slice A b chunk (S (m * b ^ q)) small sched (m * b ^ q) (S q) st =
      (if m * b ^ q <=? small then Panic x else Err x, st').
  Proof.
    intros HL Hm Hq Hpast Hch HW HR Hk. set (cap := m * geom b q) in *. pose proof (arity_ge b Hb) as H2.
    pose proof (even_leafs b Hb m q ltac:(lia) Hq) as Hev.
    pose proof (pow_fuel m b q ltac:(lia) H2) as Hf.
    assert (Hat : at_level W Rep A b leaves m q cap 0 st) by (eapply (at_level_start owner); eauto).
    unfold default_build_fuel. rewrite (arity_next b Hb), Nat.eqb_refl.
    unfold ensure at 1. rewrite (sbind_ok _ _ st tt st) by reflexivity.
    rewrite (sbind_ok _ _ st st st) by reflexivity.
    rewrite (cl_len _ _ _ _ _ _ _ _ _ _ CL _ _ _ _ HR), Nat.eqb_refl.
    unfold ensure at 1. rewrite (sbind_ok _ _ st tt st) by reflexivity.
    rewrite Hev, Nat.eqb_refl.
    unfold ensure at 1. rewrite (sbind_ok _ _ st tt st) by reflexivity.
    assert (Hlr : List.length (row A b leaves q) = m).
    { rewrite (row_length A b ltac:(lia) leaves m q) by auto. rewrite Nat.sub_diag. simpl. lia. }
    assert (Hrow : forall st1, at_level W Rep A b leaves m q cap q st1 ->
              read_range st1 (m * row_off b q q) (m * row_off b q q + m) = Ok (row A b leaves q)).
    { intros st1 (HW1 & v1 & HR1 & Hk1).
      eapply (cl_read_range _ _ _ _ _ _ _ _ _ _ CL); [exact HR1|lia| |rewrite Hlr; lia|apply Hk1; auto].
      rewrite row_off_step, Nat.sub_diag. simpl. lia. }
    destruct (m * b ^ q <=? small) eqn:Es.
    - unfold build_small_tree_fuel. rewrite Hev, Nat.eqb_refl.
      unfold ensure at 1. rewrite (sbind_ok _ _ st tt st) by reflexivity.
      destruct (small_loop_run EO _ _ _ _ _ _ _ _ _ CL A b Hb leaves m q ltac:(lia) HL cap ltac:(lia) q 0 (S (m * b ^ q) - q) st ltac:(lia) Hat)
        as (st1 & H1 & Hat1 & HS1).
      cbn [row_off] in H1. rewrite Nat.mul_0_r in H1.
      replace (q + (S (m * b ^ q) - q)) with (S (m * b ^ q)) in H1 by lia.
      pose proof (pow_fuel 1 b q ltac:(lia) H2) as Hf1.
      assert (Hf2 : S q < m * b ^ q) by nia.
      replace (S (m * b ^ q) - q) with (S (S (m * b ^ q - q - 1))) in H1 by lia.
      unfold sbind at 1. rewrite H1. cbn [small_tree_loop].
      replace (1 <? m) with true by lia.
      assert (Hbd : level_bounds len q (m * row_off b q q) m st1 = (Ok (m * row_off b q q, m * row_off b q (S q)), st1)).
      { pose proof (bounds_at EO _ _ _ _ _ _ _ _ _ CL A b leaves m q cap q st1 (le_n q) Hat1) as B.
        rewrite Nat.sub_diag in B. simpl Nat.pow in B. rewrite Nat.mul_1_r in B. exact B. }
      rewrite (sbind_ok _ _ _ _ _ Hbd).
      rewrite (sbind_ok _ _ st1 (row A b leaves q) st1) by (unfold sreads; rewrite (Hrow st1 Hat1); reflexivity).
      rewrite (hash_small A b) by lia.
      cbn [write_nodes].
      pose proof Hat1 as (HW1 & v1 & HR1 & Hk1).
      destruct (Hpast (h_node A q (row A b leaves q)) (m * row_off b q (S q)) _ _ st1 HR1) as (x & st2 & Ew).
      { pose proof (geom_row_off b q q (le_n q)) as G. rewrite Nat.sub_diag in G. cbn [geom] in G.
        rewrite row_off_step, Nat.sub_diag. change (b ^ 0) with 1. unfold cap. rewrite G. apply Nat.le_refl. }
      exists x, st2. unfold sbind at 2. unfold sbind at 1. rewrite Ew. reflexivity.
    - destruct Hch as [Hch|[Hc1 Hc2]]; [lia|].
      destruct (build_loop_run EO EL _ _ _ _ _ _ _ _ _ CL A b Hb leaves m q ltac:(lia) HL chunk Hc1 Hc2 cap sched ltac:(lia) q 0 (S (m * b ^ q) - q) st ltac:(lia) Hat)
        as (st1 & H1 & Hat1 & HS1).
      cbn [row_off] in H1. rewrite Nat.mul_0_r in H1.
      replace (q + (S (m * b ^ q) - q)) with (S (m * b ^ q)) in H1 by lia.
      replace (S (m * b ^ q) - q) with (S (m * b ^ q - q)) in H1 by lia.
      unfold sbind at 1. rewrite H1. cbn [build_loop].
      replace (1 <? m) with true by lia.
      assert (Hbd : level_bounds len q (m * row_off b q q) m st1 = (Ok (m * row_off b q q, m * row_off b q (S q)), st1)).
      { pose proof (bounds_at EO _ _ _ _ _ _ _ _ _ CL A b leaves m q cap q st1 (le_n q) Hat1) as B.
        rewrite Nat.sub_diag in B. simpl Nat.pow in B. rewrite Nat.mul_1_r in B. exact B. }
      rewrite (sbind_ok _ _ _ _ _ Hbd).
      unfold process_layer. rewrite Hc2, Nat.eqb_refl.
      unfold ensure at 1. unfold sbind at 1. rewrite (sbind_ok _ _ st1 tt st1) by reflexivity.
      assert (Hbc : b <= chunk).
      { apply Nat.mod_divides in Hc2; [|lia]. destruct Hc2 as [c ->]. destruct c; nia. }
      assert (Hn1 : num_chunks chunk m = 1).
      { unfold num_chunks. symmetry. apply Nat.div_unique with (m - 1); lia. }
      rewrite Hn1. erewrite run_tasks_1_err; [eexists _, _; reflexivity|].
      unfold chunk_task. rewrite Nat.mul_0_l, Nat.add_0_r.
      replace (Nat.min chunk (m * row_off b q q + m - m * row_off b q q)) with m by lia.
      rewrite (Hrow st1 Hat1). cbn [rbind].
      rewrite (hash_small A b) by lia. rewrite Nat.div_small by lia.
      pose proof (bl_pos EO EL) as Hbl.
      replace (List.length (encode EO [h_node A q (row A b leaves q)]) =? 0 * e_byte_len EO) with false; [reflexivity|].
      rewrite encode_length by auto. simpl List.length. lia.
  Qed.
End Loose.

(* n passes the size checks of the constructors without being a power of b *)
Definition loose (b n : nat) : Prop := exists m q, 1 < m < b /\ pow2 m /\ 1 <= q /\ n = m * b ^ q.

Section Builders.
  Context {E : Type} (EO : ElementOps E) (EL : ElementLaws EO) (SO : StoreOps E).
  Local Notation T := (st_t SO).
  Variable owner : T -> option nat.
  Variable W : T -> Prop.
  Variable Rep : nat -> nat -> (nat -> option E) -> T * fs -> Prop.
  Variable np : bool.
  Hypothesis SL : StoreLaws EO SO owner W Rep np.
  Variable A : AlgOps E.
  Hypothesis AL : AlgLaws A.
  Variables (en : env) (b : nat).
  Hypothesis Hb : arity b.
  Hypothesis Hch : chunk_ok en b.
  (* does a build of so many leaves end in a panic? *)
  Variable bad : nat -> bool.
  Hypothesis HB : forall leaves m q c v st, 1 <= q -> 1 < m < b -> List.length leaves = m * b ^ q ->
    W (fst st) -> Rep (m * geom b q) (m * b ^ q) v st -> knows v 0 leaves ->
    exists x st', st_build SO en A b (m * b ^ q) (S q) c st = (if bad (m * b ^ q) then Panic x else Err x, st').

  Definition rejected {X} (n : nat) (r : res X * fs) : Prop :=
    (~ loose b n /\ exists e f', r = (Err e, f')) \/
    (loose b n /\ exists e f', r = (if bad n then Panic e else Err e, f')).

  Lemma loose_checks n : (forall d, 1 <= d -> n <> b ^ d) ->
    (~ loose b n /\ exists e, leafs_checks b n = Err e) \/
    exists m q, 1 < m < b /\ 1 <= q /\ n = m * b ^ q /\ loose b n /\ leafs_checks b n = Ok (m * geom b q, S q).
  Proof.
    intros Hbad. destruct (leafs_checks_cases b Hb n) as [[e He]|(m & q & Hm & Hmb & Hq & Hn & Hc)].
    - left. split; [|eauto]. intros (m & q & Hm & Hp & Hq & ->). 
      assert (G : leafs_checks b (m * b ^ q) = Ok (m * geom b q, S q)); [|congruence].
      pose proof (arity_ge b Hb) as H2. unfold leafs_checks.
      assert (b <= b ^ q) by (destruct q as [|q']; [lia|]; rewrite Nat.pow_succ_r'; pose proof (Nat.pow_nonzero b q' ltac:(lia)); nia).
      replace (1 <? m * b ^ q) with true by (symmetry; apply Nat.ltb_lt; nia). cbn [ensure rbind].
      replace (next_pow2 (m * b ^ q) =? m * b ^ q) with true by (symmetry; apply next_pow2_eqb, pow2_mul; [exact Hp|apply pow2_pow, arity_pow2; auto]).
      cbn [ensure rbind]. rewrite (arity_next b Hb), Nat.eqb_refl. cbn [ensure rbind].
      rewrite get_merkle_tree_len_decomp by (auto; lia). cbn [rbind].
      rewrite row_count_decomp by (auto; lia). reflexivity.
    - right. assert (1 < m). { destruct (Nat.eq_dec m 1) as [->|]; [|lia]. exfalso. apply (Hbad q Hq). lia. }
      exists m, q. split; [lia|]. split; [exact Hq|]. split; [exact Hn|]. split; [|exact Hc].
      exists m, q. split; [lia|auto].
  Qed.

  Lemma build_loose_with m q leaves v s f c :
    1 < m < b -> 1 <= q -> List.length leaves = m * b ^ q -> loose b (m * b ^ q) -> W s -> Rep (m * geom b q) (m * b ^ q) v (s, f) -> knows v 0 leaves ->
    rejected (m * b ^ q) ((let! (root, data) := with_store s (st_build SO en A b (m * b ^ q) (S q) c) in
       sret (mk_base SO data (m * b ^ q) (m * geom b q) (S q) root)) f).
  Proof.
    intros Hm Hq Hl Hlo HW HR Hk. right. split; [exact Hlo|].
    destruct (HB leaves m q c v (s, f) Hq Hm Hl HW HR Hk) as (x & [s' f'] & H1).
    exists x, f'. unfold sbind, with_store. rewrite H1. destruct (bad (m * b ^ q)); reflexivity.
  Qed.

  Lemma new_rejected xs f : (forall d, 1 <= d -> List.length xs <> b ^ d) ->
    rejected (List.length xs) (try_from_iter EO SO A en b (Some (List.length xs)) (map Ok xs) f).
  Proof.
    intros Hbad. unfold try_from_iter. rewrite (sbind_ok _ _ f (List.length xs) f) by reflexivity.
    destruct (loose_checks (List.length xs) Hbad) as [[Hno [e He]]|(m & q & Hm & Hq & Hn & Hlo & Hc)].
    - left. split; [exact Hno|]. rewrite He. eexists _, _. reflexivity.
    - rewrite Hc. rewrite (sbind_ok _ _ f (m * geom b q, S q) f) by reflexivity.
      destruct (new_fresh EO SO owner W Rep np SL (m * geom b q) f) as (s & f1 & H1 & H2 & H3 & H4).
      rewrite (sbind_ok _ _ _ _ _ H1).
      destruct (populate_ok EO SO owner W Rep np (sl_pop _ _ _ _ _ _ SL) A AL en (m * geom b q) xs _ (s, f1) H3 H2) as (v & [s1 f2] & P1 & P2 & P3 & P4 & P5).
      { rewrite Hn. apply Nat.mul_le_mono_l, geom_gt. }
      rewrite (sbind_ok _ _ f1 (tt, s1) f2) by (unfold with_store; rewrite P1; reflexivity).
      rewrite Hn in P3, Hlo |- *. eapply build_loose_with with (leaves := map (h_leaf A) xs); eauto. rewrite map_length. exact Hn.
  Qed.
  Lemma new_wc_rejected xs c f : fs_dir f (cfg_path c) = None -> (forall d, 1 <= d -> List.length xs <> b ^ d) ->
    rejected (List.length xs) (try_from_iter_with_config EO SO A en b (Some (List.length xs)) (map Ok xs) c f).
  Proof.
    intros Hp Hbad. unfold try_from_iter_with_config. rewrite (sbind_ok _ _ f (List.length xs) f) by reflexivity.
    destruct (loose_checks (List.length xs) Hbad) as [[Hno [e He]]|(m & q & Hm & Hq & Hn & Hlo & Hc)].
    - left. split; [exact Hno|]. rewrite He. eexists _, _. reflexivity.
    - rewrite Hc. rewrite (sbind_ok _ _ f (m * geom b q, S q) f) by reflexivity.
      destruct (newc_fresh EO SO owner W Rep np SL b (m * geom b q) c f Hp) as (s & f1 & H1 & H2 & H3 & HL & H4).
      rewrite (sbind_ok _ _ _ _ _ H1), HL.
      destruct (populate_ok EO SO owner W Rep np (sl_pop _ _ _ _ _ _ SL) A AL en (m * geom b q) xs _ (s, f1) H3 H2) as (v & [s1 f2] & P1 & P2 & P3 & P4 & P5).
      { rewrite Hn. apply Nat.mul_le_mono_l, geom_gt. }
      rewrite (sbind_ok _ _ f1 (tt, s1) f2) by (unfold with_store, sexpect; rewrite P1; reflexivity).
      rewrite Hn in P3, Hlo |- *. eapply build_loose_with with (leaves := map (h_leaf A) xs); eauto. rewrite map_length. exact Hn.
  Qed.
  Lemma par_rejected xs f : 0 < p_block (env_params en) -> (forall d, 1 <= d -> List.length xs <> b ^ d) ->
    rejected (List.length xs) (from_par_iter EO SO A en b xs f).
  Proof.
    intros Hbl Hbad. unfold from_par_iter. cbv zeta.
    destruct (loose_checks (List.length xs) Hbad) as [[Hno [e He]]|(m & q & Hm & Hq & Hn & Hlo & Hc)].
    - left. split; [exact Hno|]. rewrite He. eexists _, _. reflexivity.
    - rewrite Hc. rewrite (sbind_ok _ _ f (m * geom b q, S q) f) by reflexivity.
      destruct (new_fresh EO SO owner W Rep np SL (m * geom b q) f) as (s & f1 & H1 & H2 & H3 & H4).
      rewrite (sbind_ok _ _ f s f1) by (unfold sexpect; rewrite H1; reflexivity).
      destruct (populate_par_ok EO SO owner W Rep np (sl_pop _ _ _ _ _ _ SL) A AL en (m * geom b q) xs _ (s, f1) Hbl H3 H2) as (v & [s1 f2] & P1 & P2 & P3 & P4 & P5).
      { rewrite Hn. apply Nat.mul_le_mono_l, geom_gt. }
      rewrite (sbind_ok _ _ f1 (tt, s1) f2) by (unfold with_store; rewrite P1; reflexivity).
      rewrite Hn in P3, Hlo |- *. eapply build_loose_with with (leaves := map (h_leaf A) xs); eauto. rewrite map_length. exact Hn.
  Qed.
  Lemma par_wc_rejected xs c f : 0 < p_block (env_params en) -> fs_dir f (cfg_path c) = None ->
    (forall d, 1 <= d -> List.length xs <> b ^ d) ->
    rejected (List.length xs) (from_par_iter_with_config EO SO A en b xs c f).
  Proof.
    intros Hbl Hp Hbad. unfold from_par_iter_with_config. cbv zeta.
    destruct (loose_checks (List.length xs) Hbad) as [[Hno [e He]]|(m & q & Hm & Hq & Hn & Hlo & Hc)].
    - left. split; [exact Hno|]. rewrite He. eexists _, _. reflexivity.
    - rewrite Hc. rewrite (sbind_ok _ _ f (m * geom b q, S q) f) by reflexivity.
      destruct (newc_fresh EO SO owner W Rep np SL b (m * geom b q) c f Hp) as (s & f1 & H1 & H2 & H3 & HL & H4).
      rewrite (sbind_ok _ _ _ _ _ H1), HL.
      destruct (populate_par_ok EO SO owner W Rep np (sl_pop _ _ _ _ _ _ SL) A AL en (m * geom b q) xs _ (s, f1) Hbl H3 H2) as (v & [s1 f2] & P1 & P2 & P3 & P4 & P5).
      { rewrite Hn. apply Nat.mul_le_mono_l, geom_gt. }
      rewrite (sbind_ok _ _ f1 (tt, s1) f2) by (unfold with_store; rewrite P1; reflexivity).
      rewrite Hn in P3, Hlo |- *. eapply build_loose_with with (leaves := map (h_leaf A) xs); eauto. rewrite map_length. exact Hn.
  Qed.
  Lemma bytes_rejected els f : (forall d, 1 <= d -> List.length els <> b ^ d) ->
    rejected (List.length els) (from_byte_slice EO SO A en b (encode EO els) f).
  Proof.
    intros Hbad. pose proof (bl_pos EO EL) as Hbl. unfold from_byte_slice.
    rewrite encode_length, Nat.mod_mul, Nat.eqb_refl, Nat.div_mul by (auto; lia).
    unfold ensure at 1. rewrite (sbind_ok _ _ f tt f) by reflexivity.
    destruct (loose_checks (List.length els) Hbad) as [[Hno [e He]]|(m & q & Hm & Hq & Hn & Hlo & Hc)].
    - left. split; [exact Hno|]. rewrite He. eexists _, _. reflexivity.
    - rewrite Hc. rewrite (sbind_ok _ _ f (m * geom b q, S q) f) by reflexivity.
      destruct (sl_slice _ _ _ _ _ _ SL els (m * geom b q) f) as (s & f1 & H1 & H2 & H3 & H4);
        [rewrite Hn; apply Nat.mul_le_mono_l, geom_gt|].
      rewrite (sbind_ok _ _ _ _ _ H1). rewrite Hn in H2, Hlo |- *.
      eapply build_loose_with with (leaves := els) (v := nth_error els); eauto. intros k Hk. reflexivity.
  Qed.
  Lemma bytes_wc_rejected els c f : fs_dir f (cfg_path c) = None -> (forall d, 1 <= d -> List.length els <> b ^ d) ->
    rejected (List.length els) (from_byte_slice_with_config EO SO A en b (encode EO els) c f).
  Proof.
    intros Hp Hbad. pose proof (bl_pos EO EL) as Hbl. unfold from_byte_slice_with_config.
    rewrite encode_length, Nat.mod_mul, Nat.eqb_refl, Nat.div_mul by (auto; lia).
    unfold ensure at 1. rewrite (sbind_ok _ _ f tt f) by reflexivity.
    destruct (loose_checks (List.length els) Hbad) as [[Hno [e He]]|(m & q & Hm & Hq & Hn & Hlo & Hc)].
    - left. split; [exact Hno|]. rewrite He. eexists _, _. reflexivity.
    - rewrite Hc. rewrite (sbind_ok _ _ f (m * geom b q, S q) f) by reflexivity.
      destruct (sl_slicec _ _ _ _ _ _ SL els (m * geom b q) b c f) as (s & f1 & H1 & H2 & H3 & H4);
        [rewrite Hn; apply Nat.mul_le_mono_l, geom_gt|auto|].
      rewrite (sbind_ok _ _ _ _ _ H1). rewrite Hn in H2, Hlo |- *.
      eapply build_loose_with with (leaves := els) (v := nth_error els); eauto. intros k Hk. reflexivity.
  Qed.

  Lemma builder_rejected leaves f r : builder EO SO A en b leaves f r ->
    (forall d, 1 <= d -> List.length leaves <> b ^ d) -> rejected (List.length leaves) r.
  Proof.
    intros []; rewrite ?map_length; intros Hbad.
    - apply new_rejected; auto.
    - apply new_wc_rejected; auto.
    - apply par_rejected; auto.
    - apply par_wc_rejected; auto.
    - unfold from_data. rewrite (hash_items_ok A AL). rewrite <- (map_length (hash_of A) xs) in *. apply new_rejected; auto.
    - unfold from_data_with_config. rewrite (hash_items_ok A AL). rewrite <- (map_length (hash_of A) xs) in *. apply new_wc_rejected; auto.
    - apply bytes_rejected; auto.
    - apply bytes_wc_rejected; auto.
  Qed.
End Builders.

(* MmapStore: a write past the capacity panics *)
Lemma mmap_past {E} (EO : ElementOps E) (EL : ElementLaws EO) cap n v st e i :
  mmap_rep EO cap n v st -> cap <= i -> exists x st', mmap_write_at EO e i st = (Panic x, st').
Proof.
  intros (H1 & H2 & H3 & HD) Hi. pose proof (bl_pos EO EL) as Hbl.
  assert (He : mmap_ensure_map st = (Ok tt, st)) by (unfold mmap_ensure_map; rewrite H3; reflexivity).
  unfold mmap_write_at. rewrite (sbind_ok _ _ _ _ _ He). unfold sbind, mmap_store. rewrite H3, (el_len EO EL).
  assert (cap * e_byte_len EO <= i * e_byte_len EO) by (apply Nat.mul_le_mono_r; exact Hi).
  replace (i * e_byte_len EO + e_byte_len EO <=? cap * e_byte_len EO) with false by lia. eauto.
Qed.
Lemma mmap_rejected {E} (EO : ElementOps E) (EL : ElementLaws EO) A (AL : AlgLaws A) en b leaves f r :
  arity b -> chunk_ok en b -> builder EO (mmap_store_ops EO) A en b leaves f r ->
  (forall d, 1 <= d -> List.length leaves <> b ^ d) ->
  rejected b (fun n => n <=? p_small (env_params en)) (List.length leaves) r.
Proof.
  intros Hb Hch HBu. eapply (builder_rejected EO EL (mmap_store_ops EO) _ _ _ _ (mmap_laws EO EL) A AL en b Hb); [|exact HBu].
  intros l m q c v st Hq Hm Hl HW HR Hk. destruct Hch as [Hc1 Hc2].
  destruct (default_build_loose EO EL _ _ _ _ _ _ _ _ _ (mmap_core EO EL) A b Hb (p_chunk (env_params en))
    (p_small (env_params en)) (env_sched en) l m q v st Hl Hm Hq
    ltac:(intros; eapply mmap_past; eauto) ltac:(auto) HW HR Hk) as (x & st' & H). exists x, st'. exact H.
Qed.
