(* C89: what a multi_node that mixes in the height buys.  Proof::validate passes it the number of
   lemma entries consumed so far over the branches, the builders pass it the row. *)
From Coq Require Import String List Arith NArith Bool Lia Init.Byte ZifyBool ZifyNat.
From Verif Require Import Base Element Hash Sizing FS Sched Store VecStore DiskStore MmapStore LevelCache ProofModel Tree ListFacts Spec SpecFacts SizingFacts SchedFacts StoreLaws RowFacts ChunkFacts BuildFacts BuildLoop StoreSpec FileFacts VecFacts DiskFacts MmapFacts PopFacts TreeFacts ProofSpec ProofFacts TreeProofs TreeObs Builders Cases Props_Sizing Props_Build Props_Proof.
Import ListNotations.

Section Pin.
  Context {E : Type} (EO : ElementOps E) (EL : ElementLaws EO).
  Variable A : AlgOps E.
  Variable b : nat.
  Hypothesis Hb : arity b.
  Variables (d : nat) (leaves els : list E).
  Hypothesis HL : Layout (h_node A) b d leaves els.
  Hypothesis Hd : 1 <= d.

  Lemma remove_insert c x (l : list E) : c <= List.length l -> remove_at c (insert_at c x l) = l.
  Proof.
    intros H. unfold remove_at, insert_at. rewrite firstn_app, firstn_firstn, firstn_length, Nat.min_id, (Nat.min_l c) by lia.
    rewrite Nat.sub_diag. cbn [firstn]. rewrite app_nil_r, skipn_app, firstn_length, (Nat.min_l c) by lia.
    rewrite skipn_all2 by (rewrite firstn_length; lia). replace (S c - c) with 1 by lia. cbn [skipn app]. apply firstn_skipn.
  Qed.

  Lemma climb_pin : forall n j x gs cs,
    List.length gs = n -> List.length cs = n ->
    (forall g, In g gs -> List.length g = b - 1) -> Forall (fun c => c < b) cs ->
    Some (climb (hv A b) j x gs cs) = nth_error els (geom b d - 1) ->
    (n <= d /\ (1 <= n -> j * (b - 1) = d - n) /\ (2 <= n -> b = 2) /\
     nth_error els (row_off b d (d - n) + path_index b cs) = Some x /\
     forall m, m < n -> nth_error gs m = Some (remove_at (nth m cs 0)
       (sub els (row_off b d (d - n + m) + path_index b (skipn (S m) cs) * b) b))) \/
    exists m, m < n /\ n - m <= d /\
      let mine := climb_nodes (hv A b) j x gs cs m in
      let row := d - (n - m) in
      let theirs := sub els (row_off b d row + path_index b (skipn (S m) cs) * b) b in
      ((j + m) * (b - 1), mine) <> (row, theirs) /\ List.length mine = b /\ List.length theirs = b /\
      h_node A ((j + m) * (b - 1)) mine = h_node A row theirs.
  Proof.
    pose proof (arity_ge b Hb) as H2.
    induction n; intros j x gs cs Hg Hc HG HC Hroot; destruct gs as [|g gs]; destruct cs as [|c cs]; try discriminate.
    - left. cbn [climb path_index] in *. split; [lia|]. split; [lia|]. split; [lia|]. split; [|intros; lia].
      rewrite Nat.sub_0_r, row_off_last, Nat.add_0_r. auto.
    - cbn [List.length] in Hg, Hc. pose proof (Forall_inv HC) as Hcb. cbn beta in Hcb. pose proof (Forall_inv_tail HC) as HC'. cbn [climb] in Hroot.
      destruct (IHn (S j) (hv A b j (insert_at c x g)) gs cs) as [H|H]; auto; try lia.
      { intros g' Hg'. apply HG. right. auto. }
      + destruct H as (Hn & Hh & Hb2 & H & HGS).
        assert (Hlt : n < d).
        { destruct (Nat.eq_dec n d) as [->|]; [|lia]. specialize (Hh Hd). rewrite Nat.sub_diag in Hh.
          assert (G : 1 * 1 <= S j * (b - 1)) by (apply Nat.mul_le_mono; lia). lia. }
        pose proof (path_index_lt b Hb cs HC') as HI. replace (List.length cs) with n in HI by lia.
        replace (d - n) with (S (d - S n)) in H by lia.
        rewrite (layout_parent b Hb d leaves els _ HL (d - S n) _ ltac:(lia)) in H by (replace (d - S (d - S n)) with n by lia; exact HI).
        injection H as H.
        set (T := sub els (row_off b d (d - S n) + path_index b cs * b) b) in *.
        assert (HT : List.length T = b).
        { unfold T. apply sub_length_le. destruct HL as (_ & L2 & _). rewrite L2.
          assert (G1 : b * S (path_index b cs) <= b * b ^ n) by (apply Nat.mul_le_mono_l; lia).
          pose proof (row_off_geom b d (S (d - S n)) ltac:(lia)) as G2.
          rewrite row_off_step in G2. replace (d - (d - S n)) with (S n) in G2 by lia. rewrite (Nat.pow_succ_r' b n) in G2. lia. }
        pose proof (HG g (or_introl eq_refl)) as Hgl.
        assert (HD : (j * (b - 1), insert_at c x g) = (d - S n, T) \/ (j * (b - 1), insert_at c x g) <> (d - S n, T)).
        { destruct (Nat.eq_dec (j * (b - 1)) (d - S n)); [|right; congruence].
          destruct (list_dec EO EL (insert_at c x g) T); [left|right]; congruence. }
        destruct HD as [HE|HE].
        * left. injection HE as HE1 HE.
          split; [lia|]. split; [intros; exact HE1|]. split.
          { intros Hn2. specialize (Hh ltac:(lia)). cbn [Nat.mul] in Hh. lia. }
          split.
          { cbn [path_index]. pose proof (insert_nth_same c x g ltac:(lia)) as HN. rewrite HE in HN. unfold T in HN.
            rewrite nth_error_sub in HN. replace (c <? b) with true in HN by lia. rewrite <- HN. f_equal. rewrite (Nat.mul_comm b). lia. }
          intros m Hm. destruct m as [|m].
          { cbn [nth_error nth skipn]. rewrite Nat.add_0_r. fold T. rewrite <- HE, remove_insert by lia. reflexivity. }
          cbn [nth_error nth]. change (skipn (S (S m)) (c :: cs)) with (skipn (S m) cs). rewrite (HGS m) by lia.
          replace (d - n + m) with (d - S n + S m) by lia. reflexivity.
        * right. exists 0. split; [lia|]. split; [lia|]. cbn zeta. cbn [climb_nodes skipn]. rewrite Nat.add_0_r, Nat.sub_0_r. fold T.
          repeat split; auto. rewrite insert_length. lia.
      + right. destruct H as (m & Hm & Hd' & H). exists (S m). split; [lia|]. split; [lia|]. cbn [climb_nodes].
        change (skipn (S (S m)) (c :: cs)) with (skipn (S m) cs).
        replace (j + S m) with (S j + m) by lia. replace (S n - S m) with (n - m) by lia. exact H.
  Qed.

  Lemma digit_nth : forall cs m, Forall (fun c => c < b) cs -> m < List.length cs -> digit b m (path_index b cs) = nth m cs 0.
  Proof.
    clear - Hb. pose proof (arity_ge b Hb) as H2. intros cs m HF Hm. unfold digit. rewrite (path_index_div b Hb cs m HF).
    revert cs HF Hm. induction m; intros [|c cs] HF Hm; try (cbn in Hm; lia); pose proof (Forall_inv HF) as Hc; cbn beta in Hc; cbn [skipn nth path_index].
    - rewrite Nat.mul_comm, Nat.mod_add by lia. apply Nat.mod_small. exact Hc.
    - apply IHm; [apply (Forall_inv_tail HF)|cbn in Hm; lia].
  Qed.
  Lemma path_of_own cs : Forall (fun c => c < b) cs -> path_of b (List.length cs) (path_index b cs) = cs.
  Proof.
    clear - Hb. intros HF. unfold path_of. apply nth_error_ext. intros m. destruct (Nat.lt_ge_cases m (List.length cs)) as [Lm|Lm].
    - rewrite nth_error_map, seq_nth_k by exact Lm. cbn [option_map]. rewrite digit_nth by auto. symmetry. apply nth_error_nth'. exact Lm.
    - rewrite !(proj2 (nth_error_None _ _)); [reflexivity|exact Lm|rewrite map_length, seq_length; lia].
  Qed.

  Lemma lemma_from_groups (l m : list E) n :
    List.length l = 2 + (b - 1) * n -> List.length m = 2 + (b - 1) * n ->
    nth_error l 0 = nth_error m 0 -> nth_error l (S ((b - 1) * n)) = nth_error m (S ((b - 1) * n)) ->
    groups b l n = groups b m n -> l = m.
  Proof.
    clear - Hb. pose proof (arity_ge b Hb) as H2. intros Hl Hm H0 HLa HG. apply nth_error_ext. intros k.
    destruct k as [|k]; [exact H0|].
    destruct (lt_eq_lt_dec k ((b - 1) * n)) as [[L|L]|L]; [|rewrite L; exact HLa|].
    - pose proof (Nat.div_mod k (b - 1) ltac:(lia)) as DM. pose proof (Nat.mod_upper_bound k (b - 1) ltac:(lia)) as MU.
      assert (Q : k / (b - 1) < n) by (apply Nat.div_lt_upper_bound; lia).
      pose proof (f_equal (fun G => nth_error G (k / (b - 1))) HG) as HG'. cbn beta in HG'. unfold groups in HG'.
      rewrite !nth_error_map, !(seq_nth_k n) in HG' by exact Q. cbn [option_map] in HG'. injection HG' as HG'.
      pose proof (f_equal (fun s => nth_error s (k mod (b - 1))) HG') as HN. cbn beta in HN.
      rewrite !nth_error_sub in HN. replace (k mod (b - 1) <? b - 1) with true in HN by lia.
      replace (S (k / (b - 1) * (b - 1)) + k mod (b - 1)) with (S k) in HN; [exact HN|].
      rewrite (Nat.mul_comm (k / (b - 1))). lia.
    - rewrite !(proj2 (nth_error_None _ _)) by (rewrite ?Hl, ?Hm; lia). reflexivity.
  Qed.
End Pin.

(* The calls of multi_node: (height, nodes).  [asked A b p k m]: the m-th one validate makes for a
   proof with k levels; [stored els b d row q]: the one that made node q of row (row + 1). *)
Definition asked {E} (A : AlgOps E) (b : nat) (p : proof E) (k m : nat) : nat * list E :=
  (m * (b - 1), proof_nodes A b p k m).
Definition stored {E} (els : list E) (b d row q : nat) : nat * list E :=
  (row, sub els (row_off b d row + q * b) b).

(* A proof that validates and carries the root of the tree, of whatever depth: it is the very
   proof gen_proof makes for the leaf its path spells, or a call of multi_node made by validate
   collides with a different call made by the builder - different in its height or its nodes.
   The calls compared lie equally far from the root. *)
Theorem C89_pinned : forall E (EO : ElementOps E) A SO np en b leaves f t f' d lemma path p,
  setting EO A SO np en b ->
  builder EO SO A en b leaves f (Ok t, f') ->
  List.length leaves = b ^ d ->
  proof_new b 0 0 None lemma path = Ok p ->
  validate EO A b p = Ok true ->
  pf_root p = Ok (mt_root t) ->
  (List.length path = d /\ (b = 2 \/ d = 1) /\ path_index b path < b ^ d /\
   gen_proof SO b 0 0 t f' (path_index b path) = Ok p) \/
  exists els m, Layout (h_node A) b d leaves els /\ mt_read_range SO t f' 0 (mt_len SO t) = Ok els /\
    m < List.length path /\ List.length path - m <= d /\
    let x := asked A b p (List.length path) m in
    let y := stored els b d (d - (List.length path - m)) (path_index b (skipn (S m) path)) in
    x <> y /\ List.length (snd x) = b /\ List.length (snd y) = b /\
    h_node A (fst x) (snd x) = h_node A (fst y) (snd y).
Proof.
  intros E EO A SO np en b leaves f t f' d lemma path p (EL & AL & HS & Hb & Hch) HB Hl HN HV HR.
  destruct (builder_tree EO EL A AL en b SO np HS leaves f t f' Hb Hch HB) as (d' & els & Hn & HF).
  rewrite Hl in Hn. apply same_leaves_pow in Hn; auto. subst d'.
  pose proof (arity_ge b Hb) as H2. pose proof HF as [F1 F2 F3 F4 F5 F6 F7 F8 F9 _].
  assert (Hlong : 2 < List.length lemma).
  { revert HN. unfold proof_new. cbn [Nat.eqb andb]. destruct (2 <? List.length lemma) eqn:G; [intros _; lia|discriminate]. }
  apply proof_new_inv in HN. destruct HN as [-> Hlen].
  destruct (validate_base_true EO EL A AL b H2 (mk_proof None 0 0 lemma path) (mt_root t) eq_refl eq_refl HV HR)
    as (x & n & Hx & Hn & Hp & HG & HC & Hcl).
  cbn [pf_lemma pf_path] in *.
  assert (n = List.length path).
  { eapply levels_at_unique; [exact H2|exact Hn|]. rewrite Hlen. apply levels_at_full. exact H2. }
  subst n. rewrite firstn_all in HC, Hcl.
  assert (LG : List.length (groups b lemma (List.length path)) = List.length path) by (unfold groups; rewrite map_length, seq_length; reflexivity).
  assert (Hroot : Some (climb (hv A b) 0 x (groups b lemma (List.length path)) path) = nth_error els (geom b d - 1)) by (rewrite Hcl; symmetry; exact F6).
  destruct (climb_pin EO EL A b Hb d leaves els F2 F1 (List.length path) 0 x (groups b lemma (List.length path)) path LG eq_refl HG HC Hroot)
    as [(Hd & Hh & Hw & Hi & HGS)|(m & Hm & Hd & HX)].
  - left.
    assert (Lp : 1 <= List.length path) by (destruct path; [cbn [List.length] in Hlen; lia|cbn [List.length]; lia]).
    specialize (Hh Lp). cbn [Nat.mul] in Hh. assert (Hk : List.length path = d) by lia.
    pose proof (path_index_lt b Hb path HC) as HI. rewrite Hk in HI.
    split; [exact Hk|]. split; [destruct (Nat.eq_dec d 1); [right; assumption|left; apply Hw; lia]|]. split; [exact HI|].
    rewrite F9 by exact HI. do 2 f_equal.
    + symmetry. apply (lemma_from_groups b Hb _ _ d).
      * rewrite <- Hk. exact Hlen.
      * apply (lemma_of_length b Hb d leaves els _ F2 _ HI).
      * rewrite Hk, Nat.sub_diag in Hi. cbn [row_off Nat.add] in Hi.
        rewrite (lemma_of_eq b d els _ x (mt_root t) HI Hi F6). rewrite Hx. reflexivity.
      * rewrite Hk, Nat.sub_diag in Hi. cbn [row_off Nat.add] in Hi.
        assert (HR' : nth_error lemma (S ((b - 1) * d)) = Some (mt_root t)).
        { destruct (lemma_ends b H2 lemma ((b - 1) * d)) as (x0 & r0 & _ & E2 & _ & E4); [rewrite <- Hk; exact Hlen|].
          destruct E4 as [t0 E4]. unfold pf_root in HR. cbn [pf_lemma] in HR. rewrite E4 in HR. congruence. }
        rewrite HR'. pose proof (lemma_of_length b Hb d leaves els _ F2 _ HI) as LL. symmetry.
        rewrite (lemma_of_eq b d els _ x (mt_root t) HI Hi F6) in LL |- *. rewrite app_comm_cons in LL |- *.
        rewrite app_length in LL. cbn [List.length] in LL. rewrite nth_error_app2 by (cbn [List.length]; lia).
        match goal with |- nth_error _ ?k = _ => replace k with 0 by (cbn [List.length]; lia) end. reflexivity.
      * rewrite (groups_lemma_of b Hb d leaves els _ F2 _ HI). apply nth_error_ext. intros m.
        destruct (Nat.lt_ge_cases m d) as [Lm|Lm].
        -- rewrite <- Hk at 1. rewrite HGS by lia. rewrite nth_error_map, seq_nth_k by exact Lm. cbn [option_map]. f_equal.
           rewrite Hk, Nat.sub_diag. cbn [Nat.add]. unfold kids. rewrite (path_index_div b Hb path (S m) HC). f_equal.
           symmetry. apply digit_nth; auto. lia.
        -- rewrite !(proj2 (nth_error_None _ _)); [reflexivity|rewrite map_length, seq_length; lia|unfold groups; rewrite map_length, seq_length; lia].
    + rewrite <- Hk. apply path_of_own; auto.
  - right. exists els, m. split; [exact F2|]. split.
    { rewrite F4, F8; [|apply geom_pos|lia]. f_equal. rewrite Nat.sub_0_r. destruct F2 as (_ & L2 & _). rewrite <- L2. unfold sub. cbn [skipn]. apply firstn_all. }
    split; [exact Hm|]. split; [exact Hd|]. cbn zeta in HX |- *. unfold asked, stored. cbn [fst snd]. unfold proof_nodes. cbn [pf_lemma pf_path].
    destruct lemma as [|y lem]; [discriminate|]. cbn [nth_error] in Hx. injection Hx as ->. rewrite firstn_all. exact HX.
Qed.

(* For binary trees this decides validation: the proofs accepted for the root are exactly the
   proofs gen_proof makes, unless a call of validate collides with a call of the builder. *)
Theorem C89_exactly : forall E (EO : ElementOps E) A SO np en leaves f t f' d lemma path p,
  setting EO A SO np en 2 ->
  builder EO SO A en 2 leaves f (Ok t, f') ->
  List.length leaves = 2 ^ d ->
  proof_new 2 0 0 None lemma path = Ok p ->
  (forall els m row q, mt_read_range SO t f' 0 (mt_len SO t) = Ok els -> m < List.length path -> row < d ->
     let x := asked A 2 p (List.length path) m in let y := stored els 2 d row q in
     List.length (snd x) = 2 -> List.length (snd y) = 2 ->
     h_node A (fst x) (snd x) = h_node A (fst y) (snd y) -> x = y) ->
  (validate EO A 2 p = Ok true /\ pf_root p = Ok (mt_root t) <->
   exists i, i < 2 ^ d /\ gen_proof SO 2 0 0 t f' i = Ok p).
Proof.
  intros E EO A SO np en leaves f t f' d lemma path p HS HB Hl HN HC. split.
  - intros [HV HR].
    destruct (C89_pinned E EO A SO np en 2 leaves f t f' d lemma path p HS HB Hl HN HV HR)
      as [(_ & _ & H1 & H2)|(els & m & _ & H1 & H2 & H3 & H4 & H5 & H6 & H7)]; [eauto|].
    exfalso. apply H4. apply (HC els); auto. lia.
  - intros (i & Hi & HG).
    destruct (C14_base E EO A SO np en 2 leaves f t f' i p HS HB HG) as (G1 & _ & _ & G2 & _).
    destruct (C11_proofs_validate E EO A SO np en 2 leaves f t f' i HS HB (or_introl eq_refl) G1) as (p' & G3 & G4).
    split; [congruence|exact G2].
Qed.

(* Heights alone fix the depth of a binary proof: if multi_node never gives the same digest for
   two different heights below M, a proof of another depth does not validate for this root. *)
Theorem C89_depth : forall E (EO : ElementOps E) A SO np en leaves f t f' d lemma path p M,
  setting EO A SO np en 2 ->
  builder EO SO A en 2 leaves f (Ok t, f') ->
  List.length leaves = 2 ^ d ->
  proof_new 2 0 0 None lemma path = Ok p ->
  List.length path <= M -> d <= M ->
  (forall m m' xs ys, m < M -> m' < M -> List.length xs = 2 -> List.length ys = 2 ->
     h_node A m xs = h_node A m' ys -> m = m') ->
  validate EO A 2 p = Ok true -> pf_root p = Ok (mt_root t) ->
  List.length path = d.
Proof.
  intros E EO A SO np en leaves f t f' d lemma path p M HS HB Hl HN HM HM' HC HV HR.
  destruct (C89_pinned E EO A SO np en 2 leaves f t f' d lemma path p HS HB Hl HN HV HR)
    as [(H & _)|(els & m & _ & H1 & H2 & H3 & H4 & H5 & H6 & H7)]; [exact H|].
  cbn [asked stored fst snd] in *. apply HC in H7; auto; lia.
Qed.

(* Trees with more than two branches and at least two levels: the heights never agree, so every
   proof that validates exhibits a collision - between different heights or different nodes. *)
Theorem C89_wide : forall E (EO : ElementOps E) A SO np en b leaves f t f' d lemma path p,
  setting EO A SO np en b -> b <> 2 -> 2 <= d ->
  builder EO SO A en b leaves f (Ok t, f') ->
  List.length leaves = b ^ d ->
  proof_new b 0 0 None lemma path = Ok p ->
  validate EO A b p = Ok true -> pf_root p = Ok (mt_root t) ->
  exists els m row q, mt_read_range SO t f' 0 (mt_len SO t) = Ok els /\ m < List.length path /\ row < d /\
    asked A b p (List.length path) m <> stored els b d row q /\
    h_node A (m * (b - 1)) (proof_nodes A b p (List.length path) m) =
    h_node A row (sub els (row_off b d row + q * b) b).
Proof.
  intros E EO A SO np en b leaves f t f' d lemma path p HS Hb Hd HB Hl HN HV HR.
  destruct (C89_pinned E EO A SO np en b leaves f t f' d lemma path p HS HB Hl HN HV HR)
    as [(_ & [H|H] & _)|(els & m & _ & H1 & H2 & H3 & H4 & H5 & H6 & H7)]; [contradiction|lia|].
  exists els, m, (d - (List.length path - m)), (path_index b (skipn (S m) path)). repeat split; auto. lia.
Qed.

(* a digest with the height in its upper bits; the proof cut at a level and the proof of the
   whole depth, under it and under the default methods, which drop the height *)
Definition mix_alg : AlgOps B1 := {|
  a_state := unit; a_default := tt; a_write := fun s _ => s; a_hash := fun s => (el 7, s);
  a_reset := fun s => s; a_leaf := fun s x => (x, s);
  a_node := fun s l r h => (el (val l + 3 * val r + 32 * h), s);
  a_multi_node := fun s nodes h => (el ((fold_left (fun a x => 3 * a + val x) nodes 0) mod 32 + 32 * h), s)
|}.
Lemma mix_separates m m' xs ys : m < 8 -> m' < 8 -> h_node mix_alg m xs = h_node mix_alg m' ys -> m = m'.
Proof.
  intros Hm Hm' H. unfold h_node in H. cbn [mix_alg a_multi_node fst] in H.
  apply (f_equal val) in H. revert H.
  assert (G : forall l k, k < 8 -> val (el (fold_left (fun a x => 3 * a + val x) l 0 mod 32 + 32 * k)) / 32 = k).
  { intros l k Hk. pose proof (Nat.mod_upper_bound (fold_left (fun a x => 3 * a + val x) l 0) 32 ltac:(lia)) as U.
    generalize dependent (fold_left (fun a x => 3 * a + val x) l 0 mod 32). intros r U.
    do 8 (destruct k as [|k]; [do 32 (destruct r as [|r]; [vm_compute; reflexivity|]); lia|]). lia. }
  intros H. apply (f_equal (fun z => z / 32)) in H. rewrite !G in H by assumption. exact H.
Qed.

Example C89_case :
  let cut A :=
    match mt_new BO (vec_store BO) A env1 2 leaves8 fs_empty with
    | (Ok t, f) =>
        match gen_proof (vec_store BO) 2 0 0 t f 5, mt_read_at (vec_store BO) 0 0 t f 10 with
        | Ok p, Ok inner =>
            (* node 10 is the parent of leaves 4 and 5; its proof has two levels *)
            match proof_new 2 0 0 None (inner :: skipn 2 (pf_lemma p)) (skipn 1 (pf_path p)) with
            | Ok q => Some (validate BO A 2 p, validate BO A 2 q, map (fun z => if e_eqb BO z (mt_root t) then 1 else 0) (rev (pf_lemma q)))
            | _ => None
            end
        | _, _ => None
        end
    | _ => None
    end in
  cut mix_alg = Some (Ok true, Ok false, [1; 0; 0; 0]) /\ cut sum_alg = Some (Ok true, Ok true, [1; 0; 0; 0]).
Proof. vm_compute. auto. Qed.

Print Assumptions C89_pinned.
Print Assumptions C89_exactly.
Print Assumptions C89_depth.
Print Assumptions C89_wide.
