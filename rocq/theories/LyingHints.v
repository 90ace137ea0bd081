(* Iterators whose size hint is not the number of their items: exactly what the two iterator
   constructors do with them. *)
From Coq Require Import String List Arith Bool Lia Init.Byte ZifyBool ZifyNat.
From Verif Require Import Base Element Hash Sizing FS Sched Store VecStore DiskStore MmapStore ProofModel Tree ListFacts Spec SpecFacts SizingFacts SchedFacts StoreLaws RowFacts ChunkFacts BuildFacts BuildLoop StoreSpec FileFacts VecFacts DiskFacts MmapFacts PopFacts TreeFacts TreeObs Builders.
Import ListNotations.

Lemma leafs_checks_accept b m q : arity b -> pow2 m -> 1 <= m < b -> 1 <= q ->
  leafs_checks b (m * b ^ q) = Ok (m * geom b q, S q).
Proof.
  intros Hb Hp Hm Hq. pose proof (arity_ge b Hb) as H2. unfold leafs_checks.
  assert (b <= b ^ q) by (destruct q as [|q']; [lia|]; rewrite Nat.pow_succ_r'; pose proof (Nat.pow_nonzero b q' ltac:(lia)); nia).
  replace (1 <? m * b ^ q) with true by (symmetry; apply Nat.ltb_lt; nia). cbn [ensure rbind].
  replace (next_pow2 (m * b ^ q) =? m * b ^ q) with true by (symmetry; apply next_pow2_eqb, pow2_mul; [exact Hp|apply pow2_pow, arity_pow2; auto]).
  cbn [ensure rbind]. rewrite (arity_next b Hb), Nat.eqb_refl. cbn [ensure rbind].
  rewrite get_merkle_tree_len_decomp by (auto; lia). cbn [rbind].
  rewrite row_count_decomp by (auto; lia). reflexivity.
Qed.

(* n is an accepted leaf count and k items exceed the store made for it *)
Definition overfull (b n k : nat) : Prop :=
  exists m q, pow2 m /\ 1 <= m < b /\ 1 <= q /\ n = m * b ^ q /\ m * geom b q < k.

Definition fails {X S} (pan : bool) (r : res X * S) : Prop := exists e s, r = (if pan then Panic e else Err e, s).

Section Lying.
  Context {E : Type} (EO : ElementOps E) (SO : StoreOps E).
  Local Notation T := (st_t SO).
  Variable owner : T -> option nat.
  Variable W : T -> Prop.
  Variable Rep : nat -> nat -> (nat -> option E) -> T * fs -> Prop.
  Variable np : bool.
  Hypothesis SL : StoreLaws EO SO owner W Rep np.
  Variable A : AlgOps E.
  Hypothesis AL : AlgLaws A.
  Variables (en : env) (b : nat).
  Hypothesis Hb : arity b.
  Let PL := sl_pop _ _ _ _ _ _ SL.
  Let CL := pl_core _ _ _ _ _ _ PL.
  Let leaf := h_leaf A.

  (* a store that refuses a write past its capacity, by a panic or by an error *)
  Section Past.
    Variable pan : bool.
    Hypothesis HP : forall cap n v st els, Rep cap n v st -> cap < n + List.length els ->
      fails pan (st_copy_from_slice SO (encode EO els) n st).

    Lemma populate_loop_past block cap : forall xs a (done buf : nat) bf v (st : T * fs),
      W (fst st) -> Rep cap done v st -> List.length bf = buf -> cap < done + buf + List.length xs ->
      fails pan (populate_loop EO SO A block (map Ok xs) a (encode EO bf) st) \/
      exists done' rest v' st', populate_loop EO SO A block (map Ok xs) a (encode EO bf) st = (Ok (encode EO rest), st') /\
        W (fst st') /\ Rep cap done' v' st' /\ cap < done' + List.length rest.
    Proof.
      induction xs as [|x xs IH]; intros a done buf bf v st HW HR HL Hc.
      - right. exists done, bf, v, st. cbn [map populate_loop List.length] in *. repeat split; auto. lia.
      - cbn [map populate_loop List.length] in *. rewrite (sbind_ok _ _ st x st) by reflexivity.
        pose proof (leaf_reset A AL a x) as Hl. destruct (a_leaf A (a_reset A a) x) as [h a'] eqn:Ea. cbn [fst] in Hl. subst h.
        assert (He : encode EO bf ++ e_as_ref EO (h_leaf A x) = encode EO (bf ++ [h_leaf A x])).
        { rewrite encode_app. unfold encode at 3. cbn [map concat]. rewrite app_nil_r. reflexivity. }
        rewrite He.
        assert (HL' : List.length (bf ++ [h_leaf A x]) = S buf) by (rewrite app_length; cbn [List.length]; lia).
        destruct (_ <=? _) eqn:G.
        + rewrite (sbind_ok _ _ st st st) by reflexivity.
          rewrite (cl_len _ _ _ _ _ _ _ _ _ _ CL _ _ _ _ HR).
          destruct (le_lt_dec (done + S buf) cap) as [Hle|Hgt].
          * destruct (cl_copy _ _ _ _ _ _ _ _ _ _ CL cap _ v st (bf ++ [h_leaf A x]) done HR HW)
              as (st1 & H1 & HR1 & HS1 & HW1); [lia|].
            rewrite (sbind_ok _ _ _ _ _ H1). rewrite Nat.max_r, HL' in HR1 by lia.
            apply (IH a' (done + S buf) 0 [] _ st1 HW1 HR1 eq_refl). lia.
          * left. destruct (HP cap done v st (bf ++ [h_leaf A x]) HR ltac:(lia)) as (e & s & Hf).
            exists e, s. unfold sbind. rewrite Hf. destruct pan; reflexivity.
        + apply (IH a' done (S buf) (bf ++ [h_leaf A x]) v st HW HR HL'). lia.
    Qed.
    Lemma populate_past cap xs v (st : T * fs) : W (fst st) -> Rep cap 0 v st -> cap < List.length xs ->
      fails pan (populate_data EO SO A en (map Ok xs) st).
    Proof.
      intros HW HR Hc. unfold populate_data. rewrite (sbind_ok _ _ st st st) by reflexivity.
      rewrite (pl_empty _ _ _ _ _ _ PL _ _ _ _ HR). cbn [Nat.eqb negb].
      destruct (populate_loop_past (p_block (env_params en)) cap xs (a_default A) 0 0 [] v st HW HR eq_refl ltac:(lia))
        as [(e & s & Hf)|(done' & rest & v' & st' & H1 & HW' & HR' & Hc')].
      - exists e, s. unfold encode in Hf. cbn [map concat] in Hf. unfold sbind at 1. rewrite Hf. destruct pan; reflexivity.
      - unfold encode at 1 in H1. cbn [map concat] in H1. rewrite (sbind_ok _ _ _ _ _ H1).
        rewrite (sbind_ok _ _ st' st' st') by reflexivity.
        rewrite (cl_len _ _ _ _ _ _ _ _ _ _ CL _ _ _ _ HR').
        destruct (HP cap done' v' st' rest HR' Hc') as (e & s & Hf).
        exists e, s. unfold sbind. rewrite Hf. destruct pan; reflexivity.
    Qed.
  End Past.

  (* what populating the fresh store for n leaves does *)
  Variable lim : option bool.      (* None: no limit *)
  Hypothesis HL : match lim with
    | Some pan => forall cap n v st els, Rep cap n v st -> cap < n + List.length els -> fails pan (st_copy_from_slice SO (encode EO els) n st)
    | None => forall cap cap' n v st, Rep cap n v st -> Rep cap' n v st
    end.

  Lemma populate_cases cap xs v (st : T * fs) : W (fst st) -> Rep cap 0 v st ->
    (exists st', populate_data EO SO A en (map Ok xs) st = (Ok tt, st') /\ st_len SO (fst st') = List.length xs /\
       (cap < List.length xs -> lim = None)) \/
    (cap < List.length xs /\ exists pan, lim = Some pan /\ fails pan (populate_data EO SO A en (map Ok xs) st)).
  Proof.
    intros HW HR. destruct (le_lt_dec (List.length xs) cap) as [Hle|Hgt].
    - left. destruct (populate_ok EO SO owner W Rep np PL A AL en cap xs v st HW HR Hle) as (v' & st' & H1 & H2 & H3 & _).
      exists st'. split; [exact H1|]. split; [exact (cl_len _ _ _ _ _ _ _ _ _ _ CL _ _ _ _ H3)|lia].
    - destruct lim as [pan|].
      + right. split; [exact Hgt|]. exists pan. split; [reflexivity|]. eapply populate_past; eauto.
      + left. destruct (populate_ok EO SO owner W Rep np PL A AL en (List.length xs) xs v st HW (HL _ _ _ _ _ HR) (le_n _)) as (v' & st' & H1 & H2 & H3 & _).
        exists st'. split; [exact H1|]. split; [exact (cl_len _ _ _ _ _ _ _ _ _ _ CL _ _ _ _ H3)|reflexivity].
  Qed.

  Lemma overfull_dec n k :
    (~ overfull b n k /\ exists e, leafs_checks b n = Err e) \/
    exists cap q, leafs_checks b n = Ok (cap, S q) /\ (overfull b n k <-> cap < k).
  Proof.
    destruct (leafs_checks_cases b Hb n) as [[e He]|(m & q & Hm & Hmb & Hq & Hn & Hc)].
    - left. split; [|eauto]. intros (m & q & Hm & Hmb & Hq & Hn & _).
      pose proof (leafs_checks_accept b m q Hb Hm Hmb Hq) as G. rewrite <- Hn in G. congruence.
    - right. exists (m * geom b q), q. split; [exact Hc|]. split.
      + intros (m' & q' & Hm' & Hmb' & Hq' & Hn' & Hk).
        pose proof (leafs_checks_accept b m' q' Hb Hm' Hmb' Hq') as G. rewrite <- Hn', Hc in G.
        assert (G2 : m * geom b q = m' * geom b q') by congruence. rewrite G2. exact Hk.
      + intros Hk. exists m, q. auto.
  Qed.

  Definition over n k : Prop := overfull b n k /\ lim = Some true.

  Lemma lying n xs f : List.length xs <> n ->
    let r := try_from_iter EO SO A en b (Some n) (map Ok xs) f in
    (over n (List.length xs) -> fails true r) /\ (~ over n (List.length xs) -> fails false r).
  Proof.
    intros Hn. cbv zeta. unfold try_from_iter. rewrite (sbind_ok _ _ f n f) by reflexivity.
    destruct (overfull_dec n (List.length xs)) as [[Hno [e He]]|(cap & q & Hc & Hov)].
    - rewrite He. split; [intros [H _]; contradiction|]. intros _. eexists _, _. reflexivity.
    - rewrite Hc. rewrite (sbind_ok _ _ f (cap, S q) f) by reflexivity.
      destruct (new_fresh EO SO owner W Rep np SL cap f) as (s & f1 & H1 & H2 & H3 & H4).
      rewrite (sbind_ok _ _ _ _ _ H1).
      destruct (populate_cases cap xs _ (s, f1) H3 H2) as [([s1 f2] & P1 & P2 & P3)|(Hgt & pan & Hp & e & [s1 f2] & Hf)].
      + rewrite (sbind_ok _ _ f1 (tt, s1) f2) by (unfold with_store; rewrite P1; reflexivity). cbn [fst] in P2.
        destruct (sl_build_len _ _ _ _ _ _ SL en A b n (S q) None (s1, f2) Hb) as [e He]; [cbn [fst]; congruence|].
        split; [intros [H Hl]; apply Hov in H; specialize (P3 H); congruence|]. intros _.
        eexists _, _. unfold sbind, with_store. rewrite He. reflexivity.
      + unfold sbind at 1 3, with_store at 1 3. rewrite Hf. destruct pan.
        * split; [intros _; eexists _, _; reflexivity|]. intros H. exfalso. apply H. split; [apply Hov; exact Hgt|exact Hp].
        * split; [intros [_ H]; congruence|intros _; eexists _, _; reflexivity].
  Qed.

  (* with a config, a refused write is a panic in any case *)
  Lemma lying_wc n xs c f : fs_dir f (cfg_path c) = None -> List.length xs <> n ->
    let r := try_from_iter_with_config EO SO A en b (Some n) (map Ok xs) c f in
    (overfull b n (List.length xs) /\ lim <> None -> fails true r) /\
    (~ (overfull b n (List.length xs) /\ lim <> None) -> fails false r).
  Proof.
    intros Hp Hn. cbv zeta. unfold try_from_iter_with_config. rewrite (sbind_ok _ _ f n f) by reflexivity.
    destruct (overfull_dec n (List.length xs)) as [[Hno [e He]]|(cap & q & Hc & Hov)].
    - rewrite He. split; [intros [H _]; contradiction|]. intros _. eexists _, _. reflexivity.
    - rewrite Hc. rewrite (sbind_ok _ _ f (cap, S q) f) by reflexivity.
      destruct (newc_fresh EO SO owner W Rep np SL b cap c f Hp) as (s & f1 & H1 & H2 & H3 & HLd & H4).
      rewrite (sbind_ok _ _ _ _ _ H1), HLd.
      destruct (populate_cases cap xs _ (s, f1) H3 H2) as [([s1 f2] & P1 & P2 & P3)|(Hgt & pan & Hpn & e & [s1 f2] & Hf)].
      + rewrite (sbind_ok _ _ f1 (tt, s1) f2) by (unfold with_store, sexpect; rewrite P1; reflexivity). cbn [fst] in P2.
        destruct (sl_build_len _ _ _ _ _ _ SL en A b n (S q) (Some c) (s1, f2) Hb) as [e He]; [cbn [fst]; congruence|].
        split; [intros [H Hl]; apply Hov in H; specialize (P3 H); congruence|]. intros _.
        eexists _, _. unfold sbind, with_store. rewrite He. reflexivity.
      + split; [|intros H; exfalso; apply H; split; [apply Hov; exact Hgt|congruence]]. intros _.
        unfold sbind at 1, with_store at 1, sexpect. rewrite Hf. destruct pan; cbn [expect]; eexists _, _; reflexivity.
  Qed.
End Lying.

Lemma disk_copy_past {E} (EO : ElementOps E) (EL : ElementLaws EO) cap n v st els :
  disk_rep EO cap n v st -> cap < n + List.length els -> fails false (disk_copy_from_slice EO (encode EO els) n st).
Proof.
  intros (H1 & H2 & H3 & HD) Hi. pose proof (bl_pos EO EL) as Hbl.
  unfold disk_copy_from_slice. rewrite encode_length by auto. rewrite Nat.mod_mul, Nat.eqb_refl by lia.
  unfold ensure. rewrite (sbind_ok _ _ st tt st) by reflexivity.
  unfold disk_store_copy_from_slice, sbind. rewrite H3, encode_length by auto.
  replace (n * e_byte_len EO + List.length els * e_byte_len EO <=? cap * e_byte_len EO) with false by (symmetry; apply Nat.leb_gt; nia).
  eexists _, _. reflexivity.
Qed.
Lemma mmap_copy_past {E} (EO : ElementOps E) (EL : ElementLaws EO) cap n v st els :
  mmap_rep EO cap n v st -> cap < n + List.length els -> fails true (mmap_copy_from_slice EO (encode EO els) n st).
Proof.
  intros (H1 & H2 & H3 & HD) Hi. pose proof (bl_pos EO EL) as Hbl.
  unfold mmap_copy_from_slice. rewrite encode_length by auto. rewrite Nat.mod_mul, Nat.eqb_refl by lia.
  unfold ensure. rewrite (sbind_ok _ _ st tt st) by reflexivity.
  assert (He : mmap_ensure_map st = (Ok tt, st)) by (unfold mmap_ensure_map; rewrite H3; reflexivity).
  rewrite (sbind_ok _ _ _ _ _ He).
  unfold mmap_store, sbind. rewrite H3, encode_length by auto.
  replace (n * e_byte_len EO + List.length els * e_byte_len EO <=? cap * e_byte_len EO) with false by (symmetry; apply Nat.leb_gt; nia).
  eexists _, _. reflexivity.
Qed.
