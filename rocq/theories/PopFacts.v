(* populate_data and populate_data_par over any store satisfying the laws. *)
From Coq Require Import String List Arith Bool Lia Init.Byte ZifyBool ZifyNat.
From Verif Require Import Base Element Hash Sizing FS Sched Store VecStore ProofModel Tree ListFacts Spec SpecFacts SizingFacts SchedFacts StoreLaws RowFacts ChunkFacts BuildFacts BuildLoop StoreSpec FileFacts.
Import ListNotations.

Lemma sbind_inv {St A B} (m : SM St A) (k : A -> SM St B) s y s2 :
  sbind m k s = (Ok y, s2) -> exists a s1, m s = (Ok a, s1) /\ k a s1 = (Ok y, s2).
Proof. unfold sbind. destruct (m s) as [[a|e|e|] s1]; try discriminate. eauto. Qed.

Section Pop.
  Context {E : Type} (EO : ElementOps E) (EL : ElementLaws EO) (SO : StoreOps E).
  Local Notation T := (st_t SO).
  Variable owner : T -> option nat.
  Variable W : T -> Prop.
  Variable Rep : nat -> nat -> (nat -> option E) -> T * fs -> Prop.
  Variable np : bool.
  Hypothesis SL : PopLaws EO SO owner W Rep np.
  Variable A : AlgOps E.
  Hypothesis AL : AlgLaws A.
  Variable en : env.
  Let CL := pl_core _ _ _ _ _ _ SL.
  Let leaf := h_leaf A.

  Lemma leaf_reset a x : fst (a_leaf A (a_reset A a) x) = leaf x.
  Proof. rewrite AL. reflexivity. Qed.

  (* the elements written so far, and the rest in the buffer *)
  Lemma populate_loop_ok block cap : forall xs a done buf v (st : T * fs),
    W (fst st) -> Rep cap (List.length done) v st -> knows v 0 done ->
    List.length done + List.length buf + List.length xs <= cap ->
    exists done' rest v' st',
      populate_loop EO SO A block (map Ok xs) a (encode EO buf) st = (Ok (encode EO rest), st') /\
      done' ++ rest = done ++ buf ++ map leaf xs /\
      W (fst st') /\ Rep cap (List.length done') v' st' /\ knows v' 0 done' /\ Step owner st st'.
  Proof.
    induction xs as [|x xs IH]; intros a done buf v st HW HR Hk Hc.
    - exists done, buf, v, st. cbn [map populate_loop]. rewrite app_nil_r. repeat split; auto using fs_frame_refl.
    - cbn [map populate_loop]. rewrite (sbind_ok _ _ st x st) by reflexivity.
      pose proof (leaf_reset a x) as Hl. destruct (a_leaf A (a_reset A a) x) as [h a'] eqn:Ea. cbn [fst] in Hl. subst h.
      assert (He : encode EO buf ++ e_as_ref EO (leaf x) = encode EO (buf ++ [leaf x])).
      { rewrite encode_app. unfold encode at 3. cbn [map concat]. rewrite app_nil_r. reflexivity. }
      rewrite He. cbn [List.length] in Hc.
      destruct (_ <=? _) eqn:G.
      + rewrite (sbind_ok _ _ st st st) by reflexivity.
        rewrite (cl_len _ _ _ _ _ _ _ _ _ _ CL _ _ _ _ HR).
        destruct (cl_copy _ _ _ _ _ _ _ _ _ _ CL cap _ v st (buf ++ [leaf x]) (List.length done) HR HW)
          as (st1 & H1 & HR1 & HS1 & HW1).
        { rewrite app_length. cbn [List.length]. lia. }
        rewrite (sbind_ok _ _ _ _ _ H1).
        destruct (IH a' (done ++ buf ++ [leaf x]) [] (upd v (List.length done) (buf ++ [leaf x])) st1 HW1)
          as (done' & rest & v' & st' & H2 & H3 & H4 & H5 & H6 & H7).
        * rewrite app_length. rewrite Nat.max_r in HR1 by lia. exact HR1.
        * apply knows_app; [apply knows_upd_other; auto; left; lia|]. cbn [Nat.add]. apply knows_upd_same.
        * rewrite !app_length. cbn [List.length]. lia.
        * exists done', rest, v', st'. split; [exact H2|]. split.
          { rewrite H3. cbn [app]. rewrite <- !app_assoc. reflexivity. }
          split; [exact H4|]. split; [exact H5|]. split; [exact H6|]. eapply Step_trans; eauto.
      + destruct (IH a' done (buf ++ [leaf x]) v st HW HR Hk) as (done' & rest & v' & st' & H2 & H3 & H4 & H5 & H6 & H7).
        * rewrite app_length. cbn [List.length]. lia.
        * exists done', rest, v', st'. split; [exact H2|]. split; [|auto].
          rewrite H3, <- app_assoc. reflexivity.
  Qed.

  Lemma populate_ok cap xs v (st : T * fs) :
    W (fst st) -> Rep cap 0 v st -> List.length xs <= cap ->
    exists v' st', populate_data EO SO A en (map Ok xs) st = (Ok tt, st') /\
      W (fst st') /\ Rep cap (List.length xs) v' st' /\ knows v' 0 (map leaf xs) /\ Step owner st st'.
  Proof.
    intros HW HR Hc. unfold populate_data. rewrite (sbind_ok _ _ st st st) by reflexivity.
    rewrite (pl_empty _ _ _ _ _ _ SL _ _ _ _ HR). cbn [Nat.eqb negb].
    destruct (populate_loop_ok (p_block (env_params en)) cap xs (a_default A) [] [] v st HW HR (knows_nil v 0) ltac:(simpl; lia))
      as (done' & rest & v' & st' & H2 & H3 & H4 & H5 & H6 & H7).
    unfold encode at 1 in H2. cbn [map concat] in H2. rewrite (sbind_ok _ _ _ _ _ H2).
    rewrite (sbind_ok _ _ st' st' st') by reflexivity.
    rewrite (cl_len _ _ _ _ _ _ _ _ _ _ CL _ _ _ _ H5). cbn [app] in H3.
    assert (Hl : List.length done' + List.length rest = List.length xs).
    { rewrite <- app_length, H3, map_length. reflexivity. }
    destruct (cl_copy _ _ _ _ _ _ _ _ _ _ CL cap _ v' st' rest (List.length done') H5 H4 ltac:(lia))
          as (st1 & H1 & HR1 & HS1 & HW1).
    rewrite (sbind_ok _ _ _ _ _ H1). rewrite (pl_sync _ _ _ _ _ _ SL).
    exists (upd v' (List.length done') rest), st1. split; [reflexivity|]. split; [exact HW1|].
    split; [rewrite <- Hl; rewrite Nat.max_r in HR1 by lia; exact HR1|]. split.
    - rewrite <- H3. apply knows_app; [apply knows_upd_other; auto; left; lia|]. cbn [Nat.add]. apply knows_upd_same.
    - eapply Step_trans; eauto.
  Qed.

  (* first error of the iterator *)
  Lemma populate_loop_err block cap e : forall xs a (done buf : list E) v (st : T * fs) more,
    W (fst st) -> Rep cap (List.length done) v st ->
    List.length done + List.length buf + List.length xs <= cap ->
    exists st', populate_loop EO SO A block (map Ok xs ++ Err e :: more) a (encode EO buf) st = (Err e, st').
  Proof.
    induction xs as [|x xs IH]; intros a done buf v st more HW HR Hc.
    - eexists. reflexivity.
    - cbn [map app populate_loop]. rewrite (sbind_ok _ _ st x st) by reflexivity.
      pose proof (leaf_reset a x) as Hl. destruct (a_leaf A (a_reset A a) x) as [h a'] eqn:Ea. cbn [fst] in Hl. subst h.
      assert (He : encode EO buf ++ e_as_ref EO (leaf x) = encode EO (buf ++ [leaf x])).
      { rewrite encode_app. unfold encode at 3. cbn [map concat]. rewrite app_nil_r. reflexivity. }
      rewrite He. cbn [List.length] in Hc.
      destruct (_ <=? _) eqn:G.
      + rewrite (sbind_ok _ _ st st st) by reflexivity.
        rewrite (cl_len _ _ _ _ _ _ _ _ _ _ CL _ _ _ _ HR).
        destruct (cl_copy _ _ _ _ _ _ _ _ _ _ CL cap _ v st (buf ++ [leaf x]) (List.length done) HR HW)
          as (st1 & H1 & HR1 & HS1 & HW1).
        { rewrite app_length. cbn [List.length]. lia. }
        rewrite (sbind_ok _ _ _ _ _ H1).
        apply (IH a' (done ++ buf ++ [leaf x]) [] (upd v (List.length done) (buf ++ [leaf x])) st1 more HW1).
        * rewrite app_length. rewrite Nat.max_r in HR1 by lia. exact HR1.
        * rewrite !app_length. cbn [List.length]. lia.
      + apply (IH a' done (buf ++ [leaf x]) v st more HW HR). rewrite app_length. cbn [List.length]. lia.
  Qed.

  Lemma populate_err cap xs e more v (st : T * fs) :
    W (fst st) -> Rep cap 0 v st -> List.length xs <= cap ->
    exists st', populate_data EO SO A en (map Ok xs ++ Err e :: more) st = (Err e, st').
  Proof.
    intros HW HR Hc. unfold populate_data. rewrite (sbind_ok _ _ st st st) by reflexivity.
    rewrite (pl_empty _ _ _ _ _ _ SL _ _ _ _ HR). cbn [Nat.eqb negb].
    destruct (populate_loop_err (p_block (env_params en)) cap e xs (a_default A) [] [] v st more HW HR ltac:(simpl; lia)) as [st' H].
    unfold encode at 1 in H. cbn [map concat] in H. unfold sbind at 1. rewrite H. eexists. reflexivity.
  Qed.

  (* any iterator, any store state: an Ok result means every item was Ok and was appended;
     failures are errors (or panics of an mmap store), or the iterator's own outcome *)
  Definition item_ok (r : res E) : Prop := match r with Ok _ => True | Err _ => True | _ => False end.
  Definition loop_outcome {X} (n : nat) (items : list (res E)) (good : X -> nat) (r : res X * (T * fs)) : Prop :=
    match r with
    | (Ok x, st') => good x + st_len SO (fst st') = n + List.length items /\ Forall (fun i => exists e, i = Ok e) items
    | (Err _, _) => True
    | (Panic _, _) => np = false
    | (Diverge, _) => False
    end.

  Lemma populate_loop_any block : forall items a buf (st : T * fs),
    Forall item_ok items ->
    match populate_loop EO SO A block items a (encode EO buf) st with
    | (Ok bs, st') => exists rest, bs = encode EO rest /\
        List.length rest + st_len SO (fst st') = List.length buf + st_len SO (fst st) + List.length items /\
        Forall (fun i => exists e, i = Ok e) items
    | (Err _, _) => True
    | (Panic _, _) => np = false
    | (Diverge, _) => False
    end.
  Proof.
    induction items as [|it items IH]; intros a buf st HI.
    - exists buf. cbn [List.length]. repeat split; auto.
    - inversion HI as [|? ? H0 HI']. subst. cbn [populate_loop]. unfold sbind at 1, slift at 1.
      destruct it as [x|m|m|]; try exact I; try destruct H0.
      destruct (a_leaf A (a_reset A a) x) as [h a'] eqn:Ea.
      assert (He : encode EO buf ++ e_as_ref EO h = encode EO (buf ++ [h])).
      { rewrite encode_app. unfold encode at 3. cbn [map concat]. rewrite app_nil_r. reflexivity. }
      rewrite He.
      destruct (_ <=? _) eqn:G.
      + rewrite (sbind_ok _ _ st st st) by reflexivity.
        pose proof (cl_copy_any _ _ _ _ _ _ _ _ _ _ CL (buf ++ [h]) (st_len SO (fst st)) st) as HA.
        unfold write_any in HA. unfold sbind at 1.
        destruct (st_copy_from_slice SO (encode EO (buf ++ [h])) (st_len SO (fst st)) st) as [[u|m|m|] st1]; auto.
        specialize (IH a' [] st1 HI'). change (encode EO []) with (@nil byte) in IH.
        destruct (populate_loop EO SO A block items a' [] st1) as [[bs|m|m|] st2]; auto.
        destruct IH as (rest & H1 & H2 & H3). exists rest. split; [exact H1|].
        split; [|constructor; eauto]. rewrite app_length in HA. cbn [List.length] in *. lia.
      + specialize (IH a' (buf ++ [h]) st HI').
        destruct (populate_loop EO SO A block items a' (encode EO (buf ++ [h])) st) as [[bs|m|m|] st2]; auto.
        destruct IH as (rest & H1 & H2 & H3). exists rest. split; [exact H1|].
        split; [|constructor; eauto]. rewrite app_length in H2. cbn [List.length] in *. lia.
  Qed.

  Lemma populate_any items cap v (st : T * fs) :
    Rep cap 0 v st -> Forall item_ok items ->
    match populate_data EO SO A en items st with
    | (Ok _, st') => st_len SO (fst st') = List.length items /\ Forall (fun i => exists e, i = Ok e) items
    | (Err _, _) => True
    | (Panic _, _) => np = false
    | (Diverge, _) => False
    end.
  Proof.
    intros HR HI. unfold populate_data. rewrite (sbind_ok _ _ st st st) by reflexivity.
    rewrite (pl_empty _ _ _ _ _ _ SL _ _ _ _ HR). cbn [Nat.eqb negb].
    pose proof (populate_loop_any (p_block (env_params en)) items (a_default A) [] st HI) as H.
    change (encode EO []) with (@nil byte) in H. unfold sbind at 1.
    destruct (populate_loop EO SO A (p_block (env_params en)) items (a_default A) [] st) as [[bs|m|m|] st1]; auto.
    destruct H as (rest & -> & H1 & H2). rewrite (sbind_ok _ _ st1 st1 st1) by reflexivity.
    pose proof (cl_copy_any _ _ _ _ _ _ _ _ _ _ CL rest (st_len SO (fst st1)) st1) as HA.
    unfold write_any in HA. unfold sbind at 1.
    destruct (st_copy_from_slice SO (encode EO rest) (st_len SO (fst st1)) st1) as [[u|m|m|] st2]; auto.
    rewrite (pl_sync _ _ _ _ _ _ SL). cbn [List.length] in H1.
    rewrite (cl_len _ _ _ _ _ _ _ _ _ _ CL _ _ _ _ HR) in H1. split; [lia|exact H2].
  Qed.

  (* ---- parallel population ---- *)
  Lemma block_bytes_ok xs : forall a, block_bytes EO A xs a = encode EO (map leaf xs).
  Proof.
    induction xs as [|x xs IH]; intros a; [reflexivity|]. cbn [block_bytes map].
    pose proof (leaf_reset a x) as Hl. destruct (a_leaf A (a_reset A a) x) as [h a']. cbn [fst] in Hl. subst h.
    rewrite IH. reflexivity.
  Qed.

  Lemma populate_par_ok cap xs v (st : T * fs) :
    0 < p_block (env_params en) ->
    W (fst st) -> Rep cap 0 v st -> List.length xs <= cap ->
    exists v' st', populate_data_par EO SO A en xs st = (Ok tt, st') /\
      W (fst st') /\ Rep cap (List.length xs) v' st' /\ knows v' 0 (map leaf xs) /\ Step owner st st'.
  Proof.
    intros Hb HW HR Hc. unfold populate_data_par. rewrite (sbind_ok _ _ st st st) by reflexivity.
    rewrite (pl_empty _ _ _ _ _ _ SL _ _ _ _ HR). cbn [Nat.eqb negb].
    remember (p_block (env_params en)) as B eqn:EB. clear EB.
    remember (map leaf xs) as hs eqn:Ehs.
    assert (Hlen : List.length hs = List.length xs) by (subst hs; apply map_length).
    set (pc := fun k => sub hs (B * k) B).
    assert (Hnb : forall k, k < List.length (chunks B xs) <-> B * k < List.length xs).
    { intros k. rewrite chunks_length by auto. rewrite (Nat.mul_comm B k). apply div_up; auto. }
    set (I := fun (dn : nat -> bool) (s1 : T * fs) => W (fst s1) /\ Step owner st s1 /\
        exists n v1, Rep cap n v1 s1 /\ n <= List.length xs /\
          forall k, k < List.length (chunks B xs) -> dn k = true ->
            knows v1 (B * k) (pc k) /\ B * k + List.length (pc k) <= n).
    match goal with |- context [run_tasks ?nn ?rd ?wr ?sch] =>
      destruct (run_tasks_ok nn rd wr I (fun k => encode EO (pc k))) with (sched := sch) (st := st)
        as (dn & st' & Hrun & (HW' & HS' & n & v1 & HR' & Hn & Hdn) & Hall) end.
    - intros dn s1 k _ Hk _. apply Hnb in Hk. unfold rnth. rewrite nth_error_chunks by auto.
      rewrite (Nat.mul_comm k B). replace (B * k <? List.length xs) with true by lia. cbn [rbind].
      rewrite block_bytes_ok. unfold pc. subst hs. do 2 f_equal. unfold sub.
      rewrite <- firstn_map, <- skipn_map. reflexivity.
    - intros dn s1 k (HW1 & HS1 & n & v1 & HR1 & Hn & Hdn) Hk _.
      assert (Hpl : B * k + List.length (pc k) <= List.length xs).
      { unfold pc. rewrite sub_length. apply Hnb in Hk. lia. }
      destruct (cl_copy _ _ _ _ _ _ _ _ _ _ CL cap n v1 s1 (pc k) (B * k) HR1 HW1 ltac:(lia))
        as (s2 & H1 & HR2 & HS2 & HW2).
      exists s2. split; [exact H1|]. split; [exact HW2|]. split; [eapply Step_trans; eauto|].
      eexists _, _. split; [exact HR2|]. split; [lia|].
      intros j Hj Hd. unfold wset in Hd. destruct (j =? k) eqn:Ejk.
      + apply Nat.eqb_eq in Ejk. subst j. split; [apply knows_upd_same|lia].
      + destruct (Hdn j Hj Hd) as [K1 K2]. split; [|lia].
        apply knows_upd_other; auto. unfold pc. rewrite !sub_length.
        assert (Hd' : j < k \/ k < j) by lia. destruct Hd' as [L|L].
        * left. pose proof (Nat.mul_le_mono_l (S j) k B L). lia.
        * right. pose proof (Nat.mul_le_mono_l (S k) j B L). lia.
    - split; [exact HW|]. split; [apply Step_refl|]. exists 0, v. split; [exact HR|]. split; [lia|]. discriminate.
    - rewrite (sbind_ok _ _ _ _ _ Hrun). rewrite (pl_sync _ _ _ _ _ _ SL).
      exists v1, st'. split; [reflexivity|]. split; [exact HW'|].
      assert (Hkn : forall i, i < List.length xs -> exists k, k < List.length (chunks B xs) /\ B * k <= i < B * k + List.length (pc k)).
      { intros i Hi. exists (i / B). pose proof (Nat.mul_div_le i B ltac:(lia)) as G1.
        pose proof (Nat.mod_upper_bound i B ltac:(lia)) as G2. pose proof (Nat.div_mod_eq i B) as G3.
        split; [apply Hnb; lia|]. unfold pc. rewrite sub_length. lia. }
      split; [|split; [|exact HS']].
      + replace (List.length xs) with n; [exact HR'|].
        destruct (Nat.eq_dec (List.length xs) 0) as [G|G]; [lia|].
        destruct (Hkn (List.length xs - 1) ltac:(lia)) as (k & Hk & G2).
        destruct (Hdn k Hk (Hall k Hk)) as [_ G3]. lia.
      + intros i Hi. cbn [Nat.add]. rewrite Hlen in Hi. destruct (Hkn i Hi) as (k & Hk & G2).
        destruct (Hdn k Hk (Hall k Hk)) as [G3 _]. specialize (G3 (i - B * k) ltac:(lia)).
        replace (B * k + (i - B * k)) with i in G3 by lia. rewrite G3. unfold pc. rewrite nth_error_sub.
        unfold pc in G2. rewrite sub_length in G2.
        replace (i - B * k <? B) with true by lia. f_equal. lia.
  Qed.
End Pop.
