(* C48: parallel iteration. *)
From Coq Require Import String List Arith NArith Bool Lia Init.Byte ZifyBool ZifyNat.
From Verif Require Import Base Element Hash Sizing FS Sched Store VecStore DiskStore MmapStore LevelCache ProofModel Tree Iter ListFacts Spec SpecFacts SizingFacts SchedFacts StoreLaws RowFacts ChunkFacts BuildFacts BuildLoop StoreSpec FileFacts VecFacts DiskFacts MmapFacts PopFacts TreeFacts ProofSpec ProofFacts TreeProofs TreeObs Builders Cases Props_Build.
Import ListNotations.

(* what the store holds, as seen through len and read_at *)
Definition store_holds {E} (SO : StoreOps E) (s : st_t SO) (f : fs) (els : list E) : Prop :=
  st_len SO s = List.length els /\ forall i, i < List.length els -> st_read_at SO (s, f) i = rnth els i.

Section C48.
  Context {E : Type} (SO : StoreOps E) (s : st_t SO) (f : fs) (els : list E).
  Hypothesis HH : store_holds SO s f els.

  Lemma read_here i : i < List.length els -> exists x, st_read_at SO (s, f) i = Ok x /\ nth_error els i = Some x.
  Proof.
    intros Hi. rewrite (proj2 HH i Hi). unfold rnth. destruct (nth_error els i) eqn:G; eauto.
    apply nth_error_None in G. lia.
  Qed.
  Lemma sub_front c n x : nth_error els c = Some x -> sub els c (S n) = x :: sub els (c + 1) n.
  Proof.
    intros H. rewrite Nat.add_1_r. apply sub_cons_nth. exact H.
  Qed.
  Lemma sub_back c n x : nth_error els (c + n) = Some x -> sub els c (S n) = sub els c n ++ [x].
  Proof.
    revert c. induction n as [|n IH]; intros c H.
    - rewrite Nat.add_0_r in H. rewrite (sub_front c 0 x H). reflexivity.
    - assert (Hc : c < List.length els) by (apply nth_error_lt in H; lia).
      destruct (nth_error_ex els c Hc) as [y Hy]. rewrite (sub_front c (S n) y Hy), (sub_front c n y Hy).
      rewrite (IH (c + 1)) by (replace (c + 1 + n) with (c + S n) by lia; exact H). reflexivity.
  Qed.

  Lemma next_some c n : c + S n <= List.length els ->
    exists x, it_next SO s f (mk_iter c (c + S n) false) = Ok (Some x, mk_iter (c + 1) (c + S n) false) /\ nth_error els c = Some x.
  Proof.
    intros H. destruct (read_here c ltac:(lia)) as (x & Hx & Hn). exists x. split; [|exact Hn].
    unfold it_next, it_is_done, it_len. cbn [it_cur it_end it_err negb].
    replace (c <=? c + S n) with true by lia. cbn [rbind]. replace (c + S n - c =? 0) with false by lia. rewrite Hx. reflexivity.
  Qed.
  Lemma next_back_some c n : c + S n <= List.length els ->
    exists x, it_next_back SO s f (mk_iter c (c + S n) false) = Ok (Some x, mk_iter c (c + n) false) /\ nth_error els (c + n) = Some x.
  Proof.
    intros H. destruct (read_here (c + n) ltac:(lia)) as (x & Hx & Hn). exists x. split; [|exact Hn].
    unfold it_next_back, it_is_done, it_len. cbn [it_cur it_end it_err negb].
    replace (c <=? c + S n) with true by lia. cbn [rbind]. replace (c + S n - c =? 0) with false by lia.
    unfold checked_sub. replace (c + S n <? 1) with false by lia. replace (1 <=? c + S n) with true by lia. cbn [rbind]. replace (c + S n - 1) with (c + n) by lia. rewrite Hx. reflexivity.
  Qed.
  Lemma next_none c : it_next SO s f (mk_iter c c false) = Ok (None, mk_iter c c false) /\
                      it_next_back SO s f (mk_iter c c false) = Ok (None, mk_iter c c false).
  Proof.
    unfold it_next, it_next_back, it_is_done, it_len. cbn [it_cur it_end it_err negb].
    replace (c <=? c) with true by lia. rewrite Nat.sub_diag. auto.
  Qed.

  Lemma drain_front_ok : forall n fuel c, n < fuel -> c + n <= List.length els ->
    drain_front SO s f fuel (mk_iter c (c + n) false) = Ok (sub els c n).
  Proof.
    induction n as [|n IH]; intros [|fuel] c Hf Hc; try lia; cbn [drain_front].
    - rewrite Nat.add_0_r. rewrite (proj1 (next_none c)). reflexivity.
    - destruct (next_some c n Hc) as (x & Hx & Hn). rewrite Hx. cbn [rbind fst snd].
      replace (c + S n) with (c + 1 + n) by lia. rewrite IH by lia. cbn [rbind]. rewrite (sub_front c n x Hn). reflexivity.
  Qed.
  Lemma drain_ok : forall ops n fuel c, n < fuel -> c + n <= List.length els ->
    drain SO s f fuel ops (mk_iter c (c + n) false) = Ok (sub els c n).
  Proof.
    induction ops as [|[|] ops IH]; intros n fuel c Hf Hc; cbn [drain].
    - apply drain_front_ok; auto.
    - destruct n as [|n].
      + rewrite Nat.add_0_r, (proj1 (next_none c)). reflexivity.
      + destruct (next_some c n Hc) as (x & Hx & Hn). rewrite Hx. cbn [rbind fst snd].
        replace (c + S n) with (c + 1 + n) by lia. rewrite IH by lia. cbn [rbind]. rewrite (sub_front c n x Hn). reflexivity.
    - destruct n as [|n].
      + rewrite Nat.add_0_r, (proj2 (next_none c)). reflexivity.
      + destruct (next_back_some c n Hc) as (x & Hx & Hn). rewrite Hx. cbn [rbind fst snd].
        rewrite IH by lia. cbn [rbind]. rewrite (sub_back c n x Hn). reflexivity.
  Qed.

  Lemma run_plan_ok : forall pl n fuel c, n < fuel -> c + n <= List.length els ->
    run_plan SO s f fuel pl (mk_producer c (c + n)) = Ok (sub els c n).
  Proof.
    induction pl as [ops|index l IHl r IHr]; intros n fuel c Hf Hc; cbn [run_plan].
    - apply drain_ok; auto.
    - unfold pr_split_at, pr_len, checked_sub. cbn [pr_end pr_cur]. replace (c <=? c + n) with true by lia. cbn [rbind].
      replace (c + n - c) with n by lia. destruct (n =? 0) eqn:En.
      + apply Nat.eqb_eq in En. subst n. cbn [rbind]. pose proof (IHl 0 fuel 0 ltac:(lia) ltac:(lia)) as G1. pose proof (IHr 0 fuel 0 ltac:(lia) ltac:(lia)) as G2. cbn [Nat.add] in G1, G2. rewrite G1. cbn [rbind]. rewrite G2. rewrite !sub_zero. reflexivity.
      + cbn [rbind]. rewrite IHl by lia. cbn [rbind].
        replace (c + n) with (c + Nat.min n index + (n - Nat.min n index)) by lia. rewrite IHr by lia. cbn [rbind]. f_equal.
        rewrite <- sub_split. f_equal. lia.
  Qed.
End C48.

(* every plan: splits at arbitrary indices, any mixture of next and next_back *)
Theorem C48_iteration : forall E (SO : StoreOps E) s f els pl fuel,
  store_holds SO s f els -> List.length els < fuel ->
  run_plan SO s f fuel pl (with_producer SO s) = Ok els.
Proof.
  intros E SO s f els pl fuel HH Hf. unfold with_producer. rewrite (proj1 HH).
  pose proof (run_plan_ok SO s f els HH pl (List.length els) fuel 0 Hf ltac:(lia)) as G. cbn [Nat.add] in G. rewrite G. f_equal. unfold sub. cbn [skipn]. apply firstn_all.
Qed.

(* for the stores of the trees the library builds: all nodes, in the layout order *)
Theorem C48_built : forall E (EO : ElementOps E) A SO np en b leaves f t f' s pl,
  setting EO A SO np en b -> builder EO SO A en b leaves f (Ok t, f') -> mt_data t = BaseTree s ->
  exists els, store_holds SO s f' els /\ firstn (List.length leaves) els = leaves /\
    run_plan SO s f' (S (List.length els)) pl (with_producer SO s) = Ok els.
Proof.
  intros E EO A SO np en b leaves f t f' s pl (EL & AL & HS & Hb & Hch) HB Hs.
  destruct (builder_tree EO EL A AL en b SO np HS leaves f t f' Hb Hch HB) as (d & els & Hn & HF).
  assert (HH : store_holds SO s f' els).
  { pose proof (ft_layout _ _ _ _ _ _ _ _ HF) as (_ & LE & _). split.
    - pose proof (ft_len _ _ _ _ _ _ _ _ HF) as L. unfold mt_len in L. rewrite Hs in L. lia.
    - intros i Hi. pose proof (ft_read_at _ _ _ _ _ _ _ _ HF i ltac:(lia)) as R. unfold mt_read_at in R. cbn [mt_read_at_n] in R.
      rewrite Hs in R. exact R. }
  exists els. split; [exact HH|]. split; [|apply C48_iteration; auto; lia].
  rewrite Hn.
  pose proof (arity_ge b Hb). apply nth_error_ext. intros i. rewrite nth_error_firstn. destruct (i <? b ^ d) eqn:Ei.
  - apply (Layout_leaf b ltac:(lia) (h_node A) d leaves els i (ft_layout _ _ _ _ _ _ _ _ HF)). lia.
  - symmetry. apply nth_error_None. lia.
Qed.

Example C48_case :
  match mt_new BO (disk_store BO) sum_alg env1 2 leaves8 fs_empty with
  | (Ok t, f) => match mt_data t with
                 | BaseTree s => rbind (run_plan (disk_store BO) s f 20
                                   (Split 6 (Split 100 (Drain [false; true; false]) (Drain [])) (Split 0 (Drain []) (Drain [false; false; false])))
                                   (with_producer (disk_store BO) s)) (fun l => Ok (map val l))
                                 = rbind (st_read_range (disk_store BO) (s, f) 0 15) (fun l => Ok (map val l))
                 | _ => False end
  | _ => False end.
Proof. vm_compute. reflexivity. Qed.

Print Assumptions C48_iteration.
Print Assumptions C48_built.
