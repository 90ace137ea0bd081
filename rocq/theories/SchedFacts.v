(* Facts about arbitrary interleavings (Sched.v) *)
From Coq Require Import String List Arith Bool Lia ZifyBool ZifyNat.
From Verif Require Import Base Sched ListFacts.
Import ListNotations.

Section Ok.
  Context {St D : Type}.
  Variable n : nat.
  Variable rd : nat -> St -> res D.
  Variable wr : nat -> D -> SM St unit.
  (* I w st: the tasks in w have written *)
  Variable I : (nat -> bool) -> St -> Prop.
  Variable val : nat -> D.
  Definition wset (w : nat -> bool) (k : nat) : nat -> bool := fun j => if j =? k then true else w j.
  Hypothesis Hrd : forall w st k, I w st -> k < n -> w k = false -> rd k st = Ok (val k).
  Hypothesis Hwr : forall w st k, I w st -> k < n -> w k = false ->
    exists st', wr k (val k) st = (Ok tt, st') /\ I (wset w k) st'.

  Definition agrees (w : nat -> bool) (ts : nat -> @tstate D) : Prop :=
    forall k, k < n ->
      match ts k with
      | TNew => w k = false
      | TRead d => w k = false /\ d = val k
      | TDone => w k = true
      end.

  Definition rank (t : @tstate D) : nat := match t with TNew => 0 | TRead _ => 1 | TDone => 2 end.

  Lemma rank_le t : rank t <= 2.
  Proof. destruct t; simpl; lia. Qed.

  Lemma task_step_ok k w ts st :
    I w st -> agrees w ts ->
    exists w' ts' st', task_step n rd wr k ts None st = (ts', None, st') /\
      I w' st' /\ agrees w' ts' /\
      (forall j, j <> k -> ts' j = ts j) /\
      (k < n -> rank (ts' k) = Nat.min 2 (S (rank (ts k)))).
  Proof.
    intros HI Ha. unfold task_step. destruct (k <? n) eqn:Ek.
    2:{ exists w, ts, st. repeat split; auto. lia. }
    assert (Hk : k < n) by lia. pose proof (Ha k Hk) as Hk'.
    destruct (ts k) eqn:Et.
    - rewrite (Hrd w st k HI Hk Hk'). exists w, (tset ts k (TRead (val k))), st.
      repeat split; auto.
      + intros j Hj. unfold tset. destruct (j =? k) eqn:Ej.
        * assert (j = k) by lia. subst j. auto.
        * apply Ha. auto.
      + intros j Hj. unfold tset. replace (j =? k) with false by lia. reflexivity.
      + intros _. unfold tset. rewrite Nat.eqb_refl. reflexivity.
    - destruct Hk' as [Hw ->]. destruct (Hwr w st k HI Hk Hw) as [st' [Hst HI']].
      rewrite Hst. exists (wset w k), (tset ts k TDone), st'.
      repeat split; auto.
      + intros j Hj. unfold tset, wset. destruct (j =? k) eqn:Ej; [reflexivity|]. apply Ha. auto.
      + intros j Hj. unfold tset. replace (j =? k) with false by lia. reflexivity.
      + intros _. unfold tset. rewrite Nat.eqb_refl. reflexivity.
    - exists w, ts, st. repeat split; auto. intros _. rewrite Et. reflexivity.
  Qed.

  Lemma run_sched_ok sched : forall w ts st,
    I w st -> agrees w ts ->
    exists w' ts' st', run_sched n rd wr sched ts None st = (ts', None, st') /\
      I w' st' /\ agrees w' ts' /\
      (forall k, k < n -> Nat.min 2 (rank (ts k) + count_occ Nat.eq_dec sched k) <= rank (ts' k)).
  Proof.
    induction sched as [|k r IH]; intros w ts st HI Ha.
    - exists w, ts, st. repeat split; auto. intros. simpl. destruct (ts k); simpl; lia.
    - cbn [run_sched count_occ]. destruct (task_step_ok k w ts st HI Ha) as (w1 & ts1 & st1 & -> & HI1 & Ha1 & Ho & Hk).
      destruct (IH w1 ts1 st1 HI1 Ha1) as (w2 & ts2 & st2 & -> & HI2 & Ha2 & Hc).
      exists w2, ts2, st2. split; [reflexivity|]. split; [auto|]. split; [auto|].
      intros j Hj. specialize (Hc j Hj). destruct (Nat.eq_dec k j) as [->|Hn].
      + specialize (Hk Hj). pose proof (rank_le (ts j)). pose proof (rank_le (ts2 j)). lia.
      + rewrite Ho in Hc by auto. lia.
  Qed.

  Lemma count_completion k : k < n -> count_occ Nat.eq_dec (completion n) k = 2.
  Proof.
    intros Hk. unfold completion.
    assert (G : forall m s, count_occ Nat.eq_dec (flat_map (fun k => [k; k]) (seq s m)) k =
                            if (s <=? k) && (k <? s + m) then 2 else 0).
    { induction m; intros s.
      - simpl. destruct (s <=? k) eqn:E1, (k <? s + 0) eqn:E2; simpl; lia.
      - cbn [seq flat_map app count_occ]. rewrite IHm.
        destruct (Nat.eq_dec s k) as [->|Hn].
        + replace (S k <=? k) with false by lia. replace (k <=? k) with true by lia.
          replace (k <? k + S m) with true by lia. reflexivity.
        + replace (S s <=? k) with (s <=? k) by lia.
          replace (k <? S s + m) with (k <? s + S m) by lia. reflexivity. }
    rewrite G. replace (0 <=? k) with true by lia. replace (k <? 0 + n) with true by lia. reflexivity.
  Qed.

  Theorem run_tasks_ok sched st :
    I (fun _ => false) st ->
    exists w st', run_tasks n rd wr sched st = (Ok tt, st') /\
      I w st' /\ (forall k, k < n -> w k = true).
  Proof.
    intros HI. unfold run_tasks.
    destruct (run_sched_ok sched (fun _ => false) (fun _ => TNew) st HI) as (w1 & ts1 & st1 & -> & HI1 & Ha1 & Hc1).
    { intros k Hk. reflexivity. }
    destruct (run_sched_ok (completion n) w1 ts1 st1 HI1 Ha1) as (w2 & ts2 & st2 & -> & HI2 & Ha2 & Hc2).
    exists w2, st2. split; [reflexivity|]. split; [auto|].
    intros k Hk. specialize (Hc2 k Hk). rewrite count_completion in Hc2 by auto.
    specialize (Ha2 k Hk). destruct (ts2 k); cbn [rank] in *; auto; destruct (ts1 k); cbn [rank] in *; lia.
  Qed.
End Ok.
