(* Facts about arbitrary byte-level interleavings (Sched.v, run_bytes) *)
From Coq Require Import String List Arith Bool Lia Init.Byte ZifyBool ZifyNat.
From Verif Require Import Base Sched ListFacts.
Import ListNotations.

Lemma set_nth_length {X} (l : list X) : forall j x, List.length (set_nth l j x) = List.length l.
Proof. induction l; intros [|j] x; simpl; auto. Qed.
Lemma set_nth_same {X} (l : list X) : forall j x, j < List.length l -> nth_error (set_nth l j x) j = Some x.
Proof. induction l; intros [|j] x H; simpl in *; try lia; auto. apply IHl. lia. Qed.
Lemma set_nth_other {X} (l : list X) : forall j i x, i <> j -> nth_error (set_nth l j x) i = nth_error l i.
Proof. induction l; intros [|j] [|i] x H; simpl in *; auto; try lia. Qed.
Lemma collect_some got : forall l, collect got = Some l -> got = map Some l.
Proof.
  induction got as [|[x|] r IH]; intros l H; simpl in H; [injection H as <-; reflexivity| |discriminate].
  destruct (collect r); [|discriminate]. injection H as <-. simpl. rewrite (IH l0); reflexivity.
Qed.
Lemma collect_none got : collect got = None -> exists j, nth_error got j = Some None.
Proof.
  induction got as [|[x|] r IH]; intros H; simpl in H; [discriminate| |exists 0; reflexivity].
  destruct (collect r); [discriminate|]. destruct (IH eq_refl) as [j Hj]. exists (S j). exact Hj.
Qed.

Section Ok.
  Context {St : Type}.
  Variable n most : nat.
  Variable start : nat -> St -> res nat.
  Variable rd : nat -> nat -> St -> res byte.
  Variable comp : nat -> list byte -> res (list byte).
  Variable wr : nat -> nat -> byte -> SM St unit.
  (* I w st: byte j of task k has been written where w k j *)
  Variable I : (nat -> nat -> bool) -> St -> Prop.
  Variables inb out : nat -> list byte.
  Definition wset2 (w : nat -> nat -> bool) (k j : nat) : nat -> nat -> bool :=
    fun k' j' => if (k' =? k) && (j' =? j) then true else w k' j'.
  Hypothesis Hst : forall w st k, I w st -> k < n -> start k st = Ok (List.length (inb k)).
  Hypothesis Hrd : forall w st k j, I w st -> k < n -> j < List.length (inb k) -> rd k j st = Ok (nth j (inb k) x00).
  Hypothesis Hcomp : forall k, k < n -> comp k (inb k) = Ok (out k).
  Hypothesis Hwr : forall w st k j, I w st -> k < n -> j < List.length (out k) -> w k j = false ->
    exists st', wr k j (nth j (out k) x00) st = (Ok tt, st') /\ I (wset2 w k j) st'.

  (* the state of task k, when its bytes written so far are wk *)
  Definition task_at (k : nat) (wk : nat -> bool) (t : bstate) : Prop :=
    match t with
    | BNew => forall j, wk j = false
    | BRead got => (forall j, wk j = false) /\ List.length got = List.length (inb k) /\
        forall j x, nth_error got j = Some (Some x) -> x = nth j (inb k) x00
    | BWrite o => List.length o = List.length (out k) /\
        (forall j x d, nth_error o j = Some (x, d) -> x = nth j (out k) x00 /\ wk j = d) /\
        forall j, List.length (out k) <= j -> wk j = false
    | BFailed => False
    end.
  Definition tasks_at (w : nat -> nat -> bool) (ts : nat -> bstate) : Prop := forall k, k < n -> task_at k (w k) (ts k).

  (* how far a task is: its byte j has been read; is being written; has been written *)
  Definition has_read (j : nat) (t : bstate) : Prop :=
    match t with BRead got => nth_error got j <> Some None | BWrite _ => True | _ => False end.
  Definition writing (t : bstate) : Prop := match t with BWrite _ => True | _ => False end.
  Definition has_written (j : nat) (t : bstate) : Prop :=
    match t with BWrite o => forall x, nth_error o j <> Some (x, false) | _ => False end.
  Definition started (t : bstate) : Prop := t <> BNew.
  (* t2 is at least as far as t1 *)
  Definition further (t1 t2 : bstate) : Prop :=
    (started t1 -> started t2) /\ (writing t1 -> writing t2) /\
    forall j, (has_read j t1 -> has_read j t2) /\ (has_written j t1 -> has_written j t2).

  Lemma further_refl t : further t t.
  Proof. repeat split; auto. Qed.
  Lemma further_trans t1 t2 t3 : further t1 t2 -> further t2 t3 -> further t1 t3.
  Proof.
    intros (A1 & A2 & A3) (B1 & B2 & B3). split; [auto|]. split; [auto|].
    intros j. destruct (A3 j), (B3 j). auto.
  Qed.

  Lemma byte_step_ok k j w ts st :
    I w st -> tasks_at w ts ->
    exists w' ts' st', byte_step n start rd comp wr k j ts None st = (ts', None, st') /\
      I w' st' /\ tasks_at w' ts' /\
      (forall i, further (ts i) (ts' i)) /\
      (k < n -> started (ts' k) /\ (started (ts k) -> has_read j (ts' k)) /\
         ((forall i, i < List.length (inb k) -> has_read i (ts k)) -> started (ts k) -> writing (ts' k)) /\
         (writing (ts k) -> has_written j (ts' k))).
  Proof.
    intros HI Ha. unfold byte_step. destruct (k <? n) eqn:Ek.
    2:{ exists w, ts, st. split; [reflexivity|]. split; [exact HI|]. split; [exact Ha|].
        split; [intros; apply further_refl|lia]. }
    assert (Hk : k < n) by lia. pose proof (Ha k Hk) as Hk'.
    assert (Hset : forall t w', tasks_at w' (bset ts k t) <->
        (task_at k (w' k) t /\ forall i, i < n -> i <> k -> task_at i (w' i) (ts i))).
    { intros t w'. unfold tasks_at, bset. split.
      - intros H. split; [specialize (H k Hk); rewrite Nat.eqb_refl in H; exact H|].
        intros i Hi Hne. specialize (H i Hi). replace (i =? k) with false in H by lia. exact H.
      - intros [H1 H2] i Hi. destruct (i =? k) eqn:Q; [replace i with k by lia; exact H1|apply H2; lia]. }
    assert (Hf : forall t, further (ts k) t -> forall i, further (ts i) (bset ts k t i)).
    { intros t H i. unfold bset. destruct (i =? k) eqn:Q; [replace i with k by lia; exact H|apply further_refl]. }
    assert (Hb : forall t, bset ts k t k = t) by (intros t; unfold bset; rewrite Nat.eqb_refl; reflexivity).
    destruct (ts k) as [|got|o|] eqn:Et; [| | |destruct Hk'].
    - (* the check *)
      rewrite (Hst w st k HI Hk). cbn [go_on]. eexists w, _, st. split; [reflexivity|]. split; [exact HI|].
      split. { apply Hset. split; [|intros; apply Ha; auto]. cbn. split; [exact Hk'|].
        split; [apply repeat_length|]. intros i x Hx. apply nth_error_In in Hx. apply repeat_spec in Hx. discriminate. }
      split. { apply Hf. split; [intros _ Q; discriminate|]. split; [intros []|]. intros i. split; intros []. }
      intros _. rewrite Hb. split; [intros Q; discriminate|]. split; [intros Q; exfalso; apply Q; reflexivity|].
      split; [intros _ Q; exfalso; apply Q; reflexivity|intros []].
    - destruct Hk' as (K1 & K2 & K3). destruct (collect got) as [bytes|] eqn:Ec.
      + (* hashing *)
        apply collect_some in Ec.
        assert (bytes = inb k).
        { apply nth_ext with x00 x00; [rewrite <- K2, Ec, map_length; reflexivity|]. intros i Hi. apply K3.
          rewrite Ec, nth_error_map, (nth_error_nth' _ x00) by exact Hi. reflexivity. }
        subst bytes. rewrite (Hcomp k Hk). cbn [go_on]. eexists w, _, st. split; [reflexivity|]. split; [exact HI|].
        split. { apply Hset. split; [|intros; apply Ha; auto]. cbn. split; [apply map_length|].
          split; [|intros; apply K1]. intros i x d Hx. rewrite nth_error_map in Hx.
          destruct (nth_error (out k) i) as [y|] eqn:Q; [|discriminate]. injection Hx as <- <-.
          split; [symmetry; apply nth_error_nth; exact Q|apply K1]. }
        split. { apply Hf. split; [intros _ Q; discriminate|]. split; [intros []|]. intros i. split; [intros _; exact Logic.I|intros []]. }
        intros _. rewrite Hb. split; [intros Q; discriminate|]. split; [intros _; exact Logic.I|]. split; [intros _ _; exact Logic.I|intros []].
      + destruct (nth_error got j) as [[x|]|] eqn:Ej.
        * exists w, ts, st. split; [reflexivity|]. split; [exact HI|]. split; [exact Ha|]. split; [intros; apply further_refl|].
          intros _. rewrite Et. split; [intros Q; discriminate|]. split; [intros _; cbn; rewrite Ej; discriminate|].
          split; [|intros []]. intros H _. apply collect_none in Ec. destruct Ec as [i Hi]. exfalso. apply (H i); [|exact Hi].
          rewrite <- K2. apply nth_error_Some. rewrite Hi. discriminate.
        * (* reading byte j *)
          assert (Hj : j < List.length got) by (apply nth_error_Some; rewrite Ej; discriminate).
          rewrite (Hrd w st k j HI Hk ltac:(lia)). cbn [go_on]. eexists w, _, st. split; [reflexivity|]. split; [exact HI|].
          split. { apply Hset. split; [|intros; apply Ha; auto]. cbn. split; [exact K1|]. split; [rewrite set_nth_length; exact K2|].
            intros i x Hx. destruct (Nat.eq_dec i j) as [->|Hne].
            - rewrite set_nth_same in Hx by exact Hj. injection Hx as <-. reflexivity.
            - rewrite set_nth_other in Hx by exact Hne. apply K3. exact Hx. }
          split. { apply Hf. split; [intros _ Q; discriminate|]. split; [intros []|]. intros i. split; [|intros []]. cbn. intros Q.
            destruct (Nat.eq_dec i j) as [->|Hne]; [rewrite set_nth_same by exact Hj; discriminate|rewrite set_nth_other by exact Hne; exact Q]. }
          intros _. rewrite Hb. split; [intros Q; discriminate|]. split; [intros _; cbn; rewrite set_nth_same by exact Hj; discriminate|].
          split; [|intros []]. intros H _. exfalso. apply (H j); [lia|exact Ej].
        * exists w, ts, st. split; [reflexivity|]. split; [exact HI|]. split; [exact Ha|]. split; [intros; apply further_refl|].
          intros _. rewrite Et. split; [intros Q; discriminate|]. split; [intros _; cbn; rewrite Ej; discriminate|].
          split; [|intros []]. intros H _. apply collect_none in Ec. destruct Ec as [i Hi]. exfalso. apply (H i); [|exact Hi].
          rewrite <- K2. apply nth_error_Some. rewrite Hi. discriminate.
    - destruct Hk' as (K1 & K2 & K3). destruct (nth_error o j) as [[x [|]]|] eqn:Ej.
      + exists w, ts, st. split; [reflexivity|]. split; [exact HI|]. split; [exact Ha|]. split; [intros; apply further_refl|].
        intros _. rewrite Et. split; [intros Q; discriminate|]. split; [intros _; exact Logic.I|]. split; [intros _ _; exact Logic.I|].
        intros _. cbn. intros y. rewrite Ej. discriminate.
      + (* writing byte j *)
        assert (Hj : j < List.length o) by (apply nth_error_Some; rewrite Ej; discriminate).
        destruct (K2 j x false Ej) as [-> Hw].
        destruct (Hwr w st k j HI Hk ltac:(lia) Hw) as (st' & -> & HI'). cbn [go_on].
        eexists (wset2 w k j), _, st'. split; [reflexivity|]. split; [exact HI'|].
        split. { apply Hset. split.
          - cbn. split; [rewrite set_nth_length; exact K1|]. split.
            + intros i y d Hy. unfold wset2. rewrite Nat.eqb_refl. cbn [andb]. destruct (Nat.eq_dec i j) as [->|Hne].
              * rewrite set_nth_same in Hy by exact Hj. injection Hy as <- <-. rewrite Nat.eqb_refl. auto.
              * rewrite set_nth_other in Hy by exact Hne. replace (i =? j) with false by lia. apply K2. exact Hy.
            + intros i Hi. unfold wset2. rewrite Nat.eqb_refl. cbn [andb]. replace (i =? j) with false by lia. apply K3. exact Hi.
          - intros i Hi Hne. specialize (Ha i Hi).
            assert (Hwi : forall l, wset2 w k j i l = w i l) by (intros l; unfold wset2; replace (i =? k) with false by lia; reflexivity).
            destruct (ts i); cbn in *; auto.
            + intros l. rewrite Hwi. apply Ha.
            + destruct Ha as (A1 & A2). split; [intros l; rewrite Hwi; apply A1|exact A2].
            + destruct Ha as (A1 & A2 & A3). split; [exact A1|]. split; [intros l y d Hy; rewrite Hwi; apply A2; exact Hy|].
              intros l Hl. rewrite Hwi. apply A3. exact Hl. }
        split. { apply Hf. split; [intros _ Q; discriminate|]. split; [intros _; exact Logic.I|]. intros i. split; [intros _; exact Logic.I|].
          cbn. intros Q y. destruct (Nat.eq_dec i j) as [->|Hne]; [rewrite set_nth_same by exact Hj; discriminate|rewrite set_nth_other by exact Hne; apply Q]. }
        intros _. rewrite Hb. split; [intros Q; discriminate|]. split; [intros _; exact Logic.I|]. split; [intros _ _; exact Logic.I|].
        intros _. cbn. intros y. rewrite set_nth_same by exact Hj. discriminate.
      + exists w, ts, st. split; [reflexivity|]. split; [exact HI|]. split; [exact Ha|]. split; [intros; apply further_refl|].
        intros _. rewrite Et. split; [intros Q; discriminate|]. split; [intros _; exact Logic.I|]. split; [intros _ _; exact Logic.I|].
        intros _. cbn. intros y. rewrite Ej. discriminate.
  Qed.

  Lemma byte_sched_app l1 l2 ts fl st :
    run_byte_sched n start rd comp wr (l1 ++ l2) ts fl st =
    let '(ts', fl', st') := run_byte_sched n start rd comp wr l1 ts fl st in run_byte_sched n start rd comp wr l2 ts' fl' st'.
  Proof.
    revert ts fl st. induction l1 as [|[k j] r IH]; intros; cbn [app run_byte_sched]; [reflexivity|].
    destruct (byte_step n start rd comp wr k j ts fl st) as [[ts' fl'] st']. apply IH.
  Qed.

  (* any schedule, in particular one that stops early *)
  Lemma byte_sched_ok sched : forall w ts st,
    I w st -> tasks_at w ts ->
    exists w' ts' st', run_byte_sched n start rd comp wr sched ts None st = (ts', None, st') /\
      I w' st' /\ tasks_at w' ts' /\ (forall i, further (ts i) (ts' i)).
  Proof.
    induction sched as [|[k j] r IH]; intros w ts st HI Ha; cbn [run_byte_sched].
    - exists w, ts, st. split; [reflexivity|]. split; [exact HI|]. split; [exact Ha|]. intros; apply further_refl.
    - destruct (byte_step_ok k j w ts st HI Ha) as (w1 & ts1 & st1 & -> & HI1 & Ha1 & Hf1 & _).
      destruct (IH w1 ts1 st1 HI1 Ha1) as (w2 & ts2 & st2 & -> & HI2 & Ha2 & Hf2).
      exists w2, ts2, st2. split; [reflexivity|]. split; [exact HI2|]. split; [exact Ha2|].
      intros i. eapply further_trans; eauto.
  Qed.

  (* all bytes of one task in turn *)
  Lemma byte_seq_ok k m : k < n -> forall a w ts st,
    I w st -> tasks_at w ts -> started (ts k) ->
    exists w' ts' st', run_byte_sched n start rd comp wr (map (fun j => (k, j)) (seq a m)) ts None st = (ts', None, st') /\
      I w' st' /\ tasks_at w' ts' /\ (forall i, further (ts i) (ts' i)) /\
      (forall j, a <= j < a + m -> has_read j (ts' k)) /\
      (writing (ts k) -> forall j, a <= j < a + m -> has_written j (ts' k)).
  Proof.
    intros Hk. induction m; intros a w ts st HI Ha Hs; cbn [seq map run_byte_sched].
    - exists w, ts, st. split; [reflexivity|]. split; [exact HI|]. split; [exact Ha|]. split; [intros; apply further_refl|].
      split; [lia|intros _; lia].
    - destruct (byte_step_ok k a w ts st HI Ha) as (w1 & ts1 & st1 & -> & HI1 & Ha1 & Hf1 & Hk1).
      destruct (Hk1 Hk) as (Q1 & Q2 & _ & Q4).
      destruct (IHm (S a) w1 ts1 st1 HI1 Ha1 Q1) as (w2 & ts2 & st2 & -> & HI2 & Ha2 & Hf2 & Hr & Hw).
      exists w2, ts2, st2. split; [reflexivity|]. split; [exact HI2|]. split; [exact Ha2|].
      split; [intros i; eapply further_trans; eauto|].
      destruct (Hf2 k) as (F1 & F2 & F3). split.
      + intros j Hj. destruct (Nat.eq_dec j a) as [->|Hne]; [apply F3; auto|apply Hr; lia].
      + intros Hwr0 j Hj. destruct (Nat.eq_dec j a) as [->|Hne]; [apply F3; auto|]. apply Hw; [|lia].
        destruct (Hf1 k) as (_ & F & _). auto.
  Qed.

  Definition round (k : nat) : list (nat * nat) := (k, 0) :: map (fun j => (k, j)) (seq 0 most).
  Lemma round_ok k w ts st : k < n -> List.length (inb k) <= most ->
    I w st -> tasks_at w ts ->
    exists w' ts' st', run_byte_sched n start rd comp wr (round k) ts None st = (ts', None, st') /\
      I w' st' /\ tasks_at w' ts' /\ (forall i, further (ts i) (ts' i)) /\
      (forall j, j < most -> has_read j (ts' k)) /\ started (ts' k) /\
      ((forall j, j < most -> has_read j (ts k)) -> started (ts k) -> forall j, j < most -> has_written j (ts' k)).
  Proof.
    intros Hk Hl HI Ha. unfold round. cbn [run_byte_sched].
    destruct (byte_step_ok k 0 w ts st HI Ha) as (w1 & ts1 & st1 & -> & HI1 & Ha1 & Hf1 & Hk1).
    destruct (Hk1 Hk) as (Q1 & Q2 & Q3 & Q4).
    destruct (byte_seq_ok k most Hk 0 w1 ts1 st1 HI1 Ha1 Q1) as (w2 & ts2 & st2 & -> & HI2 & Ha2 & Hf2 & Hr & Hw).
    exists w2, ts2, st2. split; [reflexivity|]. split; [exact HI2|]. split; [exact Ha2|].
    split; [intros i; eapply further_trans; eauto|]. split; [intros j Hj; apply Hr; lia|].
    split; [destruct (Hf2 k) as (F & _); auto|].
    intros Hall Hs j Hj. apply Hw; [|lia]. apply Q3; [|exact Hs]. intros i Hi. apply Hall. lia.
  Qed.

  Hypothesis Hin : forall k, k < n -> List.length (inb k) <= most.

  Lemma completion_ok m : forall a w ts st, a + m <= n -> I w st -> tasks_at w ts ->
    exists w' ts' st', run_byte_sched n start rd comp wr (flat_map (fun k => round k ++ round k) (seq a m)) ts None st = (ts', None, st') /\
      I w' st' /\ tasks_at w' ts' /\ (forall i, further (ts i) (ts' i)) /\
      forall k j, a <= k < a + m -> j < most -> has_written j (ts' k).
  Proof.
    induction m; intros a w ts st Hn HI Ha; cbn [seq flat_map].
    - cbn [run_byte_sched]. exists w, ts, st. split; [reflexivity|]. split; [exact HI|]. split; [exact Ha|]. split; [intros; apply further_refl|lia].
    - rewrite <- app_assoc, byte_sched_app.
      destruct (round_ok a w ts st ltac:(lia) (Hin a ltac:(lia)) HI Ha) as (w1 & ts1 & st1 & -> & HI1 & Ha1 & Hf1 & R1 & R2 & _).
      rewrite byte_sched_app.
      destruct (round_ok a w1 ts1 st1 ltac:(lia) (Hin a ltac:(lia)) HI1 Ha1) as (w2 & ts2 & st2 & -> & HI2 & Ha2 & Hf2 & _ & _ & R3).
      destruct (IHm (S a) w2 ts2 st2 ltac:(lia) HI2 Ha2) as (w3 & ts3 & st3 & -> & HI3 & Ha3 & Hf3 & R4).
      exists w3, ts3, st3. split; [reflexivity|]. split; [exact HI3|]. split; [exact Ha3|].
      split; [intros i; eapply further_trans; [|eapply further_trans]; eauto|].
      intros k j Hkk Hj. destruct (Nat.eq_dec k a) as [->|Hne]; [|apply R4; lia].
      destruct (Hf3 a) as (_ & _ & F). apply F. apply R3; auto.
  Qed.

  Hypothesis Hout : forall k, k < n -> List.length (out k) <= most.

  Theorem run_bytes_ok sched st :
    I (fun _ _ => false) st ->
    exists w st', run_bytes n start rd comp wr most sched st = (Ok tt, st') /\
      I w st' /\ (forall k j, k < n -> j < List.length (out k) -> w k j = true).
  Proof.
    intros HI. unfold run_bytes.
    destruct (byte_sched_ok sched (fun _ _ => false) (fun _ => BNew) st HI) as (w1 & ts1 & st1 & -> & HI1 & Ha1 & _).
    { intros k Hk. cbn. reflexivity. }
    destruct (completion_ok n 0 w1 ts1 st1 (le_n n) HI1 Ha1) as (w2 & ts2 & st2 & Hrun & HI2 & Ha2 & _ & Hw).
    change (byte_completion n most) with (flat_map (fun k => round k ++ round k) (seq 0 n)). rewrite Hrun.
    exists w2, st2. split; [reflexivity|]. split; [exact HI2|].
    intros k j Hk Hj. specialize (Hw k j ltac:(lia)). specialize (Hout k Hk). specialize (Hw ltac:(lia)).
    specialize (Ha2 k Hk). destruct (ts2 k) as [| |o|]; cbn in Hw, Ha2; try destruct Hw.
    destruct Ha2 as (A1 & A2 & _). destruct (nth_error o j) as [[x d]|] eqn:Q.
    - destruct (A2 j x d Q) as [-> ->]. destruct d; [reflexivity|]. exfalso. exact (Hw _ eq_refl).
    - apply nth_error_None in Q. lia.
  Qed.

  (* a run stopped in the middle of a schedule: nothing has failed, the bytes
     written so far are those of some set *)
  Theorem run_bytes_stopped sched st :
    I (fun _ _ => false) st ->
    exists w st', run_bytes_until n start rd comp wr sched st = (Ok tt, st') /\ I w st'.
  Proof.
    intros HI. destruct (byte_sched_ok sched (fun _ _ => false) (fun _ => BNew) st HI) as (w1 & ts1 & st1 & H & HI1 & _).
    { intros k Hk. cbn. reflexivity. }
    exists w1, st1. unfold run_bytes_until. rewrite H. auto.
  Qed.
End Ok.

(* one task that fails when hashing: nothing is written *)
Lemma run_bytes_1_err {St} (start : nat -> St -> res nat) rd comp wr most (d : list byte) sched st m :
  start 0 st = Ok (List.length d) -> (forall j, j < List.length d -> rd 0 j st = Ok (nth j d x00)) -> comp 0 d = Err m ->
  List.length d <= most ->
  run_bytes 1 start rd comp wr most sched st = (Err m, st).
Proof.
  intros H1 H2 H3 H4.
  (* before the failure: the task has not got to writing *)
  set (ok := fun t => match t with
                      | BNew => True
                      | BRead got => List.length got = List.length d /\ forall j x, nth_error got j = Some (Some x) -> x = nth j d x00
                      | _ => False end).
  assert (S1 : forall k j ts, ok (ts 0) ->
     exists ts', (byte_step 1 start rd comp wr k j ts None st = (ts', None, st) /\ ok (ts' 0) /\
        (ts 0 = BNew -> k = 0 -> ts' 0 <> BNew) /\ (ts 0 <> BNew -> ts' 0 <> BNew) /\
        (forall i, has_read i (ts 0) -> has_read i (ts' 0)) /\
        (ts 0 <> BNew -> k = 0 -> has_read j (ts' 0)) /\
        (k = 0 -> ts 0 <> BNew -> ~ forall i, i < List.length d -> has_read i (ts 0)))
     \/ (byte_step 1 start rd comp wr k j ts None st = (ts', Some (Err m), st))).
  { intros k j ts Hok. unfold byte_step. destruct (k <? 1) eqn:Q.
    2:{ exists ts. left. split; [reflexivity|]. repeat split; auto; intros; lia. }
    assert (k = 0) by lia. subst k. destruct (ts 0) as [|got|o|] eqn:Et; cbn in Hok; try destruct Hok as [].
    - rewrite H1. cbn [go_on]. eexists. left. split; [reflexivity|]. unfold bset. cbn. split.
      { split; [apply repeat_length|]. intros i x Hx. apply nth_error_In, repeat_spec in Hx. discriminate. }
      repeat split; try (intros; congruence).
    - destruct (collect got) as [bytes|] eqn:Ec.
      + apply collect_some in Ec. assert (bytes = d).
        { apply nth_ext with x00 x00; [rewrite <- H, Ec, map_length; reflexivity|]. intros i Hi. apply H0.
          rewrite Ec, nth_error_map, (nth_error_nth' _ x00) by exact Hi. reflexivity. }
        subst bytes. rewrite H3. cbn [go_on first_failure]. eexists. right. reflexivity.
      + assert (NR : ~ forall i, i < List.length d -> has_read i (BRead got)).
        { intros G. apply collect_none in Ec. destruct Ec as [i Hi]. apply (G i); [|exact Hi]. rewrite <- H. apply nth_error_Some. rewrite Hi. discriminate. }
        destruct (nth_error got j) as [[x|]|] eqn:Ej.
        * exists ts. left. rewrite Et. split; [reflexivity|]. split; [cbn; auto|]. repeat split; auto; try congruence.
        * assert (Hj : j < List.length got) by (apply nth_error_Some; rewrite Ej; discriminate).
          rewrite H2 by lia. cbn [go_on]. eexists. left. split; [reflexivity|]. unfold bset. cbn. split.
          { split; [rewrite set_nth_length; exact H|]. intros i x Hx. destruct (Nat.eq_dec i j) as [->|Hne].
            - rewrite set_nth_same in Hx by exact Hj. injection Hx as <-. reflexivity.
            - rewrite set_nth_other in Hx by exact Hne. apply H0. exact Hx. }
          split; [congruence|]. split; [congruence|]. split.
          { intros i Hi. destruct (Nat.eq_dec i j) as [->|Hne]; [rewrite set_nth_same by exact Hj; discriminate|rewrite set_nth_other by exact Hne; exact Hi]. }
          split; [intros _ _; rewrite set_nth_same by exact Hj; discriminate|]. intros _ _. exact NR.
        * exists ts. left. rewrite Et. split; [reflexivity|]. split; [cbn; auto|]. repeat split; auto; try congruence. }
  assert (S0 : forall l ts, exists ts', run_byte_sched 1 start rd comp wr l ts (Some (Err m)) st = (ts', Some (Err m), st) \/
                            ts 0 <> BFailed).
  { intros l ts. destruct (ts 0) eqn:Q; try (exists ts; right; congruence). revert ts Q.
    induction l as [|[k j] r IH]; intros ts Q; [exists ts; left; reflexivity|]. cbn [run_byte_sched].
    assert (byte_step 1 start rd comp wr k j ts (Some (Err m)) st = (ts, Some (Err m), st)) as ->.
    { unfold byte_step. destruct (k <? 1) eqn:G; [|reflexivity]. replace k with 0 by lia. rewrite Q. reflexivity. }
    apply IH. exact Q. }
  assert (SF : forall k j ts ts', ok (ts 0) -> byte_step 1 start rd comp wr k j ts None st = (ts', Some (Err m), st) -> ts' 0 = BFailed).
  { intros k j ts ts' Hok. unfold byte_step. destruct (k <? 1) eqn:Q; [|intros X; inversion X].
    replace k with 0 by lia. destruct (ts 0) as [|got|o|]; cbn in Hok; try destruct Hok as [].
    - rewrite H1. cbn. intros X; inversion X.
    - destruct (collect got) as [bytes|].
      + destruct (comp 0 bytes); cbn; intros X; inversion X; reflexivity.
      + destruct (nth_error got j) as [[x|]|] eqn:G; [intros X; inversion X| |intros X; inversion X].
        destruct (rd 0 j st); cbn; intros X; inversion X; reflexivity. }
  assert (S2 : forall l ts, ok (ts 0) -> exists ts', 
     (run_byte_sched 1 start rd comp wr l ts None st = (ts', None, st) /\ ok (ts' 0) /\
      (ts 0 <> BNew -> ts' 0 <> BNew) /\ (forall i, has_read i (ts 0) -> has_read i (ts' 0)) /\
      (In 0 (map fst l) -> ts' 0 <> BNew) /\
      (ts 0 <> BNew -> forall j, In (0, j) l -> has_read j (ts' 0)) /\
      (ts 0 <> BNew -> In 0 (map fst l) -> ~ forall i, i < List.length d -> has_read i (ts 0))) \/
     run_byte_sched 1 start rd comp wr l ts None st = (ts', Some (Err m), st)).
  { induction l as [|[k j] r IH]; intros ts Hok; cbn [run_byte_sched].
    - exists ts. left. split; [reflexivity|]. repeat split; auto; try (intros; contradiction).
    - destruct (S1 k j ts Hok) as (ts1 & [(-> & A1 & A2 & A3 & A4 & A5 & A6) | Hb]).
      + destruct (IH ts1 A1) as (ts2 & [(Hr & B1 & B2 & B3 & B4 & B5 & B6) | Hr]); [|exists ts2; right; exact Hr].
        exists ts2. left. rewrite Hr. split; [reflexivity|]. split; [exact B1|]. split; [auto|]. split; [auto|]. cbn [map fst].
        assert (N1 : k = 0 -> ts1 0 <> BNew).
        { intros Hk. destruct (ts 0) eqn:Q; [apply A2; auto|apply A3; congruence|apply A3; congruence|apply A3; congruence]. }
        split; [intros [Hk|Hin]; [apply B2, N1; exact Hk|apply B4; exact Hin]|].
        split.
        * intros Hnew i [Hi|Hi]; [injection Hi as Hk Hij; rewrite <- Hij; apply B3, A5; auto|apply B5; auto].
        * intros Hnew [Hk|Hin]; [apply A6; auto|]. intros G. apply (B6 (A3 Hnew) Hin). intros i Hi. apply A4, G, Hi.
      + rewrite Hb. destruct (S0 r ts1) as (ts2 & [G|G]); [exists ts2; right; exact G|].
        exfalso. apply G. exact (SF _ _ _ _ Hok Hb). }
  unfold run_bytes. destruct (S2 sched (fun _ => BNew) Logic.I) as (ts1 & [(-> & A1 & A2) | ->]); [|reflexivity].
  assert (S3 : exists ts2, run_byte_sched 1 start rd comp wr (byte_completion 1 most) ts1 None st = (ts2, Some (Err m), st)).
  { unfold byte_completion. cbn [seq flat_map]. cbv zeta. rewrite app_nil_r. set (rnd := (0, 0) :: map (fun j => (0, j)) (seq 0 most)).
    assert (R : forall ts, ok (ts 0) -> exists ts', (run_byte_sched 1 start rd comp wr rnd ts None st = (ts', None, st) /\ ok (ts' 0) /\ ts' 0 <> BNew /\
                  (forall j, j < most -> has_read j (ts' 0)) /\ (ts 0 <> BNew -> ~ forall i, i < List.length d -> has_read i (ts 0)))
              \/ run_byte_sched 1 start rd comp wr rnd ts None st = (ts', Some (Err m), st)).
    { intros ts Hok. unfold rnd. destruct (S1 0 0 ts Hok) as (ta & [(Ha & B1 & B2 & B3 & B4 & B5 & B6) | Hb]).
      - assert (Hna : ta 0 <> BNew) by (destruct (ts 0) eqn:Q; [apply B2; auto|apply B3; congruence|apply B3; congruence|apply B3; congruence]).
        cbn [run_byte_sched]. rewrite Ha. destruct (S2 (map (fun j => (0, j)) (seq 0 most)) ta B1) as (tb & [(-> & C1 & C2 & C3 & C4 & C5 & C6) | ->]); [|eauto].
        exists tb. left. split; [reflexivity|]. split; [exact C1|]. split; [auto|]. split; [|intros; apply B6; auto].
        intros j Hj. apply C5; [exact Hna|]. apply in_map_iff. exists j. split; [reflexivity|]. apply in_seq. lia.
      - cbn [run_byte_sched]. rewrite Hb. destruct (S0 (map (fun j => (0, j)) (seq 0 most)) ta) as (tb & [G|G]); [eauto|]. exfalso. apply G. exact (SF _ _ _ _ Hok Hb). }
    rewrite byte_sched_app. destruct (R ts1 A1) as (ta & [(-> & C1 & C2 & C3 & _) | Hb]).
    - destruct (R ta C1) as (tb & [(_ & _ & _ & _ & C5) | ->]); [|eauto]. exfalso. apply (C5 C2). intros i Hi. apply C3. lia.
    - rewrite Hb. destruct (S0 rnd ta) as (tb & [G|G]); [eauto|].
      (* the failing task stays failed *)
      exfalso. apply G. clear G. unfold rnd in Hb.
      assert (SF2 : forall l ts tx, ok (ts 0) -> run_byte_sched 1 start rd comp wr l ts None st = (tx, Some (Err m), st) -> tx 0 = BFailed).
      { induction l as [|[k j] r IH]; intros ts tx Hok; cbn [run_byte_sched]; [intros X; inversion X|].
        destruct (S1 k j ts Hok) as (t1 & [(Hx & B1 & _) | Hx]); rewrite Hx; [apply IH; exact B1|].
        pose proof (SF _ _ _ _ Hok Hx) as Hf. clear - Hf. revert t1 Hf. induction r as [|[k' j'] r IH]; intros t1 Hf; cbn [run_byte_sched]; [intros X; inversion X; subst; exact Hf|].
        assert (byte_step 1 start rd comp wr k' j' t1 (Some (Err m)) st = (t1, Some (Err m), st)) as ->.
        { unfold byte_step. destruct (k' <? 1) eqn:G; [|reflexivity]. replace k' with 0 by lia. rewrite Hf. reflexivity. }
        apply IH. exact Hf. }
      exact (SF2 _ _ _ A1 Hb). }
  destruct S3 as (ts2 & ->). reflexivity.
Qed.
