(* C76: exactly what an iterator answers when reads fail now and then. *)
From Coq Require Import String List Arith NArith Bool Lia Init.Byte ZifyBool ZifyNat.
From Verif Require Import Base Element Hash Sizing FS Sched Store VecStore DiskStore MmapStore LevelCache ProofModel Tree Iter ListFacts Cases Props_IterErr.
Import ListNotations.

Section Exact.
  Context {E : Type} (SO : StoreOps E) (s : st_t SO).
  Definition answer (o : option E) (r : res (list (option E))) : res (list (option E)) := do l <- r; Ok (o :: l).

  (* after a failure: two counters on the whole store, no range; next_back at 0 panics *)
  Fixpoint loose (ops : list (bool * fs)) (lo hi : nat) : res (list (option E)) :=
    match ops with
    | [] => Ok []
    | (true, f) :: ops =>
        match st_read_at SO (s, f) lo with
        | Ok x => answer (Some x) (loose ops (lo + 1) hi)
        | _ => answer None (loose ops lo hi)
        end
    | (false, f) :: ops =>
        match hi with
        | 0 => Panic "attempt to subtract with overflow"
        | S k => match st_read_at SO (s, f) k with
                 | Ok x => answer (Some x) (loose ops lo k)
                 | _ => answer None (loose ops lo hi)
                 end
        end
    end.

  (* before: the range [lo, hi); an exhausted range stays exhausted, a failing read makes it loose *)
  Fixpoint tight (ops : list (bool * fs)) (lo hi : nat) : res (list (option E)) :=
    match ops with
    | [] => Ok []
    | (front, f) :: ops' =>
        if lo <? hi then
          match st_read_at SO (s, f) (if front then lo else hi - 1) with
          | Ok x => answer (Some x) (if front then tight ops' (lo + 1) hi else tight ops' lo (hi - 1))
          | _ => answer None (loose ops' lo hi)
          end
        else Ok (map (fun _ => None) ops)
    end.
End Exact.

Theorem C76_exact : forall E (SO : StoreOps E) s ops p,
  (forall f i, no_panic (st_read_at SO (s, f) i)) -> pr_cur p <= pr_end p ->
  calls SO s ops (pr_into_iter p) = tight SO s ops (pr_cur p) (pr_end p).
Proof.
  intros E SO s ops [c e] HN. cbn [pr_cur pr_end]. unfold pr_into_iter. cbn [pr_cur pr_end].
  assert (L : forall ops c e, calls SO s ops (mk_iter c e true) = loose SO s ops c e).
  { clear ops c e. induction ops as [|[[] f] ops IH]; intros c e; [reflexivity| |]; cbn [calls loose].
    - unfold it_next, it_is_done. cbn [it_cur it_end it_err negb rbind].
      pose proof (HN f c) as Hc. destruct (st_read_at SO (s, f) c) as [x|m|m|]; try contradiction Hc; cbn [rbind fst snd]; rewrite IH; reflexivity.
    - unfold it_next_back, it_is_done, checked_sub. cbn [it_cur it_end it_err negb rbind].
      destruct e as [|k]; [reflexivity|]. replace (1 <=? S k) with true by lia. cbn [rbind]. replace (S k - 1) with k by lia.
      pose proof (HN f k) as Hc. destruct (st_read_at SO (s, f) k) as [x|m|m|]; try contradiction Hc; cbn [rbind fst snd]; rewrite IH; reflexivity. }
  assert (D : forall ops c, calls SO s ops (mk_iter c c false) = Ok (map (fun _ => None) ops)).
  { clear ops c e. induction ops as [|[[] f] ops IH]; intros c; [reflexivity| |]; cbn [calls map];
      unfold it_next, it_next_back, it_is_done, it_len; cbn [it_cur it_end it_err negb]; rewrite Nat.leb_refl, Nat.sub_diag; cbn [rbind]; rewrite Nat.eqb_refl; cbn [rbind fst snd];
      rewrite IH; reflexivity. }
  revert c e. induction ops as [|[front f] ops IH]; intros c e Hle; [reflexivity|].
  destruct (c <? e) eqn:Q.
  2:{ replace e with c by lia. rewrite D. cbn [tight]. rewrite Nat.ltb_irrefl. reflexivity. }
  cbn [calls tight]. rewrite Q.
  assert (Hd : it_is_done (mk_iter c e false) = Ok false).
  { unfold it_is_done, it_len. cbn [it_cur it_end it_err negb]. replace (c <=? e) with true by lia. cbn [rbind]. f_equal. lia. }
  destruct front.
  - unfold it_next. rewrite Hd. cbn [rbind it_cur it_end it_err].
    pose proof (HN f c) as Hc. destruct (st_read_at SO (s, f) c) as [x|m|m|]; try contradiction Hc; cbn [rbind fst snd].
    + rewrite IH by lia. reflexivity.
    + rewrite L. reflexivity.
  - unfold it_next_back. rewrite Hd. unfold checked_sub. cbn [rbind it_cur it_end it_err]. replace (1 <=? e) with true by lia. cbn [rbind].
    pose proof (HN f (e - 1)) as Hc. destruct (st_read_at SO (s, f) (e - 1)) as [x|m|m|]; try contradiction Hc; cbn [rbind fst snd].
    + rewrite IH by lia. reflexivity.
    + rewrite L. reflexivity.
Qed.

(* As many calls as the range has elements: every answer is right, whatever fails and
   when.  Only later calls can go wrong. *)
Theorem C76_enough_partial : forall E (SO : StoreOps E) s ops p,
  (forall f i, no_panic (st_read_at SO (s, f) i)) ->
  pr_cur p + List.length ops <= pr_end p ->
  calls SO s ops (pr_into_iter p) = Ok (ideal SO s ops (pr_cur p) (pr_end p)).
Proof.
  intros E SO s ops p HN HL. rewrite C76_exact by (auto; lia). destruct p as [c e]. cbn [pr_cur pr_end] in *.
  assert (L : forall ops c e, c + List.length ops <= e -> loose SO s ops c e = Ok (ideal SO s ops c e)).
  { clear ops c e HL. induction ops as [|[[] f] ops IH]; intros c e H; [reflexivity| |]; cbn [List.length] in H; cbn [loose ideal];
      replace (c <? e) with true by lia.
    - pose proof (HN f c) as Hc. destruct (st_read_at SO (s, f) c) as [x|m|m|]; try contradiction Hc; rewrite IH by lia; reflexivity.
    - destruct e as [|k]; [lia|]. replace (S k - 1) with k by lia.
      pose proof (HN f k) as Hc. destruct (st_read_at SO (s, f) k) as [x|m|m|]; try contradiction Hc; rewrite IH by lia; reflexivity. }
  revert c e HL. induction ops as [|[front f] ops IH]; intros c e H; [reflexivity|]; cbn [List.length] in H; cbn [tight ideal].
  replace (c <? e) with true by lia.
  destruct front.
  - pose proof (HN f c) as Hc. destruct (st_read_at SO (s, f) c) as [x|m|m|]; try contradiction Hc; rewrite ?IH, ?L by lia; reflexivity.
  - pose proof (HN f (e - 1)) as Hc. destruct (st_read_at SO (s, f) (e - 1)) as [x|m|m|]; try contradiction Hc; rewrite ?IH, ?L by lia; reflexivity.
Qed.

(* two calls more can panic *)
Theorem C76_enough_sharp_refuted : ~ (forall E (SO : StoreOps E) s ops p,
  (forall f i, no_panic (st_read_at SO (s, f) i)) ->
  pr_cur p + List.length ops <= pr_end p + 2 ->
  calls SO s ops (pr_into_iter p) = Ok (ideal SO s ops (pr_cur p) (pr_end p))).
Proof.
  intros H. pose proof C76_panics as P. unfold with_four in P.
  destruct four_store as [[t| | |] f]; try discriminate P. destruct (mt_data t) as [s| |]; try discriminate P.
  rewrite (H B1 (disk_store BO) s _ (mk_producer 0 2)) in P; [discriminate P| |cbn; lia].
  intros f0 i. apply disk_no_panic.
Qed.

(* When it panics: a read failed while elements were left, every element below the end
   of the range has then been taken from the back, and next_back is called once more. *)
Fixpoint backs {E} (ops : list (bool * fs)) (l : list (option E)) : nat :=
  match ops, l with
  | (false, _) :: ops, Some _ :: l => S (backs ops l)
  | _ :: ops, _ :: l => backs ops l
  | _, _ => 0
  end.
(* some read failed while the range had elements left *)
Fixpoint failed {E} (ops : list (bool * fs)) (l : list (option E)) (left : nat) : bool :=
  match ops, l, left with
  | _ :: ops, Some _ :: l, S n => failed ops l n
  | _ :: _, None :: _, S _ => true
  | _, _, _ => false
  end.
Theorem C76_panic_exact : forall E (SO : StoreOps E) s ops f p l,
  (forall f i, no_panic (st_read_at SO (s, f) i)) -> pr_cur p <= pr_end p ->
  calls SO s ops (pr_into_iter p) = Ok l ->
  ((forall l', calls SO s (ops ++ [(false, f)]) (pr_into_iter p) <> Ok l') <->
   failed ops l (pr_end p - pr_cur p) = true /\ backs ops l = pr_end p).
Proof.
  intros E SO s ops f p l HN Hle. rewrite !C76_exact by auto. destruct p as [c e]. cbn [pr_cur pr_end] in *.
  assert (L : forall ops c e l, loose SO s ops c e = Ok l ->
    (backs ops l <= e /\ ((forall l', loose SO s (ops ++ [(false, f)]) c e <> Ok l') <-> backs ops l = e))).
  { clear ops c e l Hle. induction ops as [|[fr f0] ops IH]; intros c e l.
    - intros [= <-]. split; [apply Nat.le_0_l|]. cbn [app loose backs]. destruct e as [|k]; [split; [reflexivity|discriminate]|].
      pose proof (HN f k) as Hc. destruct (st_read_at SO (s, f) k); try contradiction Hc; cbn [answer rbind];
        (split; [intros H; exfalso; eapply H; reflexivity|discriminate]).
    - assert (A : forall (o : option E) r1 r2 (b : nat), (forall l1, r1 = Ok l1 -> (b + backs ops l1 <= e /\ ((forall l', r2 <> Ok l') <-> b + backs ops l1 = e))) ->
        forall l, answer o r1 = Ok l -> exists l1, r1 = Ok l1 /\ l = o :: l1 /\ b + backs ops l1 <= e /\ ((forall l', answer o r2 <> Ok l') <-> b + backs ops l1 = e)).
      { intros o r1 r2 b H l0. destruct r1 as [l1| | |]; cbn [answer rbind]; try discriminate. intros [= <-]. exists l1.
        destruct (H l1 eq_refl) as [H1 H2]. repeat split; auto.
        - intros G. apply H2. intros l' ->. apply (G (o :: l')). reflexivity.
        - intros G l' X. destruct r2 as [l2| | |] eqn:R2; cbn [answer rbind] in X; try discriminate X. apply (proj2 H2 G l2). reflexivity. }
      destruct fr; cbn [app loose].
      + pose proof (HN f0 c) as Hc. destruct (st_read_at SO (s, f0) c) as [x|m|m|]; try contradiction Hc; intros HO.
        * destruct (A (Some x) _ (loose SO s (ops ++ [(false, f)]) (c + 1) e) 0 (fun l1 Hl => IH _ _ _ Hl) _ HO) as (l1 & _ & -> & H). exact H.
        * destruct (A None _ (loose SO s (ops ++ [(false, f)]) c e) 0 (fun l1 Hl => IH _ _ _ Hl) _ HO) as (l1 & _ & -> & H). exact H.
      + destruct e as [|k]; [discriminate|].
        pose proof (HN f0 k) as Hc. destruct (st_read_at SO (s, f0) k) as [x|m|m|]; try contradiction Hc; intros HO.
        * destruct (A (Some x) (loose SO s ops c k) (loose SO s (ops ++ [(false, f)]) c k) 1) with (l := l) as (l1 & _ & -> & H); [|exact HO|exact H].
          intros l1 Hl. destruct (IH _ _ _ Hl) as [H1 H2]. split; [lia|]. rewrite H2. lia.
        * destruct (A None _ (loose SO s (ops ++ [(false, f)]) c (S k)) 0 (fun l1 Hl => IH _ _ _ Hl) _ HO) as (l1 & _ & -> & H). exact H. }
  revert c e l Hle. induction ops as [|[fr f0] ops IH]; intros c e l Hle.
  - intros [= <-]. cbn [app tight failed]. split.
    + intros H. exfalso. destruct (c <? e); [|eapply H; reflexivity].
      pose proof (HN f (e - 1)) as Hc. destruct (st_read_at SO (s, f) (e - 1)); try contradiction Hc; eapply H; reflexivity.
    + intros [H _]. discriminate H.
  - cbn [app tight]. destruct (c <? e) eqn:Q.
    2:{ intros [= <-]. split; [intros H; exfalso; eapply H; reflexivity|]. replace (e - c) with 0 by lia. cbn [map failed]. intros [H _]. discriminate H. }
    assert (exists n, e - c = S n) as [n Hn] by (exists (e - c - 1); lia). rewrite Hn.
    assert (A : forall (o : option E) r1 r2 (P : list (option E) -> Prop), (forall l1, r1 = Ok l1 -> ((forall l', r2 <> Ok l') <-> P (o :: l1))) ->
        forall l, answer o r1 = Ok l -> ((forall l', answer o r2 <> Ok l') <-> P l)).
    { intros o r1 r2 P H l0. destruct r1 as [l1| | |]; cbn [answer rbind]; try discriminate. intros [= <-]. rewrite <- (H l1 eq_refl). split.
      - intros G l' ->. apply (G (o :: l')). reflexivity.
      - intros G l' X. destruct r2 as [l2| | |] eqn:R2; cbn [answer rbind] in X; try discriminate X. apply (G l2). reflexivity. }
    assert (HF : forall m, st_read_at SO (s, f0) (if fr then c else e - 1) = Err m ->
      forall l, answer None (loose SO s ops c e) = Ok l ->
      ((forall l', answer None (loose SO s (ops ++ [(false, f)]) c e) <> Ok l') <-> failed ((fr, f0) :: ops) l (S n) = true /\ backs ((fr, f0) :: ops) l = e)).
    { intros m _ l0. apply (A None _ _ (fun l => failed ((fr, f0) :: ops) l (S n) = true /\ backs ((fr, f0) :: ops) l = e)).
      intros l1 Hl. destruct (L _ _ _ _ Hl) as [_ H]. rewrite H. cbn [failed]. destruct fr; cbn [backs]; tauto. }
    pose proof (HN f0 (if fr then c else e - 1)) as Hc. destruct (st_read_at SO (s, f0) (if fr then c else e - 1)) as [x|m|m|]; try contradiction Hc.
    2:{ apply (HF m eq_refl). }
    destruct fr.
    + apply (A (Some x) _ _ (fun l => failed ((true, f0) :: ops) l (S n) = true /\ backs ((true, f0) :: ops) l = e)).
      intros l1 Hl. rewrite (IH (c + 1) e l1) by (lia || exact Hl). cbn [failed backs]. replace (e - (c + 1)) with n by lia. tauto.
    + apply (A (Some x) _ _ (fun l => failed ((false, f0) :: ops) l (S n) = true /\ backs ((false, f0) :: ops) l = e)).
      intros l1 Hl. rewrite (IH c (e - 1) l1) by (lia || exact Hl). cbn [failed backs]. replace (e - 1 - c) with n by lia.
      split; intros [H1 H2]; (split; [exact H1|lia]).
Qed.

(* non-vacuity: the runs of C76_outside and C76_panics, from the closed form *)
Example C76_exact_case :
  with_four (fun s f cut => do l <- tight (disk_store BO) s [(false, cut); (true, f); (true, f); (true, f); (true, f); (true, f)] 0 2; Ok (map (option_map val) l))
    = Ok [None; Some 39; Some 37; Some 40; Some 41; Some 38] /\
  with_four (fun s f cut => do l <- tight (disk_store BO) s [(false, cut); (false, f); (false, f); (false, f)] 0 2; Ok (map (option_map val) l))
    = Panic "attempt to subtract with overflow" /\
  with_four (fun s f cut => do l <- tight (disk_store BO) s [(false, cut); (false, f); (false, f)] 0 2;
             Ok [(if failed [(false, cut); (false, f); (false, f)] l 2 then 1 else 0); backs [(false, cut); (false, f); (false, f)] l]) = Ok [1; 2].
Proof. vm_compute. repeat split. Qed.

Print Assumptions C76_exact.
Print Assumptions C76_enough_partial.
Print Assumptions C76_enough_sharp_refuted.
Print Assumptions C76_panic_exact.
