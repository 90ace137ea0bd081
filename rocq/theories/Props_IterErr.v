(* C76: iteration over a store some of whose reads fail. *)
From Coq Require Import String List Arith NArith Bool Lia Init.Byte ZifyBool ZifyNat.
From Verif Require Import Base Element Hash Sizing FS Sched Store VecStore DiskStore MmapStore LevelCache ProofModel Tree Iter ListFacts Cases.
Import ListNotations.

(* A sequence of calls of next (true) and next_back (false); the file system may have
   been changed by others from call to call. *)
Section Calls.
  Context {E : Type} (SO : StoreOps E) (s : st_t SO).
  Fixpoint calls (ops : list (bool * fs)) (i : siter) : res (list (option E)) :=
    match ops with
    | [] => Ok []
    | (front, f) :: ops =>
        do r <- (if front then it_next SO s f i else it_next_back SO s f i);
        do l <- calls ops (snd r);
        Ok (fst r :: l)
    end.
  (* what is wanted of the range [lo, hi): an element, if one is left and can be read *)
  Fixpoint ideal (ops : list (bool * fs)) (lo hi : nat) : list (option E) :=
    match ops with
    | [] => []
    | (front, f) :: ops =>
        match (if lo <? hi then st_read_at SO (s, f) (if front then lo else hi - 1) else Err "") with
        | Ok x => Some x :: (if front then ideal ops (lo + 1) hi else ideal ops lo (hi - 1))
        | _ => None :: ideal ops lo hi
        end
    end.
End Calls.
Definition no_panic {X} (r : res X) : Prop := match r with Ok _ | Err _ => True | _ => False end.

(* the wish: whatever fails and when *)
Definition C76_full : Prop := forall E (SO : StoreOps E) s ops p,
  (forall f i, no_panic (st_read_at SO (s, f) i)) -> pr_cur p <= pr_end p ->
  calls SO s ops (pr_into_iter p) = Ok (ideal SO s ops (pr_cur p) (pr_end p)).

(* it holds when a read that failed goes on failing: any order of calls, any pattern of
   unreadable elements *)
Theorem C76_stable_partial : forall E (SO : StoreOps E) s f ops p,
  (forall i, no_panic (st_read_at SO (s, f) i)) -> pr_cur p <= pr_end p ->
  (forall o, In o ops -> snd o = f) ->
  calls SO s ops (pr_into_iter p) = Ok (ideal SO s ops (pr_cur p) (pr_end p)).
Proof.
  intros E SO s f ops [c e] HN Hle. cbn [pr_cur pr_end] in *. unfold pr_into_iter. cbn [pr_cur pr_end].
  assert (G : forall ops c e er, c <= e -> (er = true -> exists k m, c <= k < e /\ st_read_at SO (s, f) k = Err m) ->
    (forall o, In o ops -> snd o = f) -> calls SO s ops (mk_iter c e er) = Ok (ideal SO s ops c e)).
  { clear ops c e Hle. induction ops as [|[front f0] ops IH]; intros c e er Hle He Hf; [reflexivity|].
    pose proof (Hf _ (or_introl eq_refl)) as G. cbn [snd] in G. subst f0.
    assert (Hf' : forall o, In o ops -> snd o = f) by (intros o Ho; apply Hf; right; exact Ho).
    assert (Hdone : it_is_done (mk_iter c e er) = Ok (negb (c <? e))).
    { unfold it_is_done, it_len. cbn [it_cur it_end it_err]. destruct er; cbn [negb].
      - destruct (He eq_refl) as (k & m & Hk & _). replace (c <? e) with true by lia. reflexivity.
      - replace (c <=? e) with true by lia. cbn [rbind]. destruct (c <? e) eqn:Q; f_equal; cbn [negb]; lia. }
    cbn [calls ideal]. destruct front.
    - unfold it_next. rewrite Hdone. cbn [rbind it_cur it_end it_err]. destruct (c <? e) eqn:Q; cbn [negb].
      + pose proof (HN c) as Hc. destruct (st_read_at SO (s, f) c) as [x|m|m|] eqn:R; try contradiction Hc; cbn [rbind fst snd].
        * rewrite IH; [reflexivity|lia| |exact Hf']. intros Her. destruct (He Her) as (k & m & Hk & Hr). exists k, m. split; [|exact Hr].
          assert (k <> c) by congruence. lia.
        * rewrite IH; [reflexivity|lia| |exact Hf']. intros _. exists c, m. split; [lia|exact R].
      + cbn [fst snd rbind]. rewrite IH; auto.
    - unfold it_next_back. rewrite Hdone. cbn [rbind it_cur it_end it_err]. destruct (c <? e) eqn:Q; cbn [negb].
      + unfold checked_sub. replace (e <? 1) with false by lia. replace (1 <=? e) with true by lia. cbn [rbind].
        pose proof (HN (e - 1)) as Hc. destruct (st_read_at SO (s, f) (e - 1)) as [x|m|m|] eqn:R; try contradiction Hc; cbn [rbind fst snd].
        * rewrite IH; [reflexivity|lia| |exact Hf']. intros Her. destruct (He Her) as (k & m & Hk & Hr). exists k, m. split; [|exact Hr].
          assert (k <> e - 1) by congruence. lia.
        * rewrite IH; [reflexivity|lia| |exact Hf']. intros _. exists (e - 1), m. split; [lia|exact R].
      + cbn [fst snd rbind]. rewrite IH; auto. }
  intros Hf. apply G; auto. discriminate.
Qed.

(* it also holds as long as nothing has failed: with the failing call *)
Theorem C76_first_partial : forall E (SO : StoreOps E) s ops front f p,
  (forall f i, no_panic (st_read_at SO (s, f) i)) -> pr_cur p <= pr_end p ->
  Forall (fun o => o <> None) (ideal SO s ops (pr_cur p) (pr_end p)) ->
  calls SO s (ops ++ [(front, f)]) (pr_into_iter p) = Ok (ideal SO s (ops ++ [(front, f)]) (pr_cur p) (pr_end p)).
Proof.
  intros E SO s ops front f [c e] HN Hle HA. cbn [pr_cur pr_end] in *. unfold pr_into_iter. cbn [pr_cur pr_end].
  revert c e Hle HA. induction ops as [|[fr f0] ops IH]; intros c e Hle HA.
  - pose proof (C76_stable_partial E SO s f [(front, f)] (mk_producer c e) (HN f) Hle) as G. cbn [pr_cur pr_end app] in *. apply G.
    intros o [<-|[]]. reflexivity.
  - assert (Hdone : it_is_done (mk_iter c e false) = Ok (negb (c <? e))).
    { unfold it_is_done, it_len. cbn [it_cur it_end it_err negb]. replace (c <=? e) with true by lia. cbn [rbind]. destruct (c <? e) eqn:Q; f_equal; cbn [negb]; lia. }
    cbn [ideal app calls] in *. destruct fr.
    + unfold it_next. rewrite Hdone. cbn [rbind it_cur it_end it_err]. destruct (c <? e) eqn:Q; cbn [negb].
      * pose proof (HN f0 c) as Hc. destruct (st_read_at SO (s, f0) c) as [x|m|m|] eqn:R; try contradiction Hc; cbn [rbind fst snd].
        -- rewrite IH; [reflexivity|lia|inversion HA; assumption].
        -- exfalso. inversion HA. congruence.
      * exfalso. inversion HA. congruence.
    + unfold it_next_back. rewrite Hdone. cbn [rbind it_cur it_end it_err]. destruct (c <? e) eqn:Q; cbn [negb].
      * unfold checked_sub. replace (e <? 1) with false by lia. replace (1 <=? e) with true by lia. cbn [rbind].
        pose proof (HN f0 (e - 1)) as Hc. destruct (st_read_at SO (s, f0) (e - 1)) as [x|m|m|] eqn:R; try contradiction Hc; cbn [rbind fst snd].
        -- rewrite IH; [reflexivity|lia|inversion HA; assumption].
        -- exfalso. inversion HA. congruence.
      * exfalso. inversion HA. congruence.
Qed.

(* After a read that failed only once the iterator forgets where its range ends. *)
(* a DiskStore of four elements; f4: its file, f1: the file cut to one byte *)
Definition four : list B1 := map el [21; 19; 22; 23].
Definition four_store := mt_new BO (disk_store BO) sum_alg env1 4 four fs_empty.
Definition with_four {X} (g : st_t (disk_store BO) -> fs -> fs -> res X) : res X :=
  match four_store with
  | (Ok t, f) => match mt_data t with
                 | BaseTree s => g s f (snd (fs_set_len (ds_file s) 1 f))
                 | _ => Err ""%string end
  | _ => Err ""%string end.
(* the iterator of the elements 0 and 1 *)
Definition half := pr_into_iter (mk_producer 0 2).

(* it yields elements 2, 3 and 4 of the other half *)
Lemma C76_outside : with_four (fun s f cut => do l <- calls (disk_store BO) s [(false, cut); (true, f); (true, f); (true, f); (true, f); (true, f)] half; Ok (map (option_map val) l))
  = Ok [None; Some 39; Some 37; Some 40; Some 41; Some 38].
Proof. vm_compute. reflexivity. Qed.
(* and it panics: current > end, end - 1 below 0 *)
Lemma C76_panics : with_four (fun s f cut => do l <- calls (disk_store BO) s [(false, cut); (false, f); (false, f); (false, f)] half; Ok (map (option_map val) l))
  = Panic "attempt to subtract with overflow".
Proof. vm_compute. reflexivity. Qed.

Lemma disk_no_panic (st : disk_t * fs) i : no_panic (disk_read_at BO st i).
Proof.
  unfold disk_read_at, disk_check, disk_store_read_range, fs_read_exact_at, ensure, checked_sub.
  change (e_byte_len BO) with 1.
  destruct (i * 1 <? _); cbn [rbind]; [|exact I].
  destruct (i * 1 + 1 <=? ds_len (fst st) * 1); cbn [rbind]; [|exact I].
  replace (i * 1 <=? i * 1 + 1) with true by lia. cbn [rbind]. replace (i * 1 + 1 - i * 1) with 1 by lia. cbn [Nat.eqb].
  destruct (i * 1 + 1 <=? fs_size (snd st) (ds_file (fst st))) eqn:Q; cbn [rbind]; [|exact I].
  destruct (el_total _ BL (sub (fs_data (snd st) (h_ino (ds_file (fst st)))) (i * 1) 1)) as [x ->]; [|exact I].
  rewrite sub_length. unfold fs_size in Q. change (e_byte_len BO) with 1. lia.
Qed.

Theorem C76_refuted : ~ C76_full.
Proof.
  intros H. pose proof C76_panics as P. unfold with_four in P.
  destruct four_store as [[t| | |] f]; try discriminate P. destruct (mt_data t) as [s| |]; try discriminate P.
  rewrite (H B1 (disk_store BO) s _ (mk_producer 0 2)) in P; [discriminate P| |cbn; lia].
  intros f0 i. apply disk_no_panic.
Qed.

(* non-vacuity of the theorems: elements 1 and 2 of four unreadable or not at all *)
Example C76_case :
  with_four (fun s f cut => do l <- calls (disk_store BO) s (map (fun o => (o, cut)) [false; true; true; false; true]) half; Ok (map (option_map val) l))
    = Ok [None; Some 39; None; None; None] /\
  with_four (fun s f cut => do l <- calls (disk_store BO) s [(false, f); (true, cut); (true, f); (false, f)] half; Ok (map (option_map val) l))
    = Ok [Some 37; Some 39; None; None].
Proof. vm_compute. repeat split. Qed.

Print Assumptions C76_stable_partial.
Print Assumptions C76_first_partial.
Print Assumptions C76_outside.
Print Assumptions C76_panics.
Print Assumptions C76_refuted.
