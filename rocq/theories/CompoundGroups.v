(* from_sub_trees_as_trees against from_sub_trees over from_trees of the groups. *)
From Coq Require Import String List Arith Bool Lia Init.Byte ZifyBool ZifyNat.
From Verif Require Import Base Element Hash Sizing FS Sched Store VecStore ProofModel Tree ListFacts Spec SpecFacts SizingFacts StoreLaws StoreSpec ProofSpec ProofFacts TreeProofs TreeObs CompoundFacts.
Import ListNotations.

Section G.
  Context {E : Type} (SO : StoreOps E) (A : AlgOps E).
  Local Notation T := (st_t SO).

  Lemma split_groups_ok s : forall (gs : list (list (mtree T E))), Forall (fun g => List.length g = s) gs ->
    split_groups SO (List.length gs) s (concat gs) = Ok (rev gs).
  Proof.
    intros gs. induction gs as [|g gs IH] using rev_ind; intros H; [reflexivity|].
    apply Forall_app in H. destruct H as [H1 H2]. inversion H2; subst. rewrite app_length. cbn [List.length]. rewrite Nat.add_1_r.
    cbn [split_groups]. rewrite concat_app. cbn [concat]. rewrite app_nil_r, app_length.
    rewrite checked_sub_ok by lia. cbn [rbind]. replace (_ + List.length g - List.length g) with (List.length (concat gs)) by lia.
    rewrite firstn_app, firstn_all, Nat.sub_diag, skipn_app, skipn_all, Nat.sub_diag. cbn [firstn skipn app]. rewrite app_nil_r.
    rewrite IH by auto. cbn [rbind]. rewrite rev_unit. reflexivity.
  Qed.

  Lemma rmap_from_trees s gs : (exists subs, rmap (from_trees SO A s) gs = Ok subs) \/ (exists e, rmap (from_trees SO A s) gs = Err e).
  Proof.
    induction gs as [|g gs IH]; [left; eexists; reflexivity|]. cbn [rmap].
    destruct (from_trees_total SO A s g) as [[t Ht]|[e He]]; [rewrite Ht|rewrite He; right; eexists; reflexivity]. cbn [rbind].
    destruct IH as [[subs Hs]|[e He]]; [rewrite Hs; left; eexists; reflexivity|rewrite He; right; eexists; reflexivity].
  Qed.

  Lemma from_trees_shape s g t : from_trees SO A s g = Ok t ->
    exists t0, nth_error g 0 = Some t0 /\ mt_row_count t = mt_row_count t0 + 1 /\ mt_len SO t = mt_len SO t0 * s + 1 /\
      Forall (fun x => mt_row_count x = mt_row_count t0) g /\ Forall (fun x => mt_len SO x = mt_len SO t0) g /\ 0 < s /\ List.length g = s.
  Proof.
    intros H. destruct (from_trees_inv SO A s g t H) as (H1 & H2 & (rc & H3) & (len & H4)).
    destruct g as [|t0 g]; [cbn in H2; lia|]. exists t0. split; [reflexivity|].
    assert (R : mt_row_count t0 = rc) by (inversion H3; auto). assert (L : mt_len SO t0 = len) by (inversion H4; auto).
    unfold from_trees in H. replace (0 <? s) with true in H by lia. cbn [ensure rbind] in H.
    rewrite (all_same_const SO _ rc), (all_same_const SO _ len) in H by auto. cbn [ensure rbind] in H.
    rewrite H2, Nat.eqb_refl in H. cbn [ensure rbind] in H. unfold rnth in H. cbn [nth_error rbind] in H. injection H as <-.
    cbn [mt_row_count mt_len mt_len_field mt_data]. unfold mt_len at 1. cbn [mt_data mt_len_field]. rewrite R, L. auto 10.
  Qed.

  (* all the groups agree exactly when the trees made from them do *)
  Definition fits (g1 g2 : mtree T E -> nat) (F : nat -> nat) (g : list (mtree T E)) (t : mtree T E) : Prop :=
    exists t0, nth_error g 0 = Some t0 /\ g2 t = F (g1 t0) /\ Forall (fun x => g1 x = g1 t0) g.

  Lemma groups_same g1 g2 F : (forall x y, F x = F y -> x = y) -> forall gs subs, Forall2 (fits g1 g2 F) gs subs ->
    all_same SO g1 (concat gs) = all_same SO g2 subs.
  Proof.
    intros HF gs subs H. apply eq_true_iff_eq. rewrite !all_same_iff. split; intros [n Hn].
    - exists (F n). induction H as [|g t gs subs (t0 & H1 & H2 & H3) H IH]; constructor.
      + rewrite H2. f_equal. rewrite Forall_forall in Hn. apply Hn. cbn [concat]. apply in_or_app. left. eapply nth_error_In; eauto.
      + apply IH. cbn [concat] in Hn. apply Forall_app in Hn. tauto.
    - destruct H as [|g t gs subs (t0 & H1 & H2 & H3) H]; [exists 0; constructor|]. exists (g1 t0).
      inversion Hn as [|? ? Q1 Q2 Q3]. cbn [concat]. apply Forall_app. split; [exact H3|].
      rewrite H2 in Q1. rewrite <- Q1 in Q2. clear - HF H Q2.
      induction H as [|g t gs subs (t1 & H1 & H2 & H3) H IH]; [constructor|]. inversion Q2; subst.
      cbn [concat]. apply Forall_app. split; [|auto]. rewrite H2 in H5. apply HF in H5. rewrite <- H5. exact H3.
  Qed.

  Definition same_result (r r' : res (mtree T E)) : Prop :=
    (exists t, r = Ok t /\ r' = Ok t) \/ ((exists e, r = Err e) /\ (exists e, r' = Err e)).

  Lemma flat_nested gs s : Forall (fun g => List.length g = s) gs ->
    same_result (from_sub_trees_as_trees SO A s (List.length gs) (concat gs))
                (do subs <- rmap (from_trees SO A s) gs; from_sub_trees SO A (List.length gs) subs).
  Proof.
    intros Hg. unfold from_sub_trees_as_trees.
    destruct (rmap_from_trees s gs) as [[subs Hs]|[e He]].
    2:{ right. rewrite He. cbn [rbind]. split; [|eexists; reflexivity].
        destruct (0 <? List.length gs); [|eexists; reflexivity]. cbn [ensure rbind].
        destruct (all_same SO mt_row_count (concat gs)); [|eexists; reflexivity]. cbn [ensure rbind].
        destruct (all_same SO (mt_len SO) (concat gs)); [|eexists; reflexivity]. cbn [ensure rbind].
        destruct (List.length (concat gs) =? _); [|eexists; reflexivity]. cbn [ensure rbind].
        rewrite (split_groups_ok s gs Hg). cbn [rbind]. rewrite rev_involutive, He. eexists. reflexivity. }
    rewrite Hs. cbn [rbind]. unfold from_sub_trees.
    pose proof Hs as HF. apply rmap_ok_Forall2 in HF. assert (Hlen : List.length gs = List.length subs) by (eapply Forall2_length; eauto).
    destruct (0 <? List.length gs) eqn:G0; [|right; split; eexists; reflexivity]. cbn [ensure rbind].
    assert (Hpos : 0 < s).
    { destruct gs as [|g gs]; [discriminate|]. inversion HF; subst. destruct (from_trees_shape _ _ _ H1) as (t0 & _ & _ & _ & _ & _ & P & _). exact P. }
    assert (F1 : Forall2 (fits mt_row_count mt_row_count (fun x => x + 1)) gs subs).
    { clear - HF. induction HF; constructor; auto. destruct (from_trees_shape _ _ _ H) as (t0 & P1 & P2 & P3 & P4 & P5 & _). exists t0. auto. }
    assert (F2 : Forall2 (fits (mt_len SO) (mt_len SO) (fun x => x * s + 1)) gs subs).
    { clear - HF. induction HF; constructor; auto. destruct (from_trees_shape _ _ _ H) as (t0 & P1 & P2 & P3 & P4 & P5 & _). exists t0. auto. }
    rewrite (groups_same mt_row_count mt_row_count (fun x => x + 1) ltac:(intros x y Q; cbv beta in Q; lia) gs subs F1).
    destruct (all_same SO mt_row_count subs) eqn:G1; [|right; split; eexists; reflexivity]. cbn [ensure rbind].
    rewrite (groups_same (mt_len SO) (mt_len SO) (fun x => x * s + 1) ltac:(intros x y Q; cbv beta in Q; apply Nat.add_cancel_r in Q; apply Nat.mul_cancel_r in Q; lia) gs subs F2).
    destruct (all_same SO (mt_len SO) subs) eqn:G2; [|right; split; eexists; reflexivity]. cbn [ensure rbind].
    rewrite (concat_length_const gs s Hg), Nat.eqb_refl. cbn [ensure rbind].
    rewrite (split_groups_ok s gs Hg). cbn [rbind]. rewrite rev_involutive, Hs. cbn [rbind].
    rewrite <- Hlen, Nat.eqb_refl. cbn [ensure rbind].
    destruct subs as [|t0 subs]; [cbn in Hlen; lia|]. unfold rnth. cbn [nth_error rbind]. left. eexists. split; [reflexivity|].
    apply all_same_iff in G2. destruct G2 as [len G2]. rewrite (sum_by_same SO (mt_len SO) len) by auto.
    assert (mt_len SO t0 = len) by (inversion G2; auto). rewrite H, Hlen. do 3 f_equal. lia.
  Qed.

  Lemma flat_wrong_count s top (trees : list (mtree T E)) : List.length trees <> top * s ->
    exists e, from_sub_trees_as_trees SO A s top trees = Err e.
  Proof.
    intros H. unfold from_sub_trees_as_trees.
    destruct (0 <? top); [|eexists; reflexivity]. cbn [ensure rbind].
    destruct (all_same SO mt_row_count trees); [|eexists; reflexivity]. cbn [ensure rbind].
    destruct (all_same SO (mt_len SO) trees); [|eexists; reflexivity]. cbn [ensure rbind].
    replace (List.length trees =? top * s) with false by lia. eexists. reflexivity.
  Qed.
End G.
