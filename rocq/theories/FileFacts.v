(* Element arrays stored as bytes. *)
From Coq Require Import String List Arith Bool Lia Init.Byte ZifyBool ZifyNat.
From Verif Require Import Base Element FS ListFacts StoreLaws StoreSpec.
Import ListNotations.

Section Sub.
  Context {X : Type}.
  Lemma sub_overwrite_out (l d : list X) pos s n :
    pos <= List.length l -> s + n <= pos \/ pos + List.length d <= s ->
    sub (overwrite l pos d) s n = sub l s n.
  Proof.
    intros Hp H. apply nth_error_ext. intros i. rewrite !nth_error_sub.
    destruct (i <? n) eqn:Ei; [|reflexivity]. rewrite nth_error_overwrite by auto.
    destruct H.
    - replace (s + i <? pos) with true by lia. reflexivity.
    - replace (s + i <? pos) with false by lia.
      replace (s + i <? pos + List.length d) with false by lia. reflexivity.
  Qed.
  Lemma sub_overwrite_in (l d : list X) pos s n :
    pos <= List.length l -> s + n <= List.length d ->
    sub (overwrite l pos d) (pos + s) n = sub d s n.
  Proof.
    intros Hp H. apply nth_error_ext. intros i. rewrite !nth_error_sub.
    destruct (i <? n) eqn:Ei; [|reflexivity]. rewrite nth_error_overwrite by auto.
    replace (pos + s + i <? pos) with false by lia.
    replace (pos + s + i <? pos + List.length d) with true by lia. f_equal. lia.
  Qed.
End Sub.

Section DRep.
  Context {E : Type} (EO : ElementOps E) (EL : ElementLaws EO).
  Let bl := e_byte_len EO.

  (* the bytes [data] have room for cap elements and hold v *)
  Definition DRep (cap : nat) (v : nat -> option E) (data : list byte) : Prop :=
    List.length data = cap * bl /\
    forall i e, v i = Some e -> i < cap /\ sub data (i * bl) bl = e_as_ref EO e.

  Lemma DRep_weaken cap v1 v2 data :
    (forall i e, v2 i = Some e -> v1 i = Some e) -> DRep cap v1 data -> DRep cap v2 data.
  Proof. intros H [D1 D2]. split; auto. Qed.

  Lemma DRep_write cap v data els start :
    DRep cap v data -> start + List.length els <= cap ->
    DRep cap (upd v start els) (overwrite data (start * bl) (encode EO els)).
  Proof.
    intros [D1 D2] Hc. pose proof (bl_pos EO EL) as Hbl. fold bl in Hbl.
    pose proof (encode_length EO EL els) as Hel. fold bl in Hel.
    split.
    - rewrite overwrite_length; [exact D1|]. rewrite D1, Hel. nia.
    - intros i e Hi. destruct (le_lt_dec start i) as [L|L].
      + destruct (le_lt_dec (start + List.length els) i) as [G|G].
        * rewrite upd_out in Hi by auto. destruct (D2 i e Hi) as [D3 D4]. split; auto.
          rewrite sub_overwrite_out; auto; [nia|]. right. rewrite Hel. nia.
        * rewrite upd_in in Hi by auto. split; [lia|].
          replace (i * bl) with (start * bl + (i - start) * bl) by nia.
          rewrite sub_overwrite_in; [|nia|rewrite Hel; nia]. apply encode_nth; auto.
      + rewrite upd_out in Hi by auto. destruct (D2 i e Hi) as [D3 D4]. split; auto.
        rewrite sub_overwrite_out; auto; [nia|]. left. nia.
  Qed.

  Lemma DRep_range cap v data s l :
    DRep cap v data -> knows v s l -> s + List.length l <= cap ->
    sub data (s * bl) (List.length l * bl) = encode EO l.
  Proof.
    intros [D1 D2]. revert s. induction l as [|x l IH]; intros s Hk Hc.
    - simpl. apply sub_zero.
    - cbn [List.length Nat.mul]. rewrite sub_split. unfold encode. cbn [map concat].
      assert (Hx : v s = Some x). { specialize (Hk 0). cbn in Hk. rewrite Nat.add_0_r in Hk. apply Hk. lia. }
      f_equal; [apply D2; auto|].
      replace (s * bl + bl) with (S s * bl) by (simpl; lia). apply IH.
      + intros k Hl. specialize (Hk (S k)). cbn in Hk. rewrite <- Hk by lia. f_equal. lia.
      + cbn in Hc. lia.
  Qed.

  Lemma DRep_empty cap : DRep cap (fun _ => None) (repeat x00 (cap * bl)).
  Proof. split; [apply repeat_length|discriminate]. Qed.

  Lemma DRep_encode els : DRep (List.length els) (nth_error els) (encode EO els).
  Proof.
    split; [apply encode_length; auto|]. intros i e H. split; [eapply nth_error_lt; eauto|].
    apply encode_nth; auto.
  Qed.

  (* conversely the bytes determine a full array *)
  Lemma DRep_full els data : DRep (List.length els) (nth_error els) data -> data = encode EO els.
  Proof.
    intros D. pose proof (DRep_range _ _ _ 0 els D) as H. destruct D as [D1 D2].
    rewrite Nat.mul_0_l, <- D1, sub_all in H. apply H; [|lia]. intros k Hk. reflexivity.
  Qed.
End DRep.
