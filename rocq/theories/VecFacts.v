(* VecStore satisfies the store laws. *)
From Coq Require Import String List Arith Bool Lia Init.Byte ZifyBool ZifyNat.
From Verif Require Import Base Element Hash Sizing FS Sched Store VecStore ListFacts Spec SpecFacts SizingFacts SchedFacts StoreLaws RowFacts BuildFacts BuildLoop StoreSpec FileFacts.
Import ListNotations.

Section Vec.
  Context {E : Type} (EO : ElementOps E) (EL : ElementLaws EO).
  Let bl := e_byte_len EO.
  Definition vec_owner (s : list E) : option nat := None.
  Definition vec_W (s : list E) : Prop := True.
  Definition vec_rep (cap n : nat) (v : nat -> option E) (st : list E * fs) : Prop :=
    List.length (fst st) = n /\ forall i e, v i = Some e -> nth_error (fst st) i = Some e.

  Lemma Created_refl f p : Created f f p None.
  Proof. repeat split; auto; discriminate. Qed.

  (* the array after storing els at start *)
  Lemma vec_store_nth (l : list E) start els i :
    let l' := if List.length l <? start + List.length els
              then resize l (start + List.length els) (e_default EO) else l in
    nth_error (overwrite l' start els) i =
      if (start <=? i) && (i <? start + List.length els) then nth_error els (i - start)
      else nth_error l' i.
  Proof.
    intros l'. assert (Hl : start + List.length els <= List.length l').
    { unfold l'. destruct (_ <? _) eqn:G; [rewrite resize_length|]; lia. }
    rewrite nth_error_overwrite by lia.
    destruct (i <? start) eqn:G1.
    - replace (start <=? i) with false by lia. reflexivity.
    - replace (start <=? i) with true by lia. reflexivity.
  Qed.

  Lemma vec_store_rep cap n v st start els :
    vec_rep cap n v st ->
    let l' := if List.length (fst st) <? start + List.length els
              then resize (fst st) (start + List.length els) (e_default EO) else fst st in
    vec_rep cap (Nat.max n (start + List.length els)) (upd v start els) (overwrite l' start els, snd st).
  Proof.
    intros [H1 H2] l'. split.
    - simpl fst. rewrite overwrite_length; unfold l'; destruct (_ <? _) eqn:G; rewrite ?resize_length; lia.
    - intros i e Hi. cbn [fst]. pose proof (vec_store_nth (fst st) start els i) as V. cbv zeta in V. fold l' in V.
      rewrite V. unfold upd in Hi. destruct ((start <=? i) && (i <? start + List.length els)) eqn:G; [exact Hi|].
      pose proof (H2 i e Hi) as H3. pose proof (nth_error_lt _ _ _ H3). unfold l'.
      destruct (_ <? _) eqn:G2; [|auto]. rewrite nth_error_resize.
      replace (i <? start + List.length els) with true by lia.
      replace (i <? List.length (fst st)) with true by lia. auto.
  Qed.

  Lemma vec_copy_encode els start st :
    vec_copy_from_slice EO (encode EO els) start st =
      (Ok tt, (overwrite (if List.length (fst st) <? start + List.length els
              then resize (fst st) (start + List.length els) (e_default EO) else fst st) start els, snd st)).
  Proof.
    unfold vec_copy_from_slice. rewrite encode_length by auto. pose proof (bl_pos EO EL) as Hbl.
    rewrite Nat.mod_mul, Nat.eqb_refl, Nat.div_mul by lia.
    rewrite decode_exact_encode by auto. reflexivity.
  Qed.

  Lemma vec_write_eq e i st :
    vec_write_at EO e i st =
      (Ok tt, (overwrite (if List.length (fst st) <? i + List.length [e]
              then resize (fst st) (i + List.length [e]) (e_default EO) else fst st) i [e], snd st)).
  Proof.
    unfold vec_write_at. cbn [List.length]. replace (List.length (fst st) <=? i) with (List.length (fst st) <? i + 1) by lia.
    reflexivity.
  Qed.

  Lemma vec_core : CoreLaws EO (@List.length E) vec_read_at vec_read_range (vec_write_at EO)
                     (vec_copy_from_slice EO) vec_owner vec_W vec_rep true.
  Proof.
    constructor.
    - intros cap n v st [H _]. exact H.
    - intros cap n v1 v2 st H [H1 H2]. split; auto.
    - intros cap n v s f f' [H1 H2] _. split; auto.
    - intros cap n v st i e [H1 H2] Hi He. unfold vec_read_at, rnth, vec_t. rewrite (H2 i e He). reflexivity.
    - intros cap n v st s e l [H1 H2] Hs He Hl Hk. unfold vec_read_range, vec_t.
      replace ((s <=? e) && (e <=? List.length (fst st))) with true by lia. f_equal.
      apply list_ext; [rewrite sub_length_le; lia|]. rewrite sub_length_le by lia. intros i Hi.
      rewrite nth_error_sub. replace (i <? e - s) with true by lia.
      destruct (nth_error_ex l i ltac:(lia)) as [x Hx]. rewrite Hx. apply H2. rewrite Hk by lia. exact Hx.
    - intros cap n v st e i HR _ Hi. rewrite vec_write_eq. eexists. split; [reflexivity|].
      split; [|split; [|exact I]].
      + exact (vec_store_rep cap n v st i [e] HR).
      + split; auto using fs_frame_refl.
    - intros cap n v st els start HR _ Hc. rewrite vec_copy_encode. eexists. split; [reflexivity|].
      split; [|split; [|exact I]].
      + exact (vec_store_rep cap n v st start els HR).
      + split; auto using fs_frame_refl.
    - intros e i st. rewrite vec_write_eq. unfold write_any, vec_t; cbn [fst].
      rewrite overwrite_length; destruct (_ <? _) eqn:G; rewrite ?resize_length; simpl List.length in *; lia.
    - intros els start st. rewrite vec_copy_encode. unfold write_any, vec_t; cbn [fst].
      rewrite overwrite_length; destruct (_ <? _) eqn:G; rewrite ?resize_length; simpl List.length in *; lia.
  Qed.

  Lemma vec_laws : StoreLaws EO (vec_store EO) vec_owner vec_W vec_rep true.
  Proof.
    constructor.
    - exact vec_core.
    - intros size f. exists [], f. repeat split; auto using Created_refl; try discriminate.
    - intros size b c f _. exists [], f. repeat split; auto using Created_refl; try discriminate.
    - intros cap n v [s f] [H _]. cbn in *. destruct s; cbn in *; subst n; reflexivity.
    - reflexivity.
    - intros en A b leaves d c v st Hb Hd Hl [Hc1 Hc2] HW HR Hk.
      destruct (default_build_ok EO EL _ _ _ _ _ _ _ _ _ vec_core A b Hb (p_chunk (env_params en))
                  (p_small (env_params en)) (env_sched en) leaves d (geom b d) v st Hl Hd (le_n _) ltac:(auto) HW HR Hk)
        as (root & st' & H1 & H2 & H3 & H4 & H5).
      exists root, st'. split; [exact H1|]. split; [exact H2|]. split; [|auto].
      unfold Full in H3.
      destruct (all_rows_Layout A b ltac:(pose proof (arity_ge b Hb); lia) leaves d Hl) as (_ & L & _).
      rewrite L in H3. exact H3.
    - intros en A b leaves m q c v st Hb Hq Hm Hl [Hc1 Hc2] HW HR Hk.
      exact (default_build_bad EO EL _ _ _ _ _ _ _ _ _ vec_core A b Hb (p_chunk (env_params en))
                  (p_small (env_params en)) (env_sched en) leaves m q (m * geom b q) v st Hl Hm Hq (le_n _)
                  ltac:(auto) HW HR Hk).
    - intros en A b leafs rc c st Hb H.
      exact (default_build_len EO (@List.length E) _ _ _ _ vec_owner A b Hb _ _ _ _ _ _ st H).
    - intros els size f H. cbn. unfold vec_new_from_slice. rewrite decode_exact_encode by auto. cbn [rbind].
      rewrite checked_sub_ok by auto. cbn [rbind]. eexists _, _. split; [reflexivity|].
      split; [split; auto|]. split; [exact I|apply Created_refl].
    - intros els size b c f H _. cbn. unfold vec_new_from_slice_with_config, vec_new_from_slice.
      rewrite decode_exact_encode by auto. cbn [rbind].
      rewrite checked_sub_ok by auto. cbn [rbind]. eexists _, _. split; [reflexivity|].
      split; [split; auto|]. split; [exact I|apply Created_refl].
  Qed.
End Vec.
