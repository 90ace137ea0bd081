(* Lemmas about the list helpers of Base.v and element encoding. *)
From Coq Require Import String List Arith Bool Lia Init.Byte ZifyBool ZifyNat.
From Verif Require Import Base Element.
Import ListNotations.

Ltac inv H := inversion H; clear H; subst.

Section Lists.
  Context {A : Type}.
  Implicit Types l d : list A.

  Lemma nth_error_firstn l n i :
    nth_error (firstn n l) i = if i <? n then nth_error l i else None.
  Proof.
    revert n i; induction l; intros n i.
    - rewrite firstn_nil. destruct i; destruct (_ <? _); reflexivity.
    - destruct n; simpl.
      + destruct i; reflexivity.
      + destruct i; simpl; [reflexivity|]. rewrite IHl. reflexivity.
  Qed.

  Lemma nth_error_skipn l n i : nth_error (skipn n l) i = nth_error l (n + i).
  Proof.
    revert n; induction l; intros n.
    - rewrite skipn_nil. destruct i, n; reflexivity.
    - destruct n; simpl; [reflexivity|apply IHl].
  Qed.

  Lemma nth_error_sub l s n i :
    nth_error (sub l s n) i = if i <? n then nth_error l (s + i) else None.
  Proof. unfold sub. rewrite nth_error_firstn, nth_error_skipn. reflexivity. Qed.

  Lemma sub_length l s n : List.length (sub l s n) = Nat.min n (List.length l - s).
  Proof. unfold sub. rewrite firstn_length, skipn_length. reflexivity. Qed.

  Lemma sub_length_le l s n : s + n <= List.length l -> List.length (sub l s n) = n.
  Proof. rewrite sub_length. lia. Qed.

  Lemma list_ext l d :
    List.length l = List.length d ->
    (forall i, i < List.length l -> nth_error l i = nth_error d i) -> l = d.
  Proof.
    revert d; induction l; intros [|y d] Hl H; simpl in *; try lia; auto.
    f_equal.
    - specialize (H 0 ltac:(lia)). simpl in H. congruence.
    - apply IHl; [lia|]. intros i Hi. apply (H (S i)). lia.
  Qed.

  Lemma nth_error_ext l d : (forall i, nth_error l i = nth_error d i) -> l = d.
  Proof.
    intros H. apply list_ext; auto.
    destruct (Nat.lt_trichotomy (List.length l) (List.length d)) as [L|[L|L]]; auto.
    - specialize (H (List.length l)).
      pose proof (proj2 (nth_error_None l (List.length l)) ltac:(lia)).
      pose proof (proj2 (nth_error_Some d (List.length l)) ltac:(lia)). congruence.
    - specialize (H (List.length d)).
      pose proof (proj2 (nth_error_None d (List.length d)) ltac:(lia)).
      pose proof (proj2 (nth_error_Some l (List.length d)) ltac:(lia)). congruence.
  Qed.

  Lemma nth_error_repeat (x : A) n i :
    nth_error (repeat x n) i = if i <? n then Some x else None.
  Proof.
    revert i; induction n; intros [|i]; simpl; try reflexivity. rewrite IHn. reflexivity.
  Qed.

  Lemma nth_error_app l d i :
    nth_error (l ++ d) i =
    if i <? List.length l then nth_error l i else nth_error d (i - List.length l).
  Proof.
    destruct (i <? List.length l) eqn:H; [apply nth_error_app1|apply nth_error_app2]; lia.
  Qed.

  Lemma nth_error_lt l i x : nth_error l i = Some x -> i < List.length l.
  Proof. intros H. apply nth_error_Some. congruence. Qed.

  Lemma nth_error_ex l i : i < List.length l -> exists x, nth_error l i = Some x.
  Proof.
    intros H. destruct (nth_error l i) eqn:G; eauto.
    apply nth_error_None in G. lia.
  Qed.

  Lemma overwrite_length l pos d :
    pos + List.length d <= List.length l -> List.length (overwrite l pos d) = List.length l.
  Proof.
    intros H. unfold overwrite. rewrite !app_length, firstn_length, skipn_length. lia.
  Qed.

  Lemma nth_error_overwrite l pos d i :
    pos <= List.length l ->
    nth_error (overwrite l pos d) i =
    if i <? pos then nth_error l i
    else if i <? pos + List.length d then nth_error d (i - pos)
    else nth_error l i.
  Proof.
    intros H. unfold overwrite. rewrite !nth_error_app, firstn_length.
    rewrite nth_error_firstn, nth_error_skipn.
    destruct (i <? pos) eqn:E1.
    - replace (i <? Nat.min pos (List.length l)) with true by lia. reflexivity.
    - replace (i <? Nat.min pos (List.length l)) with false by lia.
      replace (Nat.min pos (List.length l)) with pos by lia.
      destruct (i <? pos + List.length d) eqn:E2.
      + replace (i - pos <? List.length d) with true by lia. reflexivity.
      + replace (i - pos <? List.length d) with false by lia.
        f_equal. lia.
  Qed.

  Lemma overwrite_nil l pos : overwrite l pos [] = l.
  Proof. unfold overwrite. simpl. rewrite Nat.add_0_r. apply firstn_skipn. Qed.

  Lemma resize_length l n x : List.length (resize l n x) = n.
  Proof. unfold resize. rewrite app_length, firstn_length, repeat_length. lia. Qed.

  Lemma nth_error_resize l n x i :
    nth_error (resize l n x) i =
    if i <? n then (if i <? List.length l then nth_error l i else Some x) else None.
  Proof.
    unfold resize. rewrite nth_error_app, firstn_length, nth_error_firstn, nth_error_repeat.
    destruct (i <? n) eqn:E1, (i <? List.length l) eqn:E2.
    - replace (i <? Nat.min n (List.length l)) with true by lia. reflexivity.
    - replace (i <? Nat.min n (List.length l)) with false by lia.
      replace (i - Nat.min n (List.length l) <? n - List.length l) with true by lia. reflexivity.
    - replace (i <? Nat.min n (List.length l)) with false by lia.
      replace (i - Nat.min n (List.length l) <? n - List.length l) with false by lia. reflexivity.
    - replace (i <? Nat.min n (List.length l)) with false by lia.
      replace (i - Nat.min n (List.length l) <? n - List.length l) with false by lia. reflexivity.
  Qed.

  Lemma resize_same l x : resize l (List.length l) x = l.
  Proof. unfold resize. rewrite firstn_all, Nat.sub_diag. apply app_nil_r. Qed.

  Lemma resize_grow l n x : List.length l <= n -> resize l n x = l ++ repeat x (n - List.length l).
  Proof. intros H. unfold resize. rewrite firstn_all2 by lia. reflexivity. Qed.

  Lemma resize_shrink l n x : n <= List.length l -> resize l n x = firstn n l.
  Proof.
    intros H. unfold resize. replace (n - List.length l) with 0 by lia. apply app_nil_r.
  Qed.

  Lemma sub_all l : sub l 0 (List.length l) = l.
  Proof. unfold sub. simpl. apply firstn_all. Qed.

  Lemma sub_0 l n : sub l 0 n = firstn n l.
  Proof. reflexivity. Qed.

  Lemma sub_zero l s : sub l s 0 = [].
  Proof. reflexivity. Qed.

  Lemma sub_sub l s n s' n' : s' + n' <= n -> sub (sub l s n) s' n' = sub l (s + s') n'.
  Proof.
    intros H. apply nth_error_ext. intros i. rewrite !nth_error_sub.
    destruct (i <? n') eqn:E1; [|reflexivity].
    replace (s' + i <? n) with true by lia. f_equal. lia.
  Qed.

  Lemma sub_app_l l d s n : s + n <= List.length l -> sub (l ++ d) s n = sub l s n.
  Proof.
    intros H. apply nth_error_ext. intros i. rewrite !nth_error_sub, nth_error_app.
    destruct (i <? n) eqn:E1; [|reflexivity].
    replace (s + i <? List.length l) with true by lia. reflexivity.
  Qed.

  Lemma sub_app_r l d s n : List.length l <= s -> sub (l ++ d) s n = sub d (s - List.length l) n.
  Proof.
    intros H. apply nth_error_ext. intros i. rewrite !nth_error_sub, nth_error_app.
    destruct (i <? n) eqn:E1; [|reflexivity].
    replace (s + i <? List.length l) with false by lia. f_equal. lia.
  Qed.

  Lemma sub_split l s n m : sub l s (n + m) = sub l s n ++ sub l (s + n) m.
  Proof.
    apply nth_error_ext. intros i.
    destruct (Nat.le_gt_cases (List.length l) (s + n)) as [H|H].
    - unfold sub at 3. rewrite (skipn_all2 l) by lia. rewrite firstn_nil, app_nil_r.
      rewrite !nth_error_sub.
      destruct (i <? n) eqn:E1.
      + replace (i <? n + m) with true by lia. reflexivity.
      + destruct (i <? n + m); [|reflexivity]. apply nth_error_None. lia.
    - rewrite nth_error_app, sub_length_le, !nth_error_sub by lia.
      destruct (i <? n) eqn:E1.
      + replace (i <? n + m) with true by lia. reflexivity.
      + replace (i - n <? m) with (i <? n + m) by lia.
        destruct (i <? n + m); [|reflexivity]. f_equal. lia.
  Qed.

  Lemma sub_cons_nth l s n x :
    nth_error l s = Some x -> sub l s (S n) = x :: sub l (S s) n.
  Proof.
    intros H. replace (S n) with (1 + n) by lia. rewrite sub_split.
    replace (s + 1) with (S s) by lia. f_equal.
    unfold sub. destruct (skipn s l) eqn:G.
    - rewrite <- (Nat.add_0_r s), <- nth_error_skipn, G in H. discriminate.
    - rewrite <- (Nat.add_0_r s), <- nth_error_skipn, G in H. simpl in H. inv H. reflexivity.
  Qed.

  Lemma skipn_skipn l n m : skipn n (skipn m l) = skipn (m + n) l.
  Proof.
    apply nth_error_ext. intros i. rewrite !nth_error_skipn. f_equal. lia.
  Qed.

  (* chunks of a list whose length is a multiple of n *)
  Lemma chunks_fuel_full n k l fuel :
    0 < n -> List.length l = k * n -> k <= fuel ->
    chunks_fuel fuel n l = map (fun i => sub l (i * n) n) (seq 0 k).
  Proof.
    intros Hn. revert l fuel. induction k; intros l fuel Hl Hf.
    - destruct l; simpl in Hl; [|lia]. destruct fuel; reflexivity.
    - destruct fuel; [lia|]. destruct l as [|x l'] eqn:El; [simpl in Hl; lia|].
      rewrite <- El in *. simpl chunks_fuel. rewrite El. rewrite <- El.
      simpl seq. simpl map. f_equal.
      rewrite (IHk (skipn n l)); [|rewrite skipn_length; lia|lia].
      rewrite <- seq_shift, map_map. apply map_ext. intros i.
      unfold sub. rewrite skipn_skipn. f_equal; f_equal; lia.
  Qed.
  Lemma chunks_full n k l :
    0 < n -> List.length l = k * n ->
    chunks n l = map (fun i => sub l (i * n) n) (seq 0 k).
  Proof. intros Hn Hl. unfold chunks. apply chunks_fuel_full; auto. nia. Qed.

  Lemma chunks_fuel_concat n l fuel :
    0 < n -> List.length l <= fuel -> concat (chunks_fuel fuel n l) = l.
  Proof.
    intros Hn. revert l; induction fuel; intros l Hl.
    - destruct l; simpl in *; [reflexivity|lia].
    - destruct l as [|x l'] eqn:El; [reflexivity|]. rewrite <- El in *.
      simpl chunks_fuel. rewrite El. rewrite <- El. simpl concat.
      rewrite IHfuel; [apply firstn_skipn|].
      rewrite skipn_length. assert (0 < List.length l) by (rewrite El; simpl; lia). lia.
  Qed.
  Lemma chunks_concat n l : 0 < n -> concat (chunks n l) = l.
  Proof. intros. apply chunks_fuel_concat; auto. Qed.

  (* chunks in general: piece k is sub l (k*n) n *)
  Lemma chunks_fuel_more n l f1 f2 :
    0 < n -> List.length l <= f1 -> List.length l <= f2 -> chunks_fuel f1 n l = chunks_fuel f2 n l.
  Proof.
    intros Hn. revert l f2; induction f1; intros l f2 H1 H2.
    - destruct l; simpl in *; [|lia]. destruct f2; reflexivity.
    - destruct l as [|x l'] eqn:El; [destruct f2; reflexivity|].
      destruct f2; [simpl in *; lia|]. rewrite <- El in *.
      assert (0 < List.length l) by (rewrite El; simpl; lia).
      simpl chunks_fuel. rewrite El. rewrite <- El. f_equal.
      apply IHf1; rewrite skipn_length; lia.
  Qed.
  Lemma chunks_cons n l :
    0 < n -> l <> [] -> chunks n l = firstn n l :: chunks n (skipn n l).
  Proof.
    intros Hn Hl. unfold chunks. destruct l as [|x l'] eqn:El; [congruence|].
    rewrite <- El in *. assert (0 < List.length l) by (rewrite El; simpl; lia).
    destruct (List.length l) eqn:G; [lia|]. simpl chunks_fuel. rewrite El. rewrite <- El.
    f_equal. apply chunks_fuel_more; auto; rewrite skipn_length; lia.
  Qed.
  Lemma chunks_nil n : chunks n (@nil A) = [].
  Proof. reflexivity. Qed.
  Lemma chunks_length n l :
    0 < n -> List.length (chunks n l) = (List.length l + n - 1) / n.
  Proof.
    intros Hn. remember (List.length l) as m eqn:Hm. revert l Hm.
    induction m as [m IH] using lt_wf_ind. intros l Hm.
    destruct l as [|x l'] eqn:El.
    - simpl in Hm. subst m. rewrite chunks_nil. simpl.
      symmetry. apply Nat.div_small. lia.
    - rewrite <- El in *. assert (0 < List.length l) by (rewrite El; simpl; lia).
      rewrite chunks_cons; auto; [|congruence]. simpl.
      assert (Hs : List.length (skipn n l) = m - n) by (rewrite skipn_length; lia).
      rewrite (IH (m - n) ltac:(lia) _ (eq_sym Hs)).
      destruct (Nat.le_gt_cases m n).
      + replace (m - n) with 0 by lia. rewrite (Nat.div_small (0 + n - 1)) by lia.
        apply Nat.div_unique with (r := m - 1); lia.
      + replace (m + n - 1) with ((m - n + n - 1) + 1 * n) by lia.
        rewrite Nat.div_add by lia. lia.
  Qed.
  Lemma nth_error_chunks n l k :
    0 < n ->
    nth_error (chunks n l) k =
    if k * n <? List.length l then Some (sub l (k * n) n) else None.
  Proof.
    intros Hn. revert l. induction k; intros l.
    - destruct l as [|x l'] eqn:El; [reflexivity|]. rewrite <- El in *.
      assert (0 < List.length l) by (rewrite El; simpl; lia).
      rewrite chunks_cons; auto; [|congruence].
      replace (0 * n <? List.length l) with true by lia. reflexivity.
    - destruct l as [|x l'] eqn:El.
      { rewrite chunks_nil. simpl List.length. destruct (S k * n <? 0) eqn:G; [lia|]. reflexivity. }
      rewrite <- El in *.
      assert (0 < List.length l) by (rewrite El; simpl; lia).
      rewrite chunks_cons; auto; [|congruence]. simpl nth_error. rewrite IHk, skipn_length.
      replace (k * n <? List.length l - n) with (S k * n <? List.length l) by lia.
      destruct (_ <? _); [|reflexivity]. f_equal. unfold sub. rewrite skipn_skipn.
      f_equal; f_equal; lia.
  Qed.

  Lemma concat_length_const (ll : list (list A)) n :
    Forall (fun l => List.length l = n) ll -> List.length (concat ll) = List.length ll * n.
  Proof. induction 1; simpl; [reflexivity|]. rewrite app_length. lia. Qed.

  Lemma nth_error_concat (ll : list (list A)) n i j l :
    Forall (fun l => List.length l = n) ll ->
    nth_error ll i = Some l -> j < n -> nth_error (concat ll) (i * n + j) = nth_error l j.
  Proof.
    intros HF. revert i; induction HF as [|l0 ll H0 HF IH]; intros i Hi Hj.
    - destruct i; discriminate.
    - destruct i; simpl in *.
      + inv Hi. rewrite nth_error_app1 by lia. reflexivity.
      + rewrite nth_error_app2 by lia.
        replace (n + i * n + j - List.length l0) with (i * n + j) by lia. auto.
  Qed.

  Lemma sub_concat (ll : list (list A)) n i l :
    Forall (fun l => List.length l = n) ll ->
    nth_error ll i = Some l -> sub (concat ll) (i * n) n = l.
  Proof.
    intros HF Hi.
    assert (Hl : List.length l = n).
    { rewrite Forall_forall in HF. apply HF. eapply nth_error_In; eauto. }
    assert (i < List.length ll) by (apply nth_error_Some; congruence).
    apply list_ext.
    - rewrite sub_length, (concat_length_const ll n) by auto. nia.
    - intros j Hj. rewrite nth_error_sub. rewrite sub_length in Hj.
      replace (j <? n) with true by lia. apply nth_error_concat; auto. lia.
  Qed.
End Lists.

Lemma Forall2_length {A B} (R : A -> B -> Prop) l d :
  Forall2 R l d -> List.length l = List.length d.
Proof. induction 1; simpl; lia. Qed.

Lemma rmap_ok_map {A B} (f : A -> res B) (g : A -> B) l :
  (forall x, In x l -> f x = Ok (g x)) -> rmap f l = Ok (map g l).
Proof.
  induction l; intros H; simpl; [reflexivity|].
  rewrite H by (left; reflexivity). simpl. rewrite IHl; [reflexivity|].
  intros; apply H; right; auto.
Qed.

Lemma rmap_ok_Forall2 {A B} (f : A -> res B) l r :
  rmap f l = Ok r <-> Forall2 (fun x y => f x = Ok y) l r.
Proof.
  revert r; induction l; intros r; simpl; split; intros H.
  - inv H. constructor.
  - inv H. reflexivity.
  - destruct (f a) eqn:Ef; simpl in H; try discriminate.
    destruct (rmap f l) eqn:El; simpl in H; try discriminate.
    inv H. constructor; auto. apply IHl. reflexivity.
  - inv H. rewrite H2. simpl. apply IHl in H4. rewrite H4. reflexivity.
Qed.

Section Enc.
  Context {E : Type} (EO : ElementOps E) (EL : ElementLaws EO).
  Let bl := e_byte_len EO.

  Lemma bl_pos : 0 < bl.
  Proof. apply EL. Qed.

  Lemma map_as_ref_const l : Forall (fun x => List.length x = bl) (map (e_as_ref EO) l).
  Proof. apply Forall_forall. intros x Hx. apply in_map_iff in Hx as [e [<- _]]. apply EL. Qed.

  Lemma encode_length l : List.length (encode EO l) = List.length l * bl.
  Proof.
    unfold encode. rewrite (concat_length_const _ bl), map_length; auto using map_as_ref_const.
  Qed.

  Lemma encode_app l d : encode EO (l ++ d) = encode EO l ++ encode EO d.
  Proof. unfold encode. rewrite map_app, concat_app. reflexivity. Qed.

  Lemma encode_nth l i e :
    nth_error l i = Some e -> sub (encode EO l) (i * bl) bl = e_as_ref EO e.
  Proof.
    intros H. unfold encode. apply sub_concat with (n := bl); auto using map_as_ref_const.
    rewrite nth_error_map, H. reflexivity.
  Qed.

  Lemma encode_sub l s n :
    sub (encode EO l) (s * bl) (n * bl) = encode EO (sub l s n).
  Proof.
    destruct (Nat.le_gt_cases (List.length l) s) as [H|H].
    - unfold sub. rewrite !skipn_all2; [rewrite !firstn_nil; reflexivity|lia|].
      rewrite encode_length. nia.
    - assert (Hl : l = firstn s l ++ skipn s l) by (symmetry; apply firstn_skipn).
      unfold sub at 1. rewrite Hl at 1. rewrite encode_app.
      rewrite skipn_app, skipn_all2, encode_length, firstn_length; [|rewrite encode_length, firstn_length; nia].
      replace (s * bl - Nat.min s (List.length l) * bl) with 0 by nia. simpl.
      unfold sub. set (m := skipn s l).
      destruct (Nat.le_gt_cases (List.length m) n) as [G|G].
      + rewrite !firstn_all2; auto. rewrite encode_length. nia.
      + assert (Hm : m = firstn n m ++ skipn n m) by (symmetry; apply firstn_skipn).
        rewrite Hm at 1. rewrite encode_app, firstn_app, encode_length, firstn_length.
        replace (n * bl - Nat.min n (List.length m) * bl) with 0 by nia.
        rewrite firstn_O, app_nil_r. apply firstn_all2. rewrite encode_length, firstn_length. nia.
  Qed.

  Lemma chunks_encode l : chunks bl (encode EO l) = map (e_as_ref EO) l.
  Proof.
    rewrite (chunks_full bl (List.length l)); [|apply bl_pos|apply encode_length].
    apply list_ext.
    - rewrite !map_length, seq_length. reflexivity.
    - intros i Hi. rewrite map_length, seq_length in Hi. rewrite !nth_error_map.
      destruct (nth_error_ex l i Hi) as [e He]. rewrite He.
      rewrite (nth_error_nth' _ 0) by (rewrite seq_length; lia).
      rewrite seq_nth by lia. simpl. f_equal. apply encode_nth. auto.
  Qed.

  Lemma decode_encode l : decode EO (encode EO l) = Ok l.
  Proof.
    unfold decode. fold bl. rewrite chunks_encode. apply rmap_ok_Forall2.
    induction l; simpl; constructor; auto. apply EL.
  Qed.

  Lemma decode_exact_encode l : decode_exact EO (encode EO l) = Ok l.
  Proof.
    unfold decode_exact, chunks_exact. fold bl. rewrite encode_length.
    rewrite Nat.div_mul by (pose proof bl_pos; lia).
    rewrite firstn_all2 by (rewrite encode_length; lia). apply decode_encode.
  Qed.

  Lemma encode_inj l d : encode EO l = encode EO d -> l = d.
  Proof.
    intros H. pose proof (decode_encode l) as H1. rewrite H, decode_encode in H1. congruence.
  Qed.

  Lemma as_ref_inj a b : e_as_ref EO a = e_as_ref EO b -> a = b.
  Proof.
    intros H. pose proof (el_round _ EL a) as H1. rewrite H, (el_round _ EL b) in H1. congruence.
  Qed.

  (* any byte list of the right length decodes *)
  Lemma decode_total bs k :
    List.length bs = k * bl -> exists l, decode EO bs = Ok l /\ List.length l = k.
  Proof.
    intros H. unfold decode. fold bl. rewrite (chunks_full bl k) by (auto using bl_pos).
    assert (G : forall ks, (forall i, In i ks -> i < k) ->
              exists l, rmap (e_from_slice EO) (map (fun i => sub bs (i * bl) bl) ks) = Ok l
                        /\ List.length l = List.length ks).
    { induction ks as [|i ks IH]; intros Hin; simpl.
      - eexists; split; reflexivity.
      - destruct (el_total _ EL (sub bs (i * bl) bl)) as [e He].
        { apply sub_length_le. specialize (Hin i (or_introl eq_refl)). nia. }
        rewrite He. simpl. destruct IH as [l [Hl Hn]]; [intros; apply Hin; right; auto|].
        rewrite Hl. simpl. eexists; split; [reflexivity|simpl; lia]. }
    destruct (G (seq 0 k)) as [l [Hl Hn]].
    - intros i Hi. apply in_seq in Hi. lia.
    - exists l. rewrite seq_length in Hn. auto.
  Qed.

  Lemma eqb_eq a b : e_eqb EO a b = true <-> a = b.
  Proof. apply EL. Qed.
  Lemma eqb_refl a : e_eqb EO a a = true.
  Proof. apply eqb_eq. reflexivity. Qed.
  Lemma eqb_neq a b : e_eqb EO a b = false <-> a <> b.
  Proof.
    split; intros H.
    - intros G. apply eqb_eq in G. congruence.
    - destruct (e_eqb EO a b) eqn:G; auto. apply eqb_eq in G. congruence.
  Qed.
End Enc.

(* the byte-array elements are lawful *)
Lemma bytes_eqb_eq a b : bytes_eqb a b = true <-> a = b.
Proof.
  revert b; induction a; intros [|y b]; simpl; split; intros H; try reflexivity; try discriminate.
  - apply andb_prop in H as [H1 H2]. apply IHa in H2.
    assert (a = y) by (apply Byte.byte_dec_bl; exact H1). congruence.
  - inv H. apply andb_true_intro. split; [|apply IHa; reflexivity].
    apply Byte.byte_dec_lb. reflexivity.
Qed.

Lemma barray_eq n (a b : barray n) : ba_bytes a = ba_bytes b -> a = b.
Proof.
  destruct a as [x Hx], b as [y Hy]; simpl. intros ->. f_equal.
  apply Eqdep_dec.UIP_dec. decide equality.
Qed.

Lemma ba_from_slice_ok n bs (H : (List.length bs =? n) = true) :
  ba_from_slice n bs = Ok (mk_barray bs H).
Proof.
  unfold ba_from_slice.
  generalize (@eq_refl bool (List.length bs =? n)).
  generalize (List.length bs =? n) at 2 3.
  intros b Hb. destruct b; [|congruence].
  f_equal. apply barray_eq. reflexivity.
Qed.

Lemma ba_from_slice_inv n bs a : ba_from_slice n bs = Ok a -> ba_bytes a = bs.
Proof.
  unfold ba_from_slice.
  generalize (@eq_refl bool (List.length bs =? n)).
  generalize (List.length bs =? n) at 2 3.
  intros b Hb. destruct b; intros G; [|discriminate]. inv G. reflexivity.
Qed.

Lemma ba_laws n : 0 < n -> ElementLaws (ba_ops n).
Proof.
  intros Hn. constructor; simpl.
  - exact Hn.
  - intros e. pose proof (ba_ok e). lia.
  - intros e. rewrite (ba_from_slice_ok n (ba_bytes e) (ba_ok e)). f_equal.
    apply barray_eq. reflexivity.
  - intros bs H. assert (G : (List.length bs =? n) = true) by lia.
    eexists. apply (ba_from_slice_ok n bs G).
  - intros a b. rewrite bytes_eqb_eq. split; [apply barray_eq|congruence].
Qed.
Lemma ba_bytes_law n : ElementBytesLaw (ba_ops n).
Proof. intros bs e H. simpl in *. eapply ba_from_slice_inv; eauto. Qed.
