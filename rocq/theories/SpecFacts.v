From Coq Require Import String List Arith Bool Lia ZifyBool ZifyNat.
From Verif Require Import Base Spec ListFacts.
Import ListNotations.

Lemma pow_pos b d : 0 < b -> 0 < b ^ d.
Proof. intros. apply Nat.neq_0_lt_0. apply Nat.pow_nonzero. lia. Qed.

Lemma geom_pos b d : 0 < geom b d.
Proof. induction d; simpl; lia. Qed.

Lemma row_off_step b d r : row_off b d (S r) = row_off b d r + b ^ (d - r).
Proof. reflexivity. Qed.

Lemma row_off_shift b d r : r <= d -> row_off b (S d) (S r) = b ^ (S d) + row_off b d r.
Proof.
  induction r; intros Hr.
  - simpl. lia.
  - rewrite row_off_step. rewrite IHr by lia. rewrite row_off_step.
    replace (S d - S r) with (d - r) by lia. lia.
Qed.

Lemma geom_row_off b d r : r <= d -> geom b d = row_off b d r + geom b (d - r).
Proof.
  revert r. induction d; intros r Hr.
  - assert (r = 0) by lia. subst. reflexivity.
  - destruct r; [reflexivity|]. rewrite row_off_shift by lia. simpl geom.
    rewrite (IHd r) by lia. simpl. lia.
Qed.

Lemma row_off_last b d : row_off b d d = geom b d - 1.
Proof.
  pose proof (geom_row_off b d d (le_n d)) as H. rewrite Nat.sub_diag in H. simpl in H. lia.
Qed.

Lemma row_off_bound b d r j : r <= d -> j < b ^ (d - r) -> row_off b d r + j < geom b d.
Proof.
  intros Hr Hj. rewrite (geom_row_off b d r Hr).
  destruct (d - r); simpl in *; lia.
Qed.

Lemma row_off_lt b d r r' : 0 < b -> r < r' -> r' <= d -> row_off b d r < row_off b d r'.
Proof.
  intros Hb Hr. induction Hr; intros Hd.
  - rewrite row_off_step. pose proof (pow_pos b (d - r) Hb). lia.
  - rewrite row_off_step. pose proof (pow_pos b (d - m) Hb). specialize (IHHr ltac:(lia)). lia.
Qed.

Lemma row_off_mono b d r r' : r <= r' -> row_off b d r <= row_off b d r'.
Proof. induction 1; auto. rewrite row_off_step. lia. Qed.

(* (b-1) * geom = b^(d+1) - 1 *)
Lemma geom_mul b d : 0 < b -> (b - 1) * geom b d + 1 = b ^ (S d).
Proof.
  intros Hb. induction d.
  - simpl. lia.
  - simpl geom. rewrite Nat.mul_add_distr_l.
    replace ((b - 1) * (b * b ^ d) + (b - 1) * geom b d + 1)
      with ((b - 1) * (b * b ^ d) + ((b - 1) * geom b d + 1)) by lia.
    rewrite IHd. simpl. nia.
Qed.
Lemma geom_2 d : geom 2 d = 2 ^ (S d) - 1.
Proof. pose proof (geom_mul 2 d ltac:(lia)). simpl in *. lia. Qed.
Lemma geom_gt b d : b ^ d <= geom b d.
Proof. destruct d; simpl; lia. Qed.
Lemma geom_lt_next b d : 2 <= b -> geom b d < b ^ S d.
Proof. intros. pose proof (geom_mul b d ltac:(lia)). nia. Qed.
Lemma geom_mono b d d' : d <= d' -> geom b d <= geom b d'.
Proof. induction 1; auto. simpl. lia. Qed.
Lemma geom_strict b d d' : 0 < b -> d < d' -> geom b d < geom b d'.
Proof.
  intros Hb. induction 1.
  - simpl. pose proof (pow_pos b d Hb). nia.
  - simpl. pose proof (pow_pos b m Hb). nia.
Qed.
Lemma geom_inj b d d' : 0 < b -> geom b d = geom b d' -> d = d'.
Proof.
  intros Hb H. destruct (Nat.lt_trichotomy d d') as [L|[L|L]]; auto;
    apply (geom_strict b) in L; auto; lia.
Qed.
Lemma pow_inj b d d' : 2 <= b -> b ^ d = b ^ d' -> d = d'.
Proof. intros Hb H. apply (Nat.pow_inj_r b); auto. Qed.

Section MRootFacts.
  Context {E : Type} (h : nat -> list E -> E) (b : nat).
  Notation MRoot := (MRoot h b).

  Lemma MRoot_ind' (P : nat -> list E -> E -> Prop) :
    (forall x, P 0 [x] x) ->
    (forall d parts roots,
        List.length parts = b -> Forall2 (MRoot d) parts roots ->
        Forall2 (P d) parts roots -> P (S d) (concat parts) (h d roots)) ->
    forall d l x, MRoot d l x -> P d l x.
  Proof.
    intros H0 HS. fix IH 4. intros d l x H. destruct H as [x|d parts roots Hl HF].
    - apply H0.
    - apply HS; auto. clear Hl.
      revert parts roots HF. fix IHF 3. intros parts roots HF. destruct HF; constructor; auto.
  Qed.

  Lemma MRoot_length d l x : MRoot d l x -> List.length l = b ^ d.
  Proof.
    revert d l x. apply MRoot_ind'; [reflexivity|].
    intros d parts roots Hl HF HP. rewrite (concat_length_const parts (b ^ d)).
    - rewrite Hl. reflexivity.
    - clear Hl HF. induction HP; constructor; auto.
  Qed.

  Lemma Forall2_MRoot_const d parts roots :
    Forall2 (MRoot d) parts roots -> Forall (fun l => List.length l = b ^ d) parts.
  Proof. induction 1; constructor; eauto using MRoot_length. Qed.

  Lemma concat_inj_const {T} (p q : list (list T)) n :
    Forall (fun l => List.length l = n) p -> Forall (fun l => List.length l = n) q ->
    List.length p = List.length q -> concat p = concat q -> p = q.
  Proof.
    intros HF. revert q. induction HF as [|x p Hx HF IH]; intros q HG Hl Hc.
    - destruct q; simpl in *; [reflexivity|lia].
    - destruct q as [|y q]; [simpl in *; lia|]. inv HG. simpl in *.
      assert (G : List.length x = List.length y) by lia.
      assert (x = y /\ concat p = concat q) as [-> Hc'].
      { clear -G Hc. revert y G Hc. induction x; intros [|y0 y] G Hc; simpl in *; try lia; auto.
        inv Hc. destruct (IHx y) as [-> ->]; auto. }
      f_equal. apply IH; auto.
  Qed.

  Lemma MRoot_fun d l x : MRoot d l x -> forall y, MRoot d l y -> x = y.
  Proof.
    revert d l x. refine (MRoot_ind' _ _ _).
    - intros x y H. inv H. reflexivity.
    - intros d parts roots Hl HF HP y H.
      inversion H as [|d' parts0 roots0 Hl0 HF0 Hd Hc Hy]. subst d' y.
      assert (parts0 = parts).
      { eapply concat_inj_const; eauto using Forall2_MRoot_const. congruence. }
      subst parts0. f_equal.
      clear -HP HF0. revert roots0 HF0. induction HP; intros r0 H2; inv H2; auto.
      f_equal; auto.
  Qed.

  Lemma split_parts {T} (l : list T) n k :
    List.length l = k * n -> l = concat (map (fun i => sub l (i * n) n) (seq 0 k)).
  Proof.
    revert l. induction k; intros l Hl.
    - destruct l; simpl in *; [reflexivity|lia].
    - simpl. rewrite <- (firstn_skipn n l) at 1. f_equal.
      rewrite (IHk (skipn n l)) at 1 by (rewrite skipn_length; lia).
      f_equal. rewrite <- seq_shift, map_map. apply map_ext. intros i.
      unfold sub. rewrite skipn_skipn. reflexivity.
  Qed.

  Lemma MRoot_exists d l : List.length l = b ^ d -> exists x, MRoot d l x.
  Proof.
    revert l. induction d; intros l Hl.
    - destruct l as [|x [|]]; simpl in *; try lia. exists x. constructor.
    - simpl in Hl. rewrite (split_parts l (b ^ d) b Hl).
      assert (G : forall ks, (forall i, In i ks -> i < b) ->
         exists roots, Forall2 (MRoot d) (map (fun i => sub l (i * b ^ d) (b ^ d)) ks) roots).
      { induction ks as [|i ks IH]; intros Hin; simpl.
        - exists []. constructor.
        - destruct IH as [rs Hrs]; [intros; apply Hin; right; auto|].
          destruct (IHd (sub l (i * b ^ d) (b ^ d))) as [x Hx].
          { apply sub_length_le. specialize (Hin i (or_introl eq_refl)). nia. }
          exists (x :: rs). constructor; auto. }
      destruct (G (seq 0 b)) as [roots Hr]; [intros i Hi; apply in_seq in Hi; lia|].
      eexists. apply MR_node; [rewrite map_length, seq_length; reflexivity|eassumption].
  Qed.

  Lemma MRoot_S_inv d l x : MRoot (S d) l x ->
    exists roots, x = h d roots /\ List.length roots = b /\
      forall i r, nth_error roots i = Some r -> MRoot d (sub l (i * b ^ d) (b ^ d)) r.
  Proof.
    intros H. inversion H as [|d' parts roots Hl H2 Hd Hc Hy]. subst d' l x. exists roots. repeat split.
    - rewrite <- (Forall2_length _ _ _ H2). exact Hl.
    - intros i r Hi.
      assert (Hi' : i < List.length parts).
      { rewrite (Forall2_length _ _ _ H2). apply nth_error_Some. congruence. }
      destruct (nth_error_ex parts i Hi') as [p Hp].
      assert (MRoot d p r).
      { clear -H2 Hi Hp. revert i Hi Hp. induction H2; intros [|i] Hi Hp; simpl in *; try discriminate.
        - congruence.
        - eauto. }
      rewrite (sub_concat parts (b ^ d) i p); eauto using Forall2_MRoot_const.
  Qed.

  Lemma MRoot_S_intro d l roots :
    List.length l = b ^ S d -> List.length roots = b ->
    (forall i r, nth_error roots i = Some r -> MRoot d (sub l (i * b ^ d) (b ^ d)) r) ->
    MRoot (S d) l (h d roots).
  Proof.
    intros Hl Hr H. simpl in Hl. rewrite (split_parts l (b ^ d) b Hl).
    apply MR_node; [rewrite map_length, seq_length; reflexivity|].
    clear Hl.
    assert (G : forall s rs, (forall i r, nth_error rs i = Some r ->
               MRoot d (sub l ((s + i) * b ^ d) (b ^ d)) r) ->
               Forall2 (MRoot d) (map (fun i => sub l (i * b ^ d) (b ^ d)) (seq s (List.length rs))) rs).
    { intros s rs. revert s. induction rs as [|r rs IH]; intros s Hs; simpl; constructor.
      - specialize (Hs 0 r eq_refl). rewrite Nat.add_0_r in Hs. exact Hs.
      - apply IH. intros i r' Hi. specialize (Hs (S i) r' Hi).
        replace (S s + i) with (s + S i) by lia. exact Hs. }
    specialize (G 0 roots H). rewrite Hr in G. exact G.
  Qed.
End MRootFacts.
