(* Exactly which types of hashable values have injective streams. *)
From Coq Require Import String List Arith NArith Bool Lia Init.Byte ZifyBool ZifyNat.
From Verif Require Import Base Element Hash ListFacts HashFacts.
Import ListNotations.

Definition is_fixed (t : hty) : bool := match fixed t with Some _ => true | None => false end.

(* at most one component of a tuple has a variable size; slices have elements of a fixed
   non-zero size *)
Fixpoint unique (t : hty) : bool :=
  match t with
  | TInt _ | TArr _ | TVec | TBool | TChar | TStr => true
  | TTup ts =>
      (fix go (ts : list hty) : bool := match ts with [] => true | t :: ts => unique t && go ts end) ts &&
      (List.length (filter (fun t => negb (is_fixed t)) ts) <=? 1)
  | TSlice t => unique t && match fixed t with Some (S _) => true | _ => false end
  end.
Lemma unique_tup ts : unique (TTup ts) = forallb unique ts && (List.length (filter (fun t => negb (is_fixed t)) ts) <=? 1).
Proof.
  cbn [unique]. apply (f_equal (fun b => b && _)). induction ts as [|t ts IH]; [reflexivity|]. cbn [forallb]. rewrite <- IH. reflexivity.
Qed.

Definition inj (t : hty) : Prop := forall a b, has_type t a -> has_type t b -> stream a = stream b -> a = b.

(* ---- sufficient ---- *)
Lemma fixed_all_length : forall ts n l, fixed_all ts = Some n -> tup_type ts l -> List.length (flat_map stream l) = n.
Proof.
  intros ts n l HF HT. rewrite <- stream_tuple. apply (fixed_length (TTup ts)); [rewrite fixed_tup; exact HF|].
  apply has_type_tup. exact HT.
Qed.
Lemma no_variable ts : List.length (filter (fun t => negb (is_fixed t)) ts) = 0 -> exists n, fixed_all ts = Some n.
Proof.
  induction ts as [|t ts IH]; intros H; [exists 0; reflexivity|]. cbn [filter] in H. unfold is_fixed in H at 1.
  destruct (fixed t) as [a|] eqn:Q; cbn [negb List.length] in H; [|discriminate].
  destruct (IH H) as [n Hn]. exists (a + n). cbn [fixed_all]. rewrite Q, Hn. reflexivity.
Qed.

Lemma tup_inj ts : Forall inj ts -> List.length (filter (fun t => negb (is_fixed t)) ts) <= 1 ->
  forall l d, tup_type ts l -> tup_type ts d -> flat_map stream l = flat_map stream d -> l = d.
Proof.
  induction 1 as [|t ts Ht HF IH]; intros HC [|x l] [|y d] Ha Hb H; try contradiction; auto.
  destruct Ha as [Ha1 Ha2], Hb as [Hb1 Hb2]. cbn [flat_map] in H.
  assert (HL : List.length (stream x) = List.length (stream y)).
  { cbn [filter] in HC. destruct (is_fixed t) eqn:Q; cbn [negb List.length] in HC; unfold is_fixed in Q.
    - destruct (fixed t) as [n|] eqn:En; [|discriminate]. rewrite (fixed_length t n x), (fixed_length t n y); auto.
    - destruct (no_variable ts ltac:(lia)) as [n Hn]. apply (f_equal (@List.length byte)) in H. rewrite !app_length in H.
      rewrite (fixed_all_length ts n l Hn Ha2), (fixed_all_length ts n d Hn Hb2) in H. lia. }
  apply app_inj_len in H; [|exact HL]. destruct H as [H1 H2]. f_equal; [apply Ht; auto|].
  apply IH; auto. cbn [filter] in HC. destruct (negb (is_fixed t)); cbn [List.length] in HC; lia.
Qed.

Lemma unique_inj t : unique t = true -> inj t.
Proof.
  induction t as [w|m| | | | |ts IH|t IH] using hty_ind'; intros HR.
  - intros a b. apply (stream_inj (TInt w)); reflexivity.
  - intros a b. apply (stream_inj (TArr m)); reflexivity.
  - intros a b. apply (stream_inj TVec); reflexivity.
  - intros a b. apply (stream_inj TBool); reflexivity.
  - intros a b. apply (stream_inj TChar); reflexivity.
  - intros a b. apply (stream_inj TStr); reflexivity.
  - intros a b Ha Hb H. apply has_type_tup_inv in Ha, Hb. destruct Ha as (l & -> & Ha), Hb as (d & -> & Hb).
    rewrite unique_tup in HR. apply andb_true_iff in HR. destruct HR as [HR1 HR2]. rewrite !stream_tuple in H. f_equal.
    apply (tup_inj ts); auto; [|lia]. rewrite forallb_forall in HR1. rewrite Forall_forall in *. intros t Hin. apply IH; auto.
  - cbn [unique] in HR. apply andb_true_iff in HR. destruct HR as [HR HR2]. specialize (IH HR). intros a b Ha Hb H.
    destruct (fixed t) as [[|n]|] eqn:En; try discriminate.
    destruct (packed t) eqn:Hpk.
    + destruct t; try discriminate Hpk.
      * apply (stream_inj (TSlice (TInt w))); auto. cbn [readable]. rewrite En. reflexivity.
      * apply (stream_inj (TSlice (TArr n0))); auto. cbn [readable]. rewrite En. reflexivity.
    + apply has_type_slice in Ha, Hb.
      destruct Ha as [(w & l & -> & _)|[(m & l & -> & _)|(l & _ & -> & Ha)]]; try discriminate Hpk.
      destruct Hb as [(w & d & -> & _)|[(m & d & -> & _)|(d & _ & -> & Hb)]]; try discriminate Hpk.
      f_equal. rewrite !stream_slice in H. eapply (slice_inj t (S n)); eauto. lia.
Qed.

(* ---- necessary ---- *)
Definition zeros (n : nat) : list byte := repeat x00 n.
Lemma zeros_app a b : zeros a ++ zeros b = zeros (a + b).
Proof. unfold zeros. symmetry. apply repeat_app. Qed.
Lemma zeros_inj a b : zeros a = zeros b -> a = b.
Proof. intros H. apply (f_equal (@List.length byte)) in H. unfold zeros in H. rewrite !repeat_length in H. exact H. Qed.
Lemma le_zero w : le_bytes w 0 = zeros w.
Proof. induction w as [|w IH]; [reflexivity|]. cbn [le_bytes zeros repeat]. change (0 / 256)%N with 0%N. rewrite IH. reflexivity. Qed.
Lemma pow256 w : (0 < 256 ^ N.of_nat w)%N.
Proof. apply N.neq_0_lt_0, N.pow_nonzero. lia. Qed.

(* zero streams of the lengths s, s + w, s + 2w, ... *)
Definition steps (t : hty) (s w : nat) : Prop := forall k, exists h, has_type t h /\ stream h = zeros (s + k * w).
Definition tsteps (ts : list hty) (s w : nat) : Prop := forall k, exists l, tup_type ts l /\ flat_map stream l = zeros (s + k * w).

Lemma flat_map_zeros (l : list hval) n k : Forall (fun h => stream h = zeros n) l -> List.length l = k -> flat_map stream l = zeros (k * n).
Proof.
  revert k. induction l as [|x l IH]; intros k HF <-; [reflexivity|]. inversion HF; subst. cbn [flat_map List.length].
  rewrite (IH (List.length l)) by auto. rewrite H1, zeros_app. reflexivity.
Qed.
Lemma slice_zeros t n h : has_type t h -> stream h = zeros n -> forall k, exists x, has_type (TSlice t) x /\ stream x = zeros (k * n).
Proof.
  intros HT HS k. destruct (packed t) eqn:Hp.
  - destruct t; try discriminate Hp.
    + assert (w = n) as <-.
      { pose proof (fixed_length (TInt w) w h eq_refl HT) as L. rewrite HS in L. unfold zeros in L. rewrite repeat_length in L. lia. }
      exists (HIntSlice w (repeat 0%N k)). split.
      * split; [reflexivity|]. apply Forall_forall. intros v Hv. apply repeat_spec in Hv. subst. apply pow256.
      * unfold stream. cbn [feed]. rewrite stream_one. induction k as [|k IHk]; [reflexivity|]. cbn [repeat flat_map].
        rewrite IHk, le_zero, zeros_app. reflexivity.
    + assert (n0 = n) as ->.
      { pose proof (fixed_length (TArr n0) n0 h eq_refl HT) as L. rewrite HS in L. unfold zeros in L. rewrite repeat_length in L. lia. }
      exists (HBytesSlice (repeat (zeros n) k)). split.
      * cbn [has_type]. apply Forall_forall. intros v Hv. apply repeat_spec in Hv. subst. apply repeat_length.
      * unfold stream. cbn [feed]. rewrite stream_one. induction k as [|k IHk]; [reflexivity|]. cbn [repeat concat].
        rewrite IHk, zeros_app. reflexivity.
  - exists (HSlice (repeat h k)). split.
    + assert (packed t = false /\ Forall (has_type t) (repeat h k)).
      { split; [exact Hp|]. apply Forall_forall. intros v Hv. apply repeat_spec in Hv. subst. exact HT. }
      destruct t; try discriminate Hp; exact H.
    + rewrite stream_slice. apply flat_map_zeros; [|apply repeat_length]. apply Forall_forall. intros v Hv. apply repeat_spec in Hv. subst. exact HS.
Qed.

Lemma unique_steps t : unique t = true ->
  (exists n, fixed t = Some n /\ exists h, has_type t h /\ stream h = zeros n) \/
  (fixed t = None /\ exists s w, 0 < w /\ steps t s w).
Proof.
  induction t as [w|m| | | | |ts IH|t IH] using hty_ind'; intros HR.
  - left. exists w. split; [reflexivity|]. exists (HInt w 0). split; [split; [reflexivity|apply pow256]|].
    unfold stream. cbn [feed]. rewrite stream_one. apply le_zero.
  - left. exists m. split; [reflexivity|]. exists (HBytes (zeros m)). split; [apply repeat_length|]. apply stream_one.
  - right. split; [reflexivity|]. exists 0, 1. split; [lia|]. intros k. exists (HBytes (zeros (k * 1))). split; [exact I|]. apply stream_one.
  - left. exists 1. split; [reflexivity|]. exists (HBool false). split; [exact I|reflexivity].
  - left. exists 4. split; [reflexivity|]. exists (HChar 0). split; [reflexivity|reflexivity].
  - right. split; [reflexivity|]. exists 0, 1. split; [lia|]. intros k. exists (HStr (zeros (k * 1))). split; [exact I|]. apply stream_one.
  - rewrite unique_tup in HR. apply andb_true_iff in HR. destruct HR as [HR _].
    assert (G : (exists n, fixed_all ts = Some n /\ exists l, tup_type ts l /\ flat_map stream l = zeros n) \/
                (fixed_all ts = None /\ exists s w, 0 < w /\ tsteps ts s w)).
    { induction IH as [|t ts Ht _ IHs]; [left; exists 0; split; [reflexivity|]; exists []; split; [exact I|reflexivity]|].
      cbn [forallb] in HR. apply andb_true_iff in HR. destruct HR as [HR1 HR2]. specialize (IHs HR2).
      cbn [fixed_all]. destruct (Ht HR1) as [(a & -> & x & X1 & X2)|(-> & s & w & Hw & X)].
      - destruct IHs as [(c & -> & l & L1 & L2)|(-> & s & w & Hw & L)].
        + left. exists (a + c). split; [reflexivity|]. exists (x :: l). split; [split; auto|]. cbn [flat_map]. rewrite X2, L2. apply zeros_app.
        + right. split; [reflexivity|]. exists (a + s), w. split; [exact Hw|]. intros k. destruct (L k) as (l & L1 & L2).
          exists (x :: l). split; [split; auto|]. cbn [flat_map]. rewrite X2, L2, zeros_app. f_equal. lia.
      - assert (exists n l, tup_type ts l /\ flat_map stream l = zeros n) as (n & l & L1 & L2).
        { destruct IHs as [(c & _ & l & L1 & L2)|(_ & s' & w' & _ & L)]; [exists c, l; auto|]. destruct (L 0) as (l & L1 & L2). exists (s' + 0 * w'), l. auto. }
        right. split; [reflexivity|]. exists (s + n), w. split; [exact Hw|]. intros k. destruct (X k) as (x & X1 & X2).
        exists (x :: l). split; [split; auto|]. cbn [flat_map]. rewrite X2, L2, zeros_app. f_equal. lia. }
    rewrite fixed_tup. destruct G as [(n & G1 & l & G2 & G3)|(G1 & s & w & Hw & G)].
    + left. exists n. split; [exact G1|]. exists (HTuple l). split; [apply has_type_tup; exact G2|]. rewrite stream_tuple. exact G3.
    + right. split; [exact G1|]. exists s, w. split; [exact Hw|]. intros k. destruct (G k) as (l & G2 & G3).
      exists (HTuple l). split; [apply has_type_tup; exact G2|]. rewrite stream_tuple. exact G3.
  - cbn [unique] in HR. apply andb_true_iff in HR. destruct HR as [HR HR2]. destruct (fixed t) as [[|n]|] eqn:En; try discriminate.
    right. split; [reflexivity|]. destruct (IH HR) as [(n' & Hn & h & H1 & H2)|(Q & _)]; [|discriminate]. injection Hn as <-.
    exists 0, (S n). split; [lia|]. intros k. apply (slice_zeros t (S n) h H1 H2).
Qed.

Definition collide (t : hty) : Prop := exists a b, has_type t a /\ has_type t b /\ a <> b /\ stream a = stream b.
Definition tcollide (ts : list hty) : Prop := exists l d, tup_type ts l /\ tup_type ts d /\ l <> d /\ flat_map stream l = flat_map stream d.

(* every type has values *)
Lemma inhabited t : exists h, has_type t h.
Proof.
  induction t as [w|m| | | | |ts IH|t IH] using hty_ind'.
  - exists (HInt w 0). split; [reflexivity|apply pow256].
  - exists (HBytes (zeros m)). apply repeat_length.
  - exists (HBytes []). exact I.
  - exists (HBool true). exact I.
  - exists (HChar 0). reflexivity.
  - exists (HStr []). exact I.
  - assert (exists l, tup_type ts l) as [l Hl].
    { induction IH as [|t ts [h Hh] _ [l Hl]]; [exists []; exact I|]. exists (h :: l). split; auto. }
    exists (HTuple l). apply has_type_tup. exact Hl.
  - destruct (packed t) eqn:Hp.
    + destruct t; try discriminate Hp; [exists (HIntSlice w []); split; auto|exists (HBytesSlice []); constructor].
    + exists (HSlice []). destruct t; try discriminate Hp; split; auto.
Qed.
Lemma tup_inhabited ts : exists l, tup_type ts l.
Proof. destruct (inhabited (TTup ts)) as [h Hh]. apply has_type_tup_inv in Hh. destruct Hh as (l & _ & Hl). eauto. Qed.

Lemma tup_two ts : forallb unique ts = true -> 2 <= List.length (filter (fun t => negb (is_fixed t)) ts) -> tcollide ts.
Proof.
  induction ts as [|t ts IH]; intros HU HC; [cbn in HC; lia|]. cbn [forallb] in HU. apply andb_true_iff in HU. destruct HU as [HU1 HU2].
  cbn [filter] in HC. unfold is_fixed in HC at 1. destruct (unique_steps t HU1) as [(n & Hn & h & H1 & H2)|(Hn & s & w & Hw & X)]; rewrite Hn in HC; cbn [negb List.length] in HC.
  - destruct (IH HU2 HC) as (l & d & L1 & L2 & L3 & L4). exists (h :: l), (h :: d). repeat split; auto; [congruence|]. cbn [flat_map]. congruence.
  - assert (HUt : unique (TTup ts) = true \/ 2 <= List.length (filter (fun t => negb (is_fixed t)) ts)).
    { rewrite unique_tup, HU2. cbn [andb]. lia. }
    destruct HUt as [HUt|H2].
    + destruct (unique_steps _ HUt) as [(n & Hf & _)|(_ & s' & w' & Hw' & Y)].
      { exfalso. rewrite fixed_tup in Hf. clear - Hf HC. assert (HC' : 1 <= List.length (filter (fun t => negb (is_fixed t)) ts)) by lia. clear HC.
        revert n Hf HC'. induction ts as [|t ts IH]; intros n Hf HC; [cbn in HC; lia|]. cbn [fixed_all filter] in *. unfold is_fixed in HC at 1.
        destruct (fixed t); [|discriminate]. destruct (fixed_all ts) eqn:Q; [|discriminate]. cbn [negb] in HC. apply (IH _ eq_refl HC). }
      destruct (X 0) as (x0 & A1 & A2), (X w') as (x1 & B1 & B2), (Y 0) as (y0 & C1 & C2), (Y w) as (y1 & D1 & D2).
      apply has_type_tup_inv in C1, D1. destruct C1 as (l0 & -> & C1), D1 as (l1 & -> & D1). rewrite stream_tuple in C2, D2.
      exists (x0 :: l1), (x1 :: l0). split; [split; auto|]. split; [split; auto|]. split.
      * intros Q. injection Q as Q _. subst x1. rewrite A2 in B2. apply zeros_inj in B2. pose proof (Nat.mul_pos_pos w' w Hw' Hw). lia.
      * cbn [flat_map]. rewrite A2, B2, C2, D2, !zeros_app. f_equal. lia.
    + destruct (IH HU2 H2) as (l & d & L1 & L2 & L3 & L4). destruct (X 0) as (x & X1 & _).
      exists (x :: l), (x :: d). repeat split; auto; [congruence|]. cbn [flat_map]. congruence.
Qed.

Lemma tup_wrap ts : Exists collide ts -> tcollide ts.
Proof.
  induction 1 as [t ts (a & b & H1 & H2 & H3 & H4)|t ts _ (l & d & L1 & L2 & L3 & L4)].
  - destruct (tup_inhabited ts) as [l Hl]. exists (a :: l), (b :: l). repeat split; auto; [congruence|]. cbn [flat_map]. congruence.
  - destruct (inhabited t) as [h Hh]. exists (h :: l), (h :: d). repeat split; auto; [congruence|]. cbn [flat_map]. congruence.
Qed.

Lemma slice_intro t l : packed t = false -> Forall (has_type t) l -> has_type (TSlice t) (HSlice l).
Proof. intros Hp HF. assert (packed t = false /\ Forall (has_type t) l) by auto. destruct t; try discriminate Hp; assumption. Qed.

Lemma not_unique_collide t : unique t = false -> collide t.
Proof.
  induction t as [w|m| | | | |ts IH|t IH] using hty_ind'; intros HR; try discriminate HR.
  - rewrite unique_tup in HR.
    assert (HT : tcollide ts).
    { destruct (forallb unique ts) eqn:HU; cbn [andb] in HR; [apply tup_two; auto; lia|]. apply tup_wrap.
      clear HR. induction IH as [|t ts Ht _ IHs]; [discriminate|]. cbn [forallb] in HU. destruct (unique t) eqn:Q; [right; apply IHs; exact HU|left; auto]. }
    destruct HT as (l & d & L1 & L2 & L3 & L4). exists (HTuple l), (HTuple d). rewrite !has_type_tup, !stream_tuple. repeat split; auto. congruence.
  - cbn [unique] in HR. destruct (unique t) eqn:HU; cbn [andb] in HR.
    2:{ destruct (IH eq_refl) as (a & b & H1 & H2 & H3 & H4). exists (HSlice [a]), (HSlice [b]).
        assert (Hp : packed t = false) by (destruct t; auto; discriminate HU).
        split; [apply slice_intro; auto|]. split; [apply slice_intro; auto|]. split; [congruence|].
        rewrite !stream_slice. cbn [flat_map]. congruence. }
    destruct (unique_steps t HU) as [(n & Hn & h & H1 & H2)|(Hn & s & w & Hw & X)]; rewrite Hn in HR.
    + destruct n as [|n]; [|discriminate].
      destruct (packed t) eqn:Hp.
      * destruct t; try discriminate Hp; injection Hn as ->.
        -- exists (HIntSlice 0 []), (HIntSlice 0 [0%N]). repeat split; auto; [|discriminate]. constructor; [reflexivity|constructor].
        -- exists (HBytesSlice []), (HBytesSlice [[]]). repeat split; [constructor|repeat constructor|discriminate].
      * exists (HSlice []), (HSlice [h]). split; [apply slice_intro; auto|]. split; [apply slice_intro; auto|]. split; [discriminate|].
        rewrite !stream_slice. cbn [flat_map]. rewrite H2. reflexivity.
    + (* 1 + w elements of length s, or one with s * w more bytes *)
      assert (Hp : packed t = false) by (destruct t; auto; discriminate Hn).
      destruct (X 0) as (x0 & A1 & A2), (X s) as (x1 & B1 & B2). rewrite Nat.add_0_r in A2.
      exists (HSlice (repeat x0 (S w))), (HSlice [x1]). split; [|split; [apply slice_intro; auto|split]].
      * apply slice_intro; [exact Hp|]. apply Forall_forall. intros v Hv. apply repeat_spec in Hv. subst. exact A1.
      * destruct w; [lia|]. intros Q. injection Q as Q. discriminate.
      * rewrite !stream_slice. rewrite (flat_map_zeros _ s (S w)); [|apply Forall_forall; intros v Hv; apply repeat_spec in Hv; subst; exact A2|apply repeat_length].
        cbn [flat_map]. rewrite app_nil_r, B2. f_equal. lia.
Qed.
