(* What the generic build and tree lemmas need from a store.
   [Rep cap n v st]: the store has room for [cap] elements, its len() is [n], and
   position i holds e whenever v i = Some e. *)
From Coq Require Import String List Arith Bool Lia Init.Byte ZifyBool ZifyNat.
From Verif Require Import Base Element Hash Sizing FS Sched Store ListFacts Spec SpecFacts SizingFacts SchedFacts.
Import ListNotations.

Section Know.
  Context {E : Type}.
  Definition upd (v : nat -> option E) (start : nat) (l : list E) : nat -> option E :=
    fun i => if (start <=? i) && (i <? start + List.length l)
             then nth_error l (i - start) else v i.
  Definition knows (v : nat -> option E) (start : nat) (l : list E) : Prop :=
    forall k, k < List.length l -> v (start + k) = nth_error l k.

  Lemma upd_in v s l i : s <= i -> i < s + List.length l -> upd v s l i = nth_error l (i - s).
  Proof. intros H1 H2. unfold upd. replace ((s <=? i) && (i <? s + List.length l)) with true by lia. reflexivity. Qed.
  Lemma upd_out v s l i : i < s \/ s + List.length l <= i -> upd v s l i = v i.
  Proof. intros H. unfold upd. replace ((s <=? i) && (i <? s + List.length l)) with false by lia. reflexivity. Qed.
  Lemma knows_upd_same v s l : knows (upd v s l) s l.
  Proof. intros k Hk. rewrite upd_in by lia. f_equal. lia. Qed.
  Lemma knows_upd_other v s l s' l' :
    knows v s' l' -> s' + List.length l' <= s \/ s + List.length l <= s' -> knows (upd v s l) s' l'.
  Proof. intros H Hd k Hk. rewrite upd_out by lia. apply H. auto. Qed.
  Lemma knows_ext v v' s l : (forall i, s <= i -> i < s + List.length l -> v' i = v i) -> knows v s l -> knows v' s l.
  Proof. intros H Hk k Hl. rewrite H by lia. apply Hk. auto. Qed.
  Lemma knows_sub v s l k n : knows v s l -> knows v (s + k) (sub l k n).
  Proof.
    intros H j Hj. rewrite sub_length in Hj. rewrite nth_error_sub. replace (j <? n) with true by lia.
    replace (s + k + j) with (s + (k + j)) by lia. apply H. lia.
  Qed.
  Lemma knows_app v s l l' : knows v s l -> knows v (s + List.length l) l' -> knows v s (l ++ l').
  Proof.
    intros H H' k Hk. rewrite app_length in Hk. rewrite nth_error_app.
    destruct (k <? List.length l) eqn:Ek.
    - apply H. lia.
    - replace (s + k) with (s + List.length l + (k - List.length l)) by lia. apply H'. lia.
  Qed.
  Lemma knows_nil v s : knows v s [].
  Proof. intros k Hk. simpl in Hk. lia. Qed.
End Know.

(* f' differs from f at most in the contents of inode o *)
Definition fs_frame (o : option nat) (f f' : fs) : Prop :=
  (forall p, fs_dir f' p = fs_dir f p) /\
  fs_next f' = fs_next f /\
  (forall i, o <> Some i -> fs_ino f' i = fs_ino f i) /\
  (forall i, i_ro (fs_ino f' i) = i_ro (fs_ino f i)).

Lemma fs_frame_refl o f : fs_frame o f f.
Proof. repeat split; auto. Qed.
Lemma fs_frame_trans o f1 f2 f3 : fs_frame o f1 f2 -> fs_frame o f2 f3 -> fs_frame o f1 f3.
Proof.
  intros (A1 & A2 & A3 & A4) (B1 & B2 & B3 & B4). repeat split; intros.
  - rewrite B1. auto.
  - congruence.
  - rewrite B3 by auto. auto.
  - rewrite B4. auto.
Qed.

Section Core.
  Context {E : Type} (EO : ElementOps E).
  Context {T : Type}.
  Let St := (T * fs)%type.
  Variable len : T -> nat.
  Variable read_at : St -> nat -> res E.
  Variable read_range : St -> nat -> nat -> res (list E).
  Variable write_at : E -> nat -> SM St unit.
  Variable copy_from_slice : list byte -> nat -> SM St unit.
  Variable owner : T -> option nat.
  Variable W : T -> Prop.
  Variable Rep : nat -> nat -> (nat -> option E) -> St -> Prop.
  Variable np : bool.        (* writes never panic *)

  Definition Step (st st' : St) : Prop :=
    owner (fst st') = owner (fst st) /\ fs_frame (owner (fst st)) (snd st) (snd st').
  Lemma Step_refl st : Step st st.
  Proof. split; auto using fs_frame_refl. Qed.
  Lemma Step_trans a b c : Step a b -> Step b c -> Step a c.
  Proof.
    intros [H1 H2] [H3 H4]. split; [congruence|]. rewrite H1 in H4. eapply fs_frame_trans; eauto.
  Qed.

  (* outcome of a write in an arbitrary state *)
  Definition write_any (st : St) (r : res unit * St) (n : nat) : Prop :=
    match r with
    | (Ok _, st') => len (fst st') = Nat.max (len (fst st)) n
    | (Err _, _) => True
    | (Panic _, _) => np = false
    | (Diverge, _) => False
    end.

  Record CoreLaws : Prop := {
    cl_len : forall cap n v st, Rep cap n v st -> len (fst st) = n;
    cl_weaken : forall cap n v1 v2 st,
      (forall i e, v2 i = Some e -> v1 i = Some e) -> Rep cap n v1 st -> Rep cap n v2 st;
    cl_frame : forall cap n v s f f', Rep cap n v (s, f) ->
      (forall i, owner s = Some i -> fs_ino f' i = fs_ino f i) -> Rep cap n v (s, f');
    cl_read_at : forall cap n v st i e, Rep cap n v st -> i < n -> v i = Some e -> read_at st i = Ok e;
    cl_read_range : forall cap n v st s e l, Rep cap n v st -> s < e -> e <= n ->
      List.length l = e - s -> knows v s l -> read_range st s e = Ok l;
    cl_write : forall cap n v st e i, Rep cap n v st -> W (fst st) -> i < cap ->
      exists st', write_at e i st = (Ok tt, st') /\ Rep cap (Nat.max n (i + 1)) (upd v i [e]) st' /\
                  Step st st' /\ W (fst st');
    cl_copy : forall cap n v st els start, Rep cap n v st -> W (fst st) -> start + List.length els <= cap ->
      exists st', copy_from_slice (encode EO els) start st = (Ok tt, st') /\
                  Rep cap (Nat.max n (start + List.length els)) (upd v start els) st' /\
                  Step st st' /\ W (fst st');
    cl_write_any : forall e i st, write_any st (write_at e i st) (i + 1);
    cl_copy_any : forall els start st,
      write_any st (copy_from_slice (encode EO els) start st) (start + List.length els)
  }.
End Core.
Arguments Step {T} _ _ _.
