(* What interleaved constructors of one path do: an invariant of all states. *)
From Coq Require Import String List Arith Bool Lia Init.Byte ZifyBool ZifyNat.
From Verif Require Import Base Element Hash Sizing FS Sched Store DiskStore ListFacts Spec FileSpec StoreLaws FileFacts CompactFacts Race.
Import ListNotations.

Section Race.
  Context {E : Type} (EO : ElementOps E).
  Local Notation bl := (e_byte_len EO).
  Variables (path : string) (ps : nat -> caller) (f0 : fs).

  (* the bytes of the file when [off] bytes of data have been written *)
  Definition body (a : caller) (off : nat) : list byte := firstn off (ca_data a) ++ repeat x00 (bl * ca_size a - off).

  Definition fresh (a : caller) (i : nat) (s : disk_t) : Prop :=
    ds_loaded s = false /\ ds_file s = {| h_ino := i; h_write := true |} /\ ds_len s = List.length (ca_data a) / bl /\
    ds_size s = bl * ca_size a.
  Definition loaded (a : caller) (i : nat) (s : disk_t) : Prop :=
    ds_loaded s = true /\ h_ino (ds_file s) = i /\ ds_len s = ca_size a /\ ds_size s = ca_size a * bl.

  (* before the file exists *)
  Definition early (p : pc) : Prop :=
    match p with P_start | P_create | P_done (Err _) => True | _ => False end.
  (* a process that has not created the file with inode i *)
  Definition behind (a : caller) (i : nat) (p : pc) : Prop :=
    match p with
    | P_start | P_create | P_exists | P_open_rw | P_open_ro | P_done (Err _) => True
    | P_size h => h_ino h = i
    | P_done (Ok s) => loaded a i s
    | _ => False
    end.
  (* the process that has *)
  Definition ahead (a : caller) (i : nat) (p : pc) (D : list byte) : Prop :=
    match p with
    | P_len h => h = {| h_ino := i; h_write := true |} /\ D = []
    | P_write h off => h = {| h_ino := i; h_write := true |} /\ off <= List.length (ca_data a) <= bl * ca_size a /\ D = body a off
    | P_done (Ok s) => fresh a i s /\ List.length (ca_data a) <= bl * ca_size a /\ D = body a (List.length (ca_data a))
    | P_done (Err _) => bl * ca_size a < List.length (ca_data a) /\ D = repeat x00 (bl * ca_size a)
    | _ => False
    end.

  Definition created (w : nat) (st : race_t) : Prop :=
    let '(pcs, f) := st in
    let i := fs_next f0 in
    fs_dir f path = Some i /\ i_ro (fs_ino f i) = false /\ fs_next f = S i /\
    (forall q, q <> path -> fs_dir f q = fs_dir f0 q) /\ (forall j, j <> i -> fs_ino f j = fs_ino f0 j) /\
    (forall k, k <> w -> behind (ps k) i (pcs k)) /\ ahead (ps w) i (pcs w) (fs_data f i).
  Definition race_inv (st : race_t) : Prop :=
    (forall k, early (fst st k)) /\ snd st = f0 \/ exists w, created w st.

  Lemma early_behind a i p : early p -> behind a i p.
  Proof. destruct p as [| | | | | | | |[]]; cbn; tauto. Qed.

  Lemma skipn_rep (x : byte) n m : skipn n (repeat x m) = repeat x (m - n).
  Proof. revert m. induction n; intros [|m]; cbn; auto. Qed.
  Lemma body_0 a : body a 0 = repeat x00 (bl * ca_size a).
  Proof. unfold body. cbn [firstn app]. rewrite Nat.sub_0_r. reflexivity. Qed.
  Lemma body_length a off : off <= List.length (ca_data a) -> List.length (ca_data a) <= bl * ca_size a -> List.length (body a off) = bl * ca_size a.
  Proof. intros. unfold body. rewrite app_length, firstn_length, repeat_length. lia. Qed.

  Lemma body_write a off d : off + List.length d <= List.length (ca_data a) -> List.length (ca_data a) <= bl * ca_size a ->
    d = sub (ca_data a) off (List.length d) -> overwrite (body a off) off d = body a (off + List.length d).
  Proof.
    intros H1 H2 H3. unfold body, overwrite.
    assert (HF : List.length (firstn off (ca_data a)) = off) by (rewrite firstn_length; lia).
    rewrite firstn_app, HF, Nat.sub_diag. cbn [firstn]. rewrite app_nil_r, firstn_firstn. replace (Nat.min off off) with off by lia.
    rewrite skipn_app, HF, skipn_all2 by lia. cbn [app]. replace (off + List.length d - off) with (List.length d) by lia.
    rewrite skipn_rep. rewrite app_assoc. f_equal; [|f_equal; lia].
    rewrite H3 at 1. unfold sub. rewrite <- (firstn_skipn off (firstn (off + List.length d) (ca_data a))).
    rewrite firstn_firstn. replace (Nat.min off (off + List.length d)) with off by lia. f_equal.
    rewrite firstn_skipn_comm. reflexivity.
  Qed.

  Hypothesis Hfree : fs_dir f0 path = None.

  (* one step of a process while the file does not exist *)
  Lemma early_step k n p : early p ->
    let '(p', f') := pc_step EO path (ps k) n p f0 in
    f' = f0 /\ early p' \/
    fs_dir f' path = Some (fs_next f0) /\ i_ro (fs_ino f' (fs_next f0)) = false /\ fs_next f' = S (fs_next f0) /\
    (forall q, q <> path -> fs_dir f' q = fs_dir f0 q) /\ (forall j, j <> fs_next f0 -> fs_ino f' j = fs_ino f0 j) /\
    ahead (ps k) (fs_next f0) p' (fs_data f' (fs_next f0)).
  Proof.
    intros Hp. destruct p as [| | | | | | | |[]]; cbn in Hp; try contradiction; cbn [pc_step].
    - destruct (_ =? 0); [|left; cbn; auto]. unfold fs_exists. rewrite Hfree. left. cbn. auto.
    - unfold fs_create_new, fs_exists. rewrite Hfree. cbn. right. rewrite String.eqb_refl, Nat.eqb_refl. cbn.
      split; [reflexivity|]. split; [reflexivity|]. split; [reflexivity|].
      split; [intros q Hq; apply String.eqb_neq in Hq; rewrite Hq; reflexivity|].
      split; [intros j Hj; apply Nat.eqb_neq in Hj; rewrite Hj; reflexivity|].
      split; [reflexivity|]. unfold fs_data. cbn. rewrite Nat.eqb_refl. reflexivity.
    - left. cbn. auto.
  Qed.

  Lemma behind_step i a n p f : fs_dir f path = Some i -> behind a i p ->
    let '(p', f') := pc_step EO path a n p f in f' = f /\ behind a i p'.
  Proof.
    intros Hi Hp. destruct p as [| | | |h| | | |[]]; cbn in Hp; try contradiction; cbn [pc_step].
    - destruct (_ =? 0); [|cbn; auto]. unfold fs_exists. rewrite Hi. cbn. auto.
    - unfold fs_exists. rewrite Hi. cbn. auto.
    - unfold fs_open_rw. rewrite Hi. destruct (i_ro _); cbn; auto.
    - unfold fs_open_ro. rewrite Hi. cbn. auto.
    - destruct (fs_size f h =? ca_size a * bl) eqn:Q; cbn; auto. split; [reflexivity|]. unfold loaded. cbn. repeat split; auto. lia.
    - unfold fs_create_new, fs_exists. rewrite Hi. cbn. auto.
    - cbn. auto.
    - cbn. auto.
  Qed.

  Lemma ahead_step i a n p f : i_ro (fs_ino f i) = false -> ahead a i p (fs_data f i) ->
    let '(p', f') := pc_step EO path a n p f in
    fs_dir f' = fs_dir f /\ fs_next f' = fs_next f /\ i_ro (fs_ino f' i) = false /\ (forall j, j <> i -> fs_ino f' j = fs_ino f j) /\
    ahead a i p' (fs_data f' i).
  Proof.
    intros Hro Hp. destruct p as [| | | | | |h|h off|[s|e|e|]]; cbn in Hp; try contradiction; cbn [pc_step].
    - destruct Hp as [-> Hp]. unfold fs_set_len. cbn [h_write h_ino].
      set (f' := fs_set_data f i _).
      assert (HX : fs_dir f' = fs_dir f /\ fs_next f' = fs_next f /\ i_ro (fs_ino f' i) = false /\ (forall j, j <> i -> fs_ino f' j = fs_ino f j) /\
        fs_data f' i = repeat x00 (bl * ca_size a)).
      { split; [reflexivity|]. split; [reflexivity|]. split; [cbn; rewrite Nat.eqb_refl; exact Hro|].
        split; [intros j Hj; apply Nat.eqb_neq in Hj; cbn; rewrite Hj; reflexivity|].
        unfold f'. rewrite fs_set_data_get, Hp. unfold resize. cbn. rewrite firstn_nil, Nat.sub_0_r. reflexivity. }
      destruct HX as (X1 & X2 & X3 & X4 & X5). repeat (split; [assumption|]). rewrite Nat.add_0_l.
      destruct (List.length (ca_data a) <=? bl * ca_size a) eqn:Q; cbn [ahead].
      + split; [reflexivity|]. split; [lia|]. rewrite X5, body_0. reflexivity.
      + split; [lia|exact X5].
    - destruct Hp as (-> & Ho & HD). destruct (off <? List.length (ca_data a)) eqn:Q.
      + set (d := sub (ca_data a) off (S n)). cbv zeta.
        assert (Hd : List.length d = Nat.min (S n) (List.length (ca_data a) - off)) by (unfold d; rewrite sub_length; reflexivity).
        unfold fs_write_all_at. replace (List.length d =? 0) with false by lia. cbn [h_write h_ino].
        set (f' := fs_set_data f i _).
        split; [reflexivity|]. split; [reflexivity|]. split; [cbn; rewrite Nat.eqb_refl; exact Hro|].
        split; [intros j Hj; apply Nat.eqb_neq in Hj; cbn; rewrite Hj; reflexivity|].
        cbn [ahead]. split; [reflexivity|]. split; [lia|]. unfold f'. rewrite fs_set_data_get, HD.
        rewrite body_length by lia. replace (Nat.max (bl * ca_size a) (off + List.length d)) with (bl * ca_size a) by lia.
        replace (resize (body a off) (bl * ca_size a) x00) with (body a off).
        2:{ unfold resize. rewrite body_length by lia. rewrite Nat.sub_diag. cbn [repeat]. rewrite app_nil_r, firstn_all2; [reflexivity|].
            rewrite body_length; lia. }
        apply body_write; [lia|lia|]. unfold d at 1. rewrite Hd. unfold sub.
        destruct (Nat.le_gt_cases (S n) (List.length (ca_data a) - off)) as [L|L].
        * rewrite Nat.min_l by exact L. reflexivity.
        * rewrite Nat.min_r by lia. rewrite !firstn_all2; [reflexivity| |]; rewrite skipn_length; lia.
      + split; [reflexivity|]. split; [reflexivity|]. split; [exact Hro|]. split; [intros; reflexivity|]. cbn [ahead].
        split; [unfold fresh; cbn; auto|]. split; [lia|]. rewrite HD. f_equal. lia.
    - split; [reflexivity|]. split; [reflexivity|]. split; [exact Hro|]. split; [intros; reflexivity|]. exact Hp.
    - split; [reflexivity|]. split; [reflexivity|]. split; [exact Hro|]. split; [intros; reflexivity|]. exact Hp.
  Qed.

  Lemma race_step_inv x st : race_inv st -> race_inv (race_step EO path ps x st).
  Proof.
    destruct x as [k n]. destruct st as [pcs f]. unfold race_step. cbn [fst snd]. intros [[H1 H2]|(w & H1 & H2 & H3 & H4 & H5 & H6 & H7)].
    - cbn [fst snd] in H1, H2. subst f. pose proof (early_step k n (pcs k) (H1 k)) as S.
      destruct (pc_step EO path (ps k) n (pcs k) f0) as [p' f']. destruct S as [[-> S]|(S1 & S2 & S3 & S4 & S5 & S6)].
      + left. split; [|reflexivity]. intros j. cbn [fst]. destruct (j =? k); auto.
      + right. exists k. split; [exact S1|]. split; [exact S2|]. split; [exact S3|]. split; [exact S4|]. split; [exact S5|]. split.
        * intros j Hj. apply Nat.eqb_neq in Hj. rewrite Hj. apply early_behind. apply H1.
        * rewrite Nat.eqb_refl. exact S6.
    - right. exists w. destruct (Nat.eq_dec k w) as [->|Hk].
      + pose proof (ahead_step (fs_next f0) (ps w) n (pcs w) f H2 H7) as S. destruct (pc_step EO path (ps w) n (pcs w) f) as [p' f'].
        destruct S as (S1 & S2 & S3 & S4 & S5). split; [rewrite S1; exact H1|]. split; [exact S3|]. split; [congruence|].
        split; [intros q Hq; rewrite S1; auto|]. split; [intros j Hj; rewrite S4; auto|]. split.
        * intros j Hj. pose proof Hj as Hj'. apply Nat.eqb_neq in Hj'. rewrite Hj'. apply H6. exact Hj.
        * rewrite Nat.eqb_refl. exact S5.
      + pose proof (behind_step (fs_next f0) (ps k) n (pcs k) f H1 (H6 k Hk)) as S. destruct (pc_step EO path (ps k) n (pcs k) f) as [p' f'].
        destruct S as [-> S]. split; [exact H1|]. split; [exact H2|]. split; [exact H3|]. split; [exact H4|]. split; [exact H5|]. split.
        * intros j Hj. destruct (j =? k) eqn:Q; [|auto]. apply Nat.eqb_eq in Q. subst j. exact S.
        * replace (w =? k) with false by lia. exact H7.
  Qed.

  Lemma race_all_inv sched : race_inv (race EO path ps sched f0).
  Proof.
    unfold race. assert (H0 : race_inv ((fun _ : nat => P_start), f0)) by (left; cbn; auto).
    revert H0. generalize (((fun _ : nat => P_start), f0) : race_t) as st.
    induction sched as [|x l IH]; intros st H; [exact H|]. cbn [fold_left]. apply IH, race_step_inv, H.
  Qed.
End Race.

(* the file is there from the beginning: nothing is changed *)
Lemma race_existing {E} (EO : ElementOps E) path ps f0 i sched : fs_dir f0 path = Some i ->
  let st := race EO path ps sched f0 in snd st = f0 /\ forall k, behind EO (ps k) i (fst st k).
Proof.
  intros Hi. unfold race.
  assert (H0 : snd (((fun _ : nat => P_start), f0) : race_t) = f0 /\ forall k, behind EO (ps k) i (fst (((fun _ : nat => P_start), f0) : race_t) k)) by (cbn; auto).
  revert H0. generalize (((fun _ : nat => P_start), f0) : race_t) as st.
  induction sched as [|[k n] l IH]; intros st H; [exact H|]. cbn [fold_left]. apply IH. destruct st as [pcs f]. cbn [fst snd] in H.
  destruct H as [-> H]. unfold race_step. cbn [fst snd].
  pose proof (behind_step EO path ps i (ps k) n (pcs k) f0 Hi (H k)) as S. destruct (pc_step EO path (ps k) n (pcs k) f0) as [p' f'].
  destruct S as [-> S]. cbn [fst snd]. split; [reflexivity|]. intros j. destruct (j =? k) eqn:Q; [|apply H]. apply Nat.eqb_eq in Q. subst j. exact S.
Qed.

(* every process ends: each of its steps brings it nearer to the end, those of the others do not matter *)
Definition pc_left (a : caller) (p : pc) : nat :=
  match p with
  | P_start => 5 + List.length (ca_data a)
  | P_exists => 4
  | P_open_rw => 3
  | P_open_ro => 2
  | P_size _ => 1
  | P_create => 4 + List.length (ca_data a)
  | P_len _ => 2 + List.length (ca_data a)
  | P_write _ off => S (List.length (ca_data a) - off)
  | P_done _ => 0
  end.
Lemma step_left {E} (EO : ElementOps E) path a n p f : pc_left a (fst (pc_step EO path a n p f)) <= pc_left a p - 1.
Proof.
  destruct p as [| | | |h| |h|h off|r]; cbn [pc_step].
  - destruct (_ =? 0); [destruct (fs_exists f path)|]; cbn; lia.
  - destruct (fs_exists f path); cbn; lia.
  - destruct (fs_open_rw f path); cbn; lia.
  - destruct (fs_open_ro f path); cbn; lia.
  - destruct (_ =? _); cbn; lia.
  - destruct (fs_create_new path f) as [[] ?]; cbn; lia.
  - destruct (fs_set_len h (e_byte_len EO * ca_size a) f) as [[] ?]; cbn [fst pc_left]; try lia. destruct (_ <=? _); cbn [pc_left]; lia.
  - destruct (off <? List.length (ca_data a)) eqn:Q; [|cbn; lia]. cbv zeta. set (d := sub (ca_data a) off (S n)).
    assert (Hd : List.length d = Nat.min (S n) (List.length (ca_data a) - off)) by (unfold d; rewrite sub_length; reflexivity).
    destruct (fs_write_all_at h off d f) as [[] ?]; cbn [fst pc_left]; lia.
  - cbn. lia.
Qed.
Lemma race_left {E} (EO : ElementOps E) path ps k sched f0 :
  pc_left (ps k) (fst (race EO path ps sched f0) k) <= 5 + List.length (ca_data (ps k)) - List.length (filter (fun x => fst x =? k) sched).
Proof.
  unfold race.
  assert (G : forall l (st : race_t), pc_left (ps k) (fst (fold_left (fun st x => race_step EO path ps x st) l st) k) <=
    pc_left (ps k) (fst st k) - List.length (filter (fun x => fst x =? k) l)).
  { induction l as [|[j n] l IH]; intros st; [cbn; lia|]. cbn [fold_left]. eapply Nat.le_trans; [apply IH|].
    assert (HS : pc_left (ps k) (fst (race_step EO path ps (j, n) st) k) <= pc_left (ps k) (fst st k) - (if j =? k then 1 else 0)).
    { unfold race_step. destruct (pc_step EO path (ps j) n (fst st j) (snd st)) as [p' f'] eqn:Q. cbn [fst].
      rewrite (Nat.eqb_sym k j). destruct (j =? k) eqn:R; [|lia]. apply Nat.eqb_eq in R. subst j.
      pose proof (step_left EO path (ps k) n (fst st k) (snd st)) as L. rewrite Q in L. exact L. }
    cbn [filter fst]. destruct (j =? k); cbn [List.length]; lia. }
  exact (G sched (((fun _ : nat => P_start), f0) : race_t)).
Qed.
