(* What a process that opens a store while another makes it reads, at every moment. *)
From Coq Require Import String List Arith NArith Bool Lia Init.Byte ZifyBool ZifyNat.
From Verif Require Import Base Element Hash Sizing FS Sched Store VecStore DiskStore ListFacts Spec FileSpec StoreLaws FileFacts BuildFacts CompactFacts CompactTrees Race RaceFacts Cases Props_Compact Props_OpenRace.
Import ListNotations.

(* the bytes that are in the file when m bytes of the data have been written *)
Definition written {E} (EO : ElementOps E) (a : caller) (m : nat) : list byte :=
  firstn m (ca_data a) ++ repeat x00 (e_byte_len EO * ca_size a - m).

Section RaceSize.
  Context {E : Type} (EO : ElementOps E).
  Local Notation bl := (e_byte_len EO).
  Variables (path : string) (ps : nat -> caller) (f0 : fs).
  Hypothesis Hfree : fs_dir f0 path = None.

  (* an opened store knows the length the file has *)
  Definition sized (st : race_t) : Prop :=
    forall k s, fst st k = P_done (Ok s) -> ds_loaded s = true ->
      ds_size s = 0 \/ ds_size s = List.length (fs_data (snd st) (fs_next f0)).

  (* one step of the process that has created the file *)
  Lemma ahead_size i a n p f : i_ro (fs_ino f i) = false -> ahead EO a i p (fs_data f i) ->
    let '(p', f') := pc_step EO path a n p f in
    (List.length (fs_data f i) = 0 \/ List.length (fs_data f' i) = List.length (fs_data f i)) /\
    (forall s, p' = P_done (Ok s) -> ds_loaded s = false).
  Proof.
    intros Hro Hp. pose proof (ahead_step EO path ps i a n p f Hro Hp) as HS.
    destruct p as [| | | | | |h|h off|[s|e|e|]]; cbn in Hp; try contradiction.
    - destruct Hp as [-> Hp]. destruct (pc_step EO path a n _ f) as [p' f'] eqn:Q. split; [left; rewrite Hp; reflexivity|].
      intros s ->. destruct HS as (_ & _ & _ & _ & HS). cbn in HS. destruct HS as [HS _]. apply HS.
    - destruct Hp as (-> & Ho & HD). destruct (pc_step EO path a n _ f) as [p' f'] eqn:Q.
      destruct HS as (_ & _ & _ & _ & HS).
      destruct p' as [| | | |h2|h2|h2|h2 off2|[s|e|e|]]; cbn in HS; try contradiction.
      + destruct HS as [_ HS]. cbn [pc_step] in Q. destruct (off <? _) in Q; cbn in Q.
        * destruct (fs_write_all_at _ _ _ f) as [[| | |] ?] in Q; discriminate Q.
        * discriminate Q.
      + destruct HS as (_ & H2 & HS). split; [right; rewrite HD, HS, !(body_length EO ps) by lia; reflexivity|discriminate].
      + destruct HS as (F & H2 & HS). split; [right; rewrite HD, HS, !(body_length EO ps) by lia; reflexivity|]. intros s' [= <-]. apply F.
      + destruct HS. lia.
    - cbn [pc_step]. split; [right; reflexivity|]. intros s' [= <-]. apply Hp.
    - cbn [pc_step]. split; [right; reflexivity|]. discriminate.
  Qed.

  Lemma behind_size i a n p f : fs_dir f path = Some i -> behind EO a i p ->
    let '(p', f') := pc_step EO path a n p f in
    forall s, p' = P_done (Ok s) -> p = P_done (Ok s) \/ ds_size s = List.length (fs_data f i).
  Proof.
    intros Hi Hp. destruct p as [| | | |h| | | |[]]; cbn in Hp; try contradiction; cbn [pc_step].
    - destruct (_ =? 0); [|discriminate]. destruct (fs_exists f path); discriminate.
    - destruct (fs_exists f path); discriminate.
    - destruct (fs_open_rw f path); discriminate.
    - unfold fs_open_ro. rewrite Hi. discriminate.
    - destruct (fs_size f h =? ca_size a * bl) eqn:Q; [|discriminate]. intros s [= <-]. right. cbn. unfold fs_size. rewrite Hp. reflexivity.
    - unfold fs_create_new, fs_exists. rewrite Hi. discriminate.
    - auto.
    - auto.
  Qed.

  Lemma sized_step x st : race_inv EO path ps f0 st -> sized st -> sized (race_step EO path ps x st).
  Proof.
    destruct x as [k n]. destruct st as [pcs f]. intros HI HZ. pose proof (race_step_inv EO path ps f0 Hfree (k, n) (pcs, f) HI) as HI'.
    unfold race_step in *. cbn [fst snd] in *. destruct HI as [[H1 H2]|(w & H1 & H2 & H3 & H4 & H5 & H6 & H7)].
    - cbn [fst snd] in H1, H2. subst f. pose proof (early_step EO path ps f0 Hfree k n (pcs k) (H1 k)) as S.
      destruct (pc_step EO path (ps k) n (pcs k) f0) as [p' f']. intros j s. cbn [fst snd]. intros Hj Hl. exfalso.
      destruct (j =? k) eqn:Q; [|specialize (H1 j); rewrite Hj in H1; exact H1].
      destruct S as [[_ S]|(_ & _ & _ & _ & _ & S)]; rewrite Hj in S; [exact S|]. destruct S as [[S _] _]. congruence.
    - destruct (Nat.eq_dec k w) as [->|Hk].
      + pose proof (ahead_size (fs_next f0) (ps w) n (pcs w) f H2 H7) as S. destruct (pc_step EO path (ps w) n (pcs w) f) as [p' f'].
        destruct S as [S1 S2]. intros j s. cbn [fst snd]. intros Hj Hl. destruct (j =? w) eqn:Q.
        * exfalso. rewrite (S2 s Hj) in Hl. discriminate.
        * destruct (HZ j s Hj Hl) as [Z|Z]; [auto|]. cbn [snd] in Z. destruct S1 as [S1|S1]; [left|right]; congruence.
      + pose proof (behind_step EO path ps (fs_next f0) (ps k) n (pcs k) f H1 (H6 k Hk)) as S.
        pose proof (behind_size (fs_next f0) (ps k) n (pcs k) f H1 (H6 k Hk)) as S'.
        destruct (pc_step EO path (ps k) n (pcs k) f) as [p' f']. destruct S as [-> S].
        intros j s. cbn [fst snd]. intros Hj Hl. destruct (j =? k) eqn:Q; [|exact (HZ j s Hj Hl)].
        destruct (S' s Hj) as [S2|S2]; [|auto]. exact (HZ k s S2 Hl).
  Qed.

  Lemma sized_all sched : sized (race EO path ps sched f0).
  Proof.
    unfold race. assert (H0 : race_inv EO path ps f0 ((fun _ : nat => P_start), f0)) by (left; cbn; auto).
    assert (H1 : sized ((fun _ : nat => P_start), f0)) by (intros k s Hk; discriminate Hk).
    revert H0 H1. generalize (((fun _ : nat => P_start), f0) : race_t) as st.
    induction sched as [|x l IH]; intros st H H'; [exact H'|]. cbn [fold_left]. apply IH; [apply race_step_inv; assumption|apply sized_step; assumption].
  Qed.
End RaceSize.

(* ---------------- C82 ---------------- *)
(* At every moment of every interleaving from a free path: nothing has been done and no
   process has a store; or one process w has created the file, which is empty or has its
   full length with the first m bytes of w's data in it, the rest zeros.  Every process
   that has opened the file (and not none of it) asked for as many elements as w did, and
   reads exactly those bytes. *)
Theorem C82_exact : forall E (EO : ElementOps E) path ps sched f0,
  0 < e_byte_len EO -> fs_dir f0 path = None ->
  let f := snd (race EO path ps sched f0) in
  (f = f0 /\ forall k s, ~ returned EO path ps sched f0 k (Ok s)) \/
  exists w D,
    fs_file f path = Some D /\
    (D = [] \/ exists m, m <= List.length (ca_data (ps w)) /\ m <= e_byte_len EO * ca_size (ps w) /\ D = written EO (ps w) m) /\
    forall k s, returned EO path ps sched f0 k (Ok s) -> ds_loaded s = true ->
      k <> w /\ ds_len s = ca_size (ps k) /\
      (ca_size (ps k) = 0 \/ ca_size (ps k) = ca_size (ps w) /\ D <> []) /\
      forall i, i < ca_size (ps k) ->
        disk_read_at EO (s, f) i = e_from_slice EO (sub D (i * e_byte_len EO) (e_byte_len EO)).
Proof.
  intros E EO path ps sched f0 Hb Hf f.
  pose proof (race_all_inv EO path ps f0 Hf sched) as HI. pose proof (sized_all EO path ps f0 Hf sched) as HZ.
  unfold f, returned in *. unfold sized in HZ. destruct (race EO path ps sched f0) as [pcs f'] eqn:Q. cbn [fst snd] in *. clear f.
  destruct HI as [[H1 H2]|(w & H1 & H2 & H3 & H4 & H5 & H6 & H7)].
  { left. cbn [fst snd] in H1, H2. split; [exact H2|]. intros k s Hk. specialize (H1 k). rewrite Hk in H1. exact H1. }
  right. exists w, (fs_data f' (fs_next f0)). split; [unfold fs_file; rewrite H1; reflexivity|].
  assert (HD : fs_data f' (fs_next f0) = [] \/ exists m, m <= List.length (ca_data (ps w)) /\ m <= e_byte_len EO * ca_size (ps w) /\ fs_data f' (fs_next f0) = written EO (ps w) m).
  { destruct (pcs w) as [| | | |h|h|h|h off|[s|e|e|]]; cbn in H7; try contradiction.
    - left. apply H7.
    - right. exists off. destruct H7 as (_ & H7 & H8). split; [lia|]. split; [lia|exact H8].
    - right. exists (List.length (ca_data (ps w))). destruct H7 as (_ & H7 & H8). split; [lia|]. split; [lia|exact H8].
    - right. exists 0. destruct H7 as (H7 & H8). split; [lia|]. split; [lia|]. rewrite H8. symmetry. apply body_0. }
  split; [exact HD|]. intros k s Hk Hl.
  destruct (Nat.eq_dec k w) as [->|Hne]; [exfalso; rewrite Hk in H7; destruct H7 as [[H7 _] _]; congruence|].
  split; [exact Hne|]. specialize (H6 k Hne). rewrite Hk in H6. destruct H6 as (L1 & L2 & L3 & L4). split; [exact L3|].
  assert (HL : ca_size (ps k) = 0 \/ ca_size (ps k) * e_byte_len EO = List.length (fs_data f' (fs_next f0))).
  { destruct (HZ k s Hk Hl) as [Z|Z]; rewrite L4 in Z; [left; nia|right; exact Z]. }
  split.
  - destruct HL as [HL|HL]; [auto|]. destruct (Nat.eq_dec (ca_size (ps k)) 0) as [|Hn]; [auto|]. right.
    destruct HD as [HD|(m & M1 & M2 & HD)]; [exfalso; rewrite HD in HL; cbn in HL; nia|].
    assert (HW : List.length (fs_data f' (fs_next f0)) = e_byte_len EO * ca_size (ps w)).
    { rewrite HD. unfold written. rewrite app_length, firstn_length, repeat_length. lia. }
    split; [nia|]. intros HE. rewrite HE in HL. cbn in HL. nia.
  - intros i Hi. destruct HL as [HL|HL]; [lia|].
    assert (A1 : (i + 1) * e_byte_len EO <= ca_size (ps k) * e_byte_len EO) by (apply Nat.mul_le_mono_r; lia).
    unfold disk_read_at, disk_check, disk_store_read_range, fs_read_exact_at, fs_size, checked_sub. cbn [fst snd]. rewrite L2, L3.
    replace (i * e_byte_len EO <? ca_size (ps k) * e_byte_len EO) with true by lia.
    replace (i * e_byte_len EO + e_byte_len EO <=? ca_size (ps k) * e_byte_len EO) with true by lia. cbn [ensure rbind].
    replace (i * e_byte_len EO <=? i * e_byte_len EO + e_byte_len EO) with true by lia. cbn [rbind].
    replace (i * e_byte_len EO + e_byte_len EO - i * e_byte_len EO) with (e_byte_len EO) by lia.
    replace (e_byte_len EO =? 0) with false by lia.
    replace (i * e_byte_len EO + e_byte_len EO <=? List.length (fs_data f' (fs_next f0))) with true by lia. reflexivity.
Qed.

(* Which elements that is: one whose bytes have all been written is the creator's, one
   of whose bytes none has been written is zero. *)
Theorem C82_reads : forall E (EO : ElementOps E) a m i,
  m <= List.length (ca_data a) -> m <= e_byte_len EO * ca_size a -> i < ca_size a ->
  let b := e_byte_len EO in
  ((i + 1) * b <= m -> sub (written EO a m) (i * b) b = sub (ca_data a) (i * b) b) /\
  (m <= i * b -> sub (written EO a m) (i * b) b = repeat x00 b).
Proof.
  intros E EO a m i H1 H2 Hi b. fold b in H2. unfold written. fold b. split; intros H; unfold sub.
  - rewrite skipn_app, firstn_length. replace (i * b - Nat.min m (List.length (ca_data a))) with 0 by lia. cbn [skipn].
    rewrite firstn_app, skipn_length, firstn_length. replace (b - (Nat.min m (List.length (ca_data a)) - i * b)) with 0 by lia. cbn [firstn]. rewrite app_nil_r.
    rewrite firstn_skipn_comm, firstn_firstn. replace (Nat.min (i * b + b) m) with (i * b + b) by lia. symmetry. apply firstn_skipn_comm.
  - assert (A : (i + 1) * b <= ca_size a * b) by (apply Nat.mul_le_mono_r; lia).
    rewrite skipn_app, skipn_all2 by (rewrite firstn_length; lia). cbn [app]. rewrite firstn_length, skipn_rep.
    assert (R : forall n k, firstn n (repeat x00 k) = repeat x00 (Nat.min n k)) by (induction n; intros [|k]; cbn; [reflexivity..|f_equal; auto]).
    rewrite R. f_equal. lia.
Qed.

(* Two of four bytes have been written when process 1 reads: the first two elements are
   right, the others zero.  Elements of one byte. *)
Example C82_exact_case :
  case_race [0; 0; 0; 0; 1; 1; 1; 1] = ([1; 2; 0; 0; 0], [None; Some (true, [1; 2; 0; 0; 0])]) /\
  written BO (case_ps 0) 2 = [x01; x02; x00; x00; x00].
Proof. vm_compute. split; reflexivity. Qed.
Print Assumptions C82_exact.
Print Assumptions C82_reads.
