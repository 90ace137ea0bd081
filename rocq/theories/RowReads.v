(* What the worker tasks of a layer see while the layer is being hashed, at every point of
   every interleaving. *)
From Coq Require Import String List Arith Bool Lia Init.Byte ZifyBool ZifyNat.
From Verif Require Import Base Element Hash Sizing FS Sched Store DiskStore ListFacts Spec SpecFacts SizingFacts SchedFacts ByteFacts StoreLaws RowFacts ChunkFacts BuildFacts FileFacts MapLayer.
Import ListNotations.

(* the elements of the row that task k is to hash *)
Definition chunk_of {X} (chunk : nat) (row : list X) (k : nat) : list X :=
  sub row (k * chunk) (Nat.min chunk (List.length row - k * chunk)).

Section Locked.
  Context {E : Type} (EO : ElementOps E) (EL : ElementLaws EO).
  Context {T : Type}.
  Let St := (T * fs)%type.
  Variable len : T -> nat.
  Variable read_at : St -> nat -> res E.
  Variable read_range : St -> nat -> nat -> res (list E).
  Variable write_at : E -> nat -> SM St unit.
  Variable copy_from_slice : list byte -> nat -> SM St unit.
  Variable owner : T -> option nat.
  Variable W : T -> Prop.
  Variable Rep : nat -> nat -> (nat -> option E) -> St -> Prop.
  Variable np : bool.
  Hypothesis CL : CoreLaws EO len read_at read_range write_at copy_from_slice owner W Rep np.
  Variable A : AlgOps E.
  Variables b chunk : nat.
  Hypothesis Hb : arity b.
  Hypothesis Hchunk : 0 < chunk.
  Hypothesis Hdiv : chunk mod b = 0.
  Variables (rowr : list E) (w level rs cap : nat) (v0 : nat -> option E) (st0 : St).
  Let ws := rs + w * b.
  Let n := num_chunks chunk (w * b).
  Hypothesis Hlen : List.length rowr = w * b.
  Hypothesis Hcap : ws + w <= cap.
  Hypothesis HW0 : W (fst st0).
  Hypothesis HR0 : Rep cap ws v0 st0.
  Hypothesis Hk0 : knows v0 rs rowr.

  Lemma chunk_of_piece k : k < n -> chunk_of chunk rowr k = sub rowr (k * (chunk / b) * b) (piece b chunk w k * b).
  Proof.
    intros Hk. assert (Hk' : k * chunk < w * b) by (apply div_up in Hk; auto).
    unfold chunk_of. rewrite Hlen. pose proof (chunk_size_eq b chunk Hb Hchunk Hdiv w k 0 Hk') as H. cbn [Nat.add] in H.
    rewrite H. pose proof (chunk_eq b chunk Hb Hchunk Hdiv) as C. f_equal. rewrite C at 1. ring.
  Qed.

  Lemma locked_reads sched ts fl st :
    run_sched n (chunk_task EO A b chunk read_range (w * b) level rs)
      (fun k bytes => copy_from_slice bytes (ws + (rs + k * chunk - rs) / b)) sched (fun _ => TNew) None st0 = (ts, fl, st) ->
    fl = None /\
    (forall k, k < n -> read_range st (rs + k * chunk) (rs + k * chunk + List.length (chunk_of chunk rowr k)) = Ok (chunk_of chunk rowr k)) /\
    (forall k d, k < n -> ts k = TRead d -> d = encode EO (hash_row A b level (chunk_of chunk rowr k))).
  Proof.
    intros Hrun. pose proof (arity_ge b Hb) as H2.
    assert (Hn : forall k, k < n <-> k * chunk < w * b) by (apply div_up; auto).
    pose proof (hash_row_length A b ltac:(lia) level rowr w Hlen) as HlenS.
    set (I := fun (dn : nat -> bool) (st : St) => W (fst st) /\
        exists nn v, Rep cap nn v st /\ ws <= nn /\ (forall i, i < ws -> v i = v0 i)).
    assert (Hread : forall st k, k < n -> (exists nn v, Rep cap nn v st /\ ws <= nn /\ (forall i, i < ws -> v i = v0 i)) ->
       read_range st (rs + k * chunk) (rs + k * chunk + piece b chunk w k * b) = Ok (sub rowr (k * (chunk / b) * b) (piece b chunk w k * b))).
    { intros st1 k Hkn (nn & v & HR & Hnn & Hlow). apply Hn in Hkn.
      destruct (piece_le b chunk Hb Hchunk Hdiv w k Hkn) as [P1 P2]. pose proof (chunk_eq b chunk Hb Hchunk Hdiv) as C. set (c := chunk / b) in *.
      assert (Hkc : k * chunk = k * c * b) by (rewrite C; ring).
      assert (Hin : k * c * b + piece b chunk w k * b <= w * b)
        by (rewrite <- Nat.mul_add_distr_r; apply Nat.mul_le_mono_r; exact P1).
      assert (Hp1 : 1 <= piece b chunk w k * b).
      { apply Nat.le_trans with (1 * b); [lia|]. apply Nat.mul_le_mono_r. exact P2. }
      eapply (cl_read_range _ _ _ _ _ _ _ _ _ _ CL); eauto.
      + lia.
      + rewrite Hkc. unfold ws in Hnn. lia.
      + rewrite sub_length_le; lia.
      + rewrite Hkc. apply knows_sub. eapply knows_ext; [|exact Hk0].
        intros i Hi1 Hi2. apply Hlow. rewrite Hlen in Hi2. unfold ws. lia. }
    destruct (run_sched_ok n (chunk_task EO A b chunk read_range (w * b) level rs)
                (fun k bytes => copy_from_slice bytes (ws + (rs + k * chunk - rs) / b))
                I (fun k => encode EO (sub (hash_row A b level rowr) (k * (chunk / b)) (piece b chunk w k)))) with (sched := sched) (st := st0) (w := fun _ : nat => false) (ts := fun _ : nat => @TNew (list byte))
      as (dn & ts' & st' & Hrun' & (HW' & HI') & Hag & _).
    - intros dn st1 k (HW & HI) Hkn _. apply chunk_task_ok; auto. apply Hn. exact Hkn.
    - intros dn st1 k (HW & nn & v & HR & Hnn & Hlow) Hkn _.
      assert (Hkn' := Hkn). apply Hn in Hkn'.
      destruct (piece_le b chunk Hb Hchunk Hdiv w k Hkn') as [P1 P2]. pose proof (chunk_eq b chunk Hb Hchunk Hdiv) as C.
      assert (Hpos : (rs + k * chunk - rs) / b = k * (chunk / b)).
      { replace (rs + k * chunk - rs) with (k * chunk) by lia. rewrite C at 1.
        rewrite Nat.mul_assoc. apply Nat.div_mul. lia. }
      rewrite Hpos. clear Hpos.
      set (c := chunk / b) in *. clearbody c.
      assert (Hsl : List.length (sub (hash_row A b level rowr) (k * c) (piece b chunk w k)) = piece b chunk w k)
        by (apply sub_length_le; lia).
      destruct (cl_copy _ _ _ _ _ _ _ _ _ _ CL cap nn v st1 (sub (hash_row A b level rowr) (k * c) (piece b chunk w k))
                  (ws + k * c) HR HW ltac:(lia)) as (st2 & Hc & HR1 & _ & HW1).
      exists st2. split; [exact Hc|]. split; [exact HW1|].
      eexists _, _. split; [exact HR1|]. split; [lia|].
      intros i Hi. rewrite upd_out by (left; lia). auto.
    - split; [exact HW0|]. exists ws, v0. auto.
    - intros k Hk. reflexivity.
    - rewrite Hrun in Hrun'. assert (fl = None /\ ts = ts' /\ st = st') as (-> & -> & ->) by (repeat split; congruence).
      split; [reflexivity|]. split.
      + intros k Hk. pose proof (Hread st' k Hk HI') as HH. rewrite (chunk_of_piece k Hk).
        replace (List.length (sub rowr (k * (chunk / b) * b) (piece b chunk w k * b))) with (piece b chunk w k * b); [exact HH|].
        symmetry. apply sub_length_le. apply Hn in Hk. destruct (piece_le b chunk Hb Hchunk Hdiv w k Hk) as [P1 P2].
        rewrite Hlen, <- Nat.mul_add_distr_r. apply Nat.mul_le_mono_r. exact P1.
      + intros k d Hk Ht. specialize (Hag k Hk). rewrite Ht in Hag. destruct Hag as [_ ->].
        rewrite (chunk_of_piece k Hk). apply Hn in Hk. destruct (piece_le b chunk Hb Hchunk Hdiv w k Hk) as [P1 P2].
        rewrite (hash_row_sub A b ltac:(lia) level rowr w) by auto. reflexivity.
  Qed.
End Locked.

Section Mapped.
  Context {E : Type} (EO : ElementOps E) (EL : ElementLaws EO) {T : Type}.
  Let bl := e_byte_len EO.
  Let St := (T * fs)%type.
  Variable file : T -> handle.
  Variable chk : St -> nat -> nat -> res unit.
  Variable A : AlgOps E.
  Variables b chunk : nat.
  Hypothesis Hb : arity b.
  Hypothesis Hchunk : 0 < chunk.
  Hypothesis Hdiv : chunk mod b = 0.
  Variables (s : T) (f0 : fs) (cap : nat) (v0 : nat -> option E) (rowr : list E) (w level rs ws : nat).
  Hypothesis HW : h_write (file s) = true.
  Hypothesis HD0 : DRep EO cap v0 (fs_data f0 (h_ino (file s))).
  Hypothesis Hlen : List.length rowr = w * b.
  Hypothesis Hw : 1 <= w.
  Hypothesis Hk0 : knows v0 rs rowr.
  Hypothesis Hws : rs + w * b <= ws.
  Hypothesis Hcap : ws + w <= cap.
  Hypothesis Hchk : forall f k n, 0 < n -> k + n <= w * b -> chk (s, f) (rs + k) (rs + k + n) = Ok tt.
  Let n := num_chunks chunk (w * b).

  Lemma mapped_reads sched ts fl st :
    run_byte_sched n (map_start EO chunk chk (w * b) rs) (map_read EO chunk (file s) rs)
      (map_task EO A b chunk (w * b) level rs (w * b * bl) (chunk / b * bl)) (map_write EO (file s) ws (chunk / b * bl))
      sched (fun _ => BNew) None (s, f0) = (ts, fl, st) ->
    fl = None /\
    (forall k j, k < n -> j < List.length (encode EO (chunk_of chunk rowr k)) ->
       map_read EO chunk (file s) rs k j st = Ok (nth j (encode EO (chunk_of chunk rowr k)) x00)) /\
    (forall k, k < n -> match ts k with
       | BNew => True
       | BRead got => List.length got = List.length (encode EO (chunk_of chunk rowr k)) /\
           forall j x, nth_error got j = Some (Some x) -> nth_error (encode EO (chunk_of chunk rowr k)) j = Some x
       | BWrite out => map fst out = encode EO (hash_row A b level (chunk_of chunk rowr k))
       | BFailed => False
       end).
  Proof.
    intros Hrun. pose proof (arity_ge b Hb) as H2.
    destruct (byte_sched_ok n _ _ _ _ (MapInv EO file A b chunk s f0 cap rowr w level ws)
       (fun k => encode EO (sub rowr (k * (chunk / b) * b) (piece b chunk w k * b)))
       (fun k => encode EO (sub (hash_row A b level rowr) (k * (chunk / b)) (piece b chunk w k)))
       (ml_start EO EL file chk A b chunk Hb Hchunk Hdiv s f0 cap rowr w level rs ws HW Hlen Hw Hws Hcap Hchk)
       (ml_read EO EL file chk A b chunk Hb Hchunk Hdiv s f0 cap v0 rowr w level rs ws HW HD0 Hlen Hw Hk0 Hws Hcap Hchk)
       (ml_comp EO EL file chk A b chunk Hb Hchunk Hdiv s f0 cap rowr w level rs ws HW Hlen Hw Hws Hcap Hchk)
       (ml_write EO EL file chk A b chunk Hb Hchunk Hdiv s f0 cap rowr w level rs ws HW Hlen Hw Hws Hcap Hchk)
       sched (fun _ _ => false) (fun _ => BNew) (s, f0)
       (ml_init EO file A b chunk s f0 cap v0 rowr w level ws HD0)) as (wd & ts' & st' & Hrun' & HI & Hta & _).
    { intros k Hk j. reflexivity. }
    fold bl in Hrun'. rewrite Hrun in Hrun'.
    assert (fl = None /\ ts = ts' /\ st = st') as (-> & -> & ->) by (repeat split; congruence).
    split; [reflexivity|]. split.
    - intros k j Hk Hj. rewrite (chunk_of_piece b chunk Hb Hchunk Hdiv rowr w Hlen k Hk) in *.
      exact (ml_read EO EL file chk A b chunk Hb Hchunk Hdiv s f0 cap v0 rowr w level rs ws HW HD0 Hlen Hw Hk0 Hws Hcap Hchk wd st' k j HI Hk Hj).
    - intros k Hk. rewrite (chunk_of_piece b chunk Hb Hchunk Hdiv rowr w Hlen k Hk).
      specialize (Hta k Hk). destruct (ts' k) as [|got|o|]; cbn [task_at] in Hta; auto.
      + destruct Hta as (_ & HL & Hg). split; [exact HL|]. intros j x Hx.
        assert (Hj : j < List.length got) by (apply nth_error_Some; congruence). rewrite HL in Hj.
        rewrite (Hg j x Hx). apply nth_error_nth'. exact Hj.
      + destruct Hta as (HL & Ho & _).
        assert (Hk' : k * chunk < w * b) by (apply div_up in Hk; auto).
        destruct (piece_le b chunk Hb Hchunk Hdiv w k Hk') as [P1 P2].
        rewrite (hash_row_sub A b ltac:(lia) level rowr w) by auto.
        apply list_ext; [rewrite map_length; exact HL|]. rewrite map_length. intros i Hi.
        rewrite nth_error_map. destruct (nth_error o i) as [[x d]|] eqn:Q; [|apply nth_error_None in Q; lia].
        destruct (Ho i x d Q) as [-> _]. cbn [option_map fst]. symmetry. apply nth_error_nth'. rewrite <- HL. exact Hi.
  Qed.
End Mapped.
