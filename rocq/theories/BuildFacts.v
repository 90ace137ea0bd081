(* The default build algorithms (Store.v) over any store satisfying CoreLaws. *)
From Coq Require Import String List Arith Bool Lia Init.Byte ZifyBool ZifyNat.
From Verif Require Import Base Element Hash Sizing FS Sched Store ListFacts Spec SpecFacts SizingFacts SchedFacts RowFacts StoreLaws ChunkFacts.
Import ListNotations.

Lemma sbind_ok {St A B} (m : SM St A) (k : A -> SM St B) s a s' :
  m s = (Ok a, s') -> sbind m k s = k a s'.
Proof. intros H. unfold sbind. rewrite H. reflexivity. Qed.
Lemma sbind_err {St A B} (m : SM St A) (k : A -> SM St B) s e s' :
  m s = (Err e, s') -> sbind m k s = (Err e, s').
Proof. intros H. unfold sbind. rewrite H. reflexivity. Qed.
Lemma slift_ok {St A} (a : A) (s : St) : slift (Ok a) s = (Ok a, s).
Proof. reflexivity. Qed.

(* a single task whose read fails *)
Lemma run_sched_1_err {St D} (rd : nat -> St -> res D) wr sched st m :
  rd 0 st = Err m ->
  (forall ts fl, (ts 0 = TNew /\ fl = None) \/ (ts 0 = TDone /\ fl = Some (Err m)) ->
     exists ts' fl', run_sched 1 rd wr sched ts fl st = (ts', fl', st) /\
       ((ts' 0 = TNew /\ fl' = None) \/ (ts' 0 = TDone /\ fl' = Some (Err m)))).
Proof.
  intros Hr. induction sched as [|k r IH]; intros ts fl H; cbn [run_sched].
  - eauto.
  - unfold task_step. destruct (k <? 1) eqn:Ek.
    + assert (k = 0) by lia. subst k. destruct H as [[Ht ->]|[Ht ->]]; rewrite Ht.
      * rewrite Hr. apply IH. right. split; reflexivity.
      * apply IH. right. split; auto.
    + apply IH. auto.
Qed.

Lemma run_tasks_1_err {St D} (rd : nat -> St -> res D) wr sched st m :
  rd 0 st = Err m -> run_tasks 1 rd wr sched st = (Err m, st).
Proof.
  intros Hr. unfold run_tasks.
  destruct (run_sched_1_err rd wr sched st m Hr (fun _ => TNew) None) as (ts & fl & -> & H); auto.
  destruct H as [[Ht ->]|[Ht ->]]; auto.
  unfold completion. cbn [seq flat_map app run_sched]. unfold task_step.
  cbn [Nat.ltb Nat.leb]. rewrite Ht, Hr. unfold tset. cbn [Nat.eqb first_failure]. reflexivity.
Qed.

Section Build.
  Context {E : Type} (EO : ElementOps E) (EL : ElementLaws EO).
  Context {T : Type}.
  Let St := (T * fs)%type.
  Variable len : T -> nat.
  Variable read_at : St -> nat -> res E.
  Variable read_range : St -> nat -> nat -> res (list E).
  Variable write_at : E -> nat -> SM St unit.
  Variable copy_from_slice : list byte -> nat -> SM St unit.
  Variable owner : T -> option nat.
  Variable W : T -> Prop.
  Variable Rep : nat -> nat -> (nat -> option E) -> St -> Prop.
  Variable np : bool.
  Hypothesis CL : CoreLaws EO len read_at read_range write_at copy_from_slice owner W Rep np.
  Variable A : AlgOps E.
  Variable b : nat.
  Let bl := e_byte_len EO.
  Let SStep := Step owner.

  (* writing a whole layer node by node *)
  Lemma write_nodes_ok nodes : forall cap n v st at_,
    Rep cap n v st -> W (fst st) -> at_ + List.length nodes <= cap -> nodes <> [] ->
    exists st', write_nodes write_at nodes at_ st = (Ok tt, st') /\
      Rep cap (Nat.max n (at_ + List.length nodes)) (upd v at_ nodes) st' /\ SStep st st' /\ W (fst st').
  Proof.
    induction nodes as [|x r IH]; intros cap n v st at_ HR HW Hc Hne; [congruence|].
    cbn [write_nodes]. cbn [List.length] in *.
    destruct (cl_write _ _ _ _ _ _ _ _ _ _ CL cap n v st x at_ HR HW ltac:(lia)) as (st1 & H1 & HR1 & HS1 & HW1).
    rewrite (sbind_ok _ _ _ _ _ H1). destruct r as [|y r].
    - exists st1. split; [reflexivity|]. split; [exact HR1|]. auto.
    - destruct (IH cap _ _ st1 (S at_) HR1 HW1 ltac:(lia) ltac:(congruence)) as (st2 & H2 & HR2 & HS2 & HW2).
      exists st2. split; [exact H2|]. split; [|split; auto; eapply Step_trans; eauto].
      eapply (cl_weaken _ _ _ _ _ _ _ _ _ _ CL).
      2:{ replace (Nat.max n (at_ + S (List.length (y :: r))))
            with (Nat.max (Nat.max n (at_ + 1)) (S at_ + List.length (y :: r))) by lia. exact HR2. }
      intros i e Hi. unfold upd in *. cbn [List.length] in *.
      destruct ((at_ <=? i) && (i <? at_ + S (S (List.length r)))) eqn:E1.
      + destruct (i =? at_) eqn:E2.
        * replace ((S at_ <=? i) && (i <? S at_ + S (List.length r))) with false by lia.
          replace ((at_ <=? i) && (i <? at_ + 1)) with true by lia.
          replace (i - at_) with 0 in * by lia. exact Hi.
        * replace ((S at_ <=? i) && (i <? S at_ + S (List.length r))) with true by lia.
          replace (i - at_) with (S (i - S at_)) in Hi by lia. exact Hi.
      + replace ((S at_ <=? i) && (i <? S at_ + S (List.length r))) with false by lia.
        replace ((at_ <=? i) && (i <? at_ + 1)) with false by lia. exact Hi.
  Qed.

  Variable leaves : list E.
  Variables m q : nat.
  Hypothesis Hb : arity b.
  Hypothesis Hm : 0 < m < b.
  Hypothesis HL : List.length leaves = m * b ^ q.

  Lemma Hb2 : 2 <= b. Proof. apply arity_ge. auto. Qed.
  Let rw := row A b leaves.

  Lemma rw_len r : r <= q -> List.length (rw r) = m * b ^ (q - r).
  Proof. intros H. apply row_length; auto. pose proof Hb2; lia. Qed.
  Lemma rw_len_S r : r < q -> List.length (rw r) = m * b ^ (q - S r) * b.
  Proof. intros H. rewrite rw_len by lia. replace (q - r) with (S (q - S r)) by lia. apply mul_pow_S. Qed.

  Lemma below_row r r' : r' <= r -> m * row_off b q r' + m * b ^ (q - r') <= m * row_off b q (S r).
  Proof.
    intros H. rewrite <- Nat.mul_add_distr_l, <- row_off_step. apply Nat.mul_le_mono_l. apply row_off_mono. lia.
  Qed.

  (* state at the start of level r *)
  Definition at_level (cap r : nat) (st : St) : Prop :=
    W (fst st) /\
    exists v, Rep cap (m * row_off b q (S r)) v st /\
      forall r', r' <= r -> knows v (m * row_off b q r') (rw r').

  (* what one layer step has to achieve *)
  Definition layer_ok (cap : nat) (layer : nat -> nat -> nat -> nat -> SM St unit) : Prop :=
    forall r st, r < q -> at_level cap r st ->
      exists st', layer (m * b ^ (q - r)) r (m * row_off b q r) (m * row_off b q (S r)) st = (Ok tt, st') /\
        at_level cap (S r) st' /\ SStep st st'.

  Lemma cap_row cap r : m * geom b q <= cap -> r < q ->
    m * row_off b q (S r) + m * b ^ (q - S r) <= cap.
  Proof.
    intros Hc Hr. rewrite (geom_row_off b q (S r)) in Hc by lia.
    pose proof (geom_gt b (q - S r)). nia.
  Qed.

  (* --- layer of build_small_tree --- *)
  Definition small_layer (width level rs ws : nat) : SM St unit :=
    let! row := sreads (fun st => read_range st rs (rs + width)) in
    write_nodes write_at (hash_row A b level row) ws.

  Lemma small_layer_ok cap : m * geom b q <= cap -> layer_ok cap small_layer.
  Proof.
    intros Hcap r st Hr (HW & v & HR & Hk). pose proof Hb2 as H2.
    unfold small_layer. pose proof (rw_len r ltac:(lia)) as Hlen.
    pose proof (mul_pow_ge1 m b (q - r) ltac:(lia) ltac:(lia)) as Hw.
    assert (Hrd : read_range st (m * row_off b q r) (m * row_off b q r + m * b ^ (q - r)) = Ok (rw r)).
    { eapply (cl_read_range _ _ _ _ _ _ _ _ _ _ CL); eauto.
      - lia.
      - rewrite row_off_step. lia.
      - lia. }
    unfold sbind at 1, sreads. rewrite Hrd. cbv beta iota.
    change (hash_row A b r (rw r)) with (rw (S r)).
    pose proof (rw_len (S r) ltac:(lia)) as HlenS.
    pose proof (mul_pow_ge1 m b (q - S r) ltac:(lia) ltac:(lia)) as HwS.
    destruct (write_nodes_ok (rw (S r)) cap _ v st (m * row_off b q (S r)) HR HW) as (st' & H1 & HR' & HS & HW').
    { rewrite HlenS. apply cap_row; auto. }
    { intros G. rewrite G in HlenS. simpl in HlenS. lia. }
    exists st'. split; [exact H1|]. split; [|exact HS]. split; [exact HW'|].
    eexists. split.
    - rewrite HlenS in HR'. rewrite row_off_step with (r := S r).
      replace (m * (row_off b q (S r) + b ^ (q - S r)))
        with (Nat.max (m * row_off b q (S r)) (m * row_off b q (S r) + m * b ^ (q - S r))) by lia.
      exact HR'.
    - intros r' Hr'. destruct (Nat.eq_dec r' (S r)) as [->|Hn].
      + apply knows_upd_same.
      + apply knows_upd_other; [apply Hk; lia|]. left. rewrite rw_len by lia. apply below_row. lia.
  Qed.

  (* --- layer of the chunked build --- *)
  Variable chunk : nat.
  Hypothesis Hchunk : 0 < chunk.
  Hypothesis Hdiv : chunk mod b = 0.

  Lemma process_layer_ok cap sched : m * geom b q <= cap ->
    layer_ok cap (process_layer EO read_range copy_from_slice A b chunk sched).
  Proof.
    intros Hcap r st0 Hr (HW0 & v0 & HR0 & Hk0). pose proof Hb2 as H2.
    pose proof (rw_len_S r Hr) as Hlen. pose proof (rw_len (S r) ltac:(lia)) as HlenS.
    pose proof (mul_pow_ge1 m b (q - S r) ltac:(lia) ltac:(lia)) as HwS.
    set (w := m * b ^ (q - S r)) in *. set (rs := m * row_off b q r) in *. set (ws := m * row_off b q (S r)) in *.
    assert (Hwb : m * b ^ (q - r) = w * b).
    { unfold w. replace (q - r) with (S (q - S r)) by lia. apply mul_pow_S. }
    assert (Hws : ws = rs + w * b). { unfold ws, rs. rewrite row_off_step. lia. }
    assert (Hcw : ws + w <= cap) by (apply cap_row; auto).
    rewrite Hwb. unfold process_layer. rewrite Hdiv, Nat.eqb_refl. unfold ensure.
    rewrite (sbind_ok _ _ st0 tt st0) by reflexivity.
    set (n := num_chunks chunk (w * b)).
    assert (Hn : forall k, k < n <-> k * chunk < w * b) by (apply div_up; auto).
    set (I := fun (dn : nat -> bool) (st : St) => W (fst st) /\ SStep st0 st /\
        exists nn v, Rep cap nn v st /\ ws <= nn <= ws + w /\
          (forall i, i < ws -> v i = v0 i) /\
          forall k, k < n -> dn k = true ->
             ws + k * (chunk / b) + piece b chunk w k <= nn /\
             knows v (ws + k * (chunk / b)) (sub (rw (S r)) (k * (chunk / b)) (piece b chunk w k))).
    destruct (run_tasks_ok n (chunk_task EO A b chunk read_range (w * b) r rs)
                (fun k bytes => copy_from_slice bytes (ws + (rs + k * chunk - rs) / b))
                I (fun k => encode EO (sub (rw (S r)) (k * (chunk / b)) (piece b chunk w k)))) with (sched := sched) (st := st0)
      as (dn & st' & Hrun & (HW' & HS' & nn & v & HR & Hnn & Hlow & Hdn) & Hall).
    - (* read *)
      intros dn st k (HW & HS & nn & v & HR & Hnn & Hlow & Hdn) Hkn _.
      apply Hn in Hkn. change (rw (S r)) with (hash_row A b r (rw r)).
      apply chunk_task_ok; auto.
      destruct (piece_le b chunk Hb Hchunk Hdiv w k Hkn) as [P1 P2]. pose proof (chunk_eq b chunk Hb Hchunk Hdiv) as C. set (c := chunk / b) in *.
      assert (Hkc : k * chunk = k * c * b) by (rewrite C; ring).
      assert (Hin : k * c * b + piece b chunk w k * b <= w * b)
        by (rewrite <- Nat.mul_add_distr_r; apply Nat.mul_le_mono_r; exact P1).
      assert (Hp1 : 1 <= piece b chunk w k * b).
      { apply Nat.le_trans with (1 * b); [lia|]. apply Nat.mul_le_mono_r. exact P2. }
      eapply (cl_read_range _ _ _ _ _ _ _ _ _ _ CL); eauto.
      + lia.
      + rewrite Hkc. lia.
      + rewrite sub_length_le; lia.
      + rewrite Hkc. apply knows_sub. eapply knows_ext; [|apply (Hk0 r); lia].
        intros i Hi1 Hi2. apply Hlow. rewrite Hlen in Hi2. fold rs in Hi2. lia.
    - (* write *)
      intros dn st k (HW & HS & nn & v & HR & Hnn & Hlow & Hdn) Hkn Hkd.
      assert (Hkn' := Hkn). apply Hn in Hkn'.
      destruct (piece_le b chunk Hb Hchunk Hdiv w k Hkn') as [P1 P2]. pose proof (chunk_eq b chunk Hb Hchunk Hdiv) as C. 
      assert (Hpos : (rs + k * chunk - rs) / b = k * (chunk / b)).
      { replace (rs + k * chunk - rs) with (k * chunk) by lia. rewrite C at 1.
        rewrite Nat.mul_assoc. apply Nat.div_mul. lia. }
      rewrite Hpos.
      assert (Hsl : List.length (sub (rw (S r)) (k * (chunk / b)) (piece b chunk w k)) = piece b chunk w k)
        by (apply sub_length_le; lia).
      destruct (cl_copy _ _ _ _ _ _ _ _ _ _ CL cap nn v st (sub (rw (S r)) (k * (chunk / b)) (piece b chunk w k))
                  (ws + k * (chunk / b)) HR HW ltac:(lia)) as (st1 & Hc & HR1 & HS1 & HW1).
      exists st1. split; [exact Hc|]. split; [exact HW1|]. split; [eapply Step_trans; eauto|].
      eexists _, _. split; [exact HR1|]. rewrite Hsl. split; [lia|]. split.
      + intros i Hi. rewrite upd_out by (left; eapply Nat.lt_le_trans; [exact Hi|apply Nat.le_add_r]). auto.
      + intros j Hj Hwj. unfold wset in Hwj. destruct (j =? k) eqn:Ejk.
        * assert (j = k) by lia. subst j. split; [lia|]. apply knows_upd_same.
        * destruct (Hdn j Hj Hwj) as [D1 D2]. split; [lia|]. apply knows_upd_other; auto.
          apply Hn in Hj. destruct (piece_le b chunk Hb Hchunk Hdiv w j Hj) as [Q1 Q2].
          rewrite Hsl. rewrite sub_length_le by lia.
          assert (Hjk : j < k \/ k < j) by lia. destruct Hjk as [Hjk|Hjk].
          -- left. pose proof (piece_disj b chunk Hchunk Hdiv w j k Hjk). lia.
          -- right. pose proof (piece_disj b chunk Hchunk Hdiv w k j Hjk). lia.
    - (* initially *)
      split; [auto|]. split; [apply Step_refl|]. exists ws, v0. repeat split; auto; try lia; discriminate.
    - exists st'. split; [exact Hrun|]. split; [|exact HS']. split; [exact HW'|]. exists v. 
      assert (Hnn' : nn = ws + w).
      { destruct (last_piece b chunk Hb Hchunk Hdiv w HwS) as [L1 L2]. apply Hn in L1.
        destruct (Hdn _ L1 (Hall _ L1)) as [D _]. lia. }
      split.
      + rewrite row_off_step. replace (m * (row_off b q (S r) + b ^ (q - S r))) with nn by (unfold w, ws in *; lia).
        exact HR.
      + intros r' Hr'. destruct (Nat.eq_dec r' (S r)) as [->|Hne].
        * fold ws. apply (knows_pieces b chunk Hb Hchunk Hdiv w); auto. intros k Hk. apply Hdn; auto.
        * eapply knows_ext; [|apply Hk0; lia]. intros i _ Hi. apply Hlow.
          rewrite rw_len in Hi by lia.
          eapply Nat.lt_le_trans; [exact Hi|]. apply below_row. lia.
  Qed.
End Build.
