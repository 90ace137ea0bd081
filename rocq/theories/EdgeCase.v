(* The one request for fewer rows than were discarded that is not refused: what it returns. *)
From Coq Require Import String List Arith Bool Lia Init.Byte ZifyBool ZifyNat.
From Verif Require Import Base Element Hash Sizing FS Sched Store VecStore DiskStore MmapStore LevelCache ProofModel Tree ListFacts Spec SpecFacts SizingFacts SchedFacts StoreLaws RowFacts ChunkFacts BuildFacts BuildLoop StoreSpec FileFacts VecFacts MapLayer DiskFacts TreeFacts ProofSpec ProofFacts TreeProofs CachedFacts LcReads LcTrees.
Import ListNotations.

Section Ext.
  Context {E : Type} (b : nat).
  Lemma read_siblings_ext (rd rd' : nat -> res E) j : forall ks, (forall k, In k ks -> rd k = rd' k) ->
    read_siblings rd j ks = read_siblings rd' j ks.
  Proof.
    induction ks as [|k ks IH]; intros H; [reflexivity|]. cbn [read_siblings].
    rewrite IH by (intros; apply H; right; auto). rewrite (H k) by (left; auto). reflexivity.
  Qed.
  Lemma partial_loop_ext rdp sh len dw cis (rd rd' : nat -> res E) : forall fuel base w j pb sw ss,
    (forall p, base <= p -> rd p = rd' p) ->
    partial_loop b fuel rd rdp sh len dw cis base w j pb sw ss = partial_loop b fuel rd' rdp sh len dw cis base w j pb sw ss.
  Proof.
    induction fuel as [|fuel IH]; intros base w j pb sw ss H; [reflexivity|]. cbn [partial_loop].
    destruct (base + 1 <? len); [|reflexivity].
    rewrite (IH (base + w)) by (intros p Hp; apply H; lia).
    erewrite read_siblings_ext; [reflexivity|]. intros k _. cbn beta. cbv zeta. rewrite (H (base + k)) by lia. reflexivity.
  Qed.
End Ext.

Section Edge.
  Context {E : Type} (h : nat -> list E -> E).
  Lemma arity2 : arity 2.
  Proof. exists 1. split; [lia|reflexivity]. Qed.

  Lemma edge_loop d leaves els pels i y (rd rdp : nat -> res E) fuel : i = 2 \/ i = 3 -> 2 <= d -> d < fuel ->
    Layout h 2 d leaves els ->
    Layout h 2 1 (sub leaves (i / 2 * 2) 2) pels ->
    (forall p x, p < 2 ^ d \/ row_off 2 d 2 <= p -> nth_error els p = Some x -> rd p = Ok x) ->
    rd (2 ^ d) = Ok y ->
    (forall p x, nth_error pels p = Some x -> rdp p = Ok x) ->
    partial_loop 2 fuel rd rdp (log2_pow2 2) (geom 2 d) (2 ^ d) (row_off 2 d 1) 0 (2 ^ d) i 0 2 (i / 2 * 2) =
      Ok (remove_at (digit 2 0 i) (kids 2 els d 0 i) ++ [y] ++
          flat_map (fun r => remove_at (digit 2 r i) (kids 2 els d r i)) (seq 2 (d - 2)),
          map (fun r => digit 2 r i) (seq 0 d)).
  Proof.
    intros Hi2 Hd Hf HL HP Hrd Hy Hrdp. pose proof HL as (L1 & L2 & L3).
    assert (H4 : 4 <= 2 ^ d) by (change 4 with (2 ^ 2); apply Nat.pow_le_mono_r; lia).
    assert (Hi : i < 2 ^ d) by lia.
    assert (R1 : row_off 2 d 1 = 2 ^ d) by (change (row_off 2 d 1) with (0 + 2 ^ (d - 0)); rewrite Nat.sub_0_r; reflexivity).
    assert (Rr2 : row_off 2 d 2 = 2 ^ d + 2 ^ (d - 1)) by (rewrite row_off_step, R1; reflexivity).
    pose proof (geom_gt 2 d) as Hg. pose proof (geom_row_off 2 d 1 ltac:(lia)) as G1. pose proof (geom_gt 2 (d - 1)) as G1'.
    assert (H2 : 2 <= 2 ^ (d - 1)) by (change 2 with (2 ^ 1) at 1; apply Nat.pow_le_mono_r; lia).
    destruct fuel as [|[|fuel]]; [lia|lia|].
    (* row 0 *)
    cbn [partial_loop]. replace (0 + 1 <? geom 2 d) with true by lia.
    rewrite (read_siblings_spec _ i 2 (i / 2 * 2) (kids 2 els d 0 i)).
    2:{ eapply kids_length; eauto; [apply arity2|lia]. }
    2:{ intros c Hc. assert (HKL : List.length (kids 2 els d 0 i) = 2) by (eapply kids_length; eauto; [apply arity2|lia]).
        destruct (nth_error_ex (kids 2 els d 0 i) c) as [x Hx]; [lia|]. exists x. split; [exact Hx|].
        unfold kids in Hx. rewrite nth_error_sub in Hx. replace (c <? 2) with true in Hx by lia.
        change (row_off 2 d 0) with 0 in Hx. change (2 ^ 1) with 2 in Hx.
        assert (i / 2 * 2 = 2) as Q by (destruct Hi2; subst; reflexivity). rewrite Q in *.
        cbv zeta. replace (0 + (2 + c) <? 2 ^ d) with true by lia. cbn [orb]. apply Hrd; [lia|]. rewrite <- Hx. f_equal. }
    2:{ destruct Hi2; subst; cbn; lia. }
    2:{ destruct Hi2; subst; cbn; lia. }
    cbn [rbind].
    (* row 1 *)
    rewrite !arity_shift by apply arity2. cbn [Nat.add].
    assert (i / 2 = 1) as Q by (destruct Hi2; subst; reflexivity). rewrite Q.
    replace (2 ^ d / 2) with (2 ^ (d - 1)).
    2:{ replace d with (S (d - 1)) at 2 by lia. rewrite Nat.pow_succ_r', Nat.mul_comm, Nat.div_mul; lia. }
    replace (2 ^ d + 1 <? geom 2 d) with true by lia.
    change (1 / 2 * 2) with 0. cbn [seq read_siblings Nat.eqb]. rewrite Nat.add_0_r.
    rewrite R1. replace ((2 ^ d <? 2 ^ d) || (2 ^ d <=? 2 ^ d)) with true by lia. rewrite Hy. cbn [rbind].
    (* the rest *)
    change (1 / 2) with 0. change (1 mod 2) with 1. change (1 * 2) with 2. change (2 / 2) with 1.
    set (rd' := fun p => if p <? row_off 2 d 2 then rnth els p else rd p).
    rewrite (partial_loop_ext 2 rdp _ _ _ _ rd rd').
    2:{ intros p Hp. unfold rd'. replace (p <? row_off 2 d 2) with false by lia. reflexivity. }
    assert (Hrd' : forall p x, p < 2 ^ d \/ row_off 2 d 1 <= p -> nth_error els p = Some x -> rd' p = Ok x).
    { intros p x Hp Hx. unfold rd'. destruct (p <? row_off 2 d 2) eqn:G; [unfold rnth; rewrite Hx; reflexivity|]. apply Hrd; [lia|exact Hx]. }
    pose proof (partial_loop_spec 2 arity2 h d 1 leaves els pels i rd' rdp HL ltac:(lia) ltac:(lia) Hi HP Hrd' Hrdp
      (d - 2) 2 fuel 3 0 0 ltac:(lia) ltac:(lia) ltac:(lia)) as PL.
    rewrite Rr2, R1 in PL. change (2 ^ 2) with 4 in PL.
    replace (i / 4) with 0 in PL by (destruct Hi2; subst; reflexivity).
    replace (2 ^ (d - 1) / 2) with (2 ^ (d - 2)).
    2:{ replace (d - 1) with (S (d - 2)) by lia. rewrite Nat.pow_succ_r', Nat.mul_comm, Nat.div_mul; lia. }
    cbn [Nat.add]. change (1 / 2) with 0.
    rewrite PL. cbn [rbind app].
    replace (seq 0 d) with (0 :: 1 :: seq 2 (d - 2)) by (replace d with (S (S (d - 2))) at 2 by lia; reflexivity). cbn [map].
    assert (D0 : i mod 2 = digit 2 0 i) by (unfold digit; cbn [Nat.pow]; rewrite Nat.div_1_r; reflexivity).
    assert (D1 : digit 2 1 i = 1) by (unfold digit; destruct Hi2; subst; reflexivity).
    rewrite D0, D1. replace (i - 2) with (digit 2 0 i) by (destruct Hi2; subst; reflexivity). reflexivity.
  Qed.
End Edge.

Section EdgeTree.
  Context {E : Type} (EO : ElementOps E) (EL : ElementLaws EO).
  Local Notation LO := (lc_store EO).
  Variable A : AlgOps E.
  Variable en : env.
  Hypothesis Hch : chunk_ok en 2.

  Lemma lc_cached_edge t s f d leaves els i y : LcTree EO A 2 t s f d 1 leaves els ->
    lc_reader s = None -> i = 2 \/ i = 3 -> nth_error els (row_off 2 d 2) = Some y ->
    gen_cached_proof_base EO LO A en 2 0 0 t s f i (Some 0) =
      Ok (mk_proof None 0 0 (firstn 2 (lemma_of 2 els d i) ++ [y] ++ skipn 3 (lemma_of 2 els d i)) (path_of 2 d i)).
  Proof.
    intros HT Hr Hi2 Hy. pose proof HT as [T1 T3 T4 T5 T6 T7 HA]. pose proof (la_R _ _ _ _ _ _ _ _ HA) as HR.
    pose proof (arity2) as Hb. pose proof T6 as (L1 & L2 & L3). pose proof (geom_gt 2 d) as Hg.
    assert (H4 : 4 <= 2 ^ d) by (change 4 with (2 ^ 2); apply Nat.pow_le_mono_r; lia).
    assert (Hi : i < 2 ^ d) by lia.
    destruct (nth_error_ex els i ltac:(lia)) as [x Hx].
    assert (HC : capped 2 d (Some 0) = 0) by (unfold capped; lia).
    pose proof (lc_segment EO EL A 2 Hb t s f d 1 leaves els i (Some 0) HT Hi) as Hrr.
    assert (HLen : mt_len LO t = geom 2 d) by (unfold mt_len; rewrite T1; cbn [st_len lc_store]; exact (la_len _ _ _ _ _ _ _ _ HA)).
    assert (Hx' : st_read_at LO (s, f) i = Ok x) by (apply (lc_read_at_kept EO EL 2 s f d 1 leaves els HA); auto).
    destruct (gen_cached_proof_base_eq EO EL LO A en 2 Hb Hch t s f d leaves i x (Some 0) ltac:(lia) T3 HLen T5 L1 Hi Hx' Hrr) as (proot & -> & Hsl).
    clear Hrr. rewrite HC in *. change (2 ^ 1) with 2 in *.
    pose proof (all_rows_Layout A 2 ltac:(lia) (sub leaves (i / 2 * 2) 2) 1 Hsl) as HP.
    rewrite (edge_loop (h_node A) d leaves els _ i y _ _ (S (geom 2 d)) Hi2 ltac:(lia)
      ltac:(pose proof (Nat.pow_gt_lin_r 2 d ltac:(lia)); lia) T6 HP).
    2:{ intros p z Hp Hz. apply (lc_read_at_kept EO EL 2 s f d 1 leaves els HA); auto. }
    2:{ apply (lc_read_at_edge_none EO EL 2 s f d 1 leaves els HA); auto. }
    2:{ intros p z Hz. apply rdp_ok. exact Hz. }
    cbn [rbind]. cbv zeta.
    pose proof (lemma_of_length 2 Hb d leaves els _ T6 i Hi) as LL.
    assert (K : forall r, r < d -> List.length (remove_at (digit 2 r i) (kids 2 els d r i)) = 1).
    { intros r Hrd. assert (List.length (kids 2 els d r i) = 2) by (eapply kids_length; eauto).
      pose proof (digit_lt 2 Hb r i). unfold remove_at. rewrite app_length, firstn_length, skipn_length. lia. }
    pose proof (lemma_of_eq 2 d els i x (mt_root t) Hi Hx T7) as LE.
    replace (seq 0 d) with (0 :: 1 :: seq 2 (d - 2)) in LE by (replace d with (S (S (d - 2))) at 2 by lia; reflexivity).
    cbn [flat_map] in LE. pose proof (K 0 ltac:(lia)) as K0. pose proof (K 1 ltac:(lia)) as K1.
    destruct (remove_at (digit 2 0 i) (kids 2 els d 0 i)) as [|a0 [|]]; try discriminate.
    destruct (remove_at (digit 2 1 i) (kids 2 els d 1 i)) as [|a1 [|]]; try discriminate.
    rewrite LE in *. cbn [app firstn skipn List.length] in *.
    rewrite LL, Nat.eqb_refl. cbn [ensure rbind]. rewrite map_length, seq_length, Nat.eqb_refl. cbn [ensure rbind].
    unfold proof_new. replace ((0 =? 0) && (0 =? 0)) with true by reflexivity. cbn [List.length]. rewrite LL.
    replace (2 <? 2 + (2 - 1) * d) with true by lia.
    cbn [ensure rbind]. rewrite map_length, seq_length, lemma_len_ok by lia. cbn [rbind].
    rewrite Nat.add_sub, Nat.eqb_refl. reflexivity.
  Qed.
End EdgeTree.
