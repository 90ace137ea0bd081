(* C24, C28: what exactly reopened level-cache stores answer where the two
   properties do not hold. Proofs in EdgeCase.v and LcExact.v. *)
From Coq Require Import String List Arith NArith Bool Lia Init.Byte ZifyBool ZifyNat.
From Verif Require Import Base Element Hash Sizing FS Sched Store VecStore DiskStore MmapStore LevelCache ProofModel Tree ListFacts Spec SpecFacts SizingFacts SchedFacts StoreLaws RowFacts ChunkFacts BuildFacts BuildLoop StoreSpec FileFacts VecFacts MapLayer DiskFacts MmapFacts PopFacts TreeFacts ProofSpec ProofFacts TreeProofs TreeObs Builders BuiltFacts CompoundFacts CompoundTrees CompoundGroups CompoundBuilt CachedFacts CachedTrees LcReads LcTrees CachedBuilt FrameFacts CompactFacts CompactTrees LcExact EdgeCase Cases Props_Build Props_Proof Props_Compound Props_Compact Props_Cached.
Import ListNotations.

(* the exception of C24_partial: the proof handed out is that of the original tree with
   its third entry replaced by the first cached node *)
Theorem C24_exact : forall E (EO : ElementOps E) A en c leaves t f1 ls f2 lt i,
  reopened EO A en 2 c 1 leaves t f1 ls f2 ->
  from_data_store (lc_store EO) 2 0 0 ls (mt_leafs t) f2 = (Ok lt, f2) ->
  sc_rows_to_discard c = 1 -> i = 2 \/ i = 3 ->
  exists p y, gen_proof (disk_store EO) 2 0 0 t f1 i = Ok p /\
    mt_read_at (disk_store EO) 0 0 t f1 (first_cached 2 (mt_row_count t - 1) 1) = Ok y /\
    gen_cached_proof EO (lc_store EO) A en 2 0 0 lt f2 i (Some 0) =
      Ok (mk_proof None 0 0 (firstn 2 (pf_lemma p) ++ [y] ++ skipn 3 (pf_lemma p)) (pf_path p)).
Proof.
  intros E EO A en c leaves t f1 ls f2 lt i HO HX HR1 Hi2. destruct (reopened_at _ _ _ _ _ _ _ _ _ _ _ HO) as (d & els & lt' & EL & AL & Hb & Hch & HF & HR & Hv & HS & HL).
  rewrite HS in HX. inversion HX; subst lt'. rewrite HR1 in *.
  assert (H4 : 4 <= 2 ^ d) by (change 4 with (2 ^ 2); apply Nat.pow_le_mono_r; lia).
  assert (Hr : lc_reader ls = None) by (apply Hv; reflexivity).
  assert (Hrc : mt_row_count t - 1 = d) by (rewrite (ft_rows _ _ _ _ _ _ _ _ HF); lia). rewrite Hrc. unfold first_cached.
  pose proof (ft_layout _ _ _ _ _ _ _ _ HF) as (_ & L2 & _).
  pose proof (c_lt EO 2 ls f2 d 1 leaves els (lt_at _ _ _ _ _ _ _ _ _ _ HL)) as Hc.
  destruct (nth_error els (row_off 2 d 2)) as [y|] eqn:Hy; [|apply nth_error_None in Hy; lia].
  eexists. exists y. split; [apply (ft_proof _ _ _ _ _ _ _ _ HF); lia|].
  split; [rewrite (ft_read_at _ _ _ _ _ _ _ _ HF) by lia; unfold rnth; rewrite Hy; reflexivity|].
  unfold gen_cached_proof. cbn [gen_cached_proof_n]. rewrite (lt_data _ _ _ _ _ _ _ _ _ _ HL).
  exact (lc_cached_edge EO EL A en Hch lt ls f2 d leaves els i y HL Hr Hi2 Hy).
Qed.

(* read_range for every pair of bounds. [els]: the elements of the original tree in order. *)
Theorem C28_exact : forall E (EO : ElementOps E) A en b c v leaves t f1 ls f2,
  reopened EO A en b c v leaves t f1 ls f2 ->
  let C := first_cached b (mt_row_count t - 1) (sc_rows_to_discard c) in
  let n := mt_leafs t in let len := mt_len (disk_store EO) t in
  exists els, List.length els = len /\ (forall k, k < len -> mt_read_at (disk_store EO) 0 0 t f1 k = rnth els k) /\
  forall lo hi,
  (* refused *)
  (len <= lo \/ len < hi \/ n < lo < C -> exists m, lc_read_range EO (ls, f2) lo hi = Err m) /\
  (* in range but backwards *)
  (lo < len -> hi < lo -> lo <= n \/ C <= lo -> exists m, lc_read_range EO (ls, f2) lo hi = Panic m) /\
  (* cached rows *)
  (C <= lo < len -> lo <= hi <= len -> lc_read_range EO (ls, f2) lo hi = Ok (sub els lo (hi - lo))) /\
  (* version 1: read from a file holding the leaves followed by the cached rows *)
  (v = 1 -> lo <= n -> lo < C -> lo <= hi <= len ->
     (hi <= n + (len - C) -> lc_read_range EO (ls, f2) lo hi = Ok (sub (firstn n els ++ skipn C els) lo (hi - lo))) /\
     (n + (len - C) < hi -> exists m, lc_read_range EO (ls, f2) lo hi = Err m)) /\
  (* with an external reader: leaves come from it, and so does whatever a range running
     over their end asks for *)
  (v <> 1 -> lo < hi <= n -> lc_read_range EO (ls, f2) lo hi = Ok (sub els lo (hi - lo))) /\
  (v <> 1 -> lo < n -> lo <= hi <= len -> exists r, lc_reader ls = Some r /\
     lc_read_range EO (ls, f2) lo hi =
       (do bs <- er_data r f2 (lo * e_byte_len EO) (hi * e_byte_len EO) (repeat x00 ((hi - lo) * e_byte_len EO)); decode EO bs)) /\
  (v <> 1 -> lo = n -> lo < C -> lo <= hi <= len ->
     (hi = lo -> lc_read_range EO (ls, f2) lo hi = Ok []) /\
     (lo < hi -> exists m, lc_read_range EO (ls, f2) lo hi = Err m)).
Proof.
  intros E EO A en b c v leaves t f1 ls f2 HO C n len.
  destruct (reopened_at _ _ _ _ _ _ _ _ _ _ _ HO) as (d & els & lt & EL & AL & Hb & Hch & HF & HR & Hv & HS & HL).
  pose proof (lt_at _ _ _ _ _ _ _ _ _ _ HL) as HA.
  assert (Hrc : mt_row_count t - 1 = d) by (rewrite (ft_rows _ _ _ _ _ _ _ _ HF); lia).
  unfold C, n, len, first_cached. rewrite Hrc, (ft_leafs _ _ _ _ _ _ _ _ HF), (ft_len _ _ _ _ _ _ _ _ HF).
  pose proof (geom_gt b d) as Hg. pose proof (c_lt EO b ls f2 d _ leaves els HA) as Hc. pose proof (c_ge b d (sc_rows_to_discard c)) as Hn.
  exists els. split; [apply (ft_layout _ _ _ _ _ _ _ _ HF)|]. split; [exact (ft_read_at _ _ _ _ _ _ _ _ HF)|].
  intros lo hi.
  assert (Hrd : v <> 1 -> lc_reader ls <> None) by (intros Hv1 Hr; apply Hv1, Hv, Hr).
  repeat match goal with |- _ /\ _ => split end.
  - intros H. apply (blocked_range EO ls f2). destruct H as [H|[H|H]].
    + apply (lc_range_end EO EL b ls f2 d _ leaves els HA); lia.
    + apply (lc_range_end EO EL b ls f2 d _ leaves els HA); lia.
    + apply (lc_range_discarded EO EL b ls f2 d _ leaves els HA); lia.
  - intros H1 H2 H3. exact (exact_backwards EO EL b ls f2 d _ leaves els HA lo hi H2 H1 H3).
  - intros H1 H2. destruct (Nat.eq_dec lo hi) as [->|Hne].
    + rewrite Nat.sub_diag, sub_zero. apply (exact_empty EO EL b ls f2 d _ leaves els HA); lia.
    + apply (lc_read_range_kept EO EL b ls f2 d _ leaves els HA). split; lia.
  - intros Hv1 H1 H2 H3. apply Hv in Hv1. split; intros H4.
    + apply (exact_front EO EL b ls f2 d _ leaves els HA); auto; lia.
    + apply (exact_short EO EL b ls f2 d _ leaves els HA); auto; lia.
  - intros Hv1 H1. apply (lc_read_range_kept EO EL b ls f2 d _ leaves els HA). split; lia.
  - intros Hv1 H1 H2. destruct (lc_reader ls) as [r|] eqn:Hr; [|destruct (Hrd Hv1 eq_refl)]. exists r. split; [reflexivity|].
    apply (exact_reader EO EL b ls f2 d _ leaves els HA); auto; lia.
  - intros Hv1 -> H2 H3. split; intros H4.
    + subst hi. apply (exact_empty EO EL b ls f2 d _ leaves els HA); lia.
    + apply (blocked_range EO ls f2). apply (lc_range_edge_reader EO EL b Hb ls f2 d _ leaves els HA); auto; lia.
Qed.

(* 8 leaves, one row dropped: 8 .. 11 are gone, 12 .. 14 follow the leaves in the file *)
Example C28_exact_case :
  case_read 2 leaves8 1 6 11 =
    (match case_read 2 leaves8 1 6 8, case_read 2 leaves8 1 12 15, case_read 2 leaves8 0 6 11 with
     | Ok (a, _), Ok (c, _), Ok (o, _) => Ok (o, a ++ c) | _, _, _ => Err "no"%string end) /\
  is_ok (case_read 2 leaves8 1 6 11) = true /\
  is_ok (case_read 2 leaves8 1 6 12) = false.
Proof. vm_compute. repeat split; reflexivity. Qed.

Example C24_exact_case :
  match case_reopen 2 leaves8 1 with
  | Some (t, f, ls, lt, f4) =>
      match gen_proof (disk_store BO) 2 0 0 t f 3, mt_read_at (disk_store BO) 0 0 t f 12,
            gen_cached_proof BO (lc_store BO) sum_alg env1 2 0 0 lt f4 3 (Some 0) with
      | Ok p, Ok y, Ok q => list_beq (map val (pf_lemma q)) (map val (firstn 2 (pf_lemma p) ++ [y] ++ skipn 3 (pf_lemma p)))
      | _, _, _ => false
      end
  | None => false
  end = true.
Proof. vm_compute. reflexivity. Qed.

Print Assumptions C24_exact.
Print Assumptions C28_exact.
