(* C60: bounds checks of the file-backed stores in 64-bit arithmetic. *)
From Coq Require Import String List Arith NArith ZArith Bool Lia Init.Byte ZifyBool ZifyNat.
From Verif Require Import Base Element Hash Sizing FS Sched Store VecStore DiskStore MmapStore LevelCache ProofModel Tree ListFacts Spec SpecFacts SizingFacts SchedFacts StoreLaws RowFacts ChunkFacts BuildFacts BuildLoop StoreSpec FileFacts VecFacts MapLayer DiskFacts MmapFacts PopFacts TreeFacts ProofSpec ProofFacts TreeProofs TreeObs Builders BuiltFacts Cases Props_Build Machine Addr64 AddrFacts.
Import ListNotations.
Local Open Scope N_scope.

(* ------------------------------------------------------------------ *)
(* Whenever the end of the access has a 64-bit byte address, both modes compute what the
   main model computes: the same value, the same refusal.  This covers every access
   within the bounds. *)
Theorem C60_disk_partial : forall E (EO : ElementOps E) m (st : disk_t * fs) i j el buf,
  ElementLaws EO ->
  N.of_nat (ds_len (fst st)) * N.of_nat (e_byte_len EO) < 2 ^ 63 ->
  i <= j ->
  i * N.of_nat (e_byte_len EO) + N.of_nat (e_byte_len EO) < 2 ^ 64 ->
  i * N.of_nat (e_byte_len EO) + N.of_nat (List.length buf) < 2 ^ 64 ->
  j * N.of_nat (e_byte_len EO) < 2 ^ 64 ->
  disk_read_at64 EO m st i = disk_read_at EO st (N.to_nat i) /\
  disk_read_into64 EO m st i buf = disk_read_into EO st (N.to_nat i) buf /\
  disk_read_range64 EO m st i j = disk_read_range EO st (N.to_nat i) (N.to_nat j) /\
  disk_read_range_into64 EO m st i j buf = disk_read_range_into EO st (N.to_nat i) (N.to_nat j) buf /\
  disk_write_at64 EO m el i st = disk_write_at EO el (N.to_nat i) st /\
  disk_copy_from_slice64 EO m buf i st = disk_copy_from_slice EO buf (N.to_nat i) st.
Proof.
  intros E EO m st i j el buf EL HF Hij Hi Hbuf Hj.
  split; [apply disk_read_at64_eq; auto|].
  split; [apply disk_read_into64_eq; auto|].
  split; [apply disk_read_range64_eq; auto|].
  split; [apply disk_read_range_into64_eq; auto; change w64 with (2 ^ 64); lia|].
  split; [apply disk_write_at64_eq; auto|apply disk_copy_from_slice64_eq; auto].
Qed.

Theorem C60_mmap_partial : forall E (EO : ElementOps E) m (st : mmap_t * fs) i j el,
  ElementLaws EO ->
  N.of_nat (mm_len (fst st)) * N.of_nat (e_byte_len EO) < 2 ^ 63 ->
  i * N.of_nat (e_byte_len EO) + N.of_nat (e_byte_len EO) < 2 ^ 64 ->
  j * N.of_nat (e_byte_len EO) < 2 ^ 64 ->
  mmap_read_at64 EO m st i = mmap_read_at EO st (N.to_nat i) /\
  mmap_read_range64 EO m st i j = mmap_read_range EO st (N.to_nat i) (N.to_nat j) /\
  mmap_write_at64 EO m el i st = mmap_write_at EO el (N.to_nat i) st.
Proof.
  intros E EO m st i j el EL HF Hi Hj.
  split; [apply mmap_read_at64_eq; auto|].
  split; [apply mmap_read_range64_eq; auto; change w64 with (2 ^ 64); lia|apply mmap_write_at64_eq; auto].
Qed.

Theorem C60_level_cache_partial : forall E (EO : ElementOps E) m (st : lc_t * fs) i j,
  N.of_nat (lc_len (fst st)) * N.of_nat (e_byte_len EO) < 2 ^ 63 ->
  N.of_nat (lc_data_width (fst st)) * N.of_nat (e_byte_len EO) < 2 ^ 63 ->
  (forall r, lc_reader (fst st) = Some r ->
     N.of_nat (er_offset r) + N.of_nat (lc_len (fst st)) * N.of_nat (e_byte_len EO) < 2 ^ 64) ->
  i <= j ->
  i * N.of_nat (e_byte_len EO) + N.of_nat (e_byte_len EO) < 2 ^ 64 ->
  j * N.of_nat (e_byte_len EO) < 2 ^ 64 ->
  lc_read_at64 EO m st i = lc_read_at EO st (N.to_nat i) /\
  lc_read_range64 EO m st i j = lc_read_range EO st (N.to_nat i) (N.to_nat j).
Proof.
  intros E EO m st i j H1 H2 H3 Hij Hi Hj.
  assert (HF : lc_fits EO (fst st)).
  { split; [exact H1|]. split; [exact H2|]. destruct (lc_reader (fst st)) as [r|]; [apply H3; reflexivity|exact I]. }
  split; [apply lc_read_at64_eq; auto|apply lc_read_range64_eq; auto].
Qed.

(* With overflow checks every index whatever is refused or treated as in the main model. *)
Theorem C60_checked_partial : forall E (EO : ElementOps E) (sd : disk_t * fs) (sm : mmap_t * fs) (sl : lc_t * fs) i,
  N.of_nat (ds_len (fst sd)) * N.of_nat (e_byte_len EO) < 2 ^ 63 ->
  N.of_nat (mm_len (fst sm)) * N.of_nat (e_byte_len EO) < 2 ^ 63 ->
  lc_fits EO (fst sl) ->
  (disk_read_at64 EO Check sd i = disk_read_at EO sd (N.to_nat i) \/ exists e, disk_read_at64 EO Check sd i = Panic e) /\
  (mmap_read_at64 EO Check sm i = mmap_read_at EO sm (N.to_nat i) \/ exists e, mmap_read_at64 EO Check sm i = Panic e) /\
  (lc_read_at64 EO Check sl i = lc_read_at EO sl (N.to_nat i) \/ exists e, lc_read_at64 EO Check sl i = Panic e).
Proof.
  intros E EO sd sm sl i H1 H2 H3.
  destruct (elem_range64_check EO i) as [H|[e H]].
  - split; [left; apply disk_read_at64_eq; auto|].
    split; [left; apply mmap_read_at64_eq; auto|left; apply lc_read_at64_eq; auto].
  - unfold disk_read_at64, mmap_read_at64, lc_read_at64. rewrite H.
    split; [right; eexists; reflexivity|]. split; right; eexists; reflexivity.
Qed.

(* Release mode, any index: the byte address is taken modulo 2^64 and then checked. *)
Theorem C60_wrapped : forall E (EO : ElementOps E) (st : disk_t * fs) i,
  N.of_nat (ds_len (fst st)) * N.of_nat (e_byte_len EO) < 2 ^ 63 -> N.of_nat (e_byte_len EO) < 2 ^ 63 ->
  let s := N.to_nat ((i * N.of_nat (e_byte_len EO)) mod 2 ^ 64) in
  disk_read_at64 EO Wrap st i =
  (do _ <- ensure (s <? ds_len (fst st) * e_byte_len EO)%nat "start out of range";
   do _ <- ensure (s + e_byte_len EO <=? ds_len (fst st) * e_byte_len EO)%nat "end out of range";
   do bs <- fs_read_exact_at (snd st) (ds_file (fst st)) s (e_byte_len EO);
   e_from_slice EO bs).
Proof.
  intros E EO st i H1 H2 s. rewrite disk_read_at64_wrap by assumption. change w64 with (2 ^ 64). subst s.
  set (s := N.to_nat ((i * N.of_nat (e_byte_len EO)) mod 2 ^ 64)). unfold disk_check, disk_store_read_range, checked_sub.
  destruct (s <? ds_len (fst st) * e_byte_len EO)%nat; cbn [ensure rbind]; [|reflexivity].
  destruct (s + e_byte_len EO <=? ds_len (fst st) * e_byte_len EO)%nat; cbn [ensure rbind]; [|reflexivity].
  replace (s <=? s + e_byte_len EO)%nat with true by lia. cbn [rbind].
  replace (s + e_byte_len EO - s)%nat with (e_byte_len EO) by lia. reflexivity.
Qed.

(* One-byte elements: no index wraps into the store. *)
Theorem C60_bytes_partial : forall E (EO : ElementOps E) (st : disk_t * fs) i,
  e_byte_len EO = 1%nat -> N.of_nat (ds_len (fst st)) < 2 ^ 63 -> i < 2 ^ 64 -> N.of_nat (ds_len (fst st)) <= i ->
  exists e, disk_read_at64 EO Wrap st i = Err e.
Proof.
  intros E EO st i Hb H1 H2 H3. rewrite C60_wrapped; rewrite ?Hb; change (N.of_nat 1) with 1; rewrite ?N.mul_1_r; [|lia|reflexivity].
  rewrite N.mod_small by lia. rewrite Nat.mul_1_r.
  replace (N.to_nat i <? ds_len (fst st))%nat with false by lia. eexists; reflexivity.
Qed.

(* ------------------------------------------------------------------ *)
(* Wider elements in release mode: for every store with two elements or more there is an
   index beyond the end that reads data. *)
Definition C60_full : Prop := forall E (EO : ElementOps E) cap n els (st : disk_t * fs) i,
  ElementLaws EO -> disk_rep EO cap n (nth_error els) st -> List.length els = n ->
  N.of_nat n * N.of_nat (e_byte_len EO) < 2 ^ 63 -> i < 2 ^ 64 -> N.of_nat n <= i ->
  forall x, disk_read_at64 EO Wrap st i <> Ok x.

Lemma wrap_index bl : 2 <= bl -> bl < 2 ^ 63 ->
  let i := (2 ^ 64 + bl - 1) / bl in i < 2 ^ 64 /\ (i * bl) mod 2 ^ 64 < bl /\ 2 ^ 64 <= i * bl.
Proof.
  intros H1 H2 i.
  assert (G1 : i * bl <= 2 ^ 64 + bl - 1).
  { unfold i. rewrite N.mul_comm. apply N.mul_div_le. lia. }
  assert (G2 : 2 ^ 64 + bl - 1 < bl * N.succ i).
  { unfold i. apply N.mul_succ_div_gt. lia. }
  assert (G3 : 2 ^ 64 <= i * bl) by (rewrite N.mul_succ_r in G2; lia).
  split; [|split; [|exact G3]].
  - clearbody i. change (2 ^ 64) with (2 * 2 ^ 63) in *. nia.
  - replace (i * bl) with ((i * bl - 2 ^ 64) + 1 * 2 ^ 64) by lia. rewrite N.mod_add by discriminate.
    rewrite N.mod_small by lia. lia.
Qed.

Theorem C60_refuted : forall E (EO : ElementOps E) cap n els (st : disk_t * fs),
  ElementLaws EO -> disk_rep EO cap n (nth_error els) st -> List.length els = n ->
  (2 <= n)%nat -> (2 <= e_byte_len EO)%nat -> N.of_nat n * N.of_nat (e_byte_len EO) < 2 ^ 63 ->
  exists i x, i < 2 ^ 64 /\ N.of_nat n <= i /\ disk_read_at64 EO Wrap st i = Ok x.
Proof.
  intros E EO cap n els st EL HR Hn H2 Hb HF.
  set (bl := N.of_nat (e_byte_len EO)) in *.
  assert (Hbl : bl < 2 ^ 63) by nia.
  destruct (wrap_index bl ltac:(unfold bl; lia) Hbl) as (G1 & G2 & G3).
  set (i := (2 ^ 64 + bl - 1) / bl) in *.
  set (s := N.to_nat ((i * bl) mod 2 ^ 64)).
  assert (Hs : (s < e_byte_len EO)%nat) by (unfold s, bl in *; lia).
  destruct HR as (R1 & R2 & R3 & [HD1 HD2]).
  assert (He : (s + e_byte_len EO <= n * e_byte_len EO)%nat) by (clear - Hs H2; nia).
  assert (Hc : (n * e_byte_len EO <= cap * e_byte_len EO)%nat) by (apply Nat.mul_le_mono_r; exact R2).
  destruct (el_total EO EL (sub (fs_data (snd st) (h_ino (ds_file (fst st)))) s (e_byte_len EO))) as [x Hx].
  { apply sub_length_le. rewrite HD1. lia. }
  exists i, x. split; [exact G1|]. split; [clear - G3 HF; nia|].
  rewrite C60_wrapped by (rewrite ?R1; assumption). fold bl. fold s. rewrite R1.
  replace (s <? n * e_byte_len EO)%nat with true by lia. cbn [ensure rbind].
  replace (s + e_byte_len EO <=? n * e_byte_len EO)%nat with true by lia. cbn [ensure rbind].
  unfold fs_read_exact_at, fs_size. replace (e_byte_len EO =? 0)%nat with false by lia. rewrite HD1.
  replace (s + e_byte_len EO <=? cap * e_byte_len EO)%nat with true by lia. cbn [rbind]. exact Hx.
Qed.

Lemma mt_read_at64_base {E} (EO : ElementOps E) m (t : mtree disk_t E) f s i : mt_data t = BaseTree s ->
  mt_read_at64 EO m t f i = disk_read_at64 EO m (s, f) i.
Proof. intros H. unfold mt_read_at64. rewrite H. reflexivity. Qed.

(* Element sizes that divide 2^64 (32 bytes, say): a tree read at index 2^64 / size returns its first leaf. *)
Theorem C60_tree_refuted : forall E (EO : ElementOps E) A en b leaves f t f' k,
  setting EO A (disk_store EO) true en b ->
  builder EO (disk_store EO) A en b leaves f (Ok t, f') ->
  (2 <= e_byte_len EO)%nat -> N.of_nat (mt_len (disk_store EO) t) * N.of_nat (e_byte_len EO) < 2 ^ 63 ->
  k * N.of_nat (e_byte_len EO) = 2 ^ 64 ->
  k < 2 ^ 64 /\ N.of_nat (mt_len (disk_store EO) t) < k /\
  mt_read_at64 EO Wrap t f' k = rnth leaves 0.
Proof.
  intros E EO A en b leaves f t f' k HS HB Hb HF Hk.
  assert (P : k < 2 ^ 64 /\ N.of_nat (mt_len (disk_store EO) t) < k).
  { split; [clear - Hk Hb; nia|]. clear - HF Hk. change (2 ^ 64) with (2 * 2 ^ 63) in Hk. nia. }
  split; [apply P|]. split; [apply P|].
  destruct (C02_layout E EO A _ _ en b leaves f t f' HS HB) as (d & els & Hd & _ & H1 & H2 & _ & _ & _ & HL & _).
  destruct HS as (EL & AL & HBS & Har & Hch).
  destruct (builder_tree EO EL A AL en b _ _ HBS leaves f t f' Har Hch HB) as (d' & els' & Hn & HFT).
  destruct (ft_base _ _ _ _ _ _ _ _ HFT) as [s Hs].
  pose proof (ft_leafs _ _ _ _ _ _ _ _ HFT) as HLf. pose proof (arity_ge b Har) as Hb2.
  assert (Hpos : (0 < List.length leaves)%nat) by (rewrite Hn; apply Nat.neq_0_lt_0, Nat.pow_nonzero; lia).
  destruct (nth_error leaves 0) as [x|] eqn:Hx; [|apply nth_error_None in Hx; lia].
  rewrite (mt_read_at64_base EO Wrap t f' s k Hs).
  unfold mt_len in *. rewrite Hs in *. cbn [st_len disk_store] in HF, P.
  specialize (HL 0%nat x Hx). unfold mt_read_at in HL. cbn [mt_read_at_n] in HL. rewrite Hs in HL. cbn [st_read_at disk_store] in HL.
  unfold rnth. rewrite Hx. rewrite <- HL.
  assert (Hbl : N.of_nat (e_byte_len EO) < 2 ^ 63).
  { pose proof (ft_len _ _ _ _ _ _ _ _ HFT) as HLen. unfold mt_len in HLen. rewrite Hs in HLen. pose proof (geom_pos b d').
    clear - HF HLen H. assert (1 <= ds_len s)%nat by (cbn in HLen; lia). nia. }
  specialize (proj1 P) as P1.
  transitivity (disk_read_at64 EO Wrap (s, f') 0).
  - pose proof (C60_wrapped _ EO (s, f') k HF Hbl) as W. rewrite Hk in W.
    pose proof (C60_wrapped _ EO (s, f') 0 HF Hbl) as W0. rewrite N.mul_0_l in W0.
    rewrite N.mod_same in W by discriminate. rewrite N.mod_0_l in W0 by discriminate.
    cbv zeta in W, W0. exact (eq_trans W (eq_sym W0)).
  - apply disk_read_at64_eq; [exact HF|]. change w64 with (2 ^ 64). lia.
Qed.

(* Writing there stores the element at the start of the file and moves the length beyond
   anything the file can hold. *)
Theorem C60_write_refuted : forall E (EO : ElementOps E) el (st : disk_t * fs) s1 f1 k,
  ElementLaws EO -> (2 <= e_byte_len EO)%nat -> k * N.of_nat (e_byte_len EO) = 2 ^ 64 ->
  N.of_nat (e_byte_len EO) < 2 ^ 63 ->
  N.of_nat (ds_len (fst st)) < k ->
  disk_write_at EO el 0 st = (Ok tt, (s1, f1)) ->
  disk_write_at64 EO Wrap el k st = (Ok tt, (ds_set_len s1 (N.to_nat k + 1), f1)).
Proof.
  intros E EO el st s1 f1 k EL Hb Hk Hbl Hn H.
  assert (P : k <= 2 ^ 63) by (clear - Hk Hb; change (2 ^ 64) with (2 * 2 ^ 63) in Hk; nia).
  unfold disk_write_at64, disk_write_at in *. unfold sbind, slift, sget in *.
  rewrite mul64_wrap, Hk. change w64 with (2 ^ 64). rewrite N.mod_same by discriminate.
  pose proof (disk_store_copy_eq Wrap 0 (e_as_ref EO el) st) as C.
  rewrite (el_len EO EL) in C. rewrite C by (change w64 with (2 ^ 64); lia). clear C.
  change (N.to_nat 0) with (0 * e_byte_len EO)%nat.
  destruct (disk_store_copy_from_slice (0 * e_byte_len EO) (e_as_ref EO el) st) as [r st'] eqn:D.
  assert (Hlen : ds_len (fst st') = ds_len (fst st)).
  { unfold disk_store_copy_from_slice, sbind, sget, slift, on_fs in D. clear - D.
    destruct (_ <=? _)%nat in D; [|injection D as <- <-; reflexivity].
    destruct (fs_write_all_at _ _ _ _) in D. injection D as <- <-. reflexivity. }
  destruct r as [u| | |]; try discriminate. unfold disk_upd_len in *. injection H as <- <-.
  rewrite add64_small by (change w64 with (2 ^ 64); lia).
  rewrite Hlen. replace (Nat.max (ds_len (fst st)) (N.to_nat (k + 1))) with (N.to_nat k + 1)%nat by lia. reflexivity.
Qed.

(* ------------------------------------------------------------------ *)
(* A tree of eight 32-byte leaves on disk. *)
Definition el32 (n : nat) : barray 32 :=
  @mk_barray 32 (match Byte.of_nat (n mod 256) with Some x => repeat x 32 | None => repeat x00 32 end)
    (match Byte.of_nat (n mod 256) as o return ((List.length match o with Some x => repeat x 32 | None => repeat x00 32 end =? 32)%nat = true) with Some _ => eq_refl | None => eq_refl end).
Definition alg32 : AlgOps (barray 32) :=
  default_alg (ba_ops 32) (list byte) [] (fun s bs => s ++ bs) (fun s => (el32 (poly s), s)).
Definition ls32 : list (barray 32) := map el32 [11; 12; 13; 14; 15; 16; 17; 18]%nat.
Definition tree32 := mt_new (ba_ops 32) (disk_store (ba_ops 32)) alg32 env1 2 ls32 fs_empty.
Lemma setting32 : setting (ba_ops 32) alg32 (disk_store (ba_ops 32)) true env1 2.
Proof.
  split; [apply ba_laws; lia|]. split; [intros s; reflexivity|]. split; [constructor|]. split; [exact arity_2|].
  split; [vm_compute; lia|reflexivity].
Qed.

Definition hs32 := map (h_leaf alg32) ls32.

(* index 7: the last leaf, as over unbounded integers; index 15: refused; index 2^59: leaf 0;
   index 2^59 + 3: leaf 3; with overflow checks 2^59 panics *)
Example C60_case :
  match tree32 with
  | (Ok t, f) =>
      mt_len (disk_store (ba_ops 32)) t = 15%nat /\
      mt_read_at64 (ba_ops 32) Wrap t f 7 = rnth hs32 7 /\
      mt_read_at64 (ba_ops 32) Check t f 7 = rnth hs32 7 /\
      mt_read_at64 (ba_ops 32) Wrap t f 15 = Err "start out of range"%string /\
      mt_read_at64 (ba_ops 32) Wrap t f (2 ^ 59) = rnth hs32 0 /\
      mt_read_at64 (ba_ops 32) Wrap t f (2 ^ 59 + 3) = rnth hs32 3 /\
      (match mt_read_at64 (ba_ops 32) Check t f (2 ^ 59) with Panic _ => True | _ => False end)
  | _ => False
  end.
Proof. vm_compute. repeat split. Qed.

Example C60_case_meets :
  exists t f, tree32 = (Ok t, f) /\ N.of_nat (mt_len (disk_store (ba_ops 32)) t) * 32 < 2 ^ 63 /\
      mt_read_at64 (ba_ops 32) Wrap t f (2 ^ 59) = rnth hs32 0.
Proof.
  pose proof C60_case as H. destruct tree32 as [[t| | |] f] eqn:D; try contradiction.
  exists t, f. split; [reflexivity|].
  assert (L : N.of_nat (mt_len (disk_store (ba_ops 32)) t) * 32 < 2 ^ 63) by (rewrite (proj1 H); reflexivity).
  split; [exact L|].
  refine (proj2 (proj2 (C60_tree_refuted _ (ba_ops 32) alg32 env1 2 hs32 fs_empty t f (2 ^ 59) setting32 _ _ L eq_refl))); [|cbn; lia].
  rewrite <- D. exact (B_new (ba_ops 32) (disk_store (ba_ops 32)) alg32 env1 2 ls32 fs_empty).
Qed.

(* Writing at 2^59 to that tree's store overwrites leaf 0. *)
Definition store32 : option (disk_t * fs) := match tree32 with (Ok t, f) => match mt_data t with BaseTree s => Some (s, f) | _ => None end | _ => None end.
Lemma write32 : match store32 with
  | Some st => match disk_write_at (ba_ops 32) (el32 99) 0 st with
      | (Ok tt, st1) => disk_read_at (ba_ops 32) st 0 = rnth hs32 0 /\ disk_read_at (ba_ops 32) st1 0 = Ok (el32 99) /\ ds_len (fst st) = 15%nat
      | _ => False end
  | None => False end.
Proof. vm_compute. repeat split. Qed.

Example C60_write_case : exists st s1 f1,
  disk_read_at (ba_ops 32) st 0 = rnth hs32 0 /\
      disk_write_at64 (ba_ops 32) Wrap (el32 99) (2 ^ 59) st = (Ok tt, (ds_set_len s1 (N.to_nat (2 ^ 59) + 1), f1)) /\
      disk_read_at (ba_ops 32) (s1, f1) 0 = Ok (el32 99).
Proof.
  pose proof write32 as H. destruct store32 as [st|]; [|contradiction].
  destruct (disk_write_at (ba_ops 32) (el32 99) 0 st) as [[[]| | |] [s1 f1]] eqn:D; try contradiction.
  destruct H as (H1 & H2 & H3).
  exists st, s1, f1. split; [exact H1|]. split; [|exact H2].
  apply C60_write_refuted; [apply ba_laws; lia|cbn; lia|reflexivity|reflexivity|rewrite H3; reflexivity|exact D].
Qed.

Print Assumptions C60_disk_partial.
Print Assumptions C60_mmap_partial.
Print Assumptions C60_level_cache_partial.
Print Assumptions C60_checked_partial.
Print Assumptions C60_wrapped.
Print Assumptions C60_bytes_partial.
Print Assumptions C60_refuted.
Print Assumptions C60_tree_refuted.
Print Assumptions C60_write_refuted.
