(* Facts about Addr64.v: where the 64-bit addressing agrees with the main model. *)
From Coq Require Import String List Arith NArith ZArith Bool Lia Init.Byte ZifyBool ZifyNat.
From Verif Require Import Base Element Hash Sizing FS Sched Store DiskStore MmapStore LevelCache Machine Addr64.
Import ListNotations.
Local Open Scope N_scope.

Lemma w64_pos : 0 < w64. Proof. reflexivity. Qed.
Lemma p63_w64 : 2 ^ 63 < w64. Proof. reflexivity. Qed.
Lemma w64_val : w64 = 2 ^ 64. Proof. reflexivity. Qed.
Opaque w64.

Lemma mul64_small m a b : a * b < w64 -> mul64 m a b = Ok (a * b).
Proof. intros H. unfold mul64. apply N.ltb_lt in H. rewrite H. reflexivity. Qed.
Lemma add64_small m a b : a + b < w64 -> add64 m a b = Ok (a + b).
Proof. intros H. unfold add64. apply N.ltb_lt in H. rewrite H. reflexivity. Qed.
Lemma sub64_small m a b : b <= a -> sub64 m a b = Ok (a - b).
Proof. intros H. unfold sub64. apply N.leb_le in H. rewrite H. reflexivity. Qed.
Lemma mul64_wrap a b : mul64 Wrap a b = Ok ((a * b) mod w64).
Proof. unfold mul64. destruct (N.ltb_spec (a * b) w64); auto. rewrite N.mod_small; auto. Qed.
Lemma add64_wrap a b : add64 Wrap a b = Ok ((a + b) mod w64).
Proof. unfold add64. destruct (N.ltb_spec (a + b) w64); auto. rewrite N.mod_small; auto. Qed.
Lemma mul64_check a b : mul64 Check a b = Ok (a * b) \/ exists e, mul64 Check a b = Panic e.
Proof. unfold mul64. destruct (a * b <? w64); eauto. Qed.
Lemma add64_check a b : add64 Check a b = Ok (a + b) \/ exists e, add64 Check a b = Panic e.
Proof. unfold add64. destruct (a + b <? w64); eauto. Qed.
Lemma mul64_check_inv a b : a * b < w64 \/ exists e, mul64 Check a b = Panic e.
Proof. unfold mul64. destruct (N.ltb_spec (a * b) w64); eauto. Qed.
Lemma add64_check_inv a b : a + b < w64 \/ exists e, add64 Check a b = Panic e.
Proof. unfold add64. destruct (N.ltb_spec (a + b) w64); eauto. Qed.

Section Addr.
  Context {E : Type} (EO : ElementOps E).
  Local Notation bl := (e_byte_len EO).
  Local Notation blN := (N.of_nat (e_byte_len EO)).

  (* n elements fit into one object (isize::MAX bytes) *)
  Definition fits (n : nat) : Prop := N.of_nat n * blN < 2 ^ 63.
  Lemma fits_w64 n : fits n -> N.of_nat n * blN < w64.
  Proof. intros H. eapply N.lt_trans; [exact H|]. apply p63_w64. Qed.

  Lemma elem_range64_small m i : i * blN + blN < w64 ->
    elem_range64 EO m i = Ok (i * blN, i * blN + blN).
  Proof.
    intros H. unfold elem_range64. rewrite mul64_small by lia. cbn [rbind].
    rewrite add64_small by exact H. reflexivity.
  Qed.
  Lemma elem_range64_wrap i :
    elem_range64 EO Wrap i = Ok ((i * blN) mod w64, ((i * blN) mod w64 + blN) mod w64).
  Proof. unfold elem_range64. rewrite mul64_wrap. cbn [rbind]. rewrite add64_wrap. reflexivity. Qed.
  Lemma elem_range64_check i :
    i * blN + blN < w64 \/ exists e, elem_range64 EO Check i = Panic e.
  Proof.
    unfold elem_range64. destruct (mul64_check_inv i blN) as [H|[e H]]; [|rewrite H; right; eexists; reflexivity].
    rewrite mul64_small by exact H. cbn [rbind].
    destruct (add64_check_inv (i * blN) blN) as [H1|[e H1]]; [auto|rewrite H1; right; eexists; reflexivity].
  Qed.
  Lemma span64_small m s e : s * blN < w64 -> e * blN < w64 ->
    span64 EO m s e = Ok (s * blN, e * blN).
  Proof. intros H1 H2. unfold span64. rewrite !mul64_small by assumption. reflexivity. Qed.
  Lemma span64_check s e :
    (s * blN < w64 /\ e * blN < w64) \/ exists x, span64 EO Check s e = Panic x.
  Proof.
    unfold span64. destruct (mul64_check_inv s blN) as [H|[x H]]; [|rewrite H; right; eexists; reflexivity].
    rewrite mul64_small by exact H. cbn [rbind].
    destruct (mul64_check_inv e blN) as [H1|[x H1]]; [auto|rewrite H1; right; eexists; reflexivity].
  Qed.

  Lemma check64_eq m len s e : fits len ->
    check64 EO m len s e =
    (do _ <- ensure (N.to_nat s <? len * bl)%nat "start out of range";
     ensure (N.to_nat e <=? len * bl)%nat "end out of range").
  Proof.
    intros H. unfold check64. rewrite mul64_small by (apply fits_w64; exact H). cbn [rbind].
    replace (s <? N.of_nat len * blN) with (N.to_nat s <? len * bl)%nat by lia.
    replace (e <=? N.of_nat len * blN) with (N.to_nat e <=? len * bl)%nat by lia. reflexivity.
  Qed.

  (* reads through the checks: [f] in 64 bits, [g] over natural numbers *)
  Lemma through_check {X} m len s e (f g : res X) : fits len ->
    ((N.to_nat s < len * bl)%nat -> (N.to_nat e <= len * bl)%nat -> f = g) ->
    (do _ <- check64 EO m len s e; f) =
    (do _ <- (do _ <- ensure (N.to_nat s <? len * bl)%nat "start out of range";
              ensure (N.to_nat e <=? len * bl)%nat "end out of range"); g).
  Proof.
    intros H H1. rewrite check64_eq by exact H.
    destruct (N.to_nat s <? len * bl)%nat eqn:C1; cbn [ensure rbind]; [|reflexivity].
    destruct (N.to_nat e <=? len * bl)%nat eqn:C2; cbn [ensure rbind]; [|reflexivity].
    apply H1; lia.
  Qed.

  Lemma N2_mul i : N.to_nat (i * blN) = (N.to_nat i * bl)%nat. Proof. lia. Qed.
  Lemma N2_end i : N.to_nat (i * blN + blN) = (N.to_nat i * bl + bl)%nat. Proof. lia. Qed.

  Lemma disk_store_read_eq m st s e : s <= e -> e - s < 2 ^ 63 ->
    disk_store_read_range64 m st s e = disk_store_read_range st (N.to_nat s) (N.to_nat e).
  Proof.
    intros H H1. unfold disk_store_read_range64, disk_store_read_range, checked_sub, alloc64.
    rewrite sub64_small by exact H. cbn [rbind].
    replace (e - s <? 2 ^ 63) with true by lia. cbn [rbind].
    replace (N.to_nat s <=? N.to_nat e)%nat with true by lia. cbn [rbind].
    replace (N.to_nat (e - s)) with (N.to_nat e - N.to_nat s)%nat by lia. reflexivity.
  Qed.

  (* DiskStore *)
  Lemma disk_read_at64_eq m st i : fits (ds_len (fst st)) -> i * blN + blN < w64 ->
    disk_read_at64 EO m st i = disk_read_at EO st (N.to_nat i).
  Proof.
    intros HF Hi. unfold disk_read_at64, disk_read_at, disk_check. rewrite elem_range64_small by exact Hi. cbn [rbind].
    rewrite <- N2_end, <- N2_mul.
    apply through_check; [exact HF|]. intros H1 H2. unfold fits in HF. rewrite disk_store_read_eq by lia. reflexivity.
  Qed.
  Lemma disk_read_into64_eq m st i buf : fits (ds_len (fst st)) -> i * blN + blN < w64 ->
    disk_read_into64 EO m st i buf = disk_read_into EO st (N.to_nat i) buf.
  Proof.
    intros HF Hi. unfold disk_read_into64, disk_read_into, disk_check. rewrite elem_range64_small by exact Hi. cbn [rbind].
    rewrite <- N2_end, <- N2_mul.
    apply through_check; [exact HF|]. intros H1 H2. reflexivity.
  Qed.
  Lemma disk_read_range_into64_eq m st s e buf : fits (ds_len (fst st)) -> s * blN < w64 -> e * blN < w64 ->
    disk_read_range_into64 EO m st s e buf = disk_read_range_into EO st (N.to_nat s) (N.to_nat e) buf.
  Proof.
    intros HF Hs He. unfold disk_read_range_into64, disk_read_range_into, disk_check. rewrite span64_small by assumption. cbn [rbind].
    rewrite <- !N2_mul. apply through_check; [exact HF|]. intros H1 H2. reflexivity.
  Qed.
  Lemma disk_read_range64_eq m st s e : fits (ds_len (fst st)) -> s <= e -> e * blN < w64 ->
    disk_read_range64 EO m st s e = disk_read_range EO st (N.to_nat s) (N.to_nat e).
  Proof.
    intros HF Hs He. assert (Hm : s * blN <= e * blN) by (apply N.mul_le_mono_r; exact Hs).
    unfold disk_read_range64, disk_read_range, disk_check. rewrite span64_small by lia. cbn [rbind].
    rewrite <- !N2_mul. apply through_check; [exact HF|]. intros H1 H2. unfold fits in HF.
    rewrite disk_store_read_eq by lia. reflexivity.
  Qed.

  Lemma disk_store_copy_eq m s d st : s + N.of_nat (List.length d) < w64 ->
    disk_store_copy_from_slice64 m s d st = disk_store_copy_from_slice (N.to_nat s) d st.
  Proof.
    intros H. unfold disk_store_copy_from_slice64, disk_store_copy_from_slice.
    rewrite add64_small by exact H. cbn [sbind slift sget].
    replace (s + N.of_nat (List.length d) <=? N.of_nat (ds_size (fst st)))
      with (N.to_nat s + List.length d <=? ds_size (fst st))%nat by lia.
    destruct (N.to_nat s + List.length d <=? ds_size (fst st))%nat; reflexivity.
  Qed.

  Hypothesis EL : ElementLaws EO.

  Lemma disk_write_at64_eq m el i st : i * blN + blN < w64 ->
    disk_write_at64 EO m el i st = disk_write_at EO el (N.to_nat i) st.
  Proof.
    intros Hi. pose proof (el_pos EO EL) as Hb. pose proof (el_len EO EL el) as Hl.
    unfold disk_write_at64, disk_write_at. rewrite mul64_small by lia. unfold sbind at 1. cbn [slift].
    rewrite <- N2_mul. unfold sbind at 1 4. rewrite disk_store_copy_eq by (rewrite Hl; exact Hi).
    destruct (disk_store_copy_from_slice (N.to_nat (i * blN)) (e_as_ref EO el) st) as [[|x|x|] st']; try reflexivity.
    assert (i + 1 < w64).
    { apply N.le_lt_trans with (i * blN + blN); [|exact Hi]. nia. }
    rewrite add64_small by assumption. unfold sbind, slift, sget. do 2 f_equal. lia.
  Qed.

  Lemma disk_copy_from_slice64_eq m buf i st : i * blN + N.of_nat (List.length buf) < w64 ->
    disk_copy_from_slice64 EO m buf i st = disk_copy_from_slice EO buf (N.to_nat i) st.
  Proof.
    intros Hi. pose proof (el_pos EO EL) as Hb.
    unfold disk_copy_from_slice64, disk_copy_from_slice.
    destruct (List.length buf mod e_byte_len EO =? 0)%nat; [|reflexivity].
    unfold sbind, slift, sget. cbn [ensure].
    rewrite mul64_small by lia. rewrite <- N2_mul. rewrite disk_store_copy_eq by exact Hi.
    destruct (disk_store_copy_from_slice (N.to_nat (i * blN)) buf st) as [[|x|x|] st']; try reflexivity.
    assert (i + N.of_nat (List.length buf / bl) < w64).
    { apply N.le_lt_trans with (i * blN + N.of_nat (List.length buf)); [|exact Hi].
      assert (List.length buf / bl <= List.length buf)%nat by (clear - Hb; apply Nat.div_le_upper_bound; [lia|]; rewrite <- (Nat.mul_1_l (List.length buf)) at 1; apply Nat.mul_le_mono_r; lia).
      assert (i * 1 <= i * blN) by (apply N.mul_le_mono_l; clear - Hb; lia).
      generalize dependent (List.length buf / bl)%nat. intros. lia. }
    rewrite add64_small by assumption. rewrite N2Nat.inj_add, Nat2N.id. reflexivity.
  Qed.

  (* MmapStore *)
  Lemma mmap_slice64_eq st s e :
    mmap_slice64 st s e = mmap_slice st (N.to_nat s) (N.to_nat e).
  Proof.
    unfold mmap_slice64, mmap_slice. destruct (mm_map (fst st)) as [n|]; [|reflexivity].
    replace (s <=? e) with (N.to_nat s <=? N.to_nat e)%nat by lia.
    replace (e <=? N.of_nat n) with (N.to_nat e <=? n)%nat by lia.
    replace (N.to_nat (e - s)) with (N.to_nat e - N.to_nat s)%nat by lia. reflexivity.
  Qed.
  Lemma mmap_read_at64_eq m st i : fits (mm_len (fst st)) -> i * blN + blN < w64 ->
    mmap_read_at64 EO m st i = mmap_read_at EO st (N.to_nat i).
  Proof.
    intros HF Hi. unfold mmap_read_at64, mmap_read_at, mmap_check. rewrite elem_range64_small by exact Hi. cbn [rbind].
    rewrite <- N2_end, <- N2_mul.
    apply through_check; [exact HF|]. intros H1 H2. rewrite mmap_slice64_eq. reflexivity.
  Qed.
  Lemma mmap_read_range64_eq m st s e : fits (mm_len (fst st)) -> s * blN < w64 -> e * blN < w64 ->
    mmap_read_range64 EO m st s e = mmap_read_range EO st (N.to_nat s) (N.to_nat e).
  Proof.
    intros HF Hs He. unfold mmap_read_range64, mmap_read_range, mmap_check. rewrite span64_small by assumption. cbn [rbind].
    rewrite <- !N2_mul. apply through_check; [exact HF|]. intros H1 H2. rewrite mmap_slice64_eq. reflexivity.
  Qed.
  Lemma mmap_store64_eq s d st :
    mmap_store64 s (s + N.of_nat (List.length d)) d st = mmap_store (N.to_nat s) d st.
  Proof.
    unfold mmap_store64, mmap_store. destruct (mm_map (fst st)) as [n|]; [|reflexivity].
    replace (s <=? s + N.of_nat (List.length d)) with true by lia. cbn [andb].
    replace (s + N.of_nat (List.length d) <=? N.of_nat n) with (N.to_nat s + List.length d <=? n)%nat by lia.
    replace (N.to_nat (s + N.of_nat (List.length d) - s) =? List.length d)%nat with true by lia. reflexivity.
  Qed.
  Lemma mmap_write_at64_eq m el i st : i * blN + blN < w64 ->
    mmap_write_at64 EO m el i st = mmap_write_at EO el (N.to_nat i) st.
  Proof.
    intros Hi. pose proof (el_pos EO EL) as Hb. pose proof (el_len EO EL el) as Hl.
    unfold mmap_write_at64, mmap_write_at. rewrite elem_range64_small by exact Hi. unfold sbind at 1. cbn [slift fst snd].
    unfold sbind at 1 5. destruct (mmap_ensure_map st) as [[|x|x|] st1]; try reflexivity.
    rewrite <- N2_mul. unfold sbind at 1 4.
    replace (i * blN + blN) with (i * blN + N.of_nat (List.length (e_as_ref EO el))) by (rewrite Hl; reflexivity).
    rewrite mmap_store64_eq.
    destruct (mmap_store (N.to_nat (i * blN)) (e_as_ref EO el) st1) as [[|x|x|] st']; try reflexivity.
    assert (i + 1 < w64).
    { apply N.le_lt_trans with (i * blN + blN); [|exact Hi]. nia. }
    rewrite add64_small by assumption. unfold sbind, slift, sget. do 2 f_equal. lia.
  Qed.

  (* LevelCacheStore *)
  Lemma lc_in_bounds64_eq m s x : fits (lc_data_width s) ->
    lc_in_bounds64 EO m s x = Ok (lc_in_bounds EO s (N.to_nat x)).
  Proof.
    intros H. unfold lc_in_bounds64, lc_in_bounds. rewrite mul64_small by (apply fits_w64; exact H). cbn [rbind].
    replace (x <=? N.of_nat (lc_data_width s) * blN) with (N.to_nat x <=? lc_data_width s * bl)%nat by lia.
    replace (N.of_nat (lc_cache_index_start s) <=? x) with (lc_cache_index_start s <=? N.to_nat x)%nat by lia.
    reflexivity.
  Qed.

  (* the addresses a store computes have 64 bits *)
  Definition lc_fits (s : lc_t) : Prop :=
    fits (lc_len s) /\ fits (lc_data_width s) /\
    match lc_reader s with
    | None => True
    | Some r => N.of_nat (er_offset r) + N.of_nat (lc_len s) * blN < w64
    end.

  Lemma er_read64_eq m r f s e buf : s + N.of_nat (er_offset r) < w64 -> e + N.of_nat (er_offset r) < w64 ->
    er_read64 m r f s e buf = er_read r f (N.to_nat s) (N.to_nat e) buf.
  Proof.
    intros H1 H2. unfold er_read64, er_read. rewrite !add64_small by assumption. cbn [rbind].
    f_equal; lia.
  Qed.

  Lemma lc_store_read_range64_eq m st s e : lc_fits (fst st) -> s <= e -> e <= N.of_nat (lc_len (fst st)) * blN ->
    lc_store_read_range64 EO m st s e = lc_store_read_range EO st (N.to_nat s) (N.to_nat e).
  Proof.
    intros (F1 & F2 & F3) Hs He. unfold lc_store_read_range64, lc_store_read_range, checked_sub, alloc64, lc_adjust.
    pose proof w64_val as W. unfold fits in *.
    rewrite sub64_small by exact Hs. cbn [rbind].
    replace (e - s <? 2 ^ 63) with true by lia. cbn [rbind].
    replace (N.to_nat s <=? N.to_nat e)%nat with true by lia. cbn [rbind].
    rewrite lc_in_bounds64_eq by exact F2. cbn [rbind].
    destruct (lc_in_bounds EO (fst st) (N.to_nat s)); cbn [ensure rbind]; [|reflexivity].
    rewrite mul64_small by lia. cbn [rbind].
    replace (s <? N.of_nat (lc_data_width (fst st)) * blN) with (N.to_nat s <? lc_data_width (fst st) * bl)%nat by lia.
    replace (N.of_nat (lc_cache_index_start (fst st)) <=? s) with (lc_cache_index_start (fst st) <=? N.to_nat s)%nat by lia.
    replace (N.to_nat (e - s)) with (N.to_nat e - N.to_nat s)%nat by lia.
    destruct (lc_reader (fst st)) as [r|] eqn:R.
    - destruct (N.to_nat s <? lc_data_width (fst st) * bl)%nat; [unfold er_data; rewrite er_read64_eq by lia; reflexivity|].
      destruct (lc_cache_index_start (fst st) <=? N.to_nat s)%nat; cbn [rbind]; f_equal; lia.
    - replace (if (N.to_nat s <? lc_data_width (fst st) * bl)%nat then @None ExternalReader else None) with (@None ExternalReader)
        by (destruct (N.to_nat s <? lc_data_width (fst st) * bl)%nat; reflexivity).
      destruct (lc_cache_index_start (fst st) <=? N.to_nat s)%nat eqn:C; cbn [rbind]; [|reflexivity].
      rewrite add64_small by lia. cbn [rbind]. f_equal. lia.
  Qed.

  Lemma lc_check64_then {X} m st s e (f g : res X) : lc_fits (fst st) ->
    (e <= N.of_nat (lc_len (fst st)) * blN -> f = g) ->
    (do _ <- lc_check64 EO m st s e; f) = (do _ <- lc_check EO st (N.to_nat s) (N.to_nat e); g).
  Proof.
    intros (F1 & F2 & F3) H. unfold lc_check64, lc_check. rewrite check64_eq by exact F1. rewrite lc_in_bounds64_eq by exact F2.
    destruct (N.to_nat s <? lc_len (fst st) * bl)%nat; cbn [ensure rbind]; [|reflexivity].
    destruct (N.to_nat e <=? lc_len (fst st) * bl)%nat eqn:C; cbn [ensure rbind]; [|reflexivity].
    rewrite H by lia. reflexivity.
  Qed.

  Lemma lc_read_at64_eq m st i : lc_fits (fst st) -> i * blN + blN < w64 ->
    lc_read_at64 EO m st i = lc_read_at EO st (N.to_nat i).
  Proof.
    intros HF Hi. unfold lc_read_at64, lc_read_at. rewrite elem_range64_small by exact Hi. cbn [rbind].
    rewrite <- N2_end, <- N2_mul. apply lc_check64_then; [exact HF|]. intros H.
    rewrite lc_store_read_range64_eq by (auto; lia). reflexivity.
  Qed.
  Lemma lc_read_range64_eq m st s e : lc_fits (fst st) -> s <= e -> e * blN < w64 ->
    lc_read_range64 EO m st s e = lc_read_range EO st (N.to_nat s) (N.to_nat e).
  Proof.
    intros HF Hs He. assert (Hm : s * blN <= e * blN) by (apply N.mul_le_mono_r; exact Hs).
    unfold lc_read_range64, lc_read_range. rewrite span64_small by lia. cbn [rbind].
    rewrite <- !N2_mul. apply lc_check64_then; [exact HF|]. intros H.
    rewrite lc_store_read_range64_eq by (auto; lia). reflexivity.
  Qed.

  (* release mode: what a read of any index does *)
  Lemma disk_read_at64_wrap st i : fits (ds_len (fst st)) -> blN < 2 ^ 63 ->
    let s := N.to_nat ((i * blN) mod w64) in
    disk_read_at64 EO Wrap st i =
    (do _ <- disk_check EO st s (s + bl); do bs <- disk_store_read_range st s (s + bl); e_from_slice EO bs).
  Proof.
    intros HF Hb s. unfold disk_read_at64, disk_check. rewrite elem_range64_wrap. cbn [rbind].
    pose proof (N.mod_lt (i * blN) w64 ltac:(pose proof w64_pos; lia)) as HM.
    subst s. set (s := (i * blN) mod w64) in *. unfold fits in HF. pose proof w64_val as W.
    destruct (N.lt_ge_cases (s + blN) w64) as [C|C].
    - rewrite (N.mod_small (s + blN)) by exact C.
      replace (N.to_nat s + bl)%nat with (N.to_nat (s + blN)) by lia.
      apply through_check; [exact HF|]. intros H1 H2. rewrite disk_store_read_eq by lia. reflexivity.
    - rewrite check64_eq by exact HF.
      replace (N.to_nat s <? ds_len (fst st) * bl)%nat with false by lia. reflexivity.
  Qed.
End Addr.
