(* C87: a proof looks at no more of the data than it contains.  Facts in ReadsFacts.v. *)
From Coq Require Import String List Arith Bool Lia Init.Byte ZifyBool ZifyNat.
From Verif Require Import Base Element Hash Sizing FS Sched Store VecStore DiskStore MmapStore LevelCache ProofModel Tree ListFacts Spec SpecFacts SizingFacts StoreLaws RowFacts StoreSpec TreeFacts ProofSpec ProofFacts TreeProofs TreeObs Builders CachedFacts LcReads LcTrees CompactTrees Cases Props_Build Props_Compact Props_Cached Props_LC ReadsFacts.
Import ListNotations.

(* t is a base tree of b^d leaves over the store s; nothing is said about what s holds *)
Definition sized {E} (SO : StoreOps E) (b d : nat) (t : mtree (st_t SO) E) (s : st_t SO) : Prop :=
  mt_data t = BaseTree s /\ mt_leafs t = b ^ d /\ st_len SO s = geom b d /\ mt_row_count t = d + 1.

(* rows a cached proof rebuilds *)
Definition rebuilt (b d : nat) (rows : option nat) : nat :=
  let m := Nat.min (d - 1) (if b =? 2 then 7 else if b =? 4 then 5 else 2) in
  1 + match rows with Some r => Nat.min r m | None => m end.

Lemma rebuilt_capped b d rows : arity b -> rebuilt b d rows = S (capped b d rows).
Proof. intros Hb. unfold rebuilt, capped. rewrite default_rows_full by auto. destruct rows; reflexivity. Qed.

Lemma sized_len {E} (SO : StoreOps E) b d t s : sized SO b d t s -> mt_len SO t = geom b d.
Proof. intros (H1 & _ & H3 & _). unfold mt_len. rewrite H1. exact H3. Qed.

(* gen_proof: leaf i and the siblings on its path decide the result, whatever it is *)
Theorem C87_full : forall E (SO : StoreOps E) b d t s f t' s' f' i,
  arity b -> 1 <= d -> sized SO b d t s -> sized SO b d t' s' -> mt_root t = mt_root t' -> i < b ^ d ->
  (forall p, looked_at b d 0 i p -> st_read_at SO (s, f) p = st_read_at SO (s', f') p) ->
  gen_proof SO b 0 0 t f i = gen_proof SO b 0 0 t' f' i.
Proof.
  intros E SO b d t s f t' s' f' i Hb Hd HS HS' HR Hi HP.
  pose proof (sized_len _ _ _ _ _ HS) as L. pose proof (sized_len _ _ _ _ _ HS') as L'.
  destruct HS as (S1 & S2 & S3 & S4), HS' as (S1' & S2' & S3' & S4').
  unfold gen_proof. cbn [gen_proof_n]. rewrite S1, S1'.
  apply (gen_proof_base_same SO b Hb t t' s s' f f' d i); auto; lia.
Qed.

(* gen_cached_proof: the segment of leaf i, read in one piece, and the siblings in row 0 and in
   the rows that are not rebuilt decide the result *)
Theorem C87_cached : forall E (EO : ElementOps E) (SO : StoreOps E) A en b d t s f t' s' f' i rows,
  ElementLaws EO -> arity b -> chunk_ok en b -> 1 <= d ->
  sized SO b d t s -> sized SO b d t' s' -> mt_root t = mt_root t' -> i < b ^ d ->
  let k := rebuilt b d rows in let w := b ^ k in
  (forall buf, st_read_range_into SO (s, f) (i / w * w) (i / w * w + w) buf =
               st_read_range_into SO (s', f') (i / w * w) (i / w * w + w) buf) ->
  (forall p, looked_at b d k i p -> st_read_at SO (s, f) p = st_read_at SO (s', f') p) ->
  gen_cached_proof EO SO A en b 0 0 t f i rows = gen_cached_proof EO SO A en b 0 0 t' f' i rows.
Proof.
  intros E EO SO A en b d t s f t' s' f' i rows EL Hb Hch Hd HS HS' HR Hi k w HW HP.
  pose proof (sized_len _ _ _ _ _ HS) as L. pose proof (sized_len _ _ _ _ _ HS') as L'.
  destruct HS as (S1 & S2 & S3 & S4), HS' as (S1' & S2' & S3' & S4').
  unfold w, k in *. rewrite rebuilt_capped in HW, HP by auto.
  unfold gen_cached_proof. cbn [gen_cached_proof_n]. rewrite S1, S1'.
  apply (gen_cached_proof_base_same EO EL SO A en b Hb Hch t t' s s' f f' d i rows); auto; lia.
Qed.

(* the segment contains leaf i and its siblings *)
Lemma block_in_segment b k i c : arity b -> 1 <= k -> c < b ->
  i / b ^ k * b ^ k <= i / b * b + c /\ i / b * b + c < i / b ^ k * b ^ k + b ^ k.
Proof.
  intros Hb Hk Hc. pose proof (arity_ge b Hb) as H2. destruct k as [|k]; [lia|]. clear Hk.
  rewrite Nat.pow_succ_r'. rewrite <- (Nat.div_div i b (b ^ k)) by (try apply Nat.pow_nonzero; lia).
  pose proof (Nat.pow_nonzero b k ltac:(lia)) as Hp. set (x := i / b). set (w := b ^ k) in *. clearbody x w.
  pose proof (Nat.mul_div_le x w Hp) as M1. pose proof (Nat.mul_succ_div_gt x w Hp) as M2. set (q := x / w) in *. clearbody q.
  assert (w * q * b <= x * b) by (apply Nat.mul_le_mono_r; lia).
  assert (S x * b <= w * S q * b) by (apply Nat.mul_le_mono_r; lia).
  replace (q * (b * w)) with (w * q * b) by ring. replace (b * w) with (w * b) by ring. lia.
Qed.
Lemma leaf_in_block b i : arity b -> exists c, c < b /\ i = i / b * b + c.
Proof.
  intros Hb. pose proof (arity_ge b Hb). exists (i mod b). pose proof (Nat.mod_upper_bound i b ltac:(lia)).
  split; [assumption|]. pose proof (Nat.div_mod i b ltac:(lia)). lia.
Qed.
Lemma looked_at_cases b d k i p : arity b -> 1 <= k -> looked_at b d k i p ->
  (i / b ^ k * b ^ k <= p /\ p < i / b ^ k * b ^ k + b ^ k) \/ b ^ d <= p.
Proof.
  intros Hb Hk [->|(r & c & [->|Hr] & Hd & Hc & Hne & ->)].
  - left. destruct (leaf_in_block b i Hb) as (c & Hc & E). pose proof (block_in_segment b k i c Hb Hk Hc) as B. rewrite <- E in B. exact B.
  - left. change (row_off b d 0) with 0. rewrite Nat.pow_1_r. exact (block_in_segment b k i c Hb Hk Hc).
  - right. pose proof (row_off_mono b d 1 r ltac:(lia)) as M. rewrite row_off_step, Nat.sub_0_r in M.
    eapply Nat.le_trans; [exact (Nat.le_trans _ _ _ (Nat.le_add_l _ _) M)|apply Nat.le_add_r].
Qed.

(* A level-cache tree with an external reader: two readers that agree on the byte range of the
   segment of leaf i make the same cached proof; outside that range the second may fail, panic,
   or answer anything.  The files may hold anything. *)
Theorem C87_reader : forall E (EO : ElementOps E) A en b d (t t' : mtree lc_t E) s f r r' i rows,
  ElementLaws EO -> arity b -> chunk_ok en b -> 1 <= d ->
  sized (lc_store EO) b d t s -> lc_data_width s = b ^ d -> lc_reader s = Some r ->
  t' = mk_tree (BaseTree (lc_set_external_reader s r')) (mt_leafs t) (mt_len_field t) (mt_row_count t) (mt_root t) ->
  i < b ^ d ->
  let w := b ^ rebuilt b d rows in
  (forall x y buf, i / w * w * e_byte_len EO <= x -> y <= (i / w * w + w) * e_byte_len EO ->
     er_data r f x y buf = er_data r' f x y buf) ->
  gen_cached_proof EO (lc_store EO) A en b 0 0 t f i rows = gen_cached_proof EO (lc_store EO) A en b 0 0 t' f i rows.
Proof.
  intros E EO A en b d t t' s f r r' i rows EL Hb Hch Hd HS HW HR -> Hi w Hag.
  pose proof HS as (S1 & S2 & S3 & S4). cbn in S3.
  apply (C87_cached E EO (lc_store EO) A en b d t s f _ (lc_set_external_reader s r') f i rows EL Hb Hch Hd HS); auto.
  { split; [reflexivity|]. split; [exact S2|]. split; [exact S3|exact S4]. }
  - intros buf. cbn [lc_store st_read_range_into]. unfold lc_read_range_into, lc_check, lc_store_read_into, lc_in_bounds, lc_adjust.
    cbn [fst snd lc_set_external_reader lc_len lc_data_width lc_cache_index_start lc_reader lc_file]. rewrite HR.
    change (b ^ rebuilt b d rows) with w.
    destruct (i / w * w * e_byte_len EO <? lc_data_width s * e_byte_len EO); [|reflexivity].
    rewrite (Hag (i / w * w * e_byte_len EO) ((i / w * w + w) * e_byte_len EO) buf) by apply Nat.le_refl. reflexivity.
  - intros p Hp. apply looked_at_cases in Hp; auto; [|unfold rebuilt; lia]. fold w in Hp.
    cbn [lc_store st_read_at]. unfold lc_read_at, lc_check, lc_store_read_range, lc_in_bounds, lc_adjust.
    cbn [fst snd lc_set_external_reader lc_len lc_data_width lc_cache_index_start lc_reader lc_file]. rewrite HR, HW.
    destruct Hp as [[P1 P2]|P].
    + assert (X1 : i / w * w * e_byte_len EO <= p * e_byte_len EO) by (apply Nat.mul_le_mono_r; exact P1).
      assert (X2 : S p * e_byte_len EO <= (i / w * w + w) * e_byte_len EO) by (apply Nat.mul_le_mono_r; exact P2).
      clear P1 P2.
      destruct (checked_sub (p * e_byte_len EO + e_byte_len EO) (p * e_byte_len EO)) as [n| | |]; cbn [rbind]; try reflexivity.
      destruct (p * e_byte_len EO <? b ^ d * e_byte_len EO); [|reflexivity].
      rewrite (Hag (p * e_byte_len EO) (p * e_byte_len EO + e_byte_len EO) (repeat x00 n) X1) by lia. reflexivity.
    + assert (X : b ^ d * e_byte_len EO <= p * e_byte_len EO) by (apply Nat.mul_le_mono_r; exact P).
      replace (p * e_byte_len EO <? b ^ d * e_byte_len EO) with false by lia. reflexivity.
Qed.

(* With C23: over a compacted store, holding the segment of leaf i is enough for the proof of
   leaf i of the original tree *)
Theorem C87_segment : forall E (EO : ElementOps E) A en b c v leaves t f1 ls f2 r r' i,
  reopened EO A en b c v leaves t f1 ls f2 -> lc_reader ls = Some r -> i < mt_leafs t ->
  sc_rows_to_discard c <= default_rows_to_discard (mt_leafs t) b ->
  let w := b ^ S (sc_rows_to_discard c) in
  (forall x y buf, i / w * w * e_byte_len EO <= x -> y <= (i / w * w + w) * e_byte_len EO ->
     er_data r f2 x y buf = er_data r' f2 x y buf) ->
  exists lt p, from_data_store (lc_store EO) b 0 0 ls (mt_leafs t) f2 = (Ok lt, f2) /\
    gen_proof (disk_store EO) b 0 0 t f1 i = Ok p /\
    gen_cached_proof EO (lc_store EO) A en b 0 0
      (mk_tree (BaseTree (lc_set_external_reader ls r')) (mt_leafs lt) (mt_len_field lt) (mt_row_count lt) (mt_root lt))
      f2 i (Some (sc_rows_to_discard c)) = Ok p.
Proof.
  intros E EO A en b c v leaves t f1 ls f2 r r' i HO Hr Hi Hdef w Hag.
  destruct (C23_partial _ _ _ _ _ _ _ _ _ _ _ _ HO) as (lt & H1 & _ & _ & _ & _ & H2).
  destruct (H2 i Hi) as (p & P1 & P2). destruct (P2 Hdef) as [P3 _].
  destruct (reopened_at _ _ _ _ _ _ _ _ _ _ _ HO) as (d & els & lt' & EL & AL & Hb & Hch & HF & HR & Hv & HS & HL).
  assert (lt' = lt) by congruence. subst lt'.
  exists lt, p. split; [exact H1|]. split; [exact P1|]. rewrite <- P3. symmetry.
  pose proof (ft_leafs _ _ _ _ _ _ _ _ HF) as FL. rewrite FL in Hi, Hdef.
  assert (HB : rebuilt b d (Some (sc_rows_to_discard c)) = S (sc_rows_to_discard c)).
  { rewrite rebuilt_capped by auto. unfold capped. lia. }
  pose proof (lt_at _ _ _ _ _ _ _ _ _ _ HL) as LA.
  apply (C87_reader E EO A en b d lt _ ls f2 r r' i (Some (sc_rows_to_discard c)) EL Hb Hch ltac:(lia)); auto.
  - split; [exact (lt_data _ _ _ _ _ _ _ _ _ _ HL)|]. split; [exact (lt_leafs _ _ _ _ _ _ _ _ _ _ HL)|].
    split; [exact (la_len _ _ _ _ _ _ _ _ LA)|]. rewrite (lt_rows _ _ _ _ _ _ _ _ _ _ HL). lia.
  - exact (la_width _ _ _ _ _ _ _ _ LA).
  - rewrite HB. exact Hag.
Qed.

(* the nodes looked at: exactly 1 + (b-1)*d for a full proof, 1 + (b-1)*(1 + d - k) for a cached
   one (besides the segment) *)
Theorem C87_count : forall b d k i, arity b -> 1 <= d -> k <= d -> i < b ^ d ->
  exists l, List.length l = 1 + (b - 1) * (if k =? 0 then d else 1 + (d - k)) /\ forall p, looked_at b d k i p -> In p l.
Proof.
  intros b d k i Hb Hd Hk Hi. pose proof (arity_ge b Hb) as H2.
  set (rows := if k =? 0 then seq 0 d else 0 :: seq k (d - k)).
  set (sib := fun r => map (fun c => row_off b d r + (i / b ^ S r * b + c)) (filter (fun c => negb (c =? (i / b ^ r) mod b)) (seq 0 b))).
  assert (HM : forall r, (i / b ^ r) mod b < b) by (intros; apply Nat.mod_upper_bound; lia).
  assert (HL : forall m n s, s <= m < s + n -> List.length (filter (fun c => negb (c =? m)) (seq s n)) = n - 1).
  { intros m n. induction n; intros s Hm; [lia|]. cbn [seq filter]. destruct (s =? m) eqn:Q; cbn [negb].
    - assert (s = m) by lia. subst s. assert (X : forall n s, m < s -> filter (fun c => negb (c =? m)) (seq s n) = seq s n).
      { clear. induction n; intros s Hs; [reflexivity|]. cbn [seq filter]. replace (s =? m) with false by lia. cbn [negb]. f_equal. apply IHn. lia. }
      rewrite X by lia. rewrite seq_length. lia.
    - cbn [List.length]. rewrite IHn by lia. lia. }
  assert (HSib : forall r, List.length (sib r) = b - 1).
  { intros r. unfold sib. rewrite map_length. apply HL. pose proof (HM r). lia. }
  exists (i :: flat_map sib rows). split.
  - cbn [List.length]. assert (X : forall l, List.length (flat_map sib l) = (b - 1) * List.length l).
    { induction l; [cbn; lia|]. cbn [flat_map List.length]. rewrite app_length, HSib, IHl. lia. }
    rewrite X. unfold rows. destruct (k =? 0); cbn [List.length]; rewrite seq_length; lia.
  - intros p [->|(r & c & Hr & Hrd & Hc & Hne & ->)]; [left; reflexivity|]. right. apply in_flat_map. exists r. split.
    + unfold rows. destruct (k =? 0) eqn:Q; [apply in_seq; lia|]. destruct Hr as [->|Hr]; [left; reflexivity|right; apply in_seq; lia].
    + unfold sib. apply in_map_iff. exists c. split; [reflexivity|]. apply filter_In. split; [apply in_seq; lia|].
      apply negb_true_iff, Nat.eqb_neq. intros ->. apply Hne.
      rewrite Nat.pow_succ_r'. rewrite (Nat.mul_comm b (b ^ r)), <- Nat.div_div by (try apply Nat.pow_nonzero; lia).
      pose proof (Nat.div_mod (i / b ^ r) b ltac:(lia)). lia.
Qed.

(* Compound trees: of the other children only the roots matter.  A cached or full proof for a
   leaf of child j is the same when every other child is replaced by one with the same root. *)
Definition but_child {T E} (j : nat) (l l' : list (mtree T E)) : Prop :=
  List.length l = List.length l' /\ nth_error l j = nth_error l' j /\
  forall k, option_map mt_root (nth_error l k) = option_map mt_root (nth_error l' k).

Lemma other_roots_same {E} (SO : StoreOps E) l l' n j : but_child j l l' -> other_roots SO l n j = other_roots SO l' n j.
Proof.
  intros (_ & _ & H). unfold other_roots. induction (filter _ _) as [|k ks IH]; [reflexivity|]. cbn [rmap].
  rewrite IH. unfold rnth. specialize (H k). destruct (nth_error l k), (nth_error l' k); cbn in H; try discriminate; [|reflexivity].
  injection H as H. cbn [rbind]. rewrite H. reflexivity.
Qed.

Theorem C87_children : forall E (EO : ElementOps E) (SO : StoreOps E) A en b sub_ top (t t' : mtree (st_t SO) E) l l' f i rows,
  mt_leafs t = mt_leafs t' -> mt_root t = mt_root t' ->
  (mt_data t = SubTree l /\ mt_data t' = SubTree l' /\ but_child (i / (mt_leafs t / sub_)) l l' \/
   mt_data t = TopTree l /\ mt_data t' = TopTree l' /\ but_child (i / (mt_leafs t / top)) l l') ->
  gen_proof SO b sub_ top t f i = gen_proof SO b sub_ top t' f i /\
  gen_cached_proof EO SO A en b sub_ top t f i rows = gen_cached_proof EO SO A en b sub_ top t' f i rows.
Proof.
  intros E EO SO A en b sub_ top t t' l l' f i rows HL HR HD. unfold gen_proof, gen_cached_proof. cbn [gen_proof_n gen_cached_proof_n].
  destruct HD as [(D & D' & HB)|(D & D' & HB)]; rewrite D, D'; pose proof HB as (B1 & B2 & B3);
    unfold gen_sub_tree_proof, gen_cached_compound_proof, mt_base_trees, mt_sub_trees; rewrite D, D', <- HL, <- HR; unfold rnth; cbn [rbind];
    (split; [rewrite <- B1|]; rewrite <- B2, (other_roots_same SO l l' _ _ HB); reflexivity).
Qed.

(* a reader over eight leaves that answers inside one segment only *)
Definition only (lo hi : nat) (r : ExternalReader) : ExternalReader :=
  {| er_offset := er_offset r;
     er_read_fn := fun f x y buf => if (lo <=? x) && (y <=? hi) then er_read_fn r f x y buf else Panic "outside the segment" |}.
Definition only_show (b R : nat) (xs : list B1) (lo hi : nat) : list bool :=
  let f0 := snd (fs_create_new "/leaves"%string fs_empty) in
  let f1 := snd (fs_write_all_at {| h_ino := 0; h_write := true |} 0 (encode BO (map (h_leaf sum_alg) xs)) f0) in
  match mt_new_with_config BO (lc_store BO) sum_alg env1 b xs (cfg_r R) f1, er_new_from_path f1 "/leaves"%string with
  | (Ok t, f2), Ok r =>
      match mt_data t with
      | BaseTree s =>
          let on r := mk_tree (BaseTree (lc_set_external_reader s r)) (mt_leafs t) (mt_len_field t) (mt_row_count t) (mt_root t) in
          map (fun i => match gen_cached_proof BO (lc_store BO) sum_alg env1 b 0 0 (on (only lo hi r)) f2 i (Some R),
                              gen_cached_proof BO (lc_store BO) sum_alg env1 b 0 0 (on r) f2 i (Some R) with
                        | Ok p, Ok q => list_beq (map val (pf_lemma p)) (map val (pf_lemma q)) && list_beq (pf_path p) (pf_path q)
                        | _, _ => false
                        end) (seq 0 (List.length xs))
      | _ => []
      end
  | _, _ => []
  end.
(* with one row discarded the segments are 4 leaves wide, with none 2: inside, the proof is
   made; for the other leaves the reader panics *)
Example C87_case :
  only_show 2 1 leaves8 4 8 = [false; false; false; false; true; true; true; true] /\
  only_show 2 0 leaves8 2 4 = [false; false; true; true; false; false; false; false] /\
  only_show 2 1 leaves8 4 7 = repeat false 8.
Proof. vm_compute. auto. Qed.

Print Assumptions C87_full.
Print Assumptions C87_cached.
Print Assumptions C87_reader.
Print Assumptions C87_segment.
Print Assumptions C87_count.
Print Assumptions C87_children.
