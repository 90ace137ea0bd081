(* Leaf counts and size hints that no tree has: exactly when the constructors return an error
   and exactly when they panic.  C03 (MmapStore) and C10 (all three stores). *)
From Coq Require Import String List Arith NArith Bool Lia Init.Byte ZifyBool ZifyNat.
From Verif Require Import Base Element Hash Sizing FS Sched Store VecStore DiskStore MmapStore LevelCache ProofModel Tree ListFacts Spec SpecFacts SizingFacts SchedFacts StoreLaws RowFacts ChunkFacts BuildFacts BuildLoop StoreSpec FileFacts VecFacts DiskFacts MmapFacts PopFacts TreeFacts ProofSpec ProofFacts TreeProofs TreeObs Builders Cases Props_Build BadSizes LyingHints.
Import ListNotations.

(* ---------------- C03 ---------------- *)
(* [loose b n]: n is a power of two passing the size checks, n = m * b^q with 1 < m < b.
   The constructors over MmapStore panic on those counts up to the small-tree threshold,
   and on nothing else. *)
Theorem C03_mmap_exact : forall E (EO : ElementOps E) A en b leaves f r,
  setting EO A (mmap_store_ops EO) false en b -> builder EO (mmap_store_ops EO) A en b leaves f r ->
  let n := List.length leaves in
  ((exists t, fst r = Ok t) <-> exists d, 1 <= d /\ n = b ^ d) /\
  ((exists e, fst r = Panic e) <-> loose b n /\ n <= p_small (env_params en)) /\
  ((exists e, fst r = Err e) <-> (forall d, 1 <= d -> n <> b ^ d) /\ ~ (loose b n /\ n <= p_small (env_params en))) /\
  fst r <> Diverge.
Proof.
  intros E EO A en b leaves f r HS HB n. pose proof (C03_exact_partial E EO A _ _ en b leaves f r HS HB) as H.
  destruct HS as (EL & AL & _ & Hb & Hch).
  pose proof (mmap_rejected EO EL A AL en b leaves f r Hb Hch HB) as HR. fold n in H, HR.
  assert (HN : (forall d, 1 <= d -> n <> b ^ d) ->
     (loose b n /\ n <= p_small (env_params en) /\ exists e, fst r = Panic e) \/
     (~ (loose b n /\ n <= p_small (env_params en)) /\ exists e, fst r = Err e)).
  { intros Hd. destruct (HR Hd) as [(Hno & e & f' & ->)|(Hlo & e & f' & ->)].
    - right. split; [tauto|eexists; reflexivity].
    - cbn [fst]. destruct (n <=? p_small (env_params en)) eqn:G.
      + apply Nat.leb_le in G. left. eauto.
      + apply Nat.leb_gt in G. right. split; [lia|eauto]. }
  assert (HL : loose b n -> forall d, 1 <= d -> n <> b ^ d).
  { intros (m & q & Hm & Hp & Hq & Hn) d Hd Hn'. rewrite Hn in Hn'.
    pose proof (leafs_checks_accept b m q Hb Hp ltac:(lia) Hq) as G1.
    pose proof (leafs_checks_full b Hb d Hd) as G2. rewrite Hn', G2 in G1.
    assert (d = q) by congruence. subst d. pose proof (Nat.pow_nonzero b q ltac:(lia)). nia. }
  destruct (fst r) as [t|e|e|] eqn:G.
  - destruct H as (d & Hd & Hn). split; [split; eauto|]. split; [split; [intros [e He]; discriminate|]|].
    + intros [Hlo _]. exfalso. exact (HL Hlo d Hd Hn).
    + split; [|discriminate]. split; [intros [e He]; discriminate|]. intros [Hn' _]. exfalso. exact (Hn' d Hd Hn).
  - specialize (HN H). destruct HN as [(_ & _ & e' & HN)|[HN _]]; [discriminate|].
    split; [split; [intros [t Ht]; discriminate|intros (d & Hd & Hn); exfalso; exact (H d Hd Hn)]|].
    split; [split; [intros [t Ht]; discriminate|tauto]|]. split; [split; eauto|discriminate].
  - destruct H as [_ H]. specialize (HN H). destruct HN as [(H1 & H2 & _)|[_ [e' HN]]]; [|discriminate].
    split; [split; [intros [t Ht]; discriminate|intros (d & Hd & Hn); exfalso; exact (H d Hd Hn)]|].
    split; [split; eauto|]. split; [split; [intros [t Ht]; discriminate|tauto]|discriminate].
  - destruct H.
Qed.

(* 8 leaves in arity 4: a panic up to the threshold, an error above it; 16 leaves: a tree *)
Example C03_mmap_exact_case :
  setting BO sum_alg (mmap_store_ops BO) false (env_of 8 4 3 []) 4 /\
  loose 4 8 /\
  (exists e, fst (mt_new BO (mmap_store_ops BO) sum_alg (env_of 8 4 3 []) 4 leaves8 fs_empty) = Panic e) /\
  (exists e, fst (mt_new BO (mmap_store_ops BO) sum_alg (env_of 7 4 3 []) 4 leaves8 fs_empty) = Err e) /\
  is_ok (fst (mt_new BO (mmap_store_ops BO) sum_alg (env_of 8 4 3 []) 4 (leaves8 ++ leaves8) fs_empty)) = true.
Proof.
  split; [apply setting_intro; [constructor|apply arity_4|split; [cbn; lia|reflexivity]]|].
  split; [exists 2, 1; split; [lia|]; split; [exists 1; reflexivity|split; [lia|reflexivity]]|].
  split; [eexists; vm_compute; reflexivity|]. split; [eexists; vm_compute; reflexivity|vm_compute; reflexivity].
Qed.

(* ---------------- C10 ---------------- *)
(* [overfull b n k]: n = m * b^q leaves are accepted, and k items are more than the
   m * (1 + b + ... + b^q) elements the store is made for *)
Theorem C10_vec : forall E (EO : ElementOps E) A en b n xs c f,
  setting EO A (vec_store EO) true en b -> List.length xs <> n -> fs_dir f (cfg_path c) = None ->
  (exists e f', try_from_iter EO (vec_store EO) A en b (Some n) (map Ok xs) f = (Err e, f')) /\
  (exists e f', try_from_iter_with_config EO (vec_store EO) A en b (Some n) (map Ok xs) c f = (Err e, f')).
Proof.
  intros E EO A en b n xs c f (EL & AL & _ & Hb & _) Hn Hp. split.
  - apply (proj2 (lying EO _ _ _ _ _ (vec_laws EO EL) A AL en b Hb None (fun _ _ _ _ _ H => H) n xs f Hn)). intros [_ H]. discriminate.
  - apply (proj2 (lying_wc EO _ _ _ _ _ (vec_laws EO EL) A AL en b Hb None (fun _ _ _ _ _ H => H) n xs c f Hp Hn)). intros [_ H]. congruence.
Qed.

(* the disk store: the plain constructor gives an error; with a config, a panic exactly if the
   items overflow the file *)
Theorem C10_disk : forall E (EO : ElementOps E) A en b n xs c f,
  setting EO A (disk_store EO) true en b -> List.length xs <> n -> fs_dir f (cfg_path c) = None ->
  (exists e f', try_from_iter EO (disk_store EO) A en b (Some n) (map Ok xs) f = (Err e, f')) /\
  let r := try_from_iter_with_config EO (disk_store EO) A en b (Some n) (map Ok xs) c f in
  (overfull b n (List.length xs) -> exists e f', r = (Panic e, f')) /\
  (~ overfull b n (List.length xs) -> exists e f', r = (Err e, f')).
Proof.
  intros E EO A en b n xs c f (EL & AL & _ & Hb & _) Hn Hp. cbv zeta.
  pose proof (lying EO _ _ _ _ _ (disk_laws EO EL) A AL en b Hb (Some false) (disk_copy_past EO EL) n xs f Hn) as [_ H1].
  pose proof (lying_wc EO _ _ _ _ _ (disk_laws EO EL) A AL en b Hb (Some false) (disk_copy_past EO EL) n xs c f Hp Hn) as [H2 H3].
  split; [apply H1; intros [_ H]; discriminate|]. split.
  - intros H. apply H2. split; [exact H|discriminate].
  - intros H. apply H3. tauto.
Qed.

(* the mapped store: both constructors panic exactly if the items overflow the map *)
Theorem C10_mmap : forall E (EO : ElementOps E) A en b n xs c f,
  setting EO A (mmap_store_ops EO) false en b -> List.length xs <> n -> fs_dir f (cfg_path c) = None ->
  let r1 := try_from_iter EO (mmap_store_ops EO) A en b (Some n) (map Ok xs) f in
  let r2 := try_from_iter_with_config EO (mmap_store_ops EO) A en b (Some n) (map Ok xs) c f in
  (overfull b n (List.length xs) -> (exists e f', r1 = (Panic e, f')) /\ exists e f', r2 = (Panic e, f')) /\
  (~ overfull b n (List.length xs) -> (exists e f', r1 = (Err e, f')) /\ exists e f', r2 = (Err e, f')).
Proof.
  intros E EO A en b n xs c f (EL & AL & _ & Hb & _) Hn Hp. cbv zeta.
  pose proof (lying EO _ _ _ _ _ (mmap_laws EO EL) A AL en b Hb (Some true) (mmap_copy_past EO EL) n xs f Hn) as [H0 H1].
  pose proof (lying_wc EO _ _ _ _ _ (mmap_laws EO EL) A AL en b Hb (Some true) (mmap_copy_past EO EL) n xs c f Hp Hn) as [H2 H3].
  split; intros H; split; [apply H0|apply H2|apply H1|apply H3]; try (intros [H' _]; contradiction); (split; [exact H|congruence]).
Qed.

(* announced as 4 in arity 2: a store of 7; 7 items fit, 8 do not *)
Example C10_overfull_case :
  overfull 2 4 8 /\ ~ overfull 2 4 7 /\
  (exists e, fst (try_from_iter BO (disk_store BO) sum_alg env1 2 (Some 4) (map Ok leaves8) fs_empty) = Err e) /\
  (exists e, fst (try_from_iter_with_config BO (disk_store BO) sum_alg env1 2 (Some 4) (map Ok leaves8) cfg0 fs_empty) = Panic e) /\
  (exists e, fst (try_from_iter_with_config BO (disk_store BO) sum_alg env1 2 (Some 4) (map Ok (firstn 7 leaves8)) cfg0 fs_empty) = Err e) /\
  (exists e, fst (try_from_iter BO (mmap_store_ops BO) sum_alg env1 2 (Some 4) (map Ok leaves8) fs_empty) = Panic e) /\
  (exists e, fst (try_from_iter_with_config BO (vec_store BO) sum_alg env1 2 (Some 4) (map Ok leaves8) cfg0 fs_empty) = Err e).
Proof.
  split. { exists 1, 2. split; [exists 0; reflexivity|]. split; [lia|]. split; [lia|]. split; [reflexivity|vm_compute; lia]. }
  split. { intros (m & q & _ & Hm & Hq & Hn & Hk). assert (m = 1) by lia. subst m.
           destruct q as [|[|[|q]]]; [lia|simpl in Hn; lia|simpl in Hk; lia|].
           pose proof (Nat.pow_nonzero 2 q ltac:(lia)). simpl in Hn. lia. }
  repeat split; eexists; vm_compute; reflexivity.
Qed.

Print Assumptions C03_mmap_exact.
Print Assumptions C10_vec.
Print Assumptions C10_disk.
Print Assumptions C10_mmap.
