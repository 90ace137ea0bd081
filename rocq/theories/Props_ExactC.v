(* What exactly happens in further cases left out by partial theorems: C34 (arity 1), C35
   (a top layer directly over base trees), C45 (three layers). *)
From Coq Require Import String List Arith NArith Bool Lia Init.Byte ZifyBool ZifyNat.
From Verif Require Import Base Element Hash Sizing FS Sched Store VecStore DiskStore MmapStore LevelCache ProofModel Tree ListFacts Spec SpecFacts SizingFacts SchedFacts StoreLaws RowFacts ChunkFacts BuildFacts BuildLoop StoreSpec FileFacts VecFacts DiskFacts MmapFacts PopFacts TreeFacts ProofSpec ProofFacts TreeProofs TreeObs Builders CompoundFacts CompoundTrees CompoundGroups CompoundBuilt Cases Props_Sizing Props_Build Props_Proof Props_Compound Props_Tamper Props_Exact ReopenFacts.
Import ListNotations.

(* ---------------- C34 ---------------- *)
(* arity 1, with any fuel: one leaf is valid, other powers of two never return, the rest is invalid *)
Theorem C34_arity1_exact : forall n fuel,
  (n = 1 -> is_merkle_tree_size_valid_fuel (S fuel) n 1 = Ok true) /\
  (pow2 n -> 1 < n -> is_merkle_tree_size_valid_fuel fuel n 1 = Diverge) /\
  (~ pow2 n -> is_merkle_tree_size_valid_fuel fuel n 1 = Ok false).
Proof.
  intros n fuel. split; [|split].
  - intros ->. reflexivity.
  - apply C34_arity1_refuted.
  - intros H. unfold is_merkle_tree_size_valid_fuel. change (1 =? 0) with false. cbn [orb].
    destruct (n =? next_pow2 n) eqn:G; [|reflexivity]. exfalso. apply H. apply next_pow2_eqb'. exact G.
Qed.
Print Assumptions C34_arity1_exact.

(* ---------------- C35 ---------------- *)
(* from_sub_trees directly over base trees: the generic length is never the length of the
   tree, whichever SubTreeArity is given *)
Theorem C35_top_over_base_exact : forall E (EO : ElementOps E) A SO np en b lss f ts f' sub_ top t t0,
  setting EO A SO np en b -> built_all EO SO A en b lss f ts f' -> from_sub_trees SO A top ts = Ok t -> In t0 ts ->
  mt_len SO t = 1 + top * mt_len SO t0 /\
  get_merkle_tree_len_generic b sub_ top (mt_leafs t0) = Ok (1 + top + sub_ * top * mt_len SO t0) /\
  get_merkle_tree_len_generic b sub_ top (mt_leafs t0) <> Ok (mt_len SO t).
Proof.
  intros E EO A SO np en b lss f ts f' sub_ top t t0 (EL & AL & HS & Hb & Hch) HB HT H0.
  pose proof (built_all_full EO EL A AL en b Hb Hch SO np HS lss f ts f' HB) as HF.
  destruct (C41_top E SO A top ts t HT) as (L1 & L2 & _ & _ & _ & L3). destruct (L3 t0 H0) as [L4 _].
  assert (exists lv d es, FullTree SO A b t0 f' d lv es) as (lv & d & es & HFT).
  { clear - HF H0. induction HF as [|lv tk lss ts (d & es & H) HF IH]; [destruct H0|]. destruct H0 as [<-|H0]; [eauto|auto]. }
  assert (G : get_merkle_tree_len_generic b sub_ top (mt_leafs t0) = Ok (1 + top + sub_ * top * mt_len SO t0)).
  { unfold get_merkle_tree_len_generic. rewrite (ft_leafs _ _ _ _ _ _ _ _ HFT).
    rewrite (get_merkle_tree_len_full b d Hb (ft_d _ _ _ _ _ _ _ _ HFT)). cbn [rbind].
    replace (0 <? top) with true by lia. rewrite (ft_len _ _ _ _ _ _ _ _ HFT). reflexivity. }
  split; [lia|]. split; [exact G|]. rewrite G, L4. intros X.
  assert (Y : 1 + top + sub_ * top * mt_len SO t0 = top * mt_len SO t0 + 1) by congruence. clear X.
  assert (2 <= mt_len SO t0).
  { rewrite (ft_len _ _ _ _ _ _ _ _ HFT). pose proof (geom_gt1 b d (ft_d _ _ _ _ _ _ _ _ HFT)). pose proof (SpecFacts.pow_pos b d ltac:(destruct Hb as (? & ? & ?); lia)). lia. }
  clear - Y L2 H. destruct sub_ as [|s]; [|nia]. nia.
Qed.
Print Assumptions C35_top_over_base_exact.

(* ---------------- C45 ---------------- *)
(* three layers: the proof of the base tree inside validates with the leaf data and, but for
   collisions, with nothing else *)
Theorem C45_three_partial : forall E (EO : ElementOps E) A SO np en b xss f gs f' sub_ top subs t i x y,
  setting EO A SO np en b -> height_agnostic A ->
  built_all EO SO A en b (map (map (fun x => h_leaf A (hash_of A x))) xss) f (concat gs) f' ->
  rmap (from_trees SO A sub_) gs = Ok subs -> from_sub_trees SO A top subs = Ok t ->
  nth_error (concat xss) i = Some x ->
  exists p sp bp, gen_proof SO b sub_ top t f' i = Ok p /\ validate EO A b p = Ok true /\ pf_sub p = Some sp /\ pf_sub sp = Some bp /\
    validate_with_data EO A b bp x = Ok true /\
    (validate_with_data EO A b bp y = Ok false \/ h_leaf A (hash_of A y) = h_leaf A (hash_of A x)).
Proof.
  intros E EO A SO np en b xss f gs f' sub_ top subs t i x y HSet HA HB HR HT Hx. pose proof HSet as (EL & AL & HS & Hb & Hch).
  destruct (C43_top E EO A SO np en b _ f gs f' sub_ top subs t i HSet HB HR HT) as [HLn _].
  assert (Hi : i < mt_leafs t). { rewrite HLn, <- concat_map, map_length. eapply nth_error_lt; eauto. }
  destruct (C14_top E EO A SO np en b _ f gs f' sub_ top subs t i HSet HB HR HT Hi) as (p & sp & bp & tk & P1 & P2 & P3 & P4 & P5 & _).
  destruct (built_top EO EL A AL en b Hb Hch SO np HS _ f gs f' sub_ top subs t HB HR HT) as (d & ls & HL & Hls & HTA).
  destruct (TopAt_child SO A b Hb t f' d sub_ subs ls i HTA Hi) as (tk2 & bs & lss' & ess & C1 & C2 & C3 & HSA & C4 & C5).
  destruct (SubAt_child SO A b Hb tk2 f' d bs lss' ess _ HSA C4) as (tk' & lv & es & D1 & D2 & D3 & HF & D4).
  pose proof (TopAt_gen SO A b Hb 0 t f' d sub_ subs ls i tk2 bs lss' ess es HTA Hi C1 C3 HSA D3) as G.
  assert (G' : gen_proof SO b sub_ top t f' i = gen_proof_n SO b 3 sub_ (List.length subs) t f' i) by (rewrite HL; reflexivity).
  rewrite G in G'. rewrite P1 in G'. injection G' as Gp. exists p, sp, bp. split; [exact P1|].
  split. { rewrite Gp. eapply top_proof_valid; eauto. }
  split; [exact P2|]. split; [exact P3|].
  assert (HV : validate EO A b bp = Ok true).
  { rewrite Gp in P2. cbn [pf_sub] in P2. injection P2 as <-. unfold sub_proof in P3. cbn [pf_sub] in P3. injection P3 as <-.
    apply (canon_valid EO EL A AL b Hb d lv es); auto; [apply (ft_layout _ _ _ _ _ _ _ _ HF)|]. apply (div_mod_lt _ (b ^ d) (pow_pos b Hb d)). }
  unfold rnth in P4. rewrite <- concat_map, nth_error_map, Hx in P4. cbn [option_map] in P4.
  assert (GG : forall z, validate_with_data EO A b bp z = if e_eqb EO (h_leaf A (hash_of A z)) (h_leaf A (hash_of A x)) then Ok true else Ok false).
  { intros z. unfold validate_with_data, hash_of at 1, h_leaf at 1.
    destruct (a_hash A (hash_into A (a_default A) z)) as [item a]. rewrite AL. cbn [fst].
    destruct (a_leaf A (a_default A) item) as [lh a2]. cbn [fst]. rewrite P4. cbn [rbind]. rewrite HV. reflexivity. }
  rewrite !GG. split.
  - replace (e_eqb EO _ _) with true by (symmetry; apply (eqb_eq EO EL); reflexivity). reflexivity.
  - destruct (e_eqb EO (h_leaf A (hash_of A y)) (h_leaf A (hash_of A x))) eqn:GE; [right; apply (eqb_eq EO EL); exact GE|left; reflexivity].
Qed.

(* the item of the outer proof: the root of the first other sub-tree, or the root of the
   whole when there is no other; validate_with_data accepts exactly data hashing to it *)
Theorem C45_three_item : forall E (EO : ElementOps E) A SO np en b lss f gs f' sub_ top subs t i y,
  setting EO A SO np en b -> height_agnostic A -> built_all EO SO A en b lss f (concat gs) f' ->
  rmap (from_trees SO A sub_) gs = Ok subs -> from_sub_trees SO A top subs = Ok t ->
  i < mt_leafs t ->
  let n := mt_leafs t / top in
  exists p r, gen_proof SO b sub_ top t f' i = Ok p /\ pf_item p = Ok r /\
    r = nth (if i / n =? 0 then 1 else 0) (map mt_root subs) (mt_root t) /\
    validate_with_data EO A b p y = Ok (e_eqb EO (h_leaf A (hash_of A y)) r).
Proof.
  intros E EO A SO np en b lss f gs f' sub_ top subs t i y HSet HA HB HR HT Hi n. pose proof HSet as (EL & AL & HS & Hb & Hch).
  destruct (built_top EO EL A AL en b Hb Hch SO np HS lss f gs f' sub_ top subs t HB HR HT) as (d & ls & HL & Hls & HTA).
  destruct (TopAt_child SO A b Hb t f' d sub_ subs ls i HTA Hi) as (tk2 & bs & lss' & ess & C1 & C2 & C3 & HSA & C4 & C5).
  destruct (SubAt_child SO A b Hb tk2 f' d bs lss' ess _ HSA C4) as (tk' & lv & es & D1 & D2 & D3 & HF & D4).
  destruct (over_div SO t subs _ i (TopAt_over SO A b Hb _ _ _ _ _ _ HTA) Hi) as [V1 V2].
  assert (Hn : n = sub_ * b ^ d) by (unfold n; rewrite <- HL; exact V1). rewrite Hn. clear n Hn.
  pose proof (TopAt_gen SO A b Hb 0 t f' d sub_ subs ls i tk2 bs lss' ess es HTA Hi C1 C3 HSA D3) as G.
  assert (G' : gen_proof SO b sub_ top t f' i = gen_proof_n SO b 3 sub_ (List.length subs) t f' i) by (rewrite HL; reflexivity).
  rewrite G in G'.
  pose proof (top_proof_valid EO EL SO A AL b Hb HA t f' d sub_ subs ls i tk2 bs lss' ess es HTA Hi C1 C3 HSA D3) as P2.
  set (k := i / (sub_ * b ^ d)) in *.
  match type of G' with _ = Ok ?q => set (p := q) in * end.
  assert (HI : pf_item p = Ok (nth (if k =? 0 then 1 else 0) (map mt_root subs) (mt_root t))).
  { unfold pf_item, p. cbn [pf_lemma]. unfold remove_at.
    destruct subs as [|t0 ts]; [cbn in V2; lia|]. destruct k as [|k]; cbn [Nat.eqb map firstn skipn app nth].
    - destruct ts as [|t1 ts]; reflexivity.
    - reflexivity. }
  exists p. eexists. split; [exact G'|]. split; [exact HI|]. split; [reflexivity|].
  unfold validate_with_data, hash_of, h_leaf.
  destruct (a_hash A (hash_into A (a_default A) y)) as [item a]. rewrite AL. cbn [fst].
  destruct (a_leaf A (a_default A) item) as [lh a2]. cbn [fst]. rewrite HI. cbn [rbind]. rewrite P2. destruct (e_eqb EO _ _); reflexivity.
Qed.
Print Assumptions C45_three_partial.
Print Assumptions C45_three_item.

(* non-vacuity: four base trees of two data each, two per sub-tree, two sub-trees *)
Definition data_tree (xs : list N) (f : fs) := from_data BO (vec_store BO) sum_alg env1 2 (map (HInt 2) xs) f.
Definition three_of : option (mtree (st_t (vec_store BO)) B1 * fs) :=
  match data_tree [300%N; 7%N] fs_empty with
  | (Ok t0, f0) => match data_tree [9%N; 1000%N] f0 with
    | (Ok t1, f1) => match data_tree [11%N; 12%N] f1 with
      | (Ok t2, f2) => match data_tree [13%N; 14%N] f2 with
        | (Ok t3, f3) => match rmap (from_trees (vec_store BO) sum_alg 2) [[t0; t1]; [t2; t3]] with
          | Ok subs => match from_sub_trees (vec_store BO) sum_alg 2 subs with Ok t => Some (t, f3) | _ => None end
          | _ => None end
        | _ => None end
      | _ => None end
    | _ => None end
  | _ => None end.
Example C45_three_case :
  match three_of with
  | Some (t, f) =>
      match gen_proof (vec_store BO) 2 2 2 t f 3 with
      | Ok p => validate BO sum_alg 2 p = Ok true /\ validate_with_data BO sum_alg 2 p (HInt 2 1000%N) = Ok false /\
          match pf_sub p with
          | Some sp => match pf_sub sp with
              | Some bp => validate_with_data BO sum_alg 2 bp (HInt 2 1000%N) = Ok true /\ validate_with_data BO sum_alg 2 bp (HInt 2 9%N) = Ok false
              | None => False end
          | None => False end
      | _ => False end
  | None => False end.
Proof. vm_compute. repeat split. Qed.
Example C34_C35_exact_case :
  is_merkle_tree_size_valid_fuel 1 1 1 = Ok true /\ is_merkle_tree_size_valid_fuel 50 8 1 = Diverge /\ is_merkle_tree_size_valid_fuel 0 6 1 = Ok false /\
  match mk_trees (vec_store BO) sum_alg 2 [xs4 1; xs4 9] fs_empty with
  | Some (ts, _) => match from_sub_trees (vec_store BO) sum_alg 2 ts with
      | Ok t => mt_len (vec_store BO) t = 15 /\ map (fun s => get_merkle_tree_len_generic 2 s 2 4) [0; 1; 2] = [Ok 3; Ok 17; Ok 31]
      | _ => False end
  | None => False end.
Proof. vm_compute. repeat split. Qed.
