(* C11, C14, C15, C17 - C21, C45 (base trees): inclusion proofs over a single store.
   Statements; proofs in ProofFacts.v and TreeProofs.v. *)
From Coq Require Import String List Arith NArith Bool Lia Init.Byte ZifyBool ZifyNat.
From Verif Require Import Base Element Hash Sizing FS Sched Store VecStore DiskStore MmapStore LevelCache ProofModel Tree ListFacts Spec SpecFacts SizingFacts SchedFacts StoreLaws RowFacts ChunkFacts BuildFacts BuildLoop StoreSpec FileFacts VecFacts DiskFacts MmapFacts PopFacts TreeFacts ProofSpec ProofFacts TreeProofs TreeObs Builders Cases Props_Build.
Import ListNotations.

(* ---------------- C11 ---------------- *)
Theorem C11_proofs_validate : forall E (EO : ElementOps E) A SO np en b leaves f t f' i,
  setting EO A SO np en b ->
  builder EO SO A en b leaves f (Ok t, f') ->
  b = 2 \/ height_agnostic A ->
  i < mt_leafs t ->
  exists p, gen_proof SO b 0 0 t f' i = Ok p /\ validate EO A b p = Ok true.
Proof.
  intros E EO A SO np en b leaves f t f' i (EL & AL & HS & Hb & Hch) HB HA Hi.
  destruct (builder_tree EO EL A AL en b SO np HS leaves f t f' Hb Hch HB) as (d & els & Hn & HF).
  rewrite (ft_leafs _ _ _ _ _ _ _ _ HF) in Hi. eexists. split; [apply (ft_proof _ _ _ _ _ _ _ _ HF); exact Hi|].
  eapply canon_valid; eauto. apply (ft_layout _ _ _ _ _ _ _ _ HF).
Qed.

Definition tree_of (SO : StoreOps B1) (r : res (mtree (st_t SO) B1) * fs) : option (mtree (st_t SO) B1 * fs) :=
  match r with (Ok t, f) => Some (t, f) | _ => None end.
Definition proof_at (SO : StoreOps B1) (b : nat) (r : res (mtree (st_t SO) B1) * fs) (i : nat) : res (proof B1) :=
  match r with (Ok t, f) => gen_proof SO b 0 0 t f i | _ => Err "no tree"%string end.
Definition show (p : proof B1) : list nat * list nat := (map val (pf_lemma p), pf_path p).

Example C11_case :
  let r := mt_new BO (disk_store BO) sum_alg env1 4 (leaves8 ++ leaves8) fs_empty in
  map (fun i => rbind (proof_at (disk_store BO) 4 r i) (validate BO sum_alg 4)) (seq 0 16) = repeat (Ok true) 16.
Proof. vm_compute. reflexivity. Qed.

(* ---------------- C14 (base trees; compound trees in Props_Compound.v) ---------------- *)
Theorem C14_base : forall E (EO : ElementOps E) A SO np en b leaves f t f' i p,
  setting EO A SO np en b ->
  builder EO SO A en b leaves f (Ok t, f') ->
  gen_proof SO b 0 0 t f' i = Ok p ->
  i < mt_leafs t /\
  pf_item p = rnth leaves i /\ is_ok (pf_item p) = true /\
  pf_root p = Ok (mt_root t) /\
  path_index b (pf_path p) = i /\ Forall (fun c => c < b) (pf_path p) /\
  List.length (pf_path p) = mt_row_count t - 1 /\
  List.length (pf_lemma p) = 2 + (b - 1) * (mt_row_count t - 1) /\
  pf_sub p = None /\ pf_top_nodes p = 0 /\ pf_sub_nodes p = 0.
Proof.
  intros E EO A SO np en b leaves f t f' i p HS HB HP.
  pose proof HS as (EL & AL & HB' & Hb & Hch).
  destruct (builder_tree EO EL A AL en b SO np HB' leaves f t f' Hb Hch HB) as (d & els & Hn & HF).
  pose proof (ft_base _ _ _ _ _ _ _ _ HF) as [s Hs].
  assert (Hi : i < mt_leafs t).
  { destruct (Nat.lt_ge_cases i (mt_leafs t)) as [H|H]; [exact H|exfalso].
    destruct (gen_proof_base_oob' SO b t s f' i 0 0 Hs H) as [e He]. congruence. }
  split; [exact Hi|]. pose proof HF as [F1 F2 F3 F4 F5 F6 F7 F8 F9 _]. rewrite F3 in Hi. rewrite F9 in HP by exact Hi. inv HP.
  cbn [pf_lemma pf_path pf_sub pf_top_nodes pf_sub_nodes].
  pose proof F2 as (L1 & L2 & L3). pose proof (geom_gt b d). pose proof (arity_ge b Hb) as H2.
  destruct (nth_error_ex els i ltac:(lia)) as [x Hx].
  pose proof (Layout_leaf b ltac:(lia) (h_node A) d leaves els i F2 Hi) as HLf.
  pose proof (lemma_of_eq b d els i x (mt_root t) Hi Hx F6) as HL.
  unfold pf_item, pf_root. cbn [pf_lemma]. rewrite HL. split; [unfold rnth; rewrite <- HLf, Hx; reflexivity|]. split; [reflexivity|].
  split. { cbn [rev]. rewrite rev_app_distr. reflexivity. }
  split; [apply path_of_index; auto|].
  split. { apply Forall_forall. intros c Hc. pose proof (path_of_digits b Hb d i) as HD. rewrite forallb_forall in HD.
           specialize (HD c Hc). lia. }
  rewrite path_of_length, F5. split; [lia|]. rewrite <- HL, (lemma_of_length b Hb d leaves els _ F2 i Hi).
  split; [f_equal; f_equal; lia|]. auto.
Qed.

Example C14_case :
  let r := mt_new BO (disk_store BO) sum_alg env1 4 (leaves8 ++ leaves8) fs_empty in
  rbind (proof_at (disk_store BO) 4 r 13) (fun p => Ok (pf_path p, List.length (pf_lemma p), path_index 4 (pf_path p)))
  = Ok ([1; 3], 8, 13).
Proof. vm_compute. reflexivity. Qed.

(* ---------------- C15 ---------------- *)
(* p is an arbitrary proof object.  "As many levels as the tree": its lemma has the
   length validate iterates over d times. *)
Theorem C15_sound : forall E (EO : ElementOps E) A SO np en b leaves f t f' p d,
  setting EO A SO np en b ->
  builder EO SO A en b leaves f (Ok t, f') ->
  List.length leaves = b ^ d ->
  pf_sub_nodes p = 0 -> pf_top_nodes p = 0 ->
  List.length (pf_lemma p) = 2 + (b - 1) * d ->
  validate EO A b p = Ok true ->
  pf_root p = Ok (mt_root t) ->
  let i := path_index b (firstn d (pf_path p)) in
  i < b ^ d /\
  (pf_item p = rnth leaves i \/
   (* the nodes validate hashes at level m, and the children of the node of the tree it
      should have been hashing there *)
   exists m xs ys, m < d /\ xs <> ys /\ List.length xs = b /\ List.length ys = b /\
     h_node A (m * (b - 1)) xs = h_node A m ys /\
     xs = proof_nodes A b p d m /\
     exists s, s = row_off b d m + i / b ^ S m * b /\ mt_read_range SO t f' s (s + b) = Ok ys).
Proof.
  intros E EO A SO np en b leaves f t f' p d (EL & AL & HS & Hb & Hch) HB Hl Hs Ht Hlen Hv Hr i.
  destruct (builder_tree EO EL A AL en b SO np HS leaves f t f' Hb Hch HB) as (d' & els & Hn & HF).
  rewrite Hl in Hn. apply same_leaves_pow in Hn; auto. subst d'.
  pose proof (arity_ge b Hb) as H2.
  destruct (base_sound EO EL A AL b Hb d leaves els (mt_root t) p) as [H1 H]; auto.
  - apply (ft_layout _ _ _ _ _ _ _ _ HF).
  - apply (ft_root _ _ _ _ _ _ _ _ HF).
  - rewrite Hlen. apply levels_at_full. exact H2.
  - split; [exact H1|]. destruct H as [H|(m & Hm & G1 & G2 & G3 & G4)]; [left; exact H|right].
    exists m, (proof_nodes A b p d m), (kids b els d m (claimed_index b p d)). repeat (split; [assumption || reflexivity|]).
    eexists. split; [reflexivity|]. unfold kids in *. fold i in H1, G1, G3, G4 |- *.
    change (claimed_index b p d) with i in *.
    assert (Hle : row_off b d m + i / b ^ S m * b + b <= geom b d).
    { destruct (ft_layout _ _ _ _ _ _ _ _ HF) as (_ & LE & _). rewrite sub_length in G3. lia. }
    rewrite (ft_read_range _ _ _ _ _ _ _ _ HF) by lia. do 2 f_equal. lia.
Qed.

(* the same with the collision exhibited: the nodes hashed by validate at level m and
   the stored children of the corresponding node of the tree.  The lemma may have any
   length for which validate makes d steps. *)
Theorem C15_sound_witness : forall E (EO : ElementOps E) A SO np en b leaves f t f' p d,
  setting EO A SO np en b ->
  builder EO SO A en b leaves f (Ok t, f') ->
  List.length leaves = b ^ d ->
  pf_sub_nodes p = 0 -> pf_top_nodes p = 0 ->
  levels_at b (List.length (pf_lemma p)) d ->
  validate EO A b p = Ok true ->
  pf_root p = Ok (mt_root t) ->
  exists els, Layout (h_node A) b d leaves els /\
  let i := path_index b (firstn d (pf_path p)) in
  i < b ^ d /\
  (pf_item p = rnth leaves i \/
   exists m, m < d /\
     proof_nodes A b p d m <> kids b els d m i /\
     List.length (proof_nodes A b p d m) = b /\ List.length (kids b els d m i) = b /\
     h_node A (m * (b - 1)) (proof_nodes A b p d m) = h_node A m (kids b els d m i)).
Proof.
  intros E EO A SO np en b leaves f t f' p d (EL & AL & HS & Hb & Hch) HB Hl Hs Ht Hlev Hv Hr.
  destruct (builder_tree EO EL A AL en b SO np HS leaves f t f' Hb Hch HB) as (d' & els & Hn & HF).
  rewrite Hl in Hn. apply same_leaves_pow in Hn; auto. subst d'.
  exists els. split; [apply (ft_layout _ _ _ _ _ _ _ _ HF)|]. cbn zeta.
  exact (base_sound EO EL A AL b Hb d leaves els (mt_root t) p (ft_layout _ _ _ _ _ _ _ _ HF) (ft_root _ _ _ _ _ _ _ _ HF) Hs Ht Hlev Hv Hr).
Qed.

(* a validating hand-made proof: the one for leaf 2 *)
Example C15_case :
  let r := mt_new BO (vec_store BO) sum_alg env1 2 (firstn 4 leaves8) fs_empty in
  let lf := map (h_leaf sum_alg) (firstn 4 leaves8) in
  let n1 := h_node sum_alg 0 (firstn 2 lf) in
  let n2 := h_node sum_alg 0 (skipn 2 lf) in
  let p := mk_proof None 0 0 [nth 2 lf (el 0); nth 3 lf (el 0); n1; h_node sum_alg 1 [n1; n2]] [0; 1] in
  validate BO sum_alg 2 p = Ok true /\ rbind (pf_root p) (fun x => Ok (val x)) = root_of r /\ path_index 2 (pf_path p) = 2.
Proof. vm_compute. auto. Qed.

(* ---------------- C17 ---------------- *)
Theorem C17_tamper : forall E (EO : ElementOps E) A b lemma path p i y old,
  ElementLaws EO -> AlgLaws A -> arity b ->
  proof_new b 0 0 None lemma path = Ok p ->
  validate EO A b p = Ok true ->
  nth_error lemma i = Some old -> y <> old ->
  let p' := mk_proof None 0 0 (firstn i lemma ++ y :: skipn (S i) lemma) path in
  validate EO A b p' = Ok false \/
  exists m xs ys, xs <> ys /\ h_node A m xs = h_node A m ys /\
    exists k, xs = proof_nodes A b p (List.length path) k /\ ys = proof_nodes A b p' (List.length path) k.
Proof.
  intros E EO A b lemma path p i y old EL AL Hb HN HV Hi Hy p'.
  apply proof_new_inv in HN. destruct HN as [-> Hlen].
  destruct (base_tamper EO EL A AL b Hb (mk_proof None 0 0 lemma path) (List.length path) i y old) as [H|(H & m & Hm & G1 & G2)]; auto.
  - repeat split; auto.
  - right. eexists _, _, _. split; [exact G1|]. split; [exact G2|]. eauto.
Qed.

Example C17_case :
  let r := mt_new BO (vec_store BO) sum_alg env1 2 leaves8 fs_empty in
  match proof_at (vec_store BO) 2 r 5 with
  | Ok p => map (fun i => validate BO sum_alg 2 (mk_proof None 0 0 (firstn i (pf_lemma p) ++ el 250 :: skipn (S i) (pf_lemma p)) (pf_path p)))
              (seq 0 5)
  | _ => []
  end = repeat (Ok false) 5.
Proof. vm_compute. reflexivity. Qed.

(* ---------------- C18 ---------------- *)
(* for every arity Proof::new accepts a proof for (at least 2, power of two or not) *)
Theorem C18_total : forall E (EO : ElementOps E) A b lemma path p,
  AlgLaws A ->
  proof_new b 0 0 None lemma path = Ok p ->
  exists v, validate EO A b p = Ok v.
Proof.
  intros E EO A b lemma path p AL HN. pose proof (proof_new_ge2 b lemma path p HN) as H2.
  apply proof_new_inv in HN. destruct HN as [-> Hlen].
  destruct (lemma_ends b H2 _ _ Hlen) as (x & root & Hx & Hr & _).
  eexists. apply (validate_base_ok EO A AL b H2 _ (List.length path) x root); auto. repeat split; auto.
Qed.

Theorem C18_bad_child_index : forall E (EO : ElementOps E) A b lemma path p,
  AlgLaws A ->
  proof_new b 0 0 None lemma path = Ok p ->
  Exists (fun c => b <= c) path ->
  validate EO A b p = Ok false.
Proof.
  intros E EO A b lemma path p AL HN HX. pose proof (proof_new_ge2 b lemma path p HN) as H2.
  apply proof_new_inv in HN. destruct HN as [-> Hlen].
  destruct (lemma_ends b H2 _ _ Hlen) as (x & root & Hx & Hr & _).
  rewrite (validate_base_ok EO A AL b H2 _ (List.length path) x root); auto; [|repeat split; auto].
  cbn [pf_path pf_lemma]. rewrite firstn_all. apply Exists_exists in HX. destruct HX as (c & Hc & Hcb).
  destruct (forallb (fun c => c <? b) path) eqn:G; [|reflexivity]. rewrite forallb_forall in G. specialize (G c Hc). lia.
Qed.

Example C18_case :
  rbind (proof_new 4 0 0 None (map el [1; 2; 3; 4; 5; 6; 7; 8]) [9; 0]) (validate BO sum_alg 4) = Ok false /\
  rbind (proof_new 4 0 0 None (map el [1; 2; 3; 4; 5; 6; 7; 8]) [3; 0]) (validate BO sum_alg 4) = Ok false /\
  is_ok (proof_new 4 0 0 None (map el [1; 2; 3; 4; 5; 6; 7]) [3; 0]) = false.
Proof. vm_compute. auto. Qed.

(* ---------------- C19 ---------------- *)
Definition C19_full : Prop := forall E (EO : ElementOps E) A SO np en b leaves f t f' i,
  setting EO A SO np en b -> builder EO SO A en b leaves f (Ok t, f') -> i < mt_leafs t ->
  exists p, gen_proof SO b 0 0 t f' i = Ok p /\ validate EO A b p = Ok true.

(* binary base trees: for every algorithm *)
Theorem C19_binary_partial : forall E (EO : ElementOps E) A SO np en leaves f t f' i,
  setting EO A SO np en 2 -> builder EO SO A en 2 leaves f (Ok t, f') -> i < mt_leafs t ->
  exists p, gen_proof SO 2 0 0 t f' i = Ok p /\ validate EO A 2 p = Ok true.
Proof. intros. eapply C11_proofs_validate; eauto. Qed.

(* what validate does in general: at level m it hashes with height m * (b - 1), where
   the builder used height m *)
Theorem C19_heights : forall E (EO : ElementOps E) A b lemma path x root,
  AlgLaws A -> 2 <= b ->
  List.length lemma = 2 + (b - 1) * List.length path ->
  nth_error lemma 0 = Some x -> nth_error lemma (S ((b - 1) * List.length path)) = Some root ->
  validate EO A b (mk_proof None 0 0 lemma path) =
  Ok (forallb (fun c => c <? b) path &&
      e_eqb EO (climb (fun m nodes => h_node A (m * (b - 1)) nodes) 0 x (groups b lemma (List.length path)) path) root).
Proof.
  intros E EO A b lemma path x root AL H2 Hl Hx Hr.
  rewrite (validate_base_ok EO A AL b H2 _ (List.length path) x root); auto; [|repeat split; auto].
  cbn [pf_path pf_lemma]. rewrite firstn_all. reflexivity.
Qed.

(* arity 4, two levels, an algorithm that mixes in the height: no proof validates *)
Theorem C19_full_refuted : ~ C19_full.
Proof.
  intros H.
  set (r := mt_new BO (vec_store BO) height_alg env1 4 (leaves8 ++ leaves8) fs_empty).
  assert (G : exists t f', r = (Ok t, f') /\ mt_leafs t = 16 /\ rbind (gen_proof (vec_store BO) 4 0 0 t f' 5) (validate BO height_alg 4) = Ok false).
  { assert (G1 : match r with (Ok t, f') => (mt_leafs t =? 16) = true /\ rbind (gen_proof (vec_store BO) 4 0 0 t f' 5) (validate BO height_alg 4) = Ok false | _ => False end)
      by (vm_compute; auto).
    destruct r as [[t|e|e|] f']; try contradiction. destruct G1 as [G1 G2]. apply Nat.eqb_eq in G1. eauto. }
  destruct G as (t & f' & Hr & Hl & Hv).
  destruct (H B1 BO height_alg (vec_store BO) true env1 4 (map (h_leaf height_alg) (leaves8 ++ leaves8)) fs_empty t f' 5) as (p & Hp & Hpv).
  - refine (conj BL (conj height_laws (conj (bs_vec BO) (conj arity_4 _)))). split; [cbn; lia|reflexivity].
  - rewrite <- Hr. constructor.
  - lia.
  - rewrite Hp in Hv. cbn [rbind] in Hv. congruence.
Qed.

Example C19_case :
  let r := mt_new BO (vec_store BO) height_alg env1 2 leaves8 fs_empty in
  map (fun i => rbind (proof_at (vec_store BO) 2 r i) (validate BO height_alg 2)) (seq 0 8) = repeat (Ok true) 8.
Proof. vm_compute. reflexivity. Qed.

(* ---------------- C20 ---------------- *)
Theorem C20_root_binds : forall E (EO : ElementOps E) A SO np SO' np' en en' b leaves leaves' f t f1 f' t' f1',
  setting EO A SO np en b -> setting EO A SO' np' en' b ->
  builder EO SO A en b leaves f (Ok t, f1) -> builder EO SO' A en' b leaves' f' (Ok t', f1') ->
  List.length leaves = List.length leaves' ->
  mt_root t = mt_root t' ->
  leaves = leaves' \/
  exists m xs ys, xs <> ys /\ List.length xs = b /\ List.length ys = b /\ h_node A m xs = h_node A m ys /\
    (* both lists are children of one node, read from the trees *)
    exists s, mt_read_range SO t f1 s (s + b) = Ok xs /\ mt_read_range SO' t' f1' s (s + b) = Ok ys.
Proof.
  intros E EO A SO np SO' np' en en' b leaves leaves' f t f1 f' t' f1' (EL & AL & HS & Hb & Hch) (_ & _ & HS' & _ & Hch') HB HB' Hl Hr.
  destruct (builder_tree EO EL A AL en b SO np HS leaves f t f1 Hb Hch HB) as (d & els & Hn & HF).
  destruct (builder_tree EO EL A AL en' b SO' np' HS' leaves' f' t' f1' Hb Hch' HB') as (d' & els' & Hn' & HF').
  assert (d = d') by (apply (same_leaves_pow b); congruence). subst d'.
  pose proof (ft_layout _ _ _ _ _ _ _ _ HF) as HL. pose proof (ft_layout _ _ _ _ _ _ _ _ HF') as HL'.
  destruct (children_collision EO EL A b Hb d leaves els leaves' els' HL HL') as [H|(r & j & Hr' & Hj & H)].
  - rewrite (ft_root _ _ _ _ _ _ _ _ HF), (ft_root _ _ _ _ _ _ _ _ HF'). congruence.
  - left. exact H.
  - right. cbn zeta in H. destruct H as (G1 & G2 & G3 & G4). pose proof (arity_ge b Hb) as H2.
    exists r, (sub els (row_off b d r + j * b) b), (sub els' (row_off b d r + j * b) b).
    repeat (split; [assumption|]). exists (row_off b d r + j * b).
    assert (Hle : row_off b d r + j * b + b <= geom b d).
    { destruct HL as (_ & LE & _). rewrite sub_length in G1. lia. }
    split.
    + rewrite (ft_read_range _ _ _ _ _ _ _ _ HF) by lia. do 2 f_equal. lia.
    + rewrite (ft_read_range _ _ _ _ _ _ _ _ HF') by lia. do 2 f_equal. lia.
Qed.

(* two different leaf lists with the same root under the one-byte hash of Cases.v: the
   collision of C20_root_binds is real there *)
Example C20_case :
  let r := mt_new BO (vec_store BO) sum_alg env1 2 (map el [1; 2; 3; 4]) fs_empty in
  let r' := mt_new BO (disk_store BO) sum_alg env2 2 (map el [1; 2; 5; 221]) fs_empty in
  root_of r = Ok 215 /\ root_of r' = Ok 215.
Proof. vm_compute. auto. Qed.

(* ---------------- C21 ---------------- *)
(* over ANY base tree value, whatever its store and history *)
Theorem C21_base_proofs : forall E (EO : ElementOps E) A SO en b sub_ top (t : mtree (st_t SO) E) s f i rows,
  mt_data t = BaseTree s -> mt_leafs t <= i ->
  (exists e, gen_proof SO b sub_ top t f i = Err e) /\
  (exists e, gen_cached_proof EO SO A en b sub_ top t f i rows = Err e).
Proof.
  intros E EO A SO en b sub_ top t s f i rows Hs Hi. split.
  - eapply gen_proof_base_oob'; eauto.
  - unfold gen_cached_proof. cbn [gen_cached_proof_n]. rewrite Hs. unfold gen_cached_proof_base.
    replace (i <? mt_leafs t) with false by lia. eexists. reflexivity.
Qed.

(* cached proofs of compound trees *)
Theorem C21_compound_cached : forall E (EO : ElementOps E) A SO en b sub_ top (t : mtree (st_t SO) E) f i rows,
  mt_leafs t <= i -> exists e, gen_cached_proof EO SO A en b sub_ top t f i rows = Err e.
Proof.
  intros E EO A SO en b sub_ top t f i rows Hi. unfold gen_cached_proof. cbn [gen_cached_proof_n].
  assert (Hf : (i <? mt_leafs t) = false) by lia.
  destruct (mt_data t); unfold gen_cached_proof_base, gen_cached_compound_proof; rewrite Hf;
    try destruct (_ =? 0); eexists; reflexivity.
Qed.

(* a compound tree asked through a type whose arity for its layer is 0 *)
Theorem C21_zero_arity : forall E (EO : ElementOps E) A SO en b sub_ top (t : mtree (st_t SO) E) f i rows,
  (exists l, mt_data t = SubTree l /\ sub_ = 0) \/ (exists l, mt_data t = TopTree l /\ top = 0) ->
  (exists e, gen_proof SO b sub_ top t f i = Err e) /\
  (exists e, gen_cached_proof EO SO A en b sub_ top t f i rows = Err e).
Proof.
  intros E EO A SO en b sub_ top t f i rows H. unfold gen_proof, gen_cached_proof. cbn [gen_proof_n gen_cached_proof_n].
  destruct H as [(l & -> & ->)|(l & -> & ->)]; split; eexists; reflexivity.
Qed.
Example C21_zero_case :
  match mt_new BO (vec_store BO) sum_alg env1 2 (map el [1; 2]) fs_empty with
  | (Ok t1, f1) => match from_trees (vec_store BO) sum_alg 2 [t1; t1] with
                   | Ok t => match gen_proof (vec_store BO) 2 0 0 t f1 0, gen_proof (vec_store BO) 2 2 0 t f1 0 with
                             | Err _, Ok _ => True | _, _ => False end
                   | _ => False end
  | _ => False end.
Proof. vm_compute. exact I. Qed.

(* reads beyond len() of the file-backed stores *)
Theorem C21_read_at : forall E (EO : ElementOps E) SO, ElementLaws EO ->
  SO = disk_store EO \/ SO = mmap_store_ops EO \/ SO = lc_store EO ->
  forall (t : mtree (st_t SO) E) s f sub_ top i, mt_data t = BaseTree s -> mt_len SO t <= i ->
  exists e, mt_read_at SO sub_ top t f i = Err e.
Proof.
  intros E EO SO EL HSO t s f sub_ top i Hs Hi.
  assert (G : forall i n, n <= i -> (i * e_byte_len EO <? n * e_byte_len EO) = false).
  { intros i0 n H. apply Nat.ltb_ge. apply Nat.mul_le_mono_r. exact H. }
  unfold mt_len in Hi. rewrite Hs in Hi. unfold mt_read_at. cbn [mt_read_at_n]. rewrite Hs. clear Hs t.
  destruct HSO as [-> | [-> | ->]]; cbn in s; cbn in Hi.
  - cbn [st_read_at disk_store]. unfold disk_read_at, disk_check. cbn [fst]. rewrite G by exact Hi. eexists. reflexivity.
  - cbn [st_read_at mmap_store_ops]. unfold mmap_read_at, mmap_check. cbn [fst]. rewrite G by exact Hi. eexists. reflexivity.
  - cbn [st_read_at lc_store]. unfold lc_read_at, lc_check. cbn [fst]. rewrite G by exact Hi. eexists. reflexivity.
Qed.

Definition C21_full : Prop := forall E (EO : ElementOps E) A SO np en b leaves f t f' i,
  setting EO A SO np en b -> builder EO SO A en b leaves f (Ok t, f') -> mt_len SO t <= i ->
  exists e, mt_read_at SO 0 0 t f' i = Err e.

(* VecStore::read_at indexes the vector: out of range is a panic *)
Theorem C21_full_refuted : ~ C21_full.
Proof.
  intros H.
  set (r := mt_new BO (vec_store BO) sum_alg env1 2 leaves8 fs_empty).
  assert (G1 : match r with (Ok t, f') => (mt_len (vec_store BO) t =? 15) = true /\ match mt_read_at (vec_store BO) 0 0 t f' 15 with Panic _ => True | _ => False end | _ => False end)
    by (vm_compute; auto).
  destruct r as [[t|e|e|] f'] eqn:Hr; try contradiction. destruct G1 as [G1 G2]. apply Nat.eqb_eq in G1.
  destruct (H B1 BO sum_alg (vec_store BO) true env1 2 (map (h_leaf sum_alg) leaves8) fs_empty t f' 15) as [e He].
  - apply setting_intro; [constructor|apply arity_2|split; [cbn; lia|reflexivity]].
  - rewrite <- Hr. constructor.
  - lia.
  - rewrite He in G2. exact G2.
Qed.

Example C21_case :
  let r := mt_new BO (disk_store BO) sum_alg env1 2 leaves8 fs_empty in
  match r with
  | (Ok t, f) => is_ok (gen_proof (disk_store BO) 2 0 0 t f 8) = false /\ is_ok (gen_proof (disk_store BO) 2 0 0 t f 7) = true
                 /\ is_ok (mt_read_at (disk_store BO) 0 0 t f 15) = false /\ is_ok (mt_read_at (disk_store BO) 0 0 t f 14) = true
  | _ => False
  end.
Proof. vm_compute. auto. Qed.

(* ---------------- C45 (base trees) ---------------- *)
Theorem C45_base : forall E (EO : ElementOps E) A SO np en b xs f t f' i x p y,
  setting EO A SO np en b -> b = 2 \/ height_agnostic A ->
  from_data EO SO A en b xs f = (Ok t, f') ->
  nth_error xs i = Some x ->
  gen_proof SO b 0 0 t f' i = Ok p ->
  validate_with_data EO A b p x = Ok true /\
  (validate_with_data EO A b p y = Ok false \/ h_leaf A (hash_of A y) = h_leaf A (hash_of A x)).
Proof.
  intros E EO A SO np en b xs f t f' i x p y HS HA HD Hx HP. pose proof HS as (EL & AL & HS' & Hb & Hch).
  assert (HB : builder EO SO A en b (map (fun x => h_leaf A (hash_of A x)) xs) f (Ok t, f')) by (rewrite <- HD; constructor).
  destruct (C14_base E EO A SO np en b _ f t f' i p HS HB HP) as (Hi & Hit & _).
  destruct (C11_proofs_validate E EO A SO np en b _ f t f' i HS HB HA Hi) as (p' & HP' & HV).
  rewrite HP in HP'. injection HP' as <-.
  unfold rnth in Hit. rewrite nth_error_map, Hx in Hit. cbn [option_map] in Hit.
  assert (G : forall z, validate_with_data EO A b p z = if e_eqb EO (h_leaf A (hash_of A z)) (h_leaf A (hash_of A x)) then Ok true else Ok false).
  { intros z. unfold validate_with_data, hash_of at 1, h_leaf at 1.
    destruct (a_hash A (hash_into A (a_default A) z)) as [item a]. rewrite AL. cbn [fst].
    destruct (a_leaf A (a_default A) item) as [lh a2]. cbn [fst]. rewrite Hit. cbn [rbind]. rewrite HV. reflexivity. }
  rewrite !G. split.
  - replace (e_eqb EO _ _) with true by (symmetry; apply (eqb_eq EO EL); reflexivity). reflexivity.
  - destruct (e_eqb EO (h_leaf A (hash_of A y)) (h_leaf A (hash_of A x))) eqn:GE; [right; apply (eqb_eq EO EL); exact GE|left; reflexivity].
Qed.

Example C45_base_case :
  let r := from_data BO (vec_store BO) sum_alg env1 2 (map (HInt 2) [300%N; 7%N; 9%N; 1000%N]) fs_empty in
  rbind (proof_at (vec_store BO) 2 r 3) (fun p => Ok (validate_with_data BO sum_alg 2 p (HInt 2 1000%N), validate_with_data BO sum_alg 2 p (HInt 2 1001%N)))
  = Ok (Ok true, Ok false).
Proof. vm_compute. reflexivity. Qed.

Print Assumptions C11_proofs_validate.
Print Assumptions C14_base.
Print Assumptions C15_sound.
Print Assumptions C15_sound_witness.
Print Assumptions C17_tamper.
Print Assumptions C18_total.
Print Assumptions C18_bad_child_index.
Print Assumptions C19_binary_partial.
Print Assumptions C19_heights.
Print Assumptions C19_full_refuted.
Print Assumptions C20_root_binds.
Print Assumptions C21_base_proofs.
Print Assumptions C21_compound_cached.
Print Assumptions C21_zero_arity.
Print Assumptions C21_read_at.
Print Assumptions C21_full_refuted.
Print Assumptions C45_base.
