(* C12, C13, C14 (compound), C16, C19 and C21 (compound), C35, C41 - C45: compound trees.
   Statements; proofs in CompoundFacts.v, CompoundTrees.v, CompoundGroups.v, CompoundBuilt.v. *)
From Coq Require Import String List Arith NArith Bool Lia Init.Byte ZifyBool ZifyNat.
From Verif Require Import Base Element Hash Sizing FS Sched Store VecStore DiskStore MmapStore LevelCache ProofModel Tree ListFacts Spec SpecFacts SizingFacts SchedFacts StoreLaws RowFacts ChunkFacts BuildFacts BuildLoop StoreSpec FileFacts VecFacts DiskFacts MmapFacts PopFacts TreeFacts ProofSpec ProofFacts TreeProofs TreeObs Builders CompoundFacts CompoundTrees CompoundGroups CompoundBuilt Cases Props_Build.
Import ListNotations.

(* worked cases: base trees built by new, one after the other *)
Fixpoint mk_trees (SO : StoreOps B1) (A : AlgOps B1) (b : nat) (xss : list (list B1)) (f : fs)
  : option (list (mtree (st_t SO) B1) * fs) :=
  match xss with
  | [] => Some ([], f)
  | xs :: r =>
      match mt_new BO SO A env1 b xs f with
      | (Ok t, f1) => match mk_trees SO A b r f1 with Some (ts, f2) => Some (t :: ts, f2) | None => None end
      | _ => None
      end
  end.
Lemma mk_trees_built SO A b : forall xss f ts f', mk_trees SO A b xss f = Some (ts, f') ->
  built_all BO SO A env1 b (map (map (h_leaf A)) xss) f ts f'.
Proof.
  induction xss as [|xs r IH]; intros f ts f' H; cbn [mk_trees] in H.
  - injection H as <- <-. constructor.
  - destruct (mt_new BO SO A env1 b xs f) as [[t|?|?|] f1] eqn:EN; try discriminate.
    destruct (mk_trees SO A b r f1) as [[ts' f2]|] eqn:EM; try discriminate. injection H as <- <-.
    cbn [map]. econstructor; [rewrite <- EN; constructor|]. apply IH. exact EM.
Qed.
Definition xs4 (k : nat) : list B1 := map el [k; k + 1; 2 * k; 77].

(* ---------------- C12 ---------------- *)
Theorem C12_complete : forall E (EO : ElementOps E) A SO np en b lss f ts f' sub_ t i,
  setting EO A SO np en b -> height_agnostic A ->
  built_all EO SO A en b lss f ts f' ->
  from_trees SO A sub_ ts = Ok t ->
  i < mt_leafs t ->
  exists p, gen_proof SO b sub_ 0 t f' i = Ok p /\ validate EO A b p = Ok true.
Proof.
  intros E EO A SO np en b lss f ts f' sub_ t i (EL & AL & HS & Hb & Hch) HA HB HT Hi.
  destruct (built_sub EO EL A AL en b Hb Hch SO np HS lss f ts f' sub_ t HB HT) as (d & ess & HL & HSA).
  destruct (SubAt_child SO A b Hb t f' d ts lss ess i HSA Hi) as (tk & lv & es & C1 & C2 & C3 & HF & C4).
  eexists. split; [unfold gen_proof; rewrite <- HL; eapply (SubAt_gen SO A b Hb 1); eauto|].
  eapply sub_proof_valid; eauto.
Qed.

Definition case_sub (SO : StoreOps B1) (A : AlgOps B1) (b sub_ : nat) (xss : list (list B1)) : option (mtree (st_t SO) B1 * fs) :=
  match mk_trees SO A b xss fs_empty with
  | Some (ts, f) => match from_trees SO A sub_ ts with Ok t => Some (t, f) | _ => None end
  | None => None
  end.
Definition all_valid (SO : StoreOps B1) (A : AlgOps B1) (b sub_ top n : nat) (r : option (mtree (st_t SO) B1 * fs)) : bool :=
  match r with
  | Some (t, f) => (mt_leafs t =? n) && forallb (fun i => match rbind (gen_proof SO b sub_ top t f i) (validate BO A b) with Ok true => true | _ => false end) (seq 0 n)
  | None => false
  end.
Example C12_case : all_valid (disk_store BO) sum_alg 2 3 0 12 (case_sub (disk_store BO) sum_alg 2 3 [xs4 1; xs4 9; xs4 5]) = true.
Proof. vm_compute. reflexivity. Qed.

(* ---------------- C13 ---------------- *)
Theorem C13_complete_nested : forall E (EO : ElementOps E) A SO np en b lss f gs f' sub_ top subs t i,
  setting EO A SO np en b -> height_agnostic A ->
  built_all EO SO A en b lss f (concat gs) f' ->
  rmap (from_trees SO A sub_) gs = Ok subs -> from_sub_trees SO A top subs = Ok t ->
  i < mt_leafs t ->
  exists p, gen_proof SO b sub_ top t f' i = Ok p /\ validate EO A b p = Ok true.
Proof.
  intros E EO A SO np en b lss f gs f' sub_ top subs t i (EL & AL & HS & Hb & Hch) HA HB HR HT Hi.
  destruct (built_top EO EL A AL en b Hb Hch SO np HS lss f gs f' sub_ top subs t HB HR HT) as (d & ls & HL & Hls & HTA).
  destruct (TopAt_child SO A b Hb t f' d sub_ subs ls i HTA Hi) as (tk & bs & lss' & ess & C1 & C2 & C3 & HSA & C4 & C5).
  destruct (SubAt_child SO A b Hb tk f' d bs lss' ess _ HSA C4) as (tk' & lv & es & D1 & D2 & D3 & HF & D4).
  eexists. split; [unfold gen_proof; rewrite <- HL; eapply (TopAt_gen SO A b Hb 0); eauto|].
  eapply top_proof_valid; eauto.
Qed.

Theorem C13_complete_flat : forall E (EO : ElementOps E) A SO np en b lss f ts f' sub_ top t i,
  setting EO A SO np en b -> height_agnostic A ->
  built_all EO SO A en b lss f ts f' ->
  from_sub_trees_as_trees SO A sub_ top ts = Ok t ->
  i < mt_leafs t ->
  exists p, gen_proof SO b sub_ top t f' i = Ok p /\ validate EO A b p = Ok true.
Proof.
  intros E EO A SO np en b lss f ts f' sub_ top t i HSet HA HB HT Hi.
  destruct (flat_groups A SO sub_ top ts t HT) as (gs & subs & G1 & G2 & G3 & G4 & G5).
  subst ts. eapply C13_complete_nested; eauto.
Qed.

Definition case_top (SO : StoreOps B1) (A : AlgOps B1) (b sub_ top : nat) (xss : list (list B1)) : option (mtree (st_t SO) B1 * fs) :=
  match mk_trees SO A b xss fs_empty with
  | Some (ts, f) => match from_sub_trees_as_trees SO A sub_ top ts with Ok t => Some (t, f) | _ => None end
  | None => None
  end.
Example C13_case : all_valid (vec_store BO) sum_alg 2 2 3 24 (case_top (vec_store BO) sum_alg 2 2 3 [xs4 1; xs4 9; xs4 5; xs4 2; xs4 30; xs4 8]) = true.
Proof. vm_compute. reflexivity. Qed.

(* ---------------- C14 (compound) ---------------- *)
Theorem C14_sub : forall E (EO : ElementOps E) A SO np en b lss f ts f' sub_ t i,
  setting EO A SO np en b ->
  built_all EO SO A en b lss f ts f' ->
  from_trees SO A sub_ ts = Ok t ->
  i < mt_leafs t ->
  let n := mt_leafs t / sub_ in
  exists p sp tk, gen_proof SO b sub_ 0 t f' i = Ok p /\ pf_sub p = Some sp /\ pf_sub sp = None /\
    pf_item sp = rnth (concat lss) i /\ is_ok (pf_item sp) = true /\
    pf_root p = Ok (mt_root t) /\
    nth_error ts (i / n) = Some tk /\ pf_root sp = Ok (mt_root tk) /\
    pf_path p = [i / n] /\ path_index b (pf_path sp) = i mod n /\ i = i / n * n + i mod n /\
    Forall (fun c => c < b) (pf_path sp) /\
    List.length (pf_lemma p) = sub_ /\
    List.length (pf_path sp) = mt_row_count tk - 1 /\ List.length (pf_lemma sp) = 2 + (b - 1) * (mt_row_count tk - 1).
Proof.
  intros E EO A SO np en b lss f ts f' sub_ t i (EL & AL & HS & Hb & Hch) HB HT Hi n.
  destruct (built_sub EO EL A AL en b Hb Hch SO np HS lss f ts f' sub_ t HB HT) as (d & ess & HL & HSA).
  destruct (SubAt_child SO A b Hb t f' d ts lss ess i HSA Hi) as (tk & lv & es & C1 & C2 & C3 & HF & C4).
  destruct (over_div SO t ts (b ^ d) i (SubAt_over SO A b Hb _ _ _ _ _ _ HSA) Hi) as [D1 D2].
  unfold n. rewrite <- HL, D1. destruct (div_mod_lt i (b ^ d) (pow_pos b Hb d)) as [M1 M2].
  destruct (canon_root SO A b Hb tk f' d lv es (i mod b ^ d) HF M1) as (R1 & R2 & R3).
  eexists _, (canon b es d (i mod b ^ d)), tk. split; [eapply (SubAt_gen SO A b Hb 1); eauto|].
  unfold sub_proof. cbn [pf_sub pf_path pf_lemma].
  split; [reflexivity|]. split; [reflexivity|]. split; [rewrite R2; unfold rnth; rewrite C4; reflexivity|]. split; [exact R3|].
  split; [unfold pf_root; cbn [pf_lemma]; rewrite rev_app_distr; reflexivity|].
  split; [exact C1|]. split; [exact R1|]. split; [reflexivity|].
  split; [cbn [canon pf_path]; apply path_of_index; auto|]. split; [exact M2|].
  split. { apply Forall_forall. intros c Hc. pose proof (path_of_digits b Hb d (i mod b ^ d)) as HD. rewrite forallb_forall in HD.
           specialize (HD c Hc). lia. }
  split; [rewrite app_length, remove_at_nth, map_length by (rewrite map_length; auto); cbn [List.length]; lia|].
  pose proof (canon_shape A b Hb d lv es (i mod b ^ d) (ft_layout _ _ _ _ _ _ _ _ HF) M1) as (_ & _ & _ & S4 & _).
  rewrite S4, (ft_rows _ _ _ _ _ _ _ _ HF). cbn [canon pf_path]. rewrite path_of_length. split; [lia|f_equal; f_equal; lia].
Qed.

(* three layers: the outer proof speaks about the sub-tree, its inner proof is the one above *)
Theorem C14_top : forall E (EO : ElementOps E) A SO np en b lss f gs f' sub_ top subs t i,
  setting EO A SO np en b ->
  built_all EO SO A en b lss f (concat gs) f' ->
  rmap (from_trees SO A sub_) gs = Ok subs -> from_sub_trees SO A top subs = Ok t ->
  i < mt_leafs t ->
  let n := mt_leafs t / top in
  exists p sp bp tk, gen_proof SO b sub_ top t f' i = Ok p /\ pf_sub p = Some sp /\ pf_sub sp = Some bp /\
    pf_item bp = rnth (concat lss) i /\ is_ok (pf_item bp) = true /\
    pf_root p = Ok (mt_root t) /\
    nth_error subs (i / n) = Some tk /\ pf_root sp = Ok (mt_root tk) /\
    pf_path p = [i / n] /\ List.length (pf_lemma p) = top /\
    gen_proof SO b sub_ 0 tk f' (i mod n) = Ok sp.
Proof.
  intros E EO A SO np en b lss f gs f' sub_ top subs t i (EL & AL & HS & Hb & Hch) HB HR HT Hi n.
  destruct (built_top EO EL A AL en b Hb Hch SO np HS lss f gs f' sub_ top subs t HB HR HT) as (d & ls & HL & Hls & HTA).
  destruct (TopAt_child SO A b Hb t f' d sub_ subs ls i HTA Hi) as (tk & bs & lss' & ess & C1 & C2 & C3 & HSA & C4 & C5).
  destruct (over_div SO t subs _ i (TopAt_over SO A b Hb _ _ _ _ _ _ HTA) Hi) as [D1 D2].
  destruct (SubAt_child SO A b Hb tk f' d bs lss' ess _ HSA C4) as (tk' & lv & es & E1 & E2 & E3 & HF & E4).
  unfold n. rewrite <- HL, D1. destruct (div_mod_lt (i mod (sub_ * b ^ d)) (b ^ d) (pow_pos b Hb d)) as [M1 M2].
  destruct (canon_root SO A b Hb tk' f' d lv es (i mod (sub_ * b ^ d) mod b ^ d) HF M1) as (R1 & R2 & R3).
  eexists _, (sub_proof SO b bs (mt_root tk) d es (i mod (sub_ * b ^ d))), (canon b es d (i mod (sub_ * b ^ d) mod b ^ d)), tk.
  split; [eapply (TopAt_gen SO A b Hb 0); eauto|]. cbn [pf_sub pf_path pf_lemma sub_proof].
  split; [reflexivity|]. split; [reflexivity|].
  split; [rewrite R2; unfold rnth; rewrite <- Hls, concat_concat, C5, E4; reflexivity|]. split; [exact R3|].
  split; [unfold pf_root; cbn [pf_lemma]; rewrite rev_app_distr; reflexivity|].
  split; [exact C1|]. split; [unfold pf_root, sub_proof; cbn [pf_lemma]; rewrite rev_app_distr; reflexivity|].
  split; [reflexivity|].
  split; [rewrite app_length, remove_at_nth, map_length by (rewrite map_length; auto); cbn [List.length]; lia|].
  unfold gen_proof. rewrite <- C3. rewrite C3 at 2 3. eapply (SubAt_gen SO A b Hb 1); eauto.
Qed.

Example C14_sub_case :
  match case_sub (disk_store BO) sum_alg 2 3 [xs4 1; xs4 9; xs4 5] with
  | Some (t, f) => rbind (gen_proof (disk_store BO) 2 3 0 t f 6) (fun p =>
      Ok (pf_path p, match pf_sub p with Some sp => pf_path sp | None => [] end, match pf_sub p with Some sp => rbind (pf_item sp) (fun x => Ok (val x)) | None => Err ""%string end))
  | None => Err ""%string
  end = Ok ([1], [0; 1], Ok (val (h_leaf sum_alg (el 18)))).
Proof. vm_compute. reflexivity. Qed.

(* ---------------- C16 ---------------- *)
(* p is an arbitrary nested proof object of the shape of the tree.  The collisions are
   between the nodes p hashes and the nodes of the tree (base_collision,
   layer_collision in CompoundTrees.v). *)
Theorem C16_sound_sub : forall E (EO : ElementOps E) A SO np en b lss f ts f' sub_ t d p sp,
  setting EO A SO np en b ->
  built_all EO SO A en b lss f ts f' ->
  from_trees SO A sub_ ts = Ok t ->
  mt_leafs t = sub_ * b ^ d ->
  pf_top_nodes p = 0 -> pf_sub_nodes p = sub_ -> pf_sub p = Some sp ->
  pf_top_nodes sp = 0 -> pf_sub_nodes sp = 0 -> List.length (pf_lemma sp) = 2 + (b - 1) * d ->
  validate EO A b p = Ok true ->
  pf_root p = Ok (mt_root t) ->
  exists k, nth_error (pf_path p) 0 = Some k /\ k < sub_ /\
    let j := path_index b (firstn d (pf_path sp)) in
    j < b ^ d /\
    (pf_item sp = rnth (concat lss) (k * b ^ d + j) \/
     layer_collision A p (map mt_root ts) \/
     exists tk lv es, nth_error ts k = Some tk /\ nth_error lss k = Some lv /\ Layout (h_node A) b d lv es /\ base_collision A b sp d es).
Proof.
  intros E EO A SO np en b lss f ts f' sub_ t d p sp (EL & AL & HS & Hb & Hch) HB HT Hd P1 P2 P3 P4 P5 P6 HV HR.
  destruct (built_sub EO EL A AL en b Hb Hch SO np HS lss f ts f' sub_ t HB HT) as (d' & ess & HL & HSA).
  assert (d' = d).
  { apply (same_leaves_pow b); auto. pose proof (sa_leafs _ _ _ _ _ _ _ _ _ HSA) as G. rewrite HL, Hd in G.
    pose proof (sa_pos _ _ _ _ _ _ _ _ _ HSA). apply Nat.mul_cancel_l in G; lia. }
  subst d'. rewrite <- HL in *. clear HL.
  destruct (sub_sound EO EL SO A AL b Hb t f' d ts lss ess p sp HSA P3 P1 P2 (conj P5 (conj P4 P6)) HV HR) as (k & K1 & K2 & K3 & K4).
  exists k. split; [exact K1|]. split; [exact K2|]. split; [exact K3|]. destruct K4 as [K4|[K4|(es & K4 & K5)]]; auto.
  right. right. destruct (sa_bases _ _ _ _ _ _ _ _ _ HSA) as (_ & _ & HBs). destruct (nth_error_ex ts k K2) as [tk Htk].
  destruct (HBs k tk Htk) as (lv & es' & G1 & G2 & G3). rewrite K4 in G2. injection G2 as <-.
  exists tk, lv, es. repeat split; auto; apply (ft_layout _ _ _ _ _ _ _ _ G3).
Qed.

Theorem C16_sound_top : forall E (EO : ElementOps E) A SO np en b lss f gs f' sub_ top subs t d p sp bp,
  setting EO A SO np en b ->
  built_all EO SO A en b lss f (concat gs) f' ->
  rmap (from_trees SO A sub_) gs = Ok subs -> from_sub_trees SO A top subs = Ok t ->
  mt_leafs t = top * (sub_ * b ^ d) ->
  pf_top_nodes p = top -> pf_sub p = Some sp ->
  pf_top_nodes sp = 0 -> pf_sub_nodes sp = sub_ -> pf_sub sp = Some bp ->
  pf_top_nodes bp = 0 -> pf_sub_nodes bp = 0 -> List.length (pf_lemma bp) = 2 + (b - 1) * d ->
  validate EO A b p = Ok true ->
  pf_root p = Ok (mt_root t) ->
  exists j k, nth_error (pf_path p) 0 = Some j /\ j < top /\ nth_error (pf_path sp) 0 = Some k /\ k < sub_ /\
    let i := path_index b (firstn d (pf_path bp)) in
    i < b ^ d /\
    (pf_item bp = rnth (concat lss) (j * (sub_ * b ^ d) + (k * b ^ d + i)) \/
     layer_collision A p (map mt_root subs) \/
     exists g, nth_error gs j = Some g /\
       (layer_collision A sp (map mt_root g) \/
        exists lv es, nth_error lss (j * sub_ + k) = Some lv /\ Layout (h_node A) b d lv es /\ base_collision A b bp d es)).
Proof.
  intros E EO A SO np en b lss f gs f' sub_ top subs t d p sp bp (EL & AL & HS & Hb & Hch) HB HR HT Hd P1 P2 P3 P4 P5 P6 P7 P8 HV HRt.
  destruct (built_top EO EL A AL en b Hb Hch SO np HS lss f gs f' sub_ top subs t HB HR HT) as (d' & ls & HL & Hls & HTA).
  destruct (TopAt_over SO A b Hb _ _ _ _ _ _ HTA) as (O1 & O2 & _ & O4).
  assert (d' = d).
  { apply (same_leaves_pow b); auto. rewrite HL, Hd in O4. apply Nat.mul_cancel_l in O4; [|lia]. apply Nat.mul_cancel_l in O4; [lia|].
    intros ->. cbn in O2. lia. }
  subst d'.
  destruct (top_sound EO EL SO A AL b Hb t f' d sub_ subs ls p sp bp HTA P2 ltac:(congruence) P5 P3 P4 (conj P7 (conj P6 P8)) HV HRt)
    as (j & k & K1 & K2 & K3 & K4 & K5 & K6).
  exists j, k. rewrite <- HL. repeat (split; [assumption|]). destruct K6 as [K6|[K6|(tj & bs & lss' & ess & G1 & G1' & G2 & G3)]].
  - left. rewrite K6, <- Hls, concat_concat. reflexivity.
  - auto.
  - right. right. apply rmap_ok_Forall2 in HR.
    assert (HG : exists g, nth_error gs j = Some g /\ from_trees SO A sub_ g = Ok tj).
    { clear - HR G1. revert j G1. induction HR as [|g x gs subs Hx HR IH]; intros [|j] G1; try discriminate.
      - cbn in G1. injection G1 as <-. exists g. auto.
      - cbn in G1. destruct (IH j G1) as (g' & Q1 & Q2). exists g'. auto. }
    destruct HG as (g & Hg & HgT). exists g. split; [exact Hg|].
    assert (bs = g).
    { pose proof (sa_data _ _ _ _ _ _ _ _ _ G2) as HD. pose proof (from_trees_data SO A _ _ _ HgT). congruence. }
    subst bs. destruct G3 as [G3|(es & G3 & G4)]; [left; exact G3|right].
    destruct (sa_bases _ _ _ _ _ _ _ _ _ G2) as (B1 & B2 & HBs). destruct (nth_error_ex g k) as [tk Htk].
    { apply nth_error_lt in G3. lia. }
    destruct (HBs k tk Htk) as (lv & es' & Q1 & Q2 & Q3). rewrite G3 in Q2. injection Q2 as <-.
    exists lv, es. split; [|split; [apply (ft_layout _ _ _ _ _ _ _ _ Q3)|exact G4]].
    rewrite <- Hls, (nth_error_concat ls sub_ j k lss'); auto. apply (TopAt_ls SO A b _ _ _ _ _ _ HTA).
Qed.

(* ---------------- C41 ---------------- *)
Theorem C41_sub : forall E (SO : StoreOps E) A sub_ ts t,
  from_trees SO A sub_ ts = Ok t ->
  List.length ts = sub_ /\ 0 < sub_ /\
  (forall x y, In x ts -> In y ts -> mt_row_count x = mt_row_count y /\ mt_len SO x = mt_len SO y) /\
  mt_leafs t = fold_right (fun x n => mt_leafs x + n) 0 ts /\
  mt_root t = h_node A 1 (map mt_root ts) /\
  forall x, In x ts -> mt_len SO t = sub_ * mt_len SO x + 1 /\ mt_row_count t = mt_row_count x + 1.
Proof.
  intros E SO A sub_ ts t H. pose proof (from_trees_inv SO A _ _ _ H) as (H1 & H2 & (rc & H3) & (len & H4)).
  pose proof (from_trees_fields SO A _ _ _ H) as (F1 & F2 & F3 & F4). rewrite Forall_forall in H3, H4.
  split; [exact H2|]. split; [exact H1|]. split.
  { intros x y Hx Hy. rewrite (H3 x), (H3 y), (H4 x), (H4 y) by auto. auto. }
  split; [exact F1|]. split; [exact F2|]. intros x Hx. destruct ts as [|t0 ts]; [destruct Hx|].
  rewrite (F3 t0), (F4 t0) by reflexivity. rewrite (H3 x), (H3 t0), (H4 x), (H4 t0) by (auto; left; reflexivity). split; lia.
Qed.

Theorem C41_top : forall E (SO : StoreOps E) A top ts t,
  from_sub_trees SO A top ts = Ok t ->
  List.length ts = top /\ 0 < top /\
  (forall x y, In x ts -> In y ts -> mt_row_count x = mt_row_count y /\ mt_len SO x = mt_len SO y) /\
  mt_leafs t = fold_right (fun x n => mt_leafs x + n) 0 ts /\
  mt_root t = h_node A 1 (map mt_root ts) /\
  forall x, In x ts -> mt_len SO t = top * mt_len SO x + 1 /\ mt_row_count t = mt_row_count x + 1.
Proof.
  intros E SO A sub_ ts t H. pose proof (from_sub_trees_inv SO A _ _ _ H) as (H1 & H2 & (rc & H3) & (len & H4)).
  pose proof (from_sub_trees_fields SO A _ _ _ H) as (F1 & F2 & F3 & F4). rewrite Forall_forall in H3, H4.
  split; [exact H2|]. split; [exact H1|]. split.
  { intros x y Hx Hy. rewrite (H3 x), (H3 y), (H4 x), (H4 y) by auto. auto. }
  split; [exact F1|]. split; [exact F2|]. intros x Hx. destruct ts as [|t0 ts]; [destruct Hx|].
  rewrite (F3 t0), (F4 t0) by reflexivity. rewrite (H3 x), (H3 t0), (H4 x), (H4 t0) by (auto; left; reflexivity). split; lia.
Qed.

(* rejected with an error: wrong number of children, or children of different shape *)
Theorem C41_rejected : forall E (SO : StoreOps E) A n ts,
  n = 0 \/ List.length ts <> n \/
  (exists x y, In x ts /\ In y ts /\ (mt_row_count x <> mt_row_count y \/ mt_len SO x <> mt_len SO y)) ->
  (exists e, from_trees SO A n ts = Err e) /\ (exists e, from_sub_trees SO A n ts = Err e).
Proof.
  intros E SO A n ts H. split.
  - destruct (from_trees_total SO A n ts) as [[t Ht]|He]; [exfalso|exact He].
    destruct (C41_sub _ _ _ _ _ _ Ht) as (G1 & G2 & G3 & _). destruct H as [H|[H|(x & y & Hx & Hy & H)]]; [lia|lia|].
    specialize (G3 x y Hx Hy). lia.
  - destruct (from_sub_trees_total SO A n ts) as [[t Ht]|He]; [exfalso|exact He].
    destruct (C41_top _ _ _ _ _ _ Ht) as (G1 & G2 & G3 & _). destruct H as [H|[H|(x & y & Hx & Hy & H)]]; [lia|lia|].
    specialize (G3 x y Hx Hy). lia.
Qed.

Example C41_case :
  match case_sub (vec_store BO) sum_alg 2 3 [xs4 1; xs4 9; xs4 5] with
  | Some (t, _) => (mt_leafs t, mt_len (vec_store BO) t, mt_row_count t) = (12, 22, 4)
  | None => False
  end /\
  match mk_trees (vec_store BO) sum_alg 2 [xs4 1; leaves8] fs_empty with
  | Some (ts, _) => is_ok (from_trees (vec_store BO) sum_alg 2 ts) = false
  | None => False
  end.
Proof. vm_compute. auto. Qed.

(* ---------------- C42 ---------------- *)
(* gs: the trees cut into consecutive groups of sub_; the same tree, or an error from both *)
Theorem C42_flat_nested : forall E (SO : StoreOps E) A sub_ gs,
  Forall (fun g => List.length g = sub_) gs ->
  let flat := from_sub_trees_as_trees SO A sub_ (List.length gs) (concat gs) in
  let nested := do subs <- rmap (from_trees SO A sub_) gs; from_sub_trees SO A (List.length gs) subs in
  (exists t, flat = Ok t /\ nested = Ok t) \/ ((exists e, flat = Err e) /\ (exists e, nested = Err e)).
Proof. intros E SO A sub_ gs H. exact (flat_nested SO A gs sub_ H). Qed.

Theorem C42_wrong_count : forall E (SO : StoreOps E) A sub_ top (trees : list (mtree (st_t SO) E)),
  List.length trees <> top * sub_ -> exists e, from_sub_trees_as_trees SO A sub_ top trees = Err e.
Proof. intros. apply flat_wrong_count. auto. Qed.

Example C42_case :
  match mk_trees (vec_store BO) sum_alg 2 [xs4 1; xs4 9; xs4 5; xs4 2] fs_empty with
  | Some (ts, _) =>
      rbind (from_sub_trees_as_trees (vec_store BO) sum_alg 2 2 ts) (fun t => Ok (val (mt_root t), mt_leafs t, mt_len (vec_store BO) t, mt_row_count t))
      = rbind (rmap (from_trees (vec_store BO) sum_alg 2) [firstn 2 ts; skipn 2 ts])
          (fun subs => rbind (from_sub_trees (vec_store BO) sum_alg 2 subs) (fun t => Ok (val (mt_root t), mt_leafs t, mt_len (vec_store BO) t, mt_row_count t)))
      /\ is_ok (from_sub_trees_as_trees (vec_store BO) sum_alg 2 2 ts) = true
  | None => False
  end.
Proof. vm_compute. auto. Qed.

(* ---------------- C43 ---------------- *)
Theorem C43_sub : forall E (EO : ElementOps E) A SO np en b lss f ts f' sub_ t i,
  setting EO A SO np en b -> built_all EO SO A en b lss f ts f' -> from_trees SO A sub_ ts = Ok t ->
  mt_leafs t = List.length (concat lss) /\
  (i < mt_leafs t -> mt_read_at SO sub_ 0 t f' i = rnth (concat lss) i).
Proof.
  intros E EO A SO np en b lss f ts f' sub_ t i (EL & AL & HS & Hb & Hch) HB HT.
  destruct (built_sub EO EL A AL en b Hb Hch SO np HS lss f ts f' sub_ t HB HT) as (d & ess & HL & HSA).
  split; [symmetry; eapply SubAt_leaves; eauto|]. intros Hi. unfold mt_read_at. rewrite <- HL. eapply (SubAt_read SO A b Hb 1); eauto.
Qed.
Theorem C43_top : forall E (EO : ElementOps E) A SO np en b lss f gs f' sub_ top subs t i,
  setting EO A SO np en b -> built_all EO SO A en b lss f (concat gs) f' ->
  rmap (from_trees SO A sub_) gs = Ok subs -> from_sub_trees SO A top subs = Ok t ->
  mt_leafs t = List.length (concat lss) /\
  (i < mt_leafs t -> mt_read_at SO sub_ top t f' i = rnth (concat lss) i).
Proof.
  intros E EO A SO np en b lss f gs f' sub_ top subs t i (EL & AL & HS & Hb & Hch) HB HR HT.
  destruct (built_top EO EL A AL en b Hb Hch SO np HS lss f gs f' sub_ top subs t HB HR HT) as (d & ls & HL & Hls & HTA).
  rewrite <- Hls, concat_concat.
  split; [symmetry; eapply TopAt_leaves; eauto|]. intros Hi. unfold mt_read_at. rewrite <- HL. eapply (TopAt_read SO A b Hb 0); eauto.
Qed.
Theorem C43_top_flat : forall E (EO : ElementOps E) A SO np en b lss f ts f' sub_ top t i,
  setting EO A SO np en b -> built_all EO SO A en b lss f ts f' ->
  from_sub_trees_as_trees SO A sub_ top ts = Ok t ->
  mt_leafs t = List.length (concat lss) /\
  (i < mt_leafs t -> mt_read_at SO sub_ top t f' i = rnth (concat lss) i).
Proof.
  intros E EO A SO np en b lss f ts f' sub_ top t i HSet HB HT.
  destruct (flat_groups A SO sub_ top ts t HT) as (gs & subs & G1 & G2 & G3 & G4 & G5). subst ts. eapply C43_top; eauto.
Qed.

Example C43_case :
  match case_top (vec_store BO) sum_alg 2 2 2 [xs4 1; xs4 9; xs4 5; xs4 2] with
  | Some (t, f) => rbind (rmap (mt_read_at (vec_store BO) 2 2 t f) (seq 0 16)) (fun l => Ok (map val l))
                   = Ok (map (fun x => val (h_leaf sum_alg x)) (xs4 1 ++ xs4 9 ++ xs4 5 ++ xs4 2))
  | None => False
  end.
Proof. vm_compute. reflexivity. Qed.

(* ---------------- C35 ---------------- *)
Theorem C35_base : forall E (EO : ElementOps E) A SO np en b leaves f t f',
  setting EO A SO np en b -> builder EO SO A en b leaves f (Ok t, f') ->
  get_merkle_tree_len_generic b 0 0 (mt_leafs t) = Ok (mt_len SO t).
Proof.
  intros E EO A SO np en b leaves f t f' (EL & AL & HS & Hb & Hch) HB.
  destruct (builder_tree EO EL A AL en b SO np HS leaves f t f' Hb Hch HB) as (d & els & Hn & HF).
  unfold get_merkle_tree_len_generic. rewrite (ft_leafs _ _ _ _ _ _ _ _ HF).
  rewrite (get_merkle_tree_len_full b d Hb (ft_d _ _ _ _ _ _ _ _ HF)). cbn [rbind Nat.ltb Nat.leb]. rewrite (ft_len _ _ _ _ _ _ _ _ HF). reflexivity.
Qed.
Theorem C35_sub : forall E (EO : ElementOps E) A SO np en b lss f ts f' sub_ t t0,
  setting EO A SO np en b -> built_all EO SO A en b lss f ts f' -> from_trees SO A sub_ ts = Ok t -> In t0 ts ->
  get_merkle_tree_len_generic b sub_ 0 (mt_leafs t0) = Ok (mt_len SO t).
Proof.
  intros E EO A SO np en b lss f ts f' sub_ t t0 (EL & AL & HS & Hb & Hch) HB HT H0.
  destruct (built_sub EO EL A AL en b Hb Hch SO np HS lss f ts f' sub_ t HB HT) as (d & ess & HL & HSA).
  apply In_nth_error in H0. destruct H0 as [k Hk]. destruct (sa_bases _ _ _ _ _ _ _ _ _ HSA) as (_ & _ & HBs).
  destruct (HBs k t0 Hk) as (lv & es & _ & _ & HF).
  unfold get_merkle_tree_len_generic. rewrite (ft_leafs _ _ _ _ _ _ _ _ HF).
  rewrite (get_merkle_tree_len_full b d Hb (ft_d _ _ _ _ _ _ _ _ HF)). cbn [rbind]. pose proof (sa_pos _ _ _ _ _ _ _ _ _ HSA).
  replace (0 <? 0) with false by lia. replace (0 <? sub_) with true by lia. f_equal. rewrite (sa_len _ _ _ _ _ _ _ _ _ HSA), HL. lia.
Qed.
Theorem C35_top : forall E (EO : ElementOps E) A SO np en b lss f gs f' sub_ top subs t t0,
  setting EO A SO np en b -> built_all EO SO A en b lss f (concat gs) f' ->
  rmap (from_trees SO A sub_) gs = Ok subs -> from_sub_trees SO A top subs = Ok t -> In t0 (concat gs) ->
  get_merkle_tree_len_generic b sub_ top (mt_leafs t0) = Ok (mt_len SO t).
Proof.
  intros E EO A SO np en b lss f gs f' sub_ top subs t t0 (EL & AL & HS & Hb & Hch) HB HR HT H0.
  destruct (built_top EO EL A AL en b Hb Hch SO np HS lss f gs f' sub_ top subs t HB HR HT) as (d & ls & HL & Hls & HTA).
  pose proof (pa_pos _ _ _ _ _ _ _ _ _ HTA) as Hpos.
  apply in_concat in H0. destruct H0 as (g & Hg & H0). apply In_nth_error in Hg. destruct Hg as [j Hg].
  apply rmap_ok_Forall2 in HR.
  assert (HG : exists tj, nth_error subs j = Some tj /\ from_trees SO A sub_ g = Ok tj).
  { clear - HR Hg. revert j Hg. induction HR as [|g' x gs subs Hx HR IH]; intros [|j] Hg; try discriminate.
    - cbn in Hg. injection Hg as <-. exists x. auto.
    - cbn in Hg. apply (IH j Hg). }
  destruct HG as (tj & Htj & HF). destruct (pa_subs _ _ _ _ _ _ _ _ _ HTA) as [_ HSub]. destruct (HSub j tj Htj) as (bs & lss' & ess & _ & Hbs & HSA).
  assert (bs = g).
  { pose proof (sa_data _ _ _ _ _ _ _ _ _ HSA) as HD. pose proof (from_trees_data SO A _ _ _ HF). congruence. }
  subst bs. apply In_nth_error in H0. destruct H0 as [k Hk]. destruct (sa_bases _ _ _ _ _ _ _ _ _ HSA) as (_ & _ & HBs).
  destruct (HBs k t0 Hk) as (lv & es & _ & _ & HFT).
  unfold get_merkle_tree_len_generic. rewrite (ft_leafs _ _ _ _ _ _ _ _ HFT).
  rewrite (get_merkle_tree_len_full b d Hb (ft_d _ _ _ _ _ _ _ _ HFT)). cbn [rbind].
  replace (0 <? top) with true by lia. f_equal. rewrite (pa_len _ _ _ _ _ _ _ _ _ HTA), HL. nia.
Qed.

(* the statement for every arity triple a constructor accepts *)
Definition C35_full : Prop := forall E (EO : ElementOps E) A SO np en b lss f ts f' sub_ top t t0,
  setting EO A SO np en b -> built_all EO SO A en b lss f ts f' -> from_sub_trees SO A top ts = Ok t -> In t0 ts ->
  get_merkle_tree_len_generic b sub_ top (mt_leafs t0) = Ok (mt_len SO t) \/ sub_ <> 0.
(* from_sub_trees directly over base trees (SubTreeArity = 0) *)
Theorem C35_full_refuted : ~ C35_full.
Proof.
  intros H.
  assert (G : match mk_trees (vec_store BO) sum_alg 2 [xs4 1; xs4 9] fs_empty with
              | Some (t0 :: ts, _) => match from_sub_trees (vec_store BO) sum_alg 2 (t0 :: ts) with
                                | Ok t => mt_len (vec_store BO) t = 15 /\ get_merkle_tree_len_generic 2 0 2 (mt_leafs t0) = Ok 3
                                | _ => False end
              | _ => False end) by (vm_compute; auto).
  destruct (mk_trees (vec_store BO) sum_alg 2 [xs4 1; xs4 9] fs_empty) as [[[|t0 ts] f']|] eqn:EM; try contradiction.
  destruct (from_sub_trees (vec_store BO) sum_alg 2 (t0 :: ts)) as [t|?|?|] eqn:ET; try contradiction.
  destruct G as [G1 G2].
  destruct (H B1 BO sum_alg (vec_store BO) true env1 2 (map (map (h_leaf sum_alg)) [xs4 1; xs4 9]) fs_empty (t0 :: ts) f' 0 2 t t0) as [Q|Q].
  - apply setting_intro; [constructor|apply arity_2|split; [cbn; lia|reflexivity]].
  - apply mk_trees_built. exact EM.
  - exact ET.
  - left. reflexivity.
  - rewrite G2, G1 in Q. discriminate.
  - apply Q. reflexivity.
Qed.

(* ---------------- C44 ---------------- *)
(* the accepted shapes that work: (b, S, 0) through from_trees and (b, S, T) through
   from_sub_trees / from_sub_trees_as_trees over two-layer trees: C12 and C13.
   Missing: shapes with inconsistent type parameters, which the constructors accept. *)
Definition C44_full : Prop := forall E (EO : ElementOps E) A SO np en b lss f ts f' sub_ top t i,
  setting EO A SO np en b -> height_agnostic A -> built_all EO SO A en b lss f ts f' ->
  (from_trees SO A sub_ ts = Ok t \/ from_sub_trees SO A top ts = Ok t) -> i < mt_leafs t ->
  exists p, gen_proof SO b sub_ top t f' i = Ok p /\ validate EO A b p = Ok true.

Theorem C44_consistent_partial : forall E (EO : ElementOps E) A SO np en b lss f gs f' sub_ top subs t i,
  setting EO A SO np en b -> height_agnostic A -> built_all EO SO A en b lss f (concat gs) f' ->
  (top = 0 /\ gs = [hd [] gs] /\ from_trees SO A sub_ (hd [] gs) = Ok t) \/
  (rmap (from_trees SO A sub_) gs = Ok subs /\ from_sub_trees SO A top subs = Ok t) \/
  (from_sub_trees_as_trees SO A sub_ top (concat gs) = Ok t) ->
  i < mt_leafs t ->
  exists p, gen_proof SO b sub_ top t f' i = Ok p /\ validate EO A b p = Ok true.
Proof.
  intros E EO A SO np en b lss f gs f' sub_ top subs t i HS HA HB [(-> & Hg & HT)|[[HR HT]|HT]] Hi.
  - rewrite Hg in HB. cbn [concat] in HB. rewrite app_nil_r in HB. eapply C12_complete; eauto.
  - eapply C13_complete_nested; eauto.
  - eapply C13_complete_flat; eauto.
Qed.

Lemma sum_agnostic : height_agnostic sum_alg.
Proof. intros h h' nodes. reflexivity. Qed.

(* from_trees with TopTreeArity = 3 *)
Theorem C44_full_refuted : ~ C44_full.
Proof.
  intros H.
  assert (G : match mk_trees (vec_store BO) sum_alg 2 [xs4 1; xs4 9] fs_empty with
              | Some (ts, f) => match from_trees (vec_store BO) sum_alg 2 ts with
                                | Ok t => (0 <? mt_leafs t) = true /\ match rbind (gen_proof (vec_store BO) 2 2 3 t f 0) (validate BO sum_alg 2) with Ok true => False | _ => True end
                                | _ => False end
              | _ => False end) by (vm_compute; auto).
  destruct (mk_trees (vec_store BO) sum_alg 2 [xs4 1; xs4 9] fs_empty) as [[ts f']|] eqn:EM; try contradiction.
  destruct (from_trees (vec_store BO) sum_alg 2 ts) as [t|?|?|] eqn:ET; try contradiction.
  destruct G as [G1 G2]. apply Nat.ltb_lt in G1.
  destruct (H B1 BO sum_alg (vec_store BO) true env1 2 (map (map (h_leaf sum_alg)) [xs4 1; xs4 9]) fs_empty ts f' 2 3 t 0) as (p & P1 & P2); auto.
  - apply setting_intro; [constructor|apply arity_2|split; [cbn; lia|reflexivity]].
  - exact sum_agnostic.
  - apply mk_trees_built. exact EM.
  - rewrite P1 in G2. cbn [rbind] in G2. rewrite P2 in G2. exact G2.
Qed.

(* from_sub_trees directly over base trees, SubTreeArity = 0: the proof is made but
   validate panics *)
Example C44_top_over_base :
  match mk_trees (vec_store BO) sum_alg 2 [xs4 1; xs4 9] fs_empty with
  | Some (ts, f) => match from_sub_trees (vec_store BO) sum_alg 2 ts with
                    | Ok t => match rbind (gen_proof (vec_store BO) 2 0 2 t f 0) (validate BO sum_alg 2) with Panic _ => True | _ => False end
                    | _ => False end
  | _ => False end.
Proof. vm_compute. exact I. Qed.

(* ---------------- C19 (compound) ---------------- *)
(* from_trees hashes the roots with height 1, validate with height 0: with an algorithm
   that uses the height no proof of a two-layer tree validates, even for arity 2 *)
Theorem C19_compound_refuted : ~ (forall E (EO : ElementOps E) A SO np en b lss f ts f' sub_ t i,
  setting EO A SO np en b -> built_all EO SO A en b lss f ts f' -> from_trees SO A sub_ ts = Ok t -> i < mt_leafs t ->
  exists p, gen_proof SO b sub_ 0 t f' i = Ok p /\ validate EO A b p = Ok true).
Proof.
  intros H.
  assert (G : match mk_trees (vec_store BO) height_alg 2 [xs4 1; xs4 9] fs_empty with
              | Some (ts, f) => match from_trees (vec_store BO) height_alg 2 ts with
                                | Ok t => (0 <? mt_leafs t) = true /\ match rbind (gen_proof (vec_store BO) 2 2 0 t f 0) (validate BO height_alg 2) with Ok true => False | _ => True end
                                | _ => False end
              | _ => False end) by (vm_compute; auto).
  destruct (mk_trees (vec_store BO) height_alg 2 [xs4 1; xs4 9] fs_empty) as [[ts f']|] eqn:EM; try contradiction.
  destruct (from_trees (vec_store BO) height_alg 2 ts) as [t|?|?|] eqn:ET; try contradiction.
  destruct G as [G1 G2]. apply Nat.ltb_lt in G1.
  destruct (H B1 BO height_alg (vec_store BO) true env1 2 (map (map (h_leaf height_alg)) [xs4 1; xs4 9]) fs_empty ts f' 2 t 0) as (p & P1 & P2); auto.
  - refine (conj BL (conj height_laws (conj (bs_vec BO) (conj arity_2 _)))). split; [cbn; lia|reflexivity].
  - apply mk_trees_built. exact EM.
  - rewrite P1 in G2. cbn [rbind] in G2. rewrite P2 in G2. exact G2.
Qed.

(* ---------------- C21 (compound) ---------------- *)
Theorem C21_compound_refuted : ~ (forall E (EO : ElementOps E) A SO np en b lss f ts f' sub_ t i,
  setting EO A SO np en b -> built_all EO SO A en b lss f ts f' -> from_trees SO A sub_ ts = Ok t -> mt_leafs t <= i ->
  (exists e, gen_proof SO b sub_ 0 t f' i = Err e) \/ (exists e, mt_read_at SO sub_ 0 t f' i = Err e)).
Proof.
  intros H.
  assert (G : match mk_trees (disk_store BO) sum_alg 2 [xs4 1; xs4 9] fs_empty with
              | Some (ts, f) => match from_trees (disk_store BO) sum_alg 2 ts with
                                | Ok t => (mt_leafs t <=? 8) = true /\ match gen_proof (disk_store BO) 2 2 0 t f 8 with Panic _ => True | _ => False end
                                          /\ match mt_read_at (disk_store BO) 2 0 t f 8 with Panic _ => True | _ => False end
                                | _ => False end
              | _ => False end) by (vm_compute; auto).
  destruct (mk_trees (disk_store BO) sum_alg 2 [xs4 1; xs4 9] fs_empty) as [[ts f']|] eqn:EM; try contradiction.
  destruct (from_trees (disk_store BO) sum_alg 2 ts) as [t|?|?|] eqn:ET; try contradiction.
  destruct G as (G1 & G2 & G3). apply Nat.leb_le in G1.
  destruct (H B1 BO sum_alg (disk_store BO) true env1 2 (map (map (h_leaf sum_alg)) [xs4 1; xs4 9]) fs_empty ts f' 2 t 8) as [[e He]|[e He]]; auto.
  - apply setting_disk2.
  - apply mk_trees_built. exact EM.
  - rewrite He in G2. exact G2.
  - rewrite He in G3. exact G3.
Qed.

(* ---------------- C45 (compound) ---------------- *)
(* item() of a compound proof is a sibling root, not the leaf *)
Theorem C45_compound_refuted : ~ (forall E (EO : ElementOps E) A SO np en b xss f ts f' sub_ t i x p,
  setting EO A SO np en b -> height_agnostic A ->
  built_all EO SO A en b (map (map (fun x => h_leaf A (hash_of A x))) xss) f ts f' ->
  from_trees SO A sub_ ts = Ok t ->
  nth_error (concat xss) i = Some x ->
  gen_proof SO b sub_ 0 t f' i = Ok p ->
  validate_with_data EO A b p x = Ok true).
Proof.
  intros H.
  set (xs0 := map (HInt 2) [300%N; 7%N]). set (xs1 := map (HInt 2) [9%N; 1000%N]).
  set (r0 := from_data BO (vec_store BO) sum_alg env1 2 xs0 fs_empty).
  set (r1 := from_data BO (vec_store BO) sum_alg env1 2 xs1 (snd r0)).
  assert (G : match r0, r1 with
              | (Ok t0, _), (Ok t1, f) =>
                  match from_trees (vec_store BO) sum_alg 2 [t0; t1] with
                  | Ok t => match gen_proof (vec_store BO) 2 2 0 t f 1 with
                            | Ok p => validate BO sum_alg 2 p = Ok true /\ validate_with_data BO sum_alg 2 p (HInt 2 7%N) = Ok false
                            | _ => False end
                  | _ => False end
              | _, _ => False end) by (vm_compute; auto).
  destruct r0 as [[t0|?|?|] f0] eqn:E0; try contradiction. cbn [snd] in r1.
  destruct r1 as [[t1|?|?|] f1] eqn:E1; try contradiction.
  destruct (from_trees (vec_store BO) sum_alg 2 [t0; t1]) as [t|?|?|] eqn:ET; try contradiction.
  destruct (gen_proof (vec_store BO) 2 2 0 t f1 1) as [p|?|?|] eqn:EP; try contradiction. destruct G as [_ G].
  assert (Q : validate_with_data BO sum_alg 2 p (HInt 2 7%N) = Ok true).
  { apply (H B1 BO sum_alg (vec_store BO) true env1 2 [xs0; xs1] fs_empty [t0; t1] f1 2 t 1 (HInt 2 7%N) p); auto.
    - apply setting_intro; [constructor|apply arity_2|split; [cbn; lia|reflexivity]].
    - exact sum_agnostic.
    - econstructor; [rewrite <- E0; constructor|]. econstructor; [rewrite <- E1; constructor|constructor]. }
  rewrite G in Q. discriminate.
Qed.

(* what does hold: the innermost proof validates with the leaf data *)
Theorem C45_innermost_partial : forall E (EO : ElementOps E) A SO np en b xss f ts f' sub_ t i x y,
  setting EO A SO np en b -> height_agnostic A ->
  built_all EO SO A en b (map (map (fun x => h_leaf A (hash_of A x))) xss) f ts f' ->
  from_trees SO A sub_ ts = Ok t ->
  nth_error (concat xss) i = Some x ->
  exists p sp, gen_proof SO b sub_ 0 t f' i = Ok p /\ validate EO A b p = Ok true /\ pf_sub p = Some sp /\
    validate_with_data EO A b sp x = Ok true /\
    (validate_with_data EO A b sp y = Ok false \/ h_leaf A (hash_of A y) = h_leaf A (hash_of A x)).
Proof.
  intros E EO A SO np en b xss f ts f' sub_ t i x y HSet HA HB HT Hx. pose proof HSet as (EL & AL & HS & Hb & Hch).
  destruct (C43_sub E EO A SO np en b _ f ts f' sub_ t i HSet HB HT) as [HLn _].
  assert (Hi : i < mt_leafs t). { rewrite HLn, <- concat_map, map_length. eapply nth_error_lt; eauto. }
  destruct (C14_sub E EO A SO np en b _ f ts f' sub_ t i HSet HB HT Hi) as (p & sp & tk & P1 & P2 & P3 & P4 & P5 & _).
  destruct (C12_complete E EO A SO np en b _ f ts f' sub_ t i HSet HA HB HT Hi) as (p' & Q1 & Q2).
  rewrite P1 in Q1. injection Q1 as <-. exists p, sp. split; [exact P1|]. split; [exact Q2|]. split; [exact P2|].
  assert (HV : validate EO A b sp = Ok true).
  { destruct (built_sub EO EL A AL en b Hb Hch SO np HS _ f ts f' sub_ t HB HT) as (d & ess & HL & HSA).
    destruct (SubAt_child SO A b Hb t f' d ts _ ess i HSA Hi) as (tk' & lv & es & C1 & C2 & C3 & HF & C4).
    assert (G : gen_proof SO b sub_ 0 t f' i = Ok (sub_proof SO b ts (mt_root t) d es i)).
    { unfold gen_proof. rewrite <- HL. eapply (SubAt_gen SO A b Hb 1); eauto. }
    rewrite P1 in G. injection G as ->. unfold sub_proof in P2. cbn [pf_sub] in P2. injection P2 as <-.
    apply (canon_valid EO EL A AL b Hb d lv es); auto; [apply (ft_layout _ _ _ _ _ _ _ _ HF)|]. apply (div_mod_lt i (b ^ d) (pow_pos b Hb d)). }
  unfold rnth in P4. rewrite <- concat_map, nth_error_map, Hx in P4. cbn [option_map] in P4.
  assert (G : forall z, validate_with_data EO A b sp z = if e_eqb EO (h_leaf A (hash_of A z)) (h_leaf A (hash_of A x)) then Ok true else Ok false).
  { intros z. unfold validate_with_data, hash_of at 1, h_leaf at 1.
    destruct (a_hash A (hash_into A (a_default A) z)) as [item a]. rewrite AL. cbn [fst].
    destruct (a_leaf A (a_default A) item) as [lh a2]. cbn [fst]. rewrite P4. cbn [rbind]. rewrite HV. reflexivity. }
  rewrite !G. split.
  - replace (e_eqb EO _ _) with true by (symmetry; apply (eqb_eq EO EL); reflexivity). reflexivity.
  - destruct (e_eqb EO (h_leaf A (hash_of A y)) (h_leaf A (hash_of A x))) eqn:GE; [right; apply (eqb_eq EO EL); exact GE|left; reflexivity].
Qed.

(* the hypotheses of C16_sound_sub for a proof that is not the generated one: a path with
   extra entries, and the value of leaf 6 (the second tree, position 2) *)
Example C16_sub_case :
  match case_sub (disk_store BO) sum_alg 2 3 [xs4 1; xs4 9; xs4 5] with
  | Some (t, f) =>
      match gen_proof (disk_store BO) 2 3 0 t f 6 with
      | Ok q => match pf_sub q with
          | Some sq =>
              let sp := mk_proof None 0 0 (pf_lemma sq) (pf_path sq) in
              let p := mk_proof (Some sp) 0 3 (pf_lemma q) (pf_path q ++ [5; 9]) in
              mt_leafs t = 3 * 2 ^ 2 /\ List.length (pf_lemma sp) = 2 + (2 - 1) * 2 /\
              validate BO sum_alg 2 p = Ok true /\ rbind (pf_root p) (fun x => Ok (val x)) = Ok (val (mt_root t)) /\
              nth_error (pf_path p) 0 = Some 1 /\ path_index 2 (firstn 2 (pf_path sp)) = 2 /\
              rbind (pf_item sp) (fun x => Ok (val x)) = Ok (val (h_leaf sum_alg (el 18)))
          | None => False end
      | _ => False end
  | None => False end.
Proof. vm_compute. repeat split. Qed.
Example C16_top_case :
  match case_top (vec_store BO) sum_alg 2 2 3 [xs4 1; xs4 9; xs4 5; xs4 2; xs4 30; xs4 8] with
  | Some (t, f) =>
      match gen_proof (vec_store BO) 2 2 3 t f 21 with
      | Ok p => match pf_sub p with
          | Some sp => match pf_sub sp with
              | Some bp =>
                  mt_leafs t = 3 * (2 * 2 ^ 2) /\ pf_top_nodes p = 3 /\ (pf_top_nodes sp, pf_sub_nodes sp) = (0, 2) /\
                  (pf_top_nodes bp, pf_sub_nodes bp) = (0, 0) /\ List.length (pf_lemma bp) = 2 + (2 - 1) * 2 /\
                  validate BO sum_alg 2 p = Ok true /\ rbind (pf_root p) (fun x => Ok (val x)) = Ok (val (mt_root t)) /\
                  nth_error (pf_path p) 0 = Some 2 /\ nth_error (pf_path sp) 0 = Some 1 /\ path_index 2 (firstn 2 (pf_path bp)) = 1 /\
                  rbind (pf_item bp) (fun x => Ok (val x)) = Ok (val (h_leaf sum_alg (el 9)))
              | None => False end
          | None => False end
      | _ => False end
  | None => False end.
Proof. vm_compute. repeat split. Qed.
(* one tree of 4 leaves, three of them under a root, three pairs of them *)
Example C35_case :
  match case_sub (vec_store BO) sum_alg 2 3 [xs4 1; xs4 9; xs4 5],
        case_top (vec_store BO) sum_alg 2 2 3 [xs4 1; xs4 9; xs4 5; xs4 2; xs4 30; xs4 8] with
  | Some (t, _), Some (t', _) =>
      get_merkle_tree_len_generic 2 0 0 4 = Ok 7 /\
      get_merkle_tree_len_generic 2 3 0 4 = Ok 22 /\ mt_len (vec_store BO) t = 22 /\
      get_merkle_tree_len_generic 2 2 3 4 = Ok 46 /\ mt_len (vec_store BO) t' = 46
  | _, _ => False end.
Proof. vm_compute. repeat split. Qed.
(* two trees of two data each: the innermost proof decides about the datum *)
Example C45_innermost_case :
  match from_data BO (vec_store BO) sum_alg env1 2 (map (HInt 2) [300%N; 7%N]) fs_empty with
  | (Ok t0, f0) => match from_data BO (vec_store BO) sum_alg env1 2 (map (HInt 2) [9%N; 1000%N]) f0 with
    | (Ok t1, f1) => match from_trees (vec_store BO) sum_alg 2 [t0; t1] with
      | Ok t => match gen_proof (vec_store BO) 2 2 0 t f1 3 with
        | Ok p => match pf_sub p with
          | Some sp => validate BO sum_alg 2 p = Ok true /\
              map (fun x => validate_with_data BO sum_alg 2 sp (HInt 2 x)) [1000%N; 9%N; 300%N; 7%N] = [Ok true; Ok false; Ok false; Ok false]
          | None => False end
        | _ => False end
      | _ => False end
    | _ => False end
  | _ => False end.
Proof. vm_compute. repeat split. Qed.

Print Assumptions C12_complete.
Print Assumptions C13_complete_nested.
Print Assumptions C13_complete_flat.
Print Assumptions C14_sub.
Print Assumptions C14_top.
Print Assumptions C16_sound_sub.
Print Assumptions C16_sound_top.
Print Assumptions C41_sub.
Print Assumptions C41_top.
Print Assumptions C41_rejected.
Print Assumptions C42_flat_nested.
Print Assumptions C42_wrong_count.
Print Assumptions C43_sub.
Print Assumptions C43_top.
Print Assumptions C43_top_flat.
Print Assumptions C35_base.
Print Assumptions C35_sub.
Print Assumptions C35_top.
Print Assumptions C35_full_refuted.
Print Assumptions C44_consistent_partial.
Print Assumptions C44_full_refuted.
Print Assumptions C19_compound_refuted.
Print Assumptions C21_compound_refuted.
Print Assumptions C45_compound_refuted.
Print Assumptions C45_innermost_partial.
