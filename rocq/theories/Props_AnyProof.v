(* C83: validated data are leaves, whatever the shape of the proof object.  Statements;
   specification in HashTree.v, proofs in HashTreeFacts.v. *)
From Coq Require Import String List Arith NArith Bool Lia Init.Byte ZifyBool ZifyNat.
From Verif Require Import Base Element Hash Sizing FS Sched Store VecStore DiskStore MmapStore LevelCache ProofModel Tree ListFacts Spec SpecFacts SizingFacts SchedFacts StoreLaws RowFacts ChunkFacts BuildFacts BuildLoop StoreSpec FileFacts VecFacts DiskFacts MmapFacts PopFacts TreeFacts ProofSpec ProofFacts TreeProofs TreeObs Builders CompoundFacts CompoundTrees CompoundBuilt HashTree HashTreeFacts Cases Props_Build Props_Hash.
Import ListNotations.

(* the trees of the library over the elements es (already hashed data): base, two-layer
   and three-layer; ars: the arities, root first *)
Inductive lib_tree {E} (EO : ElementOps E) (SO : StoreOps E) (A : AlgOps E) (en : env) (b : nat)
  : list nat -> list E -> mtree (st_t SO) E -> Prop :=
| LT_base es d f t f' :
    builder EO SO A en b (map (h_leaf A) es) f (Ok t, f') -> List.length es = b ^ d ->
    lib_tree EO SO A en b (repeat b d) es t
| LT_sub ess d f ts f' sub_ t :
    built_all EO SO A en b (map (map (h_leaf A)) ess) f ts f' -> Forall (fun es => List.length es = b ^ d) ess ->
    from_trees SO A sub_ ts = Ok t ->
    lib_tree EO SO A en b (sub_ :: repeat b d) (concat ess) t
| LT_top ess d f gs f' sub_ top subs t :
    built_all EO SO A en b (map (map (h_leaf A)) ess) f (concat gs) f' -> Forall (fun es => List.length es = b ^ d) ess ->
    rmap (from_trees SO A sub_) gs = Ok subs -> from_sub_trees SO A top subs = Ok t ->
    lib_tree EO SO A en b (top :: sub_ :: repeat b d) (concat ess) t
| LT_flat ess d f ts f' sub_ top t :
    built_all EO SO A en b (map (map (h_leaf A)) ess) f ts f' -> Forall (fun es => List.length es = b ^ d) ess ->
    from_sub_trees_as_trees SO A sub_ top ts = Ok t ->
    lib_tree EO SO A en b (top :: sub_ :: repeat b d) (concat ess) t.

Section C83.
  Context {E : Type} (EO : ElementOps E) (St : Type) (dflt : St) (write : St -> list byte -> St) (hash : St -> E * St).
  Notation A := (default_alg EO St dflt write hash).
  Notation H := (fun bs => fst (hash (write dflt bs))).

  Lemma alg_leaf : streaming write -> forall x, h_leaf A x = H (leaf_bytes EO x).
  Proof. intros HW x. exact (proj1 (C46_streams E EO St dflt write hash x x x [] 0 0 HW)). Qed.
  Lemma alg_node : streaming write -> forall k nodes, h_node A k nodes = H (node_bytes EO nodes).
  Proof. intros HW k nodes. destruct nodes as [|x l]; [|exact (proj1 (proj2 (C46_streams E EO St dflt write hash x x x (x :: l) k 0 HW)))].
    unfold h_node. cbn [a_multi_node a_default default_alg fold_left]. reflexivity. Qed.

  Lemma base_htree SO np en b d es f t f' : streaming write -> setting EO A SO np en b ->
    builder EO SO A en b (map (h_leaf A) es) f (Ok t, f') -> List.length es = b ^ d ->
    exists T, shaped (repeat b d) T /\ fringe T = es /\ value EO H T = mt_root t.
  Proof.
    intros HW (EL & AL & HS & Hb & Hch) HB Hl. pose proof (arity_ge b Hb).
    destruct (builder_tree EO EL A AL en b SO np HS _ f t f' Hb Hch HB) as (d' & els & Hn & HF).
    rewrite map_length, Hl in Hn. apply pow_inj in Hn; [|lia]. subst d'.
    eapply MRoot_tree; [exact (alg_leaf HW)|exact (alg_node HW)|].
    eapply Layout_root; [|apply (ft_layout _ _ _ _ _ _ _ _ HF)|apply (ft_root _ _ _ _ _ _ _ _ HF)]. lia.
  Qed.

  Lemma built_htrees SO np en b d : streaming write -> setting EO A SO np en b ->
    forall ess f ts f', built_all EO SO A en b (map (map (h_leaf A)) ess) f ts f' -> Forall (fun es => List.length es = b ^ d) ess ->
    exists Ts, Forall2 (fun t T => shaped (repeat b d) T /\ value EO H T = mt_root t) ts Ts /\ flat_map fringe Ts = concat ess.
  Proof.
    intros HW HS ess. induction ess as [|es ess IH]; intros f ts f' HB HF; inversion HB as [|? ? ? t f1 ts1 ? B1 B2]; subst.
    - exists []. split; [constructor|reflexivity].
    - inversion HF as [|? ? F1 F2]; subst. destruct (IH _ _ _ B2 F2) as (Ts & T1 & T2).
      destruct (base_htree SO np en b d es f t f1 HW HS B1 F1) as (T & Q1 & Q2 & Q3).
      exists (T :: Ts). split; [constructor; auto|]. cbn [flat_map concat]. rewrite Q2, T2. reflexivity.
  Qed.

  Lemma layer_htree (P : htree E -> Prop) {S'} (ts : list (mtree S' E)) Ts (t : mtree S' E) : streaming write ->
    Forall2 (fun t T => P T /\ value EO H T = mt_root t) ts Ts -> mt_root t = h_node A 1 (map mt_root ts) ->
    value EO H (HN Ts) = mt_root t /\ Forall P Ts /\ List.length Ts = List.length ts.
  Proof.
    intros HW HF Hr. rewrite Hr, alg_node by exact HW. cbn [value].
    assert (Q : map (value EO H) Ts = map mt_root ts /\ Forall P Ts /\ List.length Ts = List.length ts).
    { clear Hr. induction HF as [|t0 T ts Ts [Q1 Q2] HF IH]; [cbn; auto|]. destruct IH as (I1 & I2 & I3). cbn [map List.length]. rewrite I1, Q2, I3. auto. }
    destruct Q as (-> & Q2 & Q3). auto.
  Qed.

  Lemma groups_htrees SO b d sub_ : streaming write -> forall gs subs Ts,
    Forall2 (fun t T => shaped (repeat b d) T /\ value EO H T = mt_root t) (concat gs) Ts ->
    Forall2 (fun g t => from_trees SO A sub_ g = Ok t) gs subs ->
    exists Us, Forall2 (fun t T => shaped (sub_ :: repeat b d) T /\ value EO H T = mt_root t) subs Us /\ flat_map fringe Us = flat_map fringe Ts.
  Proof.
    intros HW. induction gs as [|g gs IH]; intros subs Ts HF HG; inversion HG as [|? u ? us G1 G2]; subst.
    - inversion HF; subst. exists []. split; [constructor|reflexivity].
    - cbn [concat] in HF. apply Forall2_app_inv_l in HF. destruct HF as (T1 & T2 & F1 & F2 & ->).
      destruct (IH us T2 F2 G2) as (Us & U1 & U2).
      pose proof (from_trees_fields SO A _ _ _ G1) as (_ & R & _). pose proof (from_trees_inv SO A _ _ _ G1) as (_ & L & _).
      destruct (layer_htree (shaped (repeat b d)) g T1 u HW F1 R) as (V1 & V2 & V3).
      exists (HN T1 :: Us). split.
      + constructor; [|exact U1]. split; [cbn [shaped]; split; [congruence|exact V2]|exact V1].
      + cbn [flat_map fringe]. rewrite U2, flat_map_app. reflexivity.
  Qed.

  (* the root of a library tree is the value of the tree over its elements *)
  Lemma lib_htree SO np en b ars es t : streaming write -> setting EO A SO np en b -> lib_tree EO SO A en b ars es t ->
    exists T, shaped ars T /\ fringe T = es /\ value EO H T = mt_root t.
  Proof.
    intros HW HS HT.
    assert (TOP : forall ess d f gs f' sub_ top subs t0,
      built_all EO SO A en b (map (map (h_leaf A)) ess) f (concat gs) f' -> Forall (fun es => List.length es = b ^ d) ess ->
      rmap (from_trees SO A sub_) gs = Ok subs -> from_sub_trees SO A top subs = Ok t0 ->
      exists T, shaped (top :: sub_ :: repeat b d) T /\ fringe T = concat ess /\ value EO H T = mt_root t0).
    { intros ess d f gs f' sub_ top subs t0 HB HF HR HU. destruct (built_htrees SO np en b d HW HS _ _ _ _ HB HF) as (Ts & T1 & T2).
      apply rmap_ok_Forall2 in HR. destruct (groups_htrees SO b d sub_ HW gs subs Ts T1 HR) as (Us & U1 & U2).
      pose proof (from_sub_trees_fields SO A _ _ _ HU) as (_ & R & _). pose proof (from_sub_trees_inv SO A _ _ _ HU) as (_ & L & _).
      destruct (layer_htree (shaped (sub_ :: repeat b d)) subs Us t0 HW U1 R) as (V1 & V2 & V3).
      exists (HN Us). split; [|split; [cbn [fringe]; congruence|exact V1]]. split; [congruence|exact V2]. }
    destruct HT as [es d f t f' HB HL|ess d f ts f' sub_ t HB HF HU|ess d f gs f' sub_ top subs t HB HF HR HU|ess d f ts f' sub_ top t HB HF HU].
    - eapply base_htree; eauto.
    - destruct (built_htrees SO np en b d HW HS _ _ _ _ HB HF) as (Ts & T1 & T2).
      pose proof (from_trees_fields SO A _ _ _ HU) as (_ & R & _). pose proof (from_trees_inv SO A _ _ _ HU) as (_ & L & _).
      destruct (layer_htree (shaped (repeat b d)) ts Ts t HW T1 R) as (V1 & V2 & V3).
      exists (HN Ts). split; [|split; [exact T2|exact V1]]. split; [congruence|exact V2].
    - eapply TOP; eauto.
    - destruct (flat_groups A SO sub_ top ts t HU) as (gs & subs & G1 & G2 & G3 & G4 & G5). subst ts. eapply TOP; eauto.
  Qed.
End C83.

(* Notation used in the statements: the trait's default methods over a streaming hasher *)
Definition hash_bytes {E St} (dflt : St) (write : St -> list byte -> St) (hash : St -> E * St) (bs : list byte) : E :=
  fst (hash (write dflt bs)).

(* ---------------- C83 ---------------- *)
(* p: any proof object - any nesting, any number of levels, any layer counts.  If it
   validates and carries the root, its innermost item is the value of the node of the
   tree at the address its paths spell, or two different byte strings with the same hash
   are found, one hashed by validate, one hashed when the tree was built. *)
Theorem C83_node : forall E (EO : ElementOps E) St dflt write hash SO np en b ars es t p,
  let A := default_alg EO St dflt write hash in
  let H := hash_bytes dflt write hash in
  streaming write -> setting EO A SO np en b ->
  lib_tree EO SO A en b ars es t ->
  validate EO A b p = Ok true -> pf_root p = Ok (mt_root t) ->
  exists T, shaped ars T /\ fringe T = es /\ value EO H T = mt_root t /\
    ((exists u, descend T (address b p) = Some u /\ pf_item (innermost p) = Ok (value EO H u)) \/
     clash H (proof_bytes EO b (fun l => H (node_bytes EO l)) p) (tree_bytes EO H T)).
Proof.
  intros E EO St dflt write hash SO np en b ars es t p A H HW HS HT Hv Hr.
  destruct (lib_htree EO St dflt write hash SO np en b ars es t HW HS HT) as (T & T1 & T2 & T3). exists T.
  split; [exact T1|]. split; [exact T2|]. split; [exact T3|]. destruct HS as (EL & AL & _ & Hb & _).
  apply (any_sound EO EL A AL H (alg_leaf EO St dflt write hash HW) (alg_node EO St dflt write hash HW) b Hb p T Hv). rewrite Hr. f_equal. symmetry. exact T3.
Qed.

(* with the data checked at the innermost layer: it is the element at this address *)
Theorem C83_data : forall E (EO : ElementOps E) St dflt write hash SO np en b ars es t p y,
  let A := default_alg EO St dflt write hash in
  let H := hash_bytes dflt write hash in
  streaming write -> setting EO A SO np en b ->
  lib_tree EO SO A en b ars es t ->
  validate EO A b p = Ok true -> pf_root p = Ok (mt_root t) ->
  validate_with_data EO A b (innermost p) y = Ok true ->
  exists T, shaped ars T /\ fringe T = es /\ value EO H T = mt_root t /\
    ((List.length (address b p) = List.length ars /\ nth_error es (addr_index ars (address b p)) = Some (hash_of A y)) \/
     clash H (leaf_bytes EO (hash_of A y) :: proof_bytes EO b (fun l => H (node_bytes EO l)) p) (tree_bytes EO H T)).
Proof.
  intros E EO St dflt write hash SO np en b ars es t p y A H HW HS HT Hv Hr Hd.
  destruct (C83_node E EO St dflt write hash SO np en b ars es t p HW HS HT Hv Hr) as (T & T1 & T2 & T3 & HC). exists T.
  split; [exact T1|]. split; [exact T2|]. split; [exact T3|]. destruct HS as (EL & AL & _ & Hb & _).
  apply (with_data_inv EO EL A AL H (alg_leaf EO St dflt write hash HW) b) in Hd. destruct Hd as [_ Hi].
  destruct HC as [(u & U1 & U2)|HC].
  - rewrite U2 in Hi. injection Hi as Hi.
    destruct (open_leaf EO EL H u (hash_of A y) (leaf_bytes EO (hash_of A y) :: proof_bytes EO b (fun l => H (node_bytes EO l)) p) (eq_sym Hi) (or_introl eq_refl)) as [->|HC].
    + left. rewrite <- T2. apply (descend_leaf T ars); auto.
    + right. eapply clash_incl; [apply incl_refl|eapply descend_incl; exact U1|exact HC].
  - right. eapply clash_incl; [|apply incl_refl|exact HC]. intros s Hs. right. exact Hs.
Qed.

(* with the data checked on the proof object itself, as validate_with_data does: it is
   one of the elements.  Every layer has two children or more. *)
Theorem C83_outer : forall E (EO : ElementOps E) St dflt write hash SO np en b ars es t p y,
  let A := default_alg EO St dflt write hash in
  let H := hash_bytes dflt write hash in
  streaming write -> setting EO A SO np en b ->
  lib_tree EO SO A en b ars es t -> Forall (fun a => 2 <= a) ars ->
  validate_with_data EO A b p y = Ok true -> pf_root p = Ok (mt_root t) ->
  exists T, shaped ars T /\ fringe T = es /\ value EO H T = mt_root t /\
    (In (hash_of A y) es \/
     clash H (leaf_bytes EO (hash_of A y) :: proof_bytes EO b (fun l => H (node_bytes EO l)) p) (tree_bytes EO H T)).
Proof.
  intros E EO St dflt write hash SO np en b ars es t p y A H HW HS HT H2 Hd Hr.
  pose proof HS as (EL & AL & _ & Hb & _).
  destruct (with_data_inv EO EL A AL H (alg_leaf EO St dflt write hash HW) b p y Hd) as [Hv Hi].
  destruct (pf_sub p) as [sp|] eqn:Hs.
  - destruct (lib_htree EO St dflt write hash SO np en b ars es t HW HS HT) as (T & T1 & T2 & T3). exists T.
    split; [exact T1|]. split; [exact T2|]. split; [exact T3|].
    assert (Hr' : pf_root p = Ok (value EO H T)) by (rewrite Hr; f_equal; symmetry; exact T3).
    destruct (outer_item EO EL A AL H (alg_leaf EO St dflt write hash HW) (alg_node EO St dflt write hash HW) b p sp T _ Hs Hv Hr' Hi) as [(cs & -> & [G|(c & u & U1 & U2)])|HC].
    + exfalso. destruct ars as [|a ars]; [destruct T1|]. destruct T1 as [L _]. pose proof (Forall_inv H2). cbn beta in *. lia.
    + destruct (open_leaf EO EL H u (hash_of A y) (leaf_bytes EO (hash_of A y) :: proof_bytes EO b (fun l => H (node_bytes EO l)) p) (eq_sym U2) (or_introl eq_refl)) as [->|HC].
      * left. rewrite <- T2. apply (in_fringe (HN cs) [c]). cbn [descend]. rewrite U1. reflexivity.
      * right. eapply clash_incl; [apply incl_refl|apply (descend_incl EO H (HN cs) [c])|exact HC]. cbn [descend]. rewrite U1. reflexivity.
    + right. eapply clash_incl; [|apply incl_refl|exact HC]. intros s Hs'. right. exact Hs'.
  - assert (HI : innermost p = p) by (destruct p as [s0 tn sn l0 pa]; cbn in Hs; subst s0; reflexivity).
    destruct (C83_data E EO St dflt write hash SO np en b ars es t p y HW HS HT Hv Hr) as (T & T1 & T2 & T3 & [[_ G]|G]); [rewrite HI; exact Hd| |];
      exists T; (split; [exact T1|]); (split; [exact T2|]); (split; [exact T3|]).
    + left. eapply nth_error_In. exact G.
    + right. exact G.
Qed.

(* validate alone does not say that the item is a leaf: a shorter proof has an inner node
   as its item *)
Theorem C83_item_refuted : ~ (forall E (EO : ElementOps E) St dflt write hash SO np en b ars es t p x,
  let A := default_alg EO St dflt write hash in
  streaming write -> setting EO A SO np en b ->
  lib_tree EO SO A en b ars es t ->
  validate EO A b p = Ok true -> pf_root p = Ok (mt_root t) ->
  pf_sub p = None -> pf_item p = Ok x ->
  In x (map (h_leaf A) es)).
Proof.
  intros Q.
  set (es := map el [3; 7; 9; 100]). set (lf := map (h_leaf sum_alg) es).
  set (n1 := h_node sum_alg 0 (firstn 2 lf)). set (n2 := h_node sum_alg 0 (skipn 2 lf)).
  destruct (mt_new BO (vec_store BO) sum_alg env1 2 es fs_empty) as [[t|?|?|] f'] eqn:HB;
    [|exfalso; revert HB; vm_compute; discriminate..].
  assert (HRt : match mt_new BO (vec_store BO) sum_alg env1 2 es fs_empty with (Ok u, _) => Some (mt_root u) | _ => None end = Some (h_node sum_alg 1 [n1; n2])) by (vm_compute; reflexivity).
  rewrite HB in HRt. injection HRt as HRt.
  specialize (Q B1 BO (list byte) [] (fun s bs => s ++ bs) (fun s => (el (poly s), s)) (vec_store BO) true env1 2 (repeat 2 2) es t
    (mk_proof None 0 0 [n1; n2; h_node sum_alg 1 [n1; n2]] [0]) n1).
  cbv zeta in Q. fold sum_alg in Q.
  assert (G : In n1 lf).
  { apply Q; try reflexivity.
    - intros s a c. symmetry. apply app_assoc.
    - apply setting_intro; [constructor|apply arity_2|split; [cbn; lia|reflexivity]].
    - eapply LT_base; [rewrite <- HB; constructor|reflexivity].
    - transitivity (Ok (h_node sum_alg 1 [n1; n2])); [reflexivity|]. f_equal. symmetry. exact HRt. }
  assert (G' : existsb (fun z => val z =? val n1) lf = false) by (vm_compute; reflexivity).
  assert (G2 : existsb (fun z => val z =? val n1) lf = true) by (apply existsb_exists; exists n1; split; [exact G|apply Nat.eqb_refl]).
  congruence.
Qed.

(* a layer with one child does not bind the item of its proofs *)
Theorem C83_unit_layer_refuted : ~ (forall E (EO : ElementOps E) St dflt write hash SO np en b ars es t p y,
  let A := default_alg EO St dflt write hash in
  streaming write -> setting EO A SO np en b ->
  lib_tree EO SO A en b ars es t ->
  validate_with_data EO A b p y = Ok true -> pf_root p = Ok (mt_root t) ->
  In (hash_of A y) es).
Proof.
  intros Q.
  set (es := map el [3; 7; 9; 100]).
  destruct (mt_new BO (vec_store BO) sum_alg env1 2 es fs_empty) as [[t|?|?|] f'] eqn:HB;
    [|exfalso; revert HB; vm_compute; discriminate..].
  destruct (from_trees (vec_store BO) sum_alg 1 [t]) as [u|?|?|] eqn:HU;
    [|exfalso; revert HU; assert (HX : match mt_new BO (vec_store BO) sum_alg env1 2 es fs_empty with (Ok t0, _) => is_ok (from_trees (vec_store BO) sum_alg 1 [t0]) | _ => false end = true) by (vm_compute; reflexivity); rewrite HB in HX; intros HU; rewrite HU in HX; discriminate..].
  destruct (gen_proof (vec_store BO) 2 0 0 t f' 0) as [q|?|?|] eqn:HQ;
    [|exfalso; assert (HX : match mt_new BO (vec_store BO) sum_alg env1 2 es fs_empty with (Ok t0, g) => is_ok (gen_proof (vec_store BO) 2 0 0 t0 g 0) | _ => false end = true) by (vm_compute; reflexivity); rewrite HB, HQ in HX; discriminate..].
  set (y := HInt 1 200%N). set (l := h_leaf sum_alg (hash_of sum_alg y)).
  set (p := mk_proof (Some q) 0 1 [l; mt_root u] [0]).
  specialize (Q B1 BO (list byte) [] (fun s bs => s ++ bs) (fun s => (el (poly s), s)) (vec_store BO) true env1 2 [1; 2; 2] es u p y).
  cbv zeta in Q. fold sum_alg in Q.
  assert (G : In (hash_of sum_alg y) es).
  { apply Q.
    - intros s a c. symmetry. apply app_assoc.
    - apply setting_intro; [constructor|apply arity_2|split; [cbn; lia|reflexivity]].
    - replace es with (concat [es]) by (cbn [concat]; apply app_nil_r).
      apply (LT_sub BO (vec_store BO) sum_alg env1 2 [es] 2 fs_empty [t] f' 1 u); [|constructor; [reflexivity|constructor]|exact HU].
      econstructor; [rewrite <- HB; constructor|constructor].
    - assert (HX : match mt_new BO (vec_store BO) sum_alg env1 2 es fs_empty with
        | (Ok t0, g) => match from_trees (vec_store BO) sum_alg 1 [t0], gen_proof (vec_store BO) 2 0 0 t0 g 0 with
          | Ok u0, Ok q0 => validate_with_data BO sum_alg 2 (mk_proof (Some q0) 0 1 [l; mt_root u0] [0]) y
          | _, _ => Ok false end
        | _ => Ok false end = Ok true) by (vm_compute; reflexivity).
      rewrite HB, HU, HQ in HX. exact HX.
    - reflexivity. }
  assert (G' : existsb (fun z => val z =? val (hash_of sum_alg y)) es = false) by (vm_compute; reflexivity).
  assert (G2 : existsb (fun z => val z =? val (hash_of sum_alg y)) es = true) by (apply existsb_exists; exists (hash_of sum_alg y); split; [exact G|apply Nat.eqb_refl]).
  congruence.
Qed.

(* a base tree over four data; a two-layer proof object for its leaf 2, and a one-level
   one for the inner node over leaves 2 and 3 *)
Example C83_case :
  let xs := map (HInt 2) [300%N; 7%N; 9%N; 1000%N] in
  let r := from_data BO (vec_store BO) sum_alg env1 2 xs fs_empty in
  let es := map (hash_of sum_alg) xs in
  let lf := map (h_leaf sum_alg) es in
  let n1 := h_node sum_alg 0 (firstn 2 lf) in
  let n2 := h_node sum_alg 0 (skipn 2 lf) in
  let root := h_node sum_alg 1 [n1; n2] in
  let p := mk_proof (Some (mk_proof None 0 0 [nth 2 lf (el 0); nth 3 lf (el 0); n2] [0])) 0 2 [n1; root] [1] in
  let q := mk_proof None 0 0 [n2; n1; root] [1] in
  let T := HN [HN (map HL (firstn 2 es)); HN (map HL (skipn 2 es))] in
  match r with
  | (Ok t, _) => val (mt_root t) = val root /\ val (value BO (hash_bytes [] (fun s bs => s ++ bs) (fun s => (el (poly s), s))) T) = val root
  | _ => False
  end /\
  validate BO sum_alg 2 p = Ok true /\ validate BO sum_alg 2 q = Ok true /\
  address 2 p = [1; 0] /\ addr_index [2; 2] (address 2 p) = 2 /\ address 2 q = [1] /\
  validate_with_data BO sum_alg 2 (innermost p) (HInt 2 9%N) = Ok true /\
  List.length (hashed 2 (h_node sum_alg 0) p) = 2.
Proof. vm_compute. auto 10. Qed.

Print Assumptions C83_node.
Print Assumptions C83_data.
Print Assumptions C83_outer.
Print Assumptions C83_item_refuted.
Print Assumptions C83_unit_layer_refuted.
