(* C85: one proof per claim: proofs of one root along one path are the same object. *)
From Coq Require Import String List Arith NArith Bool Lia Init.Byte ZifyBool ZifyNat.
From Verif Require Import Base Element Hash Sizing FS Sched Store VecStore DiskStore MmapStore LevelCache ProofModel Tree ListFacts Spec SpecFacts SizingFacts SchedFacts StoreLaws RowFacts ChunkFacts BuildFacts BuildLoop StoreSpec FileFacts VecFacts DiskFacts MmapFacts PopFacts TreeFacts ProofSpec ProofFacts TreeProofs TreeObs Builders CompoundFacts CompoundTrees CompoundGroups CompoundBuilt Cases Props_Build Props_Proof Props_Compound Props_Tamper.
Import ListNotations.

(* p and q are proofs of the same nesting with the same child positions; their nodes may
   differ in any number of places *)
Inductive twin {E} : proof E -> proof E -> Prop :=
| twin_base lemma lemma' path :
    twin (mk_proof None 0 0 lemma path) (mk_proof None 0 0 lemma' path)
| twin_layer sp sp' top sub_ lemma lemma' path :
    twin sp sp' -> twin (mk_proof (Some sp) top sub_ lemma path) (mk_proof (Some sp') top sub_ lemma' path).

(* at some step validate hashes two different lists of nodes, at the same height, to the
   same value, one for p and the other for q *)
Inductive clashes {E} (A : AlgOps E) (b : nat) : proof E -> proof E -> Prop :=
| clashes_base lemma lemma' path k :
    let xs := proof_nodes A b (mk_proof None 0 0 lemma path) (List.length path) k in
    let ys := proof_nodes A b (mk_proof None 0 0 lemma' path) (List.length path) k in
    k < List.length path -> xs <> ys -> h_node A (k * (b - 1)) xs = h_node A (k * (b - 1)) ys ->
    clashes A b (mk_proof None 0 0 lemma path) (mk_proof None 0 0 lemma' path)
| clashes_layer sp sp' top sub_ lemma lemma' c path x x' :
    let n := if 0 <? top then top else sub_ in
    let xs := insert_at c x (firstn (n - 1) lemma) in
    let ys := insert_at c x' (firstn (n - 1) lemma') in
    pf_root sp = Ok x -> pf_root sp' = Ok x' -> xs <> ys -> h_node A 0 xs = h_node A 0 ys ->
    clashes A b (mk_proof (Some sp) top sub_ lemma (c :: path)) (mk_proof (Some sp') top sub_ lemma' (c :: path))
| clashes_below sp sp' top sub_ lemma lemma' path :
    clashes A b sp sp' ->
    clashes A b (mk_proof (Some sp) top sub_ lemma path) (mk_proof (Some sp') top sub_ lemma' path).

(* what one would like of every proof the constructor accepts *)
Definition C85_full : Prop := forall E (EO : ElementOps E) A b p q r,
  ElementLaws EO -> AlgLaws A -> arity b -> accepted b p -> accepted b q -> twin p q ->
  validate EO A b p = Ok true -> validate EO A b q = Ok true -> pf_root p = Ok r -> pf_root q = Ok r ->
  p = q \/ clashes A b p q.

(* ------------------------------------------------------------------ *)
Lemma pf_root_last {E} (sp : option (proof E)) top sub_ l r path :
  pf_root (mk_proof sp top sub_ (l ++ [r]) path) = Ok r.
Proof. unfold pf_root. cbn [pf_lemma]. rewrite rev_app_distr. reflexivity. Qed.

Lemma insert_at_eq {E} c (x y : E) l l' : c <= List.length l -> List.length l = List.length l' ->
  insert_at c x l = insert_at c y l' -> x = y /\ l = l'.
Proof.
  revert l l'. induction c; intros l l' Hc Hl H; unfold insert_at in *.
  - cbn [firstn skipn app] in H. injection H as -> ->. auto.
  - destruct l as [|a l], l' as [|a' l']; cbn [List.length] in *; try lia.
    cbn [firstn skipn app] in H. injection H as -> H. destruct (IHc l l') as [-> ->]; auto; lia.
Qed.

(* a clash tells p and q apart *)
Lemma clashes_ne {E} (A : AlgOps E) b p q : clashes A b p q -> p <> q.
Proof.
  induction 1 as [lemma lemma' path k xs ys Hk N _|sp sp' top sub_ lemma lemma' c path x x' n xs ys R R' N _|sp sp' top sub_ lemma lemma' path _ IH]; intros Q.
  - injection Q as ->. apply N. reflexivity.
  - injection Q as -> ->. rewrite R in R'. injection R' as ->. apply N. reflexivity.
  - injection Q as -> _. apply IH. reflexivity.
Qed.

Section Uni.
  Context {E : Type} (EO : ElementOps E) (EL : ElementLaws EO) (A : AlgOps E) (AL : AlgLaws A) (b : nat) (Hb : arity b).

  Lemma eq_dec_list (l l' : list E) : l = l' \/ l <> l'.
  Proof.
    destruct (list_eq_dec (fun x y => match e_eqb EO x y as v return e_eqb EO x y = v -> {x = y} + {x <> y} with
      | true => fun H => left (proj1 (eqb_eq EO EL x y) H)
      | false => fun H => right (fun G => eq_ind false (fun v => if v then False else True) I true
          (eq_trans (eq_sym H) (proj2 (eqb_eq EO EL x y) G)))
      end eq_refl) l l'); auto.
  Qed.

  Lemma base_unique lemma lemma' path r : let D := List.length path in
    let p := mk_proof None 0 0 lemma path in let q := mk_proof None 0 0 lemma' path in
    List.length lemma = 2 + (b - 1) * D -> List.length lemma' = 2 + (b - 1) * D ->
    validate EO A b p = Ok true -> validate EO A b q = Ok true -> pf_root p = Ok r -> pf_root q = Ok r ->
    lemma = lemma' \/
    exists k, k < D /\ proof_nodes A b p D k <> proof_nodes A b q D k /\
      h_node A (k * (b - 1)) (proof_nodes A b p D k) = h_node A (k * (b - 1)) (proof_nodes A b q D k).
  Proof.
    intros D p q Hl Hl' HV HV' HR HR'. pose proof (arity_ge b Hb) as H2.
    assert (HS : base_shape b p D) by (repeat split; auto). assert (HS' : base_shape b q D) by (repeat split; auto).
    destruct (lemma_ends b H2 _ _ Hl) as (x & root & Hx & Hr & [t1 E1] & [t2 E2]).
    destruct (lemma_ends b H2 _ _ Hl') as (x' & root' & Hx' & Hr' & [t1' E1'] & [t2' E2']).
    assert (Q : root = r). { unfold pf_root in HR. cbn [pf_lemma p] in HR. rewrite E2 in HR. congruence. }
    assert (Q' : root' = r). { unfold pf_root in HR'. cbn [pf_lemma q] in HR'. rewrite E2' in HR'. congruence. }
    subst root root'.
    rewrite (validate_base_ok EO A AL b H2 p D x r HS Hx Hr) in HV.
    rewrite (validate_base_ok EO A AL b H2 q D x' r HS' Hx' Hr') in HV'.
    injection HV as V. apply andb_prop in V. destruct V as [VF VE]. apply (eqb_eq EO EL) in VE.
    injection HV' as V'. apply andb_prop in V'. destruct V' as [_ VE']. apply (eqb_eq EO EL) in VE'.
    cbn [pf_path pf_lemma p q] in *.
    assert (HF : Forall (fun c => c < b) (firstn D path)).
    { apply Forall_forall. intros c Hc. rewrite forallb_forall in VF. specialize (VF c Hc). lia. }
    assert (Gl : forall l : list E, List.length l = 2 + (b - 1) * D -> forall g, In g (groups b l D) -> List.length g = b - 1).
    { intros l Hq g Hg. unfold groups in Hg. apply in_map_iff in Hg. destruct Hg as (k & <- & Hk). apply in_seq in Hk.
      apply sub_length_le. rewrite Hq. assert (GG : S k * (b - 1) <= D * (b - 1)) by (apply Nat.mul_le_mono_r; lia).
      cbn [Nat.mul] in GG. rewrite (Nat.mul_comm (b - 1) D). revert GG. generalize (k * (b - 1)) (D * (b - 1)). intros; lia. }
    assert (LG : forall l : list E, List.length (groups b l D) = D) by (intros l; unfold groups; rewrite map_length, seq_length; reflexivity).
    destruct (climb_same EO EL b Hb (hv A b) D 0 x x' (groups b lemma D) (groups b lemma' D) (firstn D path))
      as [[X1 X2]|(m & Hm & H)]; auto.
    - rewrite firstn_length. unfold D. lia.
    - apply Gl; auto.
    - apply Gl; auto.
    - congruence.
    - left. apply nth_error_ext. intros i. destruct (Nat.lt_ge_cases i (2 + (b - 1) * D)) as [Li|Li].
      2:{ rewrite !(proj2 (nth_error_None _ _)) by (rewrite ?Hl, ?Hl'; exact Li). reflexivity. }
      destruct (Nat.eq_dec i (S ((b - 1) * D))) as [->|Hil]; [congruence|].
      destruct i as [|i]; [congruence|].
      set (k := i / (b - 1)). set (j := i mod (b - 1)).
      assert (Hdm : i = (b - 1) * k + j) by (apply Nat.div_mod; lia).
      assert (Hj : j < b - 1) by (apply Nat.mod_upper_bound; lia).
      assert (Hk : k < D). { apply Nat.div_lt_upper_bound; [lia|]. lia. }
      assert (XK : sub lemma (1 + k * (b - 1)) (b - 1) = sub lemma' (1 + k * (b - 1)) (b - 1)).
      { unfold groups in X2. apply (f_equal (fun l => nth_error l k)) in X2.
        rewrite !(map_nth_error _ _ _ (seq_nth_k D k Hk)) in X2. congruence. }
      apply (f_equal (fun l => nth_error l j)) in XK. rewrite !nth_error_sub in XK. replace (j <? b - 1) with true in XK by lia.
      replace (1 + k * (b - 1) + j) with (S i) in XK by (rewrite (Nat.mul_comm k); lia). exact XK.
    - right. exists m. unfold proof_nodes. cbn [pf_lemma pf_path p q]. rewrite E1, E1'. rewrite <- E1, <- E1'. auto.
  Qed.

  (* the layers between have the exact lengths gen_proof gives them *)
  Lemma unique p q r : shaped b false p -> shaped b false q -> twin p q ->
    validate EO A b p = Ok true -> validate EO A b q = Ok true -> pf_root p = Ok r -> pf_root q = Ok r ->
    p = q \/ clashes A b p q.
  Proof.
    intros HS. revert q r. induction HS as [lemma path Hl|sp top sub_ lemma c path HS IH Hs Hn]; intros q r HS' HT HV HV' HR HR'.
    - inversion HT; subst. inversion HS'; subst.
      destruct (base_unique lemma lemma' path r) as [->|(k & Hk & N & H)]; auto.
      right. econstructor; eauto.
    - inversion HT as [|? sp' ? ? ? lemma' ? HT']; subst. inversion HS' as [|? ? ? ? ? ? HSs Hs' Hn']; subst.
      set (n := if 0 <? top then top else sub_) in *. cbv zeta in Hn, Hn'.
      assert (Hn0 : 0 < n) by (unfold n; destruct (0 <? top) eqn:G; lia).
      assert (HVi : forall s l, validate EO A b (mk_proof (Some s) top sub_ l (c :: path)) = Ok true -> validate EO A b s = Ok true).
      { intros s l H. cbn [validate pf_top_nodes pf_sub_nodes pf_sub] in H. destruct (0 <? top); [|replace (0 <? sub_) with true in H by lia];
        destruct (validate EO A b s) as [[]|?|?|]; try discriminate; reflexivity. }
      pose proof (HVi _ _ HV) as HVs. pose proof (HVi _ _ HV') as HVs'.
      destruct (validate_root EO A b sp HVs) as [x Hx]. destruct (validate_root EO A b sp' HVs') as [x' Hx'].
      destruct (last_split lemma n ltac:(lia) Hn0) as (sibs & root & ->).
      destruct (last_split lemma' n ltac:(lia) Hn0) as (sibs' & root' & ->).
      rewrite app_length in Hn, Hn'. cbn [List.length] in Hn, Hn'.
      rewrite pf_root_last in HR, HR'. injection HR as ->. injection HR' as ->.
      rewrite (C61_layer E EO A b sp top sub_ sibs r c path x AL Hs) in HV; auto; [|fold n; lia].
      rewrite (C61_layer E EO A b sp' top sub_ sibs' r c path x' AL Hs) in HV'; auto; [|fold n; lia].
      fold n in HV, HV'. injection HV as V. apply andb_prop in V. destruct V as [VC VE]. apply (eqb_eq EO EL) in VE.
      injection HV' as V'. apply andb_prop in V'. destruct V' as [_ VE']. apply (eqb_eq EO EL) in VE'.
      rewrite firstn_all2 in VE, VE' by lia.
      assert (F : forall l : list E, List.length l + 1 = n -> firstn (n - 1) (l ++ [r]) = l).
      { intros l Hq. rewrite firstn_app, firstn_all2 by lia. replace (n - 1 - List.length l) with 0 by lia. cbn [firstn]. apply app_nil_r. }
      destruct (eq_dec_list (insert_at c x sibs) (insert_at c x' sibs')) as [Q|Q].
      + apply insert_at_eq in Q; [|lia|lia]. destruct Q as [-> ->].
        destruct (IH sp' x' HSs HT' HVs HVs' Hx Hx') as [->|C]; [left; reflexivity|right; constructor; exact C].
      + right. apply (clashes_layer A b sp sp' top sub_ (sibs ++ [r]) (sibs' ++ [r]) c path x x'); auto; fold n; rewrite !F by lia; [exact Q|congruence].
  Qed.
End Uni.

(* Base proofs the constructor accepts: the nodes are determined by the root and the path. *)
Theorem C85_base : forall E (EO : ElementOps E) A b lemma lemma' path p q r,
  ElementLaws EO -> AlgLaws A -> arity b ->
  proof_new b 0 0 None lemma path = Ok p -> proof_new b 0 0 None lemma' path = Ok q ->
  validate EO A b p = Ok true -> validate EO A b q = Ok true -> pf_root p = Ok r -> pf_root q = Ok r ->
  p = q \/
  exists k, k < List.length path /\
    proof_nodes A b p (List.length path) k <> proof_nodes A b q (List.length path) k /\
    h_node A (k * (b - 1)) (proof_nodes A b p (List.length path) k) = h_node A (k * (b - 1)) (proof_nodes A b q (List.length path) k).
Proof.
  intros E EO A b lemma lemma' path p q r EL AL Hb HN HN' HV HV' HR HR'.
  apply proof_new_inv in HN. destruct HN as [-> Hl]. apply proof_new_inv in HN'. destruct HN' as [-> Hl'].
  destruct (base_unique EO EL A AL b Hb lemma lemma' path r) as [->|H]; auto.
Qed.

(* Nested proofs, when every layer above the base holds exactly its siblings and root. *)
Theorem C85_partial : forall E (EO : ElementOps E) A b p q r,
  ElementLaws EO -> AlgLaws A -> arity b -> shaped b false p -> shaped b false q -> twin p q ->
  validate EO A b p = Ok true -> validate EO A b q = Ok true -> pf_root p = Ok r -> pf_root q = Ok r ->
  p = q \/ clashes A b p q.
Proof. intros E EO A b p q r EL AL Hb. apply unique; auto. Qed.

(* The proof gen_proof returns is the only one of its shape. *)
Theorem C85_library : forall E (EO : ElementOps E) A SO np en b,
  setting EO A SO np en b -> height_agnostic A ->
  (forall lss f ts f' sub_ t i, built_all EO SO A en b lss f ts f' -> from_trees SO A sub_ ts = Ok t -> i < mt_leafs t ->
     exists p, gen_proof SO b sub_ 0 t f' i = Ok p /\
       forall q, shaped b false q -> twin p q -> pf_root q = pf_root p -> validate EO A b q = Ok true -> q = p \/ clashes A b p q) /\
  (forall lss f gs f' sub_ top subs t i, built_all EO SO A en b lss f (concat gs) f' ->
     rmap (from_trees SO A sub_) gs = Ok subs -> from_sub_trees SO A top subs = Ok t -> i < mt_leafs t ->
     exists p, gen_proof SO b sub_ top t f' i = Ok p /\
       forall q, shaped b false q -> twin p q -> pf_root q = pf_root p -> validate EO A b q = Ok true -> q = p \/ clashes A b p q).
Proof.
  intros E EO A SO np en b HSet HA. destruct (C61_generated E EO A SO np en b HSet) as (_ & G1 & G2).
  pose proof HSet as (EL & AL & HS & Hb & Hch).
  assert (K : forall p q, shaped b false p -> validate EO A b p = Ok true -> shaped b false q -> twin p q ->
            pf_root q = pf_root p -> validate EO A b q = Ok true -> q = p \/ clashes A b p q).
  { intros p q H1 H2 H3 H4 H5 H6. destruct (validate_root EO A b p H2) as [x Hx].
    destruct (unique EO EL A AL b Hb p q x) as [->|C]; auto. congruence. }
  split.
  - intros lss f ts f' sub_ t i HB HT Hi.
    destruct (C12_complete E EO A SO np en b lss f ts f' sub_ t i HSet HA HB HT Hi) as (p & P1 & P2).
    exists p. split; [exact P1|]. intros q. apply K; auto. eapply G1; eauto.
  - intros lss f gs f' sub_ top subs t i HB HR HT Hi.
    destruct (C13_complete_nested E EO A SO np en b lss f gs f' sub_ top subs t i HSet HA HB HR HT Hi) as (p & P1 & P2).
    exists p. split; [exact P1|]. intros q. apply K; auto. eapply G2; eauto.
Qed.

(* Nodes a layer does not hash make two different objects of one claim. *)
Theorem C85_refuted : ~ C85_full.
Proof.
  intros H. pose proof case61_sub as C. destruct case61 as [p| | |]; try contradiction.
  destruct p as [[sp|] top sub_ lemma path]; cbn [pf_sub] in C; [|contradiction].
  cbn [pf_lemma pf_top_nodes pf_sub_nodes pf_path] in C. destruct C as (C1 & C2 & _ & -> & -> & -> & C7 & C8).
  destruct lemma as [|s1 [|s2 [|root [|]]]]; try discriminate C7. clear C7.
  pose proof (fun junk => C61_ignored B1 BO sum_alg 2 sp 0 3 [s1; s2] root 1 [] junk [] sum_laws ltac:(lia) eq_refl C8) as G.
  pose (j y := mk_proof (Some sp) 0 3 [s1; s2; y; root] [1]).
  assert (K : forall y, accepted 2 (j y)).
  { intros y. eapply (accepted_layer 2 sp 0 3); [eapply accepted_base; exact C1|lia|reflexivity]. }
  assert (T : twin sp sp).
  { apply proof_new_inv in C1. destruct C1 as [-> _]. constructor. }
  destruct (H B1 BO sum_alg 2 (j (el 1)) (j (el 2)) root BL sum_laws arity_2 (K _) (K _)) as [X|X]; try reflexivity.
  - constructor. exact T.
  - exact (G [el 1]).
  - exact (G [el 2]).
  - discriminate.
  - unfold j in X. inversion X as [| ? ? ? ? ? ? ? ? ? ? n xs ys R R' N|]; subst.
    + apply N. unfold xs, ys. rewrite R in R'. injection R' as ->. reflexivity.
    + eapply clashes_ne; [eassumption|reflexivity].
Qed.

(* Leaf 6 of three four-leaf trees: every other choice of the inner sibling fails. *)
Example C85_case :
  match case61 with
  | Ok p => match pf_sub p with
      | Some sp =>
          validate BO sum_alg 2 p = Ok true /\
          filter (fun k => match validate BO sum_alg 2 (with_sub p (with_lemma sp (poke 1 (el k) (pf_lemma sp)))) with Ok v => v | _ => true end)
            (seq 0 256) = filter (fun k => e_eqb BO (el k) (nth 1 (pf_lemma sp) (el 0))) (seq 0 256) /\
          twin p (with_sub p (with_lemma sp (poke 1 (el 7) (pf_lemma sp))))
      | None => False
      end
  | _ => False
  end.
Proof. vm_compute. repeat split. constructor. constructor. Qed.

Print Assumptions C85_base.
Print Assumptions C85_partial.
Print Assumptions C85_library.
Print Assumptions C85_refuted.
